(* Termination of applications: C26.  The number of question marks and commas
   in a value does not grow. *)
From Coq Require Import ZifyBool ZifyN ZifyNat.
From Verif Require Import Base PyStr Defines Var VarFun AppM Spec_Var Spec_App Var_proofs VarFun_proofs
  Round_proofs App_proofs Tok_proofs.

Ltac inv_ok H := match type of H with Ok ?a = Ok ?b => assert (a = b) as <- by congruence; clear H end.

Ltac mok H := let l1 := fresh "l" in let a := fresh "a" in let l2 := fresh "l" in
  let E1 := fresh "E" in let E2 := fresh "E" in
  apply mbind_ok in H as (l1 & a & l2 & E1 & E2 & ->).

Tactic Notation "mk" hyp(H) "as" simple_intropattern(a) ident(E1) ident(E2) :=
  let l1 := fresh "l" in let l2 := fresh "l" in let x := fresh "x" in
  apply mbind_ok in H as (l1 & x & l2 & E1 & E2 & ->); destruct x as a.
Tactic Notation "mku" hyp(H) "as" ident(E1) ident(E2) :=
  let l1 := fresh "l" in let l2 := fresh "l" in let x := fresh "x" in
  apply mbind_ok in H as (l1 & x & l2 & E1 & E2 & ->).
Ltac ret H := unfold mret, mlift in H; injection H; clear H; intros; subst.

Section Count.
Variable k : N.

(* occurrences of a character in a value, names included *)
Definition numc (f : tok -> nat) (x : num tok) : nat := match x with NI _ => O | NV v => f v end.
Fixpoint lc (t : tok) : nat :=
  let nc x := match x with NI _ => O | NV v => lc v end in
  let oc x := match x with None => O | Some y => nc y end in
  match t with
  | TS s => count k s
  | TList l => list_sum (map lc l)
  | TVar n | TExpr n | TSlice n _ _ => lc n
  | TDyn n st ln => (lc n + nc st + oc ln)%nat
  | TFunc f a => (count k f + lc a)%nat
  | TFuncS f a st ln => (count k f + lc a + nc st + oc ln)%nat
  end.
Definition lcs (l : list tok) : nat := list_sum (map lc l).
Definition nc (x : option (num tok)) : nat := match x with Some (NV v) => lc v | _ => O end.
Definition slc (s : sliced) : nat := match s with SlTok t => lc t | SlList l => lcs l end.
Definition ec (e : elem) : nat := match e with Ch c => if (k =? c)%N then 1%nat else 0%nat | Va t => lc t end.
Definition ecs (l : list elem) : nat := list_sum (map ec l).

Lemma lcs_app a b : lcs (a ++ b) = (lcs a + lcs b)%nat.
Proof. unfold lcs. now rewrite map_app, list_sum_app. Qed.
Lemma lcs_cons a b : lcs (a :: b) = (lc a + lcs b)%nat.
Proof. reflexivity. Qed.
Lemma ecs_app a b : ecs (a ++ b) = (ecs a + ecs b)%nat.
Proof. unfold ecs. now rewrite map_app, list_sum_app. Qed.
Lemma ecs_cons a b : ecs (a :: b) = (ec a + ecs b)%nat.
Proof. reflexivity. Qed.

Lemma ecs_str s : ecs (map Ch s) = count k s.
Proof.
  induction s as [|c s IH]; [easy|]. cbn [map]. rewrite ecs_cons, IH. unfold count. cbn.
  destruct (k =? c)%N; easy.
Qed.

Lemma elems_list l : elems (TList l) = flat_map elems l.
Proof. unfold elems. cbn. induction l as [|x l IH]; [easy|]. cbn. now rewrite map_app, IH. Qed.

Lemma lc_elems t : lc t = ecs (elems t).
Proof.
  assert (N1 : forall t, Named t -> lc t = ecs (elems t)).
  { intros u Hu. rewrite elems_named by easy. cbn. unfold ecs. cbn. lia. }
  induction t using tok_ind2; try (apply N1; constructor).
  - rewrite elems_str, ecs_str. easy.
  - rewrite elems_list. cbn [lc]. induction H as [|x l Hx Hl IH]; [easy|].
    cbn [map flat_map]. rewrite ecs_app. unfold list_sum in *. cbn [fold_right]. lia.
Qed.
Lemma lcs_elems l : lcs l = ecs (flat_map elems l).
Proof. induction l as [|x l IH]; [easy|]. cbn [flat_map]. now rewrite lcs_cons, ecs_app, IH, lc_elems. Qed.
Lemma vjoin_lc l : lc (vjoin l) = lcs l.
Proof. now rewrite lc_elems, vjoin_elems, lcs_elems. Qed.
Lemma items_lc t : lcs (items t) = lc t.
Proof. now rewrite lcs_elems, flat_items, lc_elems. Qed.

Lemma lcs_rev l : lcs (rev l) = lcs l.
Proof. induction l; [easy|]. cbn [rev]. rewrite lcs_app, !lcs_cons, IHl. cbn. lia. Qed.

Lemma slice_lc d its : (forall x, In x its -> In x (items d)) -> slc (slice_of d its) = lcs its.
Proof.
  intros H. pose proof (slice_elems d its H) as E.
  assert (Hi : Forall Item its).
  { apply Forall_forall. intros x Hx. pose proof (items_Item d) as G. rewrite Forall_forall in G. auto. }
  rewrite (lcs_elems its), items_flat by easy. rewrite <- E.
  destruct (slice_of d its); cbn [slc sl_items]; [now rewrite flat_items, lc_elems|apply lcs_elems].
Qed.

(* ---- splitting ---- *)
Lemma ssplit_lc c s : forall max, (list_sum (map (count k) (ssplit c max s)) <= count k s)%nat.
Proof.
  induction s as [|x s IH]; intros max; cbn [ssplit]; [easy|].
  rewrite count_cons. destruct ((x =? c) && _).
  - specialize (IH (option_map pred max)). cbn in *. unfold list_sum in *. lia.
  - specialize (IH max). destruct (ssplit c max s); cbn [map] in *; rewrite count_cons; unfold list_sum in *; cbn [fold_right] in *;
      [change (count k []) with O|]; lia.
Qed.

Lemma close_group_lc cur : lc (close_group cur) = lcs cur.
Proof.
  unfold close_group. rewrite <- lcs_rev. destruct (rev cur) as [|x [|y r]]; [easy| |].
  - rewrite lcs_cons. cbn. lia.
  - apply vjoin_lc.
Qed.
Lemma opt_cons_lc s cur : lcs (opt_cons s cur) = (count k s + lcs cur)%nat.
Proof. now destruct s. Qed.

Lemma add_parts_lc parts : forall cur gs cur', add_parts cur parts = (gs, cur') ->
  (lcs gs + lcs cur' = lcs cur + list_sum (map (count k) parts))%nat.
Proof.
  induction parts as [|p [|q parts] IH]; intros cur gs cur' E.
  - cbn in E. injection E as <- <-. cbn. lia.
  - cbn in E. injection E as <- <-. rewrite opt_cons_lc. cbn. lia.
  - change (add_parts cur (p :: q :: parts)) with
      (let '(gs, cur') := add_parts [] (q :: parts) in
       (close_group (opt_cons p cur) :: gs, cur')) in E.
    destruct (add_parts [] (q :: parts)) as [gs0 cur0] eqn:E0. injection E as <- <-.
    specialize (IH _ _ _ E0). rewrite lcs_cons, close_group_lc, opt_cons_lc.
    change (lcs []) with O in IH. cbn [map] in *. unfold list_sum in *. cbn [fold_right] in *. lia.
Qed.

Lemma split_items_lc c max source : forall done cur,
  (lcs (split_items c max done cur source) <= lcs cur + lcs source)%nat.
Proof.
  induction source as [|t source IH]; intros done cur; cbn [split_items].
  - rewrite lcs_cons, close_group_lc. cbn. lia.
  - assert (G : (lcs (split_items c max done (t :: cur) source) <= lcs cur + lcs (t :: source))%nat).
    { specialize (IH done (t :: cur)). rewrite !lcs_cons in *. lia. }
    destruct t; try exact G.
    destruct (_ || _); [exact G|].
    destruct (add_parts cur _) as [gs cur'] eqn:Ea.
    pose proof (add_parts_lc _ _ _ _ Ea) as H1.
    rewrite lcs_app.
    match goal with |- context [split_items c max ?d cur' source] => specialize (IH d cur') end.
    match type of Ea with add_parts _ (ssplit _ ?m _) = _ => pose proof (ssplit_lc c s m) as Hs end.
    rewrite lcs_cons. cbn [lc]. lia.
Qed.

Hypothesis k_plain : ~ In k (L "${}[]():-0123456789").
Lemma k_out c : In c (L "${}[]():-0123456789") -> (k =? c)%N = false.
Proof. intros H. apply N.eqb_neq. now intros ->. Qed.
Lemma count_out s : Forall (fun c => In c (L "${}[]():-0123456789")) s -> count k s = O.
Proof. induction 1 as [|c s H Hs IH]; [easy|]. rewrite count_cons, IH. now rewrite k_out. Qed.

Lemma name_lc t n : name_of t = Some n -> (lc n <= lc t)%nat.
Proof.
  destruct t; cbn [name_of]; try easy; intros E; injection E as <-; cbn [lc]; try lia;
    rewrite vjoin_lc; rewrite !lcs_cons; change (lcs []) with O; cbn [lc];
    rewrite (count_out (L "(")), (count_out (L ")")) by (constructor; [cbn; auto 30|constructor]); lia.
Qed.

Lemma vsplit_lc c max t parts : vsplit c max t = Ok parts -> (lcs parts <= lc t)%nat.
Proof.
  assert (G : match name_of t with
         | Some n => if truthy n then Ok (split_items c max 0 [] [n])
                     else Exn AttributeError
         | None => Exn AttributeError
         end = Ok parts -> (lcs parts <= lc t)%nat).
  { destruct (name_of t) as [n|] eqn:En; [|easy]. pose proof (name_lc t n En).
    destruct (truthy n); [|easy]. intros H0; inv_ok H0. pose proof (split_items_lc c max [n] 0 []) as H1.
    rewrite lcs_cons in H1. change (lcs []) with O in H1. lia. }
  destruct t; try exact G; cbn [vsplit]; intros H; inv_ok H.
  - pose proof (ssplit_lc c s max) as Hs. unfold lcs. rewrite map_map. cbn [lc]. exact Hs.
  - pose proof (split_items_lc c max l 0 []) as H. change (lcs []) with O in H. exact H.
Qed.

(* ---- texts ---- *)
Lemma nstr_out n : Forall (fun c => In c (L "${}[]():-0123456789")) (nstr n).
Proof.
  assert (H : forall f n acc, Forall (fun c => In c (L "${}[]():-0123456789")) acc ->
     Forall (fun c => In c (L "${}[]():-0123456789")) (digits_fuel f n acc)).
  { induction f as [|f IH]; intros m acc Ha; cbn [digits_fuel]; [easy|].
    assert (D : Forall (fun c => In c (L "${}[]():-0123456789")) (48 + m mod 10 :: acc)).
    { constructor; [|easy]. assert (m mod 10 < 10) by (apply N.mod_lt; lia).
      assert (E : m mod 10 = 0 \/ m mod 10 = 1 \/ m mod 10 = 2 \/ m mod 10 = 3 \/ m mod 10 = 4 \/
                m mod 10 = 5 \/ m mod 10 = 6 \/ m mod 10 = 7 \/ m mod 10 = 8 \/ m mod 10 = 9) by lia.
      change (L "${}[]():-0123456789") with [36;123;125;91;93;40;41;58;45;48;49;50;51;52;53;54;55;56;57].
      repeat destruct E as [E|E]; rewrite E; cbn; auto 30. }
    destruct (_ =? 0); [easy|]. now apply IH. }
  now apply H.
Qed.
Lemma zstr_count z : count k (zstr z) = O.
Proof.
  apply count_out. destruct z; cbn [zstr].
  - constructor; [|constructor]. cbn. auto 30.
  - apply nstr_out.
  - constructor; [cbn; auto 30|apply nstr_out].
Qed.
Lemma out_lit s : forallb (fun c => existsb (N.eqb c) (L "${}[]():-0123456789")) s = true -> count k s = O.
Proof.
  intros H. apply count_out. rewrite Forall_forall. rewrite forallb_forall in H. intros x Hx.
  apply H in Hx. apply existsb_exists in Hx as (y & Hy & E). apply N.eqb_eq in E. now subst.
Qed.

Definition olen (x : option str) : nat := match x with Some s => count k s | None => O end.
Lemma slice_text_count n a b : count k (slice_text n a b) = (count k n + count k a + olen b)%nat.
Proof.
  unfold slice_text. rewrite !count_app.
  rewrite (out_lit (L "${")), (out_lit (L ":")) by reflexivity.
  destruct b; cbn [olen]; rewrite ?count_app;
    rewrite ?(out_lit (L ":")), (out_lit (L "}")) by reflexivity; [|change (count k []) with O]; lia.
Qed.

Lemma str_of_count t : forall s, str_of t = Ok s -> count k s = lc t.
Proof.
  assert (numP : forall x s, match x with NV v => forall s, str_of v = Ok s -> count k s = lc v | NI _ => True end ->
            numtext x = Ok s -> count k s = numc lc x).
  { intros [z|v] s Hx H; cbn in *; [inv_ok H; apply zstr_count|auto]. }
  assert (lenP : forall x s, match x with Some (NV v) => forall s, str_of v = Ok s -> count k s = lc v | _ => True end ->
            lentext x = Ok s -> olen s = match x with Some y => numc lc y | None => O end).
  { intros [x|] s Hx H; cbn in *; [|now inv_ok H].
    destruct (numtext x) as [y| |] eqn:E; cbn in H; try discriminate. inv_ok H. cbn [olen].
    apply numP; [|easy]. now destruct x. }
  induction t as [s|l H|t IHt|t IHt|t start len IHt|t start len IHt H H0|f t IHt|f t start len IHt H H0] using tok_ind2; intros s0 E.
  - cbn in *. congruence.
  - cbn [lc]. rewrite str_of_elems, elems_list in E. revert s0 E.
    induction H as [|x l Hx Hl IH]; intros s0 E; [cbn in E; inv_ok E; easy|].
    cbn [flat_map] in E. apply etext_app_ok in E as (a & b & Ea & Eb & ->).
    rewrite count_app. rewrite (IH b Eb). rewrite <- str_of_elems in Ea. rewrite (Hx a Ea). easy.
  - cbn [str_of] in E. destruct (truthy t); [|discriminate]. destruct (str_of t) as [y| |]; cbn [bind] in E; try discriminate.
    inv_ok E. cbn [lc]. rewrite !count_app, (out_lit (L "${")), (out_lit (L "}")) by reflexivity.
    rewrite (IHt y eq_refl). lia.
  - cbn [str_of] in E. destruct (truthy t); [|discriminate]. destruct (str_of t) as [y| |]; cbn [bind] in E; try discriminate.
    inv_ok E. cbn [lc]. rewrite !count_app, (out_lit (L "$[")), (out_lit (L "]")) by reflexivity.
    rewrite (IHt y eq_refl). lia.
  - cbn [str_of] in E. destruct (str_of t) as [y| |]; cbn [bind] in E; try discriminate. inv_ok E. cbn [lc].
    rewrite slice_text_count, zstr_count. rewrite (IHt y eq_refl).
    destruct len; cbn [option_map olen]; rewrite ?zstr_count; lia.
  - change (str_of (TDyn t start len)) with
      (let! s := str_of t in let! a := numtext start in let! b := lentext len in Ok (slice_text s a b)) in E.
    destruct (str_of t) as [y| |]; cbn [bind] in E; try discriminate.
    destruct (numtext start) as [a| |] eqn:E1; cbn [bind] in E; try discriminate.
    destruct (lentext len) as [b| |] eqn:E2; cbn [bind] in E; try discriminate. inv_ok E.
    rewrite slice_text_count. rewrite (IHt y eq_refl), (numP _ _ H E1), (lenP _ _ H0 E2). reflexivity.
  - cbn [str_of] in E. destruct (str_of t) as [y| |]; cbn [bind] in E; try discriminate. inv_ok E. cbn [lc].
    rewrite !count_app, (out_lit (L "${")), (out_lit (L "}")), (out_lit (L "(")), (out_lit (L ")")) by reflexivity.
    rewrite (IHt y eq_refl). lia.
  - change (str_of (TFuncS f t start len)) with
      (let! s := str_of t in let! a := numtext start in let! b := lentext len in
       Ok (slice_text (f ++ L "(" ++ s ++ L ")") a b)) in E.
    destruct (str_of t) as [y| |]; cbn [bind] in E; try discriminate.
    destruct (numtext start) as [a| |] eqn:E1; cbn [bind] in E; try discriminate.
    destruct (lentext len) as [b| |] eqn:E2; cbn [bind] in E; try discriminate. inv_ok E.
    rewrite slice_text_count, !count_app, (out_lit (L "(")), (out_lit (L ")")) by reflexivity.
    rewrite (IHt y eq_refl), (numP _ _ H E1), (lenP _ _ H0 E2). cbn [lc]. destruct start, len as [[]|]; cbn [numc]; lia.
Qed.

(* ---- substitutions ---- *)
Section T.
Variable U : uni.
Variable FT : ftable.
Variable AT : atable.

Lemma sl_start_lc s ln w l st ln' : sl_start U s ln w = (l, Ok (st, ln')) ->
  (nc st <= match s with Some t => lc t | None => 0 end)%nat /\ (ln' = ln \/ ln' = None).
Proof.
  unfold sl_start. intros H. destruct s as [[s|t|t|t|t ? ?|t ? ?|? t|? t ? ?]|];
    try (unfold mret in H; injection H as <- <- <-; cbn [nc]; split; [lia|auto]).
  destruct (int_like U s); mok H.
  - unfold mret in E0. injection E0 as <- <- <-. cbn. split; [lia|auto].
  - unfold mret in E0. injection E0 as <- <- <-. cbn. split; [lia|auto].
Qed.
Lemma sl_length_lc st ln w l st' ln' : sl_length U st ln w = (l, Ok (st', ln')) ->
  (nc st' <= nc st)%nat /\ (nc ln' <= match ln with Some t => lc t | None => 0 end)%nat.
Proof.
  unfold sl_length. intros H. destruct ln as [[s|t|t|t|t ? ?|t ? ?|? t|? t ? ?]|];
    try (unfold mret in H; injection H as <- <- <-; cbn [nc]; split; lia).
  destruct (int_like U s); mok H.
  - mok E0. destruct a0.
    + mok E2. unfold mret in E3. injection E3 as <- <- <-. cbn. split; lia.
    + unfold mret in E2. injection E2 as <- <- <-. cbn. split; lia.
  - unfold mret in E0. injection E0 as <- <- <-. cbn. split; lia.
Qed.

Lemma split_slice_lc d w l v st ln : split_slice U d w = (l, Ok (v, st, ln)) ->
  (lc v + nc st + nc ln <= lc d)%nat.
Proof.
  unfold split_slice. intros H. mok H. unfold mlift in E. injection E as _ E. apply vsplit_lc in E.
  mk E0 as [[v0 s0] ln0] E1 E2.
  assert (Hs : (lc v0 + match s0 with Some t => lc t | None => 0 end +
                match ln0 with Some t => lc t | None => 0 end <= lcs a)%nat).
  { destruct a as [|a [|b [|c [|e r]]]]; try discriminate;
      try (mok E1; match goal with E : mret _ = _ |- _ => rename E into E1 end);
      unfold mret in E1; injection E1 as <- <- <- <-; rewrite ?lcs_cons; change (lcs []) with O; lia. }
  mk E2 as [st1 ln1] E3 E4. cbn [fst snd] in E4. apply sl_start_lc in E3 as [H1 H2].
  mk E4 as [st2 ln2] E5 E6. cbn [fst snd] in E6. apply sl_length_lc in E5 as [H3 H4].
  assert (H5 : (match ln1 with Some t => lc t | None => 0 end <= match ln0 with Some t => lc t | None => 0 end)%nat).
  { destruct H2; subst; lia. }
  assert (G : (lc v + nc st + nc ln <= lc v0 + nc st2 + nc ln2)%nat); [|lia].
  destruct st2 as [[[]|]|], ln2; cbv beta iota in E6; try (ret E6; lia).
  mku E6 as E7 E8. ret E8. cbn. lia.
Qed.

Lemma process_slice_lc d w l t : process_slice U d w = (l, Ok t) -> (lc t <= lc d)%nat.
Proof.
  unfold process_slice. intros H. mk H as [[v st] ln] E E0. apply split_slice_lc in E.
  mku E0 as E1 E2. destruct st as [[z|y]|]; [destruct ln as [[z'|y']|]| |].
  - unfold mlift, mk_slice in E2. destruct (slice_endpos z z'); cbn in E2; try discriminate.
    injection E2 as <- <-. cbn in *. lia.
  - ret E2. cbn in *. lia.
  - unfold mlift, mk_slice in E2. injection E2 as <- <-. cbn in *. lia.
  - ret E2. destruct ln as [[]|]; cbn in *; lia.
  - ret E2. cbn in *. lia.
Qed.

Lemma cut_first_sub c its : forall a b, cut_first c its = Some (a, b) ->
  exists x, its = a ++ x :: b.
Proof.
  induction its as [|y its IH]; intros a b H; [easy|]. cbn in H. destruct (tok_isc y c).
  - injection H as <- <-. now exists y.
  - destruct (cut_first c its) as [[a' b']|]; [|easy]. injection H as <- <-.
    destruct (IH _ _ eq_refl) as (x & ->). now exists x.
Qed.
Lemma cut_last_sub c its : forall a b, cut_last c its = Some (a, b) ->
  exists x, its = a ++ x :: b.
Proof.
  induction its as [|y its IH]; intros a b H; [easy|]. cbn in H.
  destruct (cut_last c its) as [[a' b']|].
  - injection H as <- <-. destruct (IH _ _ eq_refl) as (x & ->). now exists x.
  - destruct (tok_isc y c); [|easy]. injection H as <- <-. now exists y.
Qed.

Lemma join_items_lc d its : (forall x, In x its -> In x (items d)) ->
  lc (vjoin (sl_items (slice_of d its))) = lcs its.
Proof.
  intros H. rewrite vjoin_lc. rewrite lcs_elems, slice_elems by easy.
  rewrite lcs_elems, items_flat; [easy|]. apply Forall_forall. intros x Hx.
  pose proof (items_Item d) as G. rewrite Forall_forall in G. auto.
Qed.

Lemma process_read_lc d w l t : process_read U FT d w = (l, Ok t) -> (lc t <= lc d)%nat.
Proof.
  unfold process_read. intros H. destruct (cut_first 40 (items d)) as [[before after]|] eqn:Ec; [|discriminate].
  apply cut_first_sub in Ec as (x & Ed). destruct (negb _); [discriminate|].
  pose proof (items_lc d) as Hd. rewrite Ed, lcs_app, lcs_cons in Hd.
  assert (Hb : slc (slice_of d before) = lcs before).
  { apply slice_lc. intros y Hy. rewrite Ed. apply in_app_iff. now left. }
  mk H as [args tail] E E0.
  assert (Ha : (lc args + lc tail <= lcs after)%nat).
  { destruct (cut_last 41 after) as [[a' t']|] eqn:Ek.
    - unfold mret in E. injection E as <- <- <-. apply cut_last_sub in Ek as (y & Ea).
      rewrite !join_items_lc; [rewrite Ea, lcs_app, lcs_cons; lia| |];
        intros z Hz; rewrite Ed, in_app_iff; right; right; rewrite Ea, in_app_iff; cbn; tauto.
    - mku E as E1 E2. unfold mret in E2. injection E2 as <- <- <-. rewrite join_items_lc; [cbn; lia|].
      intros z Hz; rewrite Ed, in_app_iff; right; now right. }
  mk E0 as [st ln] E1 E2.
  assert (Hs : (nc st + nc ln <= lc tail)%nat).
  { destruct (truthy tail).
    - mk E1 as [[v st'] ln'] E3 E4. apply split_slice_lc in E3. destruct (truthy v).
      + mku E4 as E5 E6. ret E6. cbn. lia.
      + ret E4. lia.
    - ret E1. cbn. lia. }
  destruct (slice_of d before) as [v|]; [|discriminate].
  assert (Hdyn : forall l, (do* _ <- memit W_FUNC_DYNAMIC w [(L "func", targ v)]; @mexn tok KeyError) <> (l, Ok t)).
  { intros l3 H. mku H as E3 E4. discriminate. }
  destruct v; try (now apply Hdyn in E2).
  mku E2 as E3 E4. mku E4 as E5 E6. unfold mlift, read_result in E6. injection E6 as _ E6. cbn [fst snd slc lc] in *.
  destruct st as [st|].
  - unfold mk_func_slice in E6.
    assert (E7 : t = TFuncS s args st ln).
    { destruct ln as [[z|y]|]; try congruence. destruct st.
      - destruct (slice_endpos _ _); cbn in E6; try discriminate. congruence.
      - repeat match type of E6 with context [if ?b then _ else _] => destruct b end; congruence. }
    subst t. cbn [lc]. destruct st, ln as [[]|]; cbn [nc] in *; lia.
  - injection E6 as <-. cbn [lc]. lia.
Qed.

Lemma process_variable_lc d w l t : process_variable U FT d w = (l, Ok t) -> (lc t <= lc d)%nat.
Proof.
  unfold process_variable. destruct (tin 40 d); [apply process_read_lc|].
  destruct (tin 58 d); [apply process_slice_lc|]. intros H. mku H as E E0. ret E0. cbn. lia.
Qed.

Lemma parse_loop_lc fuel : forall acc data w l t, parse_loop U FT fuel acc data w = (l, Ok t) ->
  (lc t <= lcs acc + count k data)%nat.
Proof.
  induction fuel as [|f IH]; intros acc data w l t H; [discriminate|]. cbn [parse_loop] in H.
  destruct (loop_cases data) as [[E _]|(pre & x & rest & E & (Ho & Ed & Hn) & Hc)]; rewrite E in H.
  - unfold mret in H. injection H as <- <-. cbn [rev]. rewrite vjoin_lc, lcs_app, lcs_rev, lcs_cons. change (lcs []) with O. cbn [lc]. lia.
  - destruct Hc as [[E1 _]|(i & r & m & E1 & Hc & Hm)]; rewrite E1 in H; [discriminate|].
    destruct Hc as (Hr & _). apply mbind_ok in H as (l1 & a & l2 & E0 & E2 & ->).
    apply mbind_ok in E2 as (l3 & b & l4 & E3 & E4 & ->).
    assert (Hd : (lc a <= count k i)%nat).
    { destruct m; [apply IH in E0; cbn in E0; lia|]. unfold mret in E0. injection E0 as <- <-. cbn. lia. }
    assert (Hv : (lc b <= lc a)%nat).
    { destruct (x =? 123); [now apply process_variable_lc in E3|]. unfold mret in E3. injection E3 as <- <-. cbn. lia. }
    apply IH in E4. rewrite !lcs_cons in E4. cbn [lc] in E4. rewrite Ed, Hr.
    rewrite count_app, !count_cons, count_app, count_cons. lia.
Qed.

Lemma parse_variables_lc data w l t : parse_variables U FT data w = (l, Ok t) -> (lc t <= count k data)%nat.
Proof. intros H. apply parse_loop_lc in H. cbn in H. lia. Qed.

Lemma parse_inner_lc app data w l t : parse_inner U FT app data w = (l, Ok t) -> (lc t <= count k data)%nat.
Proof.
  unfold parse_inner. destruct (has_sub data).
  - destruct (parse_variables U FT data w) as [l1 [a|e|]] eqn:E; try discriminate.
    + intros [= <- <-]. now apply parse_variables_lc in E.
    + destruct e; try discriminate. cbn [snd fst]. intros H. injection H as _ H.
      subst t. cbn. lia.
  - intros [= <- <-]. cbn. lia.
Qed.

Lemma count_strip p s : (count k (lstrip_p p s) <= count k s)%nat.
Proof.
  induction s as [|c s IH]; [easy|]. cbn [lstrip_p]. destruct (p c); [|lia]. rewrite count_cons. lia.
Qed.
Lemma count_removelast s : (count k (removelast s) <= count k s)%nat.
Proof.
  induction s as [|c s IH]; [easy|]. cbn [removelast]. destruct s; [cbn; lia|].
  rewrite (count_cons _ _ (removelast _)), (count_cons _ c (_ :: _)). lia.
Qed.
Lemma count_unparen s : (count k (unparen s) <= count k s)%nat.
Proof.
  unfold unparen. destruct (_ && _); [|lia]. destruct s as [|c s]; [easy|]. cbn [tl].
  pose proof (count_removelast s). rewrite count_cons. lia.
Qed.

Lemma split_app_lc t w l app data : split_app U t w = (l, Ok (Some (app, data))) ->
  (count k data <= lc t)%nat.
Proof.
  unfold split_app. intros H. apply mbind_ok in H as (l1 & a & l2 & E & E0 & ->).
  unfold mlift in E. injection E as _ E. apply vsplit_lc in E.
  mk E0 as [ap da] E1 E2.
  assert (Hx : (count k da <= lc t)%nat).
  { assert (Hother : forall l, (match t with
                   | TS s => do* _ <- (if str_eqb (u_lower U s) (L "noop") then mret tt
                                       else memit W_APP_NEED_PARENS w [(L "app", AStr s)]);
                             mret (t, L "()")
                   | _ => mexn AttributeError
                   end) = (l, Ok (ap, da)) -> (count k da <= lc t)%nat).
    { intros l' H. destruct t; try discriminate. mku H as E3 E4. unfold mret in E4. injection E4 as _ _ <-.
      rewrite (out_lit (L "()")) by reflexivity. lia. }
    destruct a as [|p [|q [|r a]]]; try (now apply Hother in E1).
    mku E1 as E3 E4. unfold mlift in E3. injection E3 as _ E3. unfold mret in E4. injection E4 as _ _ <-.
    rewrite count_cons, (k_out 40) by (cbn; auto 30). rewrite (str_of_count _ _ E3).
    rewrite !lcs_cons in E. lia. }
  cbn [fst snd] in *. destruct ap; try discriminate.
  destruct (negb _).
  - mku E2 as E3 E4. discriminate.
  - mku E2 as E3 E4. destruct (lstrip_p isspace s).
    + mku E4 as E5 E6. discriminate.
    + unfold mret in E4. injection E4 as _ _ <-. pose proof (count_unparen da). lia.
Qed.

(* ---- separation ---- *)
Lemma esep_ecs d rm l : forall s cur,
  (list_sum (map ecs (esep d rm s cur l)) + (if (k =? d)%N then pred (length (esep d rm s cur l)) else 0)
   <= ecs cur + ecs l)%nat.
Proof.
  induction l as [|[c|t] l IH]; intros s cur; cbn [esep].
  - cbn. destruct (k =? d); lia.
  - rewrite ecs_cons. cbn [ec]. destruct (top_st s && ((c =? d) && okd d)) eqn:E.
    + apply Bool.andb_true_iff in E as [_ E]. apply Bool.andb_true_iff in E as [E _]. apply N.eqb_eq in E. subst c.
      specialize (IH s []). cbn [map length pred]. unfold list_sum in *. cbn [fold_right].
      change (ecs []) with O in IH. destruct (k =? d); [|lia].
      destruct (esep d rm s [] l); cbn [length pred] in *; lia.
    + set (cur' := if rm && removed d s c then cur else cur ++ [Ch c]).
      specialize (IH (stp d s c) cur').
      assert (Hc : (ecs cur' <= ecs cur + ec (Ch c))%nat).
      { subst cur'. destruct (rm && _); [lia|]. rewrite ecs_app, ecs_cons. change (ecs []) with O. lia. }
      cbn [ec] in Hc. lia.
  - specialize (IH s (cur ++ [Va t])). rewrite ecs_app, !ecs_cons in *. change (ecs []) with O in IH. cbn [ec] in *. lia.
Qed.

Lemma list_sum_in x l : In x l -> (x <= list_sum l)%nat.
Proof. unfold list_sum. induction l; cbn; [easy|]. intros [->|H]; [lia|]. specialize (IHl H). lia. Qed.

Lemma separate_lcs t d rm :
  (lcs (separate_args (SlTok t) d rm) + (if (k =? d)%N then pred (length (separate_args (SlTok t) d rm)) else 0)
   <= lc t)%nat.
Proof.
  pose proof (esep_ecs d rm (elems t) st0 []) as H. rewrite <- separate_esep, !map_map, map_length in H.
  rewrite (map_ext _ lc) in H by (intros; symmetry; apply lc_elems). rewrite <- lc_elems in H. exact H.
Qed.

(* old-style arguments *)
Lemma sep_list_len (l0 : list tok) d rm l : k = d -> forall b p q sk cur pend,
  (length (sep (SlList l0) d rm b p q sk cur pend l) <= S (lcs l))%nat.
Proof.
  intros <-. induction l as [|x l IH]; intros b p q sk cur pend; cbn [sep]; [cbn; lia|].
  rewrite lcs_cons.
  repeat match goal with |- context [if ?b then _ else _] => destruct b eqn:? end;
    try (match goal with |- (length (sep _ _ _ ?b ?p ?q ?sk ?cur ?pend l) <= _)%nat =>
           specialize (IH b p q sk cur pend); lia end).
  match goal with H : tok_isc x k && _ && _ && _ = true |- _ => rename H into Hx end.
  rewrite !Bool.andb_true_iff in Hx. destruct Hx as [[[Hx _] _] _].
  unfold tok_isc, tok_is in Hx. destruct x; try discriminate. apply str_eqb_eq in Hx. subst.
  cbn [length lc]. specialize (IH b p q false [] []). unfold count. cbn. rewrite N.eqb_refl. cbn. lia.
Qed.

Lemma separate_len s d rm : k = d -> (length (separate_args s d rm) <= S (slc s))%nat.
Proof.
  intros E. destruct s as [t|l].
  - pose proof (separate_lcs t d rm) as H. subst d. rewrite N.eqb_refl in H. cbn [slc]. lia.
  - unfold separate_args. rewrite map_length. cbn [sl_items slc]. now apply sep_list_len.
Qed.

Lemma if_args_lc name data w l c t f : if_args name data w = (l, Ok (c, t, f)) ->
  Forall (fun br => (slc br <= lc data)%nat /\
                    (k = 63 -> (exists x, br = SlList x) \/ (slc br < lc data)%nat)) (branches t f).
Proof.
  unfold if_args. intros H. mk H as [[c0 t0] f0] E E0.
  assert (G : Forall (fun br => (slc br <= lc data)%nat /\
                    (k = 63 -> (exists x, br = SlList x) \/ (slc br < lc data)%nat))
                (t0 :: match f0 with Some x => [SlTok x] | None => [] end)).
  { pose proof (separate_lcs data 63 true) as H63.
    assert (Hold : forall l', (match separate_args (SlTok data) 44 false with
              | c :: more =>
                do* _ <- (match more with
                          | [] => memit E_APP_ARG_FEW w [(L "app", AStr name); (L "data", targ data); (L "min_args", zn 2)]
                          | _ => memit E_APP_ARG_IFSTYLE w
                                   [(L "app", AStr name); (L "data", targ data); (L "cond", targ c); (L "args", larg more)]
                          end);
                mret (c, SlList more, None)
              | [] => mexn IndexError
              end) = (l', Ok (c0, t0, f0)) -> t0 = SlList (tl (separate_args (SlTok data) 44 false)) /\ f0 = None).
    { intros l'. destruct (separate_args (SlTok data) 44 false) as [|x more]; [discriminate|]. intros H. mku H as E1 E2.
      ret E2. easy. }
    assert (Hold' : t0 = SlList (tl (separate_args (SlTok data) 44 false)) /\ f0 = None ->
       Forall (fun br => (slc br <= lc data)%nat /\
                    (k = 63 -> (exists x, br = SlList x) \/ (slc br < lc data)%nat))
                (t0 :: match f0 with Some x => [SlTok x] | None => [] end)).
    { intros [-> ->]. constructor; [|constructor]. split; [|eauto].
      pose proof (separate_lcs data 44 false) as H44. destruct (separate_args (SlTok data) 44 false); [cbn in *; lia|].
      rewrite lcs_cons in H44. cbn [slc tl]. lia. }
    destruct (separate_args (SlTok data) 63 true) as [|x [|act more]] eqn:Es.
    - apply Hold', (Hold _ E).
    - apply Hold', (Hold _ E).
    - rewrite !lcs_cons in H63. cbn [length pred] in H63. mku E as E1 E2.
      pose proof (separate_lcs act 58 false) as H58.
      assert (H63' : k = 63 -> (lc act < lc data)%nat) by (intros E0'; apply N.eqb_eq in E0'; rewrite E0' in H63; lia).
      destruct (separate_args (SlTok act) 58 false) as [|y [|z r]] eqn:E58; [discriminate| |];
        ret E2; rewrite !lcs_cons in H58.
      + constructor; [|constructor]. cbn [slc]. split; [lia|]. intros Ek. specialize (H63' Ek). right. lia.
      + constructor; [|constructor; [|constructor]]; cbn [slc]; (split; [lia|]); intros Ek; specialize (H63' Ek); right; lia. }
  mku E0 as E1 E2. mku E2 as E3 E4. unfold mret in E4. injection E4 as _ <- <- <-. unfold branches.
  rewrite Forall_forall in *. intros y Hy. apply filter_In in Hy as [Hy _]. now apply G.
Qed.

Lemma varcond_args_lc name data w l c t f : varcond_args name data w = (l, Ok (c, t, f)) ->
  Forall (fun br => (slc br <= lc data)%nat /\
                    (k = 63 -> (exists x, br = SlList x) \/ (slc br < lc data)%nat)) (branches t f).
Proof.
  unfold varcond_args. intros H. mk H as [[c0 t0] f0] E E0. mku E0 as E1 E2. unfold mret in E2.
  injection E2 as _ <- <- <-. now apply if_args_lc in E.
Qed.
End T.
End Count.

(* ---- ends and fuel ---- *)

Lemma k63 : ~ In 63 (L "${}[]():-0123456789").
Proof. intros H. cbv in H. repeat destruct H as [H|H]; discriminate || easy. Qed.
Lemma k44 : ~ In 44 (L "${}[]():-0123456789").
Proof. intros H. cbv in H. repeat destruct H as [H|H]; discriminate || easy. Qed.

Lemma mbind_ext {A B} (m : M A) (f g : A -> M B) :
  (forall l a, m = (l, Ok a) -> f a = g a) -> mbind m f = mbind m g.
Proof. destruct m as [l [a|e|]]; cbn; try easy. intros H. now rewrite (H l a eq_refl). Qed.

Lemma mmap_ext {A B} (f g : A -> M B) l : (forall x, In x l -> f x = g x) -> mmap f l = mmap g l.
Proof.
  induction l as [|x l IH]; intros H; [easy|]. cbn [mmap]. rewrite (H x (or_introl eq_refl)).
  apply mbind_ext. intros _ y _. rewrite IH; [easy|]. intros z Hz. apply H. now right.
Qed.
Lemma nohang_mmap {A B} (f : A -> M B) l : (forall x, In x l -> NoHang (f x)) -> NoHang (mmap f l).
Proof.
  induction l as [|x l IH]; intros H; [easy|]. cbn [mmap]. apply nohang_bind; [apply H; now left|].
  intros _ y _. apply nohang_bind; [|easy]. apply IH. intros z Hz. apply H. now right.
Qed.

(* the loop: more fuel does not help *)
Lemma pad_loop_long n : forall l, (3 < length l)%nat -> pad_loop n l = Hang.
Proof.
  induction n as [|n IH]; intros l H; cbn [pad_loop];
    (destruct (Nat.eqb_spec (length l) 3); [lia|]); [easy|]. apply IH. cbn. lia.
Qed.
Lemma pad_loop_short n : forall l, (length l <= 3)%nat -> (3 <= n + length l)%nat ->
  pad_loop n l = Ok (repeat None (3 - length l) ++ l).
Proof.
  induction n as [|n IH]; intros l H H'; cbn [pad_loop];
    (destruct (Nat.eqb_spec (length l) 3) as [E|E]; [now rewrite E|]); [lia|].
  rewrite IH by (cbn; lia). f_equal. cbn [length].
  replace (3 - length l)%nat with (S (3 - S (length l))) by lia.
  cbn [repeat]. rewrite (repeat_cons _ (@None tok)), <- app_assoc. easy.
Qed.

Lemma goto_dest_hang args : goto_dest args = Hang <-> (3 < length args)%nat.
Proof.
  unfold goto_dest. split.
  - intros H. destruct (Nat.le_gt_cases (length args) 3) as [Hl|]; [|easy]. exfalso.
    rewrite pad_loop_short in H by (rewrite map_length; lia). cbn [bind] in H. revert H. unfold to_dest.
    destruct args as [|a [|b [|c [|d r]]]]; cbn in *; try easy; lia.
  - intros H. rewrite pad_loop_long; [easy|]. now rewrite map_length.
Qed.

Section Ends.
Variable U : uni.
Variable FT : ftable.
Variable AT : atable.

Ltac emits := apply nohang_emit; repeat constructor; try apply targ_nohang; try (cbn; easy).

Lemma nh_minmax name mn mx args w : NoHang (minmax name mn mx args w).
Proof.
  unfold minmax. destruct (match mn with Some _ => _ | None => false end).
  - emits. now destruct mn.
  - destruct mx; [|easy]. destruct (Nat.ltb _ _); [emits|easy].
Qed.
Lemma nh_nopipe name data args w : NoHang (nopipe name data args w).
Proof. unfold nopipe. destruct args as [|a [|b r]]; try easy. destruct (tin 124 a); [emits|easy]. Qed.
Lemma nh_validate_arg name n a arg w : NoHang (validate_arg name n a arg w).
Proof.
  unfold validate_arg. destruct a; [easy| |].
  - apply nohang_bind; [destruct (filter _ _); [easy|emits]|]. intros _ _ _. destruct (has_dup _); [emits|easy].
  - destruct (_ || _); [easy|emits].
Qed.
Lemma nh_validate name ks : forall n args w, NoHang (validate name n ks args w).
Proof.
  induction ks as [|a ks IH]; intros n [|x args] w; cbn [validate]; try easy.
  apply nohang_bind; [apply nh_validate_arg|]. intros _ _ _. apply IH.
Qed.
Lemma vstrip_nohang t : vstrip t <> Hang.
Proof.
  destruct t as [s|l|n|n|n ? ?|n ? ?|? ?|? ? ? ?]; cbn [vstrip]; try easy;
    try (destruct (name_of _); [destruct (truthy _)|]; easy).
  destruct l; [easy|]. destruct (Nat.eqb _ _); [easy|]. destruct (strip_last _) as [|? [|? ?]]; easy.
Qed.
Lemma nh_if_args name data w : NoHang (if_args name data w).
Proof.
  unfold if_args. apply nohang_bind.
  - assert (Hold : NoHang (match separate_args (SlTok data) 44 false with
              | c :: more =>
                do* _ <- (match more with
                          | [] => memit E_APP_ARG_FEW w [(L "app", AStr name); (L "data", targ data); (L "min_args", zn 2)]
                          | _ => memit E_APP_ARG_IFSTYLE w
                                   [(L "app", AStr name); (L "data", targ data); (L "cond", targ c); (L "args", larg more)]
                          end);
                mret (c, SlList more, @None tok)
              | [] => mexn IndexError
              end)).
    { destruct (separate_args (SlTok data) 44 false) as [|c more]; [easy|]. apply nohang_bind; [|easy].
      destruct more; emits. }
    destruct (separate_args (SlTok data) 63 true) as [|c [|act more]]; try exact Hold.
    apply nohang_bind; [destruct more; [easy|emits]|]. intros _ _ _.
    destruct (separate_args (SlTok act) 58 false) as [|? [|? ?]]; easy.
  - intros _ [[c t] f] _. apply nohang_bind; [apply nohang_lift, vstrip_nohang|].
    intros _ c' _. apply nohang_bind; [|easy]. destruct (tok_is c' []); [emits|easy].
Qed.
Lemma nh_varcond name data w : NoHang (varcond_args name data w).
Proof.
  unfold varcond_args. apply nohang_bind; [apply nh_if_args|]. intros _ [[c t] f] _.
  apply nohang_bind; [|easy]. destruct (_ && _); [emits|easy].
Qed.
Lemma nh_gosub_prio p w : NoHang (gosub_prio p w).
Proof.
  unfold gosub_prio. destruct (cut_first 40 (items p)) as [[b a]|]; [|easy].
  apply nohang_bind; [|easy]. destruct (last_opt _); [|easy]. destruct (tok_isc _ _); [easy|emits].
Qed.
Lemma nh_gosub_dest name b args w : NoHang (gosub_dest name b args w).
Proof.
  unfold gosub_dest. apply nohang_bind.
  - destruct (Nat.ltb _ _); [|easy]. apply nohang_bind; [|easy]. destruct b; [easy|emits].
  - intros _ jd _. destruct (pad3 _) as [|c [|e [|[p|] [|? ?]]]]; try easy.
    apply nohang_bind; [apply nh_gosub_prio|easy].
Qed.
Lemma nh_abase data w : NoHang (abase_call data w).
Proof.
  unfold abase_call. pose proof (check_balance_nohang (items data)).
  destruct (check_balance (items data)); [easy| |easy].
  destruct (is_value_error e); [|easy]. apply nohang_bind; [apply nohang_lift, str_of_nohang|].
  intros _ s _. emits.
Qed.
Lemma nh_app_get n : NoHang (app_get AT n).
Proof. unfold app_get. destruct (lookup n AT); [easy|]. destruct (lookup _ AT); easy. Qed.
Lemma nh_check a s w : NoHang (check_availability a s w).
Proof.
  unfold check_availability.
  assert (G : NoHang (if str_eqb (a_name a) s then mret tt
    else if str_eqb (a_name a) (L "Unknown") then memit E_APP_MISSING w [(L "app", AStr s)]
    else memit W_APP_BAD_CASE w [(L "app", AStr s); (L "proper", AStr (a_name a))])).
  { destruct (str_eqb _ _); [easy|]. destruct (str_eqb _ _); emits. }
  destruct (a_kind a); try exact G. easy.
Qed.
Lemma nh_parse_inner app data w : NoHang (parse_inner U FT app data w).
Proof.
  unfold parse_inner. destruct (has_sub data); [|easy]. pose proof (parse_variables_ends U FT data w) as H.
  destruct (parse_variables U FT data w) as [l [t|e|]]; cbn in H; try easy. destruct e; easy.
Qed.
Lemma nh_split_app t w : NoHang (split_app U t w).
Proof.
  unfold split_app. apply nohang_bind; [apply nohang_lift, vsplit_nohang|]. intros _ parts _.
  apply nohang_bind.
  - assert (G : NoHang (match t with
                   | TS s => do* _ <- (if str_eqb (u_lower U s) (L "noop") then mret tt
                                       else memit W_APP_NEED_PARENS w [(L "app", AStr s)]);
                             mret (t, L "()")
                   | _ => mexn AttributeError
                   end)).
    { destruct t; try easy. apply nohang_bind; [|easy]. destruct (str_eqb _ _); [easy|emits]. }
    destruct parts as [|p [|q [|r parts]]]; try exact G.
    apply nohang_bind; [apply nohang_lift, str_of_nohang|easy].
  - intros _ [ap da] _. cbn [fst snd]. destruct ap; try easy. destruct (negb _).
    + apply nohang_bind; [emits|easy].
    + apply nohang_bind; [destruct (str_eqb _ _); [easy|emits]|]. intros _ _ _.
      destruct (lstrip_p isspace s); [|easy]. apply nohang_bind; [emits|easy].
Qed.

(* kinds other than ExecIf, Goto and GotoIf *)
Lemma nh_app_call nested a data w :
  (a_kind a = AGoto -> (lc 44 data < 3)%nat) -> (a_kind a = AGotoIf -> (lc 44 data < 3)%nat) ->
  (a_kind a = AExecIf -> forall l c t f, varcond_args (a_name a) data w = (l, Ok (c, t, f)) ->
     forall br, In br (branches t f) -> NoHang (nested br)) ->
  NoHang (app_call U FT nested a data w).
Proof.
  intros HG HGI HE. unfold app_call. destruct (a_kind a).
  - apply nohang_bind; [apply nh_abase|easy].
  - apply nohang_bind; [apply nh_abase|easy].
  - apply nohang_bind; [apply nohang_bind; [apply nh_minmax|easy]|]. intros l args E.
    apply nohang_bind; [apply nh_nopipe|]. intros _ _ _. apply nohang_bind; [|easy].
    apply nohang_lift. rewrite goto_dest_hang. mku E as E1 E2. ret E2.
    pose proof (separate_len 44 (SlTok data) 44 false eq_refl) as H. cbn [slc] in H. specialize (HG eq_refl). lia.
  - apply nohang_bind; [apply nh_varcond|]. intros l [[c t] f] E. apply nohang_mmap. intros br Hbr.
    apply nohang_lift. rewrite goto_dest_hang.
    pose proof (varcond_args_lc 44 k44 _ _ _ _ _ _ _ E) as H. rewrite Forall_forall in H. destruct (H br Hbr) as [H1 _].
    pose proof (separate_len 44 br 44 true eq_refl) as H2. specialize (HGI eq_refl). lia.
  - apply nohang_bind; [apply nh_if_args|]. now intros.
  - apply nohang_bind; [apply nh_assign|]. intros _ _ _. apply nohang_bind; [apply nh_abase|easy].
  - apply nohang_bind; [apply nh_varcond|]. intros l [[c t] f] E. apply nohang_bind; [|easy].
    apply nohang_mmap. intros br Hbr. apply (HE eq_refl _ _ _ _ E br Hbr).
  - apply nohang_bind; [apply nohang_bind; [apply nh_minmax|easy]|]. intros l args E.
    apply nohang_bind; [apply nh_nopipe|]. intros _ _ _. apply nohang_bind; [apply nh_gosub_dest|easy].
  - apply nohang_bind; [apply nh_varcond|]. intros l [[c t] f] E. apply nohang_mmap. intros br Hbr. apply nh_gosub_dest.
  - apply nohang_bind; [apply nohang_bind; [apply nh_minmax|easy]|]. intros l args' E.
    apply nohang_bind; [apply nh_validate|]. intros _ _ _. apply nohang_bind; [apply nh_nopipe|easy].
Qed.

Definition need (raw : sliced) : nat := match raw with SlTok t => S (S (lc 63 t)) | SlList _ => 1 end.

Lemma need_branch t w l a d l1 c tr f br :
  split_app U t w = (l, Ok (Some (a, d))) -> forall l2 x, parse_inner U FT a d w = (l2, Ok x) -> forall name,
  varcond_args name x w = (l1, Ok (c, tr, f)) -> In br (branches tr f) -> (need br <= S (lc 63 t))%nat.
Proof.
  intros E1 l2 x E2 name E3 Hbr. apply (split_app_lc 63 k63) in E1. apply (parse_inner_lc 63 k63) in E2.
  apply (varcond_args_lc 63 k63) in E3. rewrite Forall_forall in E3. destruct (E3 br Hbr) as [H1 H2].
  destruct br as [y|]; cbn [need slc] in *; [|lia]. destruct (H2 eq_refl) as [[? ?]|]; [discriminate|lia].
Qed.

Lemma app_new_fuel k1 : forall k2 raw w, (need raw <= k1)%nat -> (need raw <= k2)%nat ->
  app_new U FT AT k1 raw w = app_new U FT AT k2 raw w.
Proof.
  induction k1 as [|k1 IH]; intros k2 raw w H1 H2; [destruct raw; cbn in H1; lia|].
  destruct k2 as [|k2]; [destruct raw; cbn in H2; lia|]. cbn [app_new]. destruct raw as [t|]; [|easy].
  cbn [need] in H1, H2. apply mbind_ext. intros l [[a d]|] E1; [|easy].
  apply mbind_ext. intros la ai _. apply mbind_ext. intros lb _ _. apply mbind_ext. intros l2 x E2.
  unfold app_call. destruct (a_kind ai); try easy.
  apply mbind_ext. intros l3 [[c tr] f] E3. f_equal. apply mmap_ext. intros br Hbr.
  pose proof (need_branch _ _ _ _ _ _ _ _ _ br E1 _ _ E2 _ E3 Hbr) as Hn.
  rewrite (IH k2); [easy|lia|lia].
Qed.

Lemma app_new_ends k1 : forall raw w, (need raw <= k1)%nat -> (slc 44 raw < 3)%nat ->
  NoHang (app_new U FT AT k1 raw w).
Proof.
  induction k1 as [|k1 IH]; intros raw w H1 H2; [destruct raw; cbn in H1; lia|].
  cbn [app_new]. destruct raw as [t|]; [|easy]. cbn [need slc] in *.
  apply nohang_bind; [apply nh_split_app|]. intros l [[a d]|] E1; [|easy].
  apply nohang_bind; [apply nh_app_get|]. intros la ai _. apply nohang_bind; [apply nh_check|].
  intros lb _ _. apply nohang_bind; [apply nh_parse_inner|]. intros l2 x E2.
  pose proof (split_app_lc 44 k44 _ _ _ _ _ _ E1) as C1. pose proof (parse_inner_lc 44 k44 _ _ _ _ _ _ _ E2) as C2.
  apply nh_app_call; try (intros _; lia).
  intros _ l3 c tr f E3 br Hbr.
  pose proof (need_branch _ _ _ _ _ _ _ _ _ br E1 _ _ E2 _ E3 Hbr) as Hn.
  pose proof (varcond_args_lc 44 k44 _ _ _ _ _ _ _ E3) as C3. rewrite Forall_forall in C3. destruct (C3 br Hbr) as [C4 _].
  apply nohang_bind; [|easy]. apply IH; lia.
Qed.

Lemma application_ends raw w : (count 44 raw < 3)%nat -> snd (application U FT AT raw w) <> Hang.
Proof. intros H. apply app_new_ends; [|easy]. unfold app_fuel. cbn. unfold count. lia. Qed.

Lemma application_fuel raw w k : (app_fuel raw <= k)%nat ->
  app_new U FT AT k (SlTok (TS raw)) w = application U FT AT raw w.
Proof. intros H. apply app_new_fuel; [|]; unfold app_fuel in *; cbn; unfold count; lia. Qed.

(* ---- exact destinations ---- *)

Lemma delim_ok d : In d [44; 58; 63] -> DelimOk d.
Proof.
  intros H G. cbv in G. cbn in H. repeat destruct H as [<-|H]; try easy; repeat destruct G as [G|G]; easy.
Qed.

Lemma args_of t d : DelimOk d -> Args d (elems t) (map elems (separate_args (SlTok t) d true)).
Proof.
  intros H. exists (map elems (separate_args (SlTok t) d false)). split; [now apply separate_Separated|apply separate_unquoted].
Qed.
Lemma Forall2_Unquoted_fun d l m : Forall2 (Unquoted d) l m -> forall m', Forall2 (Unquoted d) l m' -> m = m'.
Proof.
  induction 1 as [|x y l m Hx Hl IH]; intros m' H'; inversion H'; subst; [easy|]. f_equal.
  - eapply Unquoted_fun; eassumption.
  - now apply IH.
Qed.
Lemma Args_fun d l m m' : Args d l m -> Args d l m' -> m = m'.
Proof.
  intros (r & H1 & H2) (r' & H1' & H2'). rewrite (Separated_fun _ _ _ _ H1 H1') in H2.
  eapply Forall2_Unquoted_fun; eassumption.
Qed.
Definition nonempty (b : list elem) : bool := match b with [] => false | _ => true end.
Lemma Branches_fun l m m' : Branches l m -> Branches l m' -> m = m'.
Proof.
  intros [c act more bs H1 H2] [c' act' more' bs' H1' H2'].
  pose proof (Args_fun _ _ _ _ H1 H1') as E. injection E as _ <- _. now rewrite (Separated_fun _ _ _ _ H2 H2').
Qed.

Lemma separate_ne s d rm : separate_args s d rm <> [].
Proof.
  assert (H : forall l b p q sk cur pend, sep s d rm b p q sk cur pend l <> []).
  { induction l as [|x l IH]; intros; cbn [sep]; [easy|].
    repeat match goal with |- context [if ?b then _ else _] => destruct b end; try apply IH; easy. }
  unfold separate_args. intros E. apply map_eq_nil in E. now apply H in E.
Qed.

Lemma Forall2_map_r {A B C} (R : A -> C -> Prop) (f : B -> C) l m : Forall2 R l (map f m) <-> Forall2 (fun a b => R a (f b)) l m.
Proof.
  split.
  - revert l. induction m as [|b m IH]; intros l H; inversion H; subst; constructor; auto.
  - induction 1; constructor; auto.
Qed.
Lemma Forall2_diag {A} (R : A -> A -> Prop) l : Forall2 R l l <-> Forall (fun a => R a a) l.
Proof. split; [induction l; intros H; inversion H; subst; constructor; auto|induction 1; constructor; auto]. Qed.

Lemma goto_dest_padded args : Forall2 Canon args (map elems args) -> args <> [] -> (length args <= 3)%nat ->
  exists d, goto_dest args = Ok d /\ Padded (map elems args) d.
Proof.
  intros Hc Hn Hl. rewrite Forall2_map_r, Forall2_diag in Hc. rewrite Forall_forall in Hc. destruct args as [|a [|b [|c [|? ?]]]]; [easy| | | |cbn in Hl; lia];
    eexists; (split; [reflexivity|]); constructor; apply Hc; cbn; auto.
Qed.

Lemma goto_exact nested a data w : a_kind a = AGoto ->
  (snd (app_call U FT nested a data w) = Hang -> exists args, Separated 44 (elems data) args /\ (3 < length args)%nat) /\
  ((exists args, Separated 44 (elems data) args /\ (3 < length args)%nat) ->
     forall ds, snd (app_call U FT nested a data w) <> Ok ds) /\
  (forall ds, snd (app_call U FT nested a data w) = Ok ds ->
     exists args d, Separated 44 (elems data) args /\ ds = [d] /\ Padded args d).
Proof.
  intros Ek. unfold app_call. rewrite Ek.
  set (args := separate_args (SlTok data) 44 false).
  assert (HS : Separated 44 (elems data) (map elems args)) by (apply separate_Separated, delim_ok; cbn; auto).
  assert (Hlen : forall x, Separated 44 (elems data) x -> length x = length args).
  { intros x Hx. rewrite (Separated_fun _ _ _ _ Hx HS). apply map_length. }
  pose proof (nh_minmax (a_name a) (Some 1%nat) (Some 3%nat) args w) as Hm.
  destruct (minmax (a_name a) (Some 1%nat) (Some 3%nat) args w) as [l1 [[]|e|]]; cbn in Hm; [|cbn; easy|easy].
  pose proof (nh_nopipe (a_name a) data args w) as Hp. cbn [mbind mret app snd].
  destruct (nopipe (a_name a) data args w) as [l2 [[]|e|]]; cbn in Hp; [|cbn; easy|easy].
  cbn [mbind mret mlift snd]. destruct (Nat.le_gt_cases (length args) 3) as [Hle|Hgt].
  - destruct (goto_dest_padded args (separate_canon _ _ _) (separate_ne _ _ _) Hle) as (d & -> & Hd). cbn. split; [easy|]. split.
    + intros (x & Hx & Hl). specialize (Hlen x Hx). lia.
    + intros ds [= <-]. exists (map elems args), d. auto.
  - rewrite (proj2 (goto_dest_hang args) Hgt). cbn. split; [|split].
    + intros _. exists (map elems args). split; [easy|]. now rewrite map_length.
    + intros _ ds. easy.
    + easy.
Qed.

(* old-style arguments are never separated again *)
Lemma esep_nohead d l : okd d = true -> forall s cur, (cur = [] -> top_st s = true) -> (forall x, cur <> Ch d :: x) ->
  Forall (fun p => forall x, p <> Ch d :: x) (esep d false s cur l).
Proof.
  intros Hd. induction l as [|[c|t] l IH]; intros s cur H1 H2; cbn [esep].
  - now repeat constructor.
  - rewrite Hd, Bool.andb_true_r. destruct (top_st s && (c =? d)) eqn:E.
    + apply Bool.andb_true_iff in E as [E _]. constructor; [easy|]. now apply IH.
    + cbn [andb]. apply IH; [now destruct cur|]. destruct cur as [|y cur]; [|intros x [= -> _]; now apply (H2 cur)].
      intros x [= -> _]. rewrite N.eqb_refl, (H1 eq_refl) in E. discriminate.
  - apply IH; [now destruct cur|]. destruct cur as [|y cur]; [easy|]. intros x [= -> _]. now apply (H2 cur).
Qed.

Lemma sep_list_one (l0 : list tok) d rm l : Forall (fun x => tok_isc x d = false) l -> forall b p q sk cur pend,
  length (sep (SlList l0) d rm b p q sk cur pend l) = 1%nat.
Proof.
  induction 1 as [|x l Hx Hl IH]; intros b p q sk cur pend; cbn [sep]; [easy|]. rewrite Hx. cbn [andb].
  repeat match goal with |- context [if ?b then _ else _] => destruct b end; apply IH.
Qed.

Lemma old_one data rm : length (separate_args (SlList (tl (separate_args (SlTok data) 44 false))) 44 rm) = 1%nat.
Proof.
  unfold separate_args at 1. rewrite map_length. cbn [sl_items]. apply sep_list_one.
  assert (H : Forall (fun p => forall x, p <> Ch 44 :: x) (map elems (separate_args (SlTok data) 44 false))).
  { rewrite separate_esep. now apply esep_nohead. }
  rewrite Forall_map in H. destruct (separate_args (SlTok data) 44 false) as [|y r]; [constructor|]. cbn [tl].
  inversion H as [|? ? _ H']; subst. eapply Forall_impl; [|exact H'].
  intros t Ht. unfold tok_isc, tok_is. destruct t; try easy. apply Bool.not_true_iff_false. intros E.
  apply str_eqb_eq in E. subst s. now apply (Ht []).
Qed.

Lemma if_args_ok name data w l c t f : if_args name data w = (l, Ok (c, t, f)) ->
  (exists bs, Branches (elems data) bs /\ Forall2 (fun br b => exists y, br = SlTok y /\ elems y = b) (branches t f) bs) \/
  ((forall bs, ~ Branches (elems data) bs) /\ t = SlList (tl (separate_args (SlTok data) 44 false)) /\ f = None).
Proof.
  intros H. unfold if_args in H. mk H as [[c0 t0] f0] E E0.
  mku E0 as E1 E2. mku E2 as E3 E4. unfold mret in E4. injection E4 as _ <- <- <-. clear E1 E3.
  pose proof (args_of data 63 (delim_ok 63 ltac:(cbn; auto))) as HA.
  assert (Hold : (length (separate_args (SlTok data) 63 true) < 2)%nat -> forall l', (match separate_args (SlTok data) 44 false with
              | c :: more =>
                do* _ <- (match more with
                          | [] => memit E_APP_ARG_FEW w [(L "app", AStr name); (L "data", targ data); (L "min_args", zn 2)]
                          | _ => memit E_APP_ARG_IFSTYLE w
                                   [(L "app", AStr name); (L "data", targ data); (L "cond", targ c); (L "args", larg more)]
                          end);
                mret (c, SlList more, None)
              | [] => mexn IndexError
              end) = (l', Ok (c0, t0, f0)) ->
            (forall bs, ~ Branches (elems data) bs) /\ t0 = SlList (tl (separate_args (SlTok data) 44 false)) /\ f0 = None).
  { intros Hl l'. split.
    - intros bs [c1 act more bs' H1 _]. pose proof (Args_fun _ _ _ _ HA H1) as Ea.
      apply (f_equal (@List.length (list elem))) in Ea. rewrite map_length in Ea. cbn [List.length] in Ea. rewrite Ea in Hl. lia.
    - destruct (separate_args (SlTok data) 44 false) as [|y0 more]; [discriminate|]. mku H as E5 E6.
      unfold mret in E6. injection E6 as _ _ <- <-. easy. }
  destruct (separate_args (SlTok data) 63 true) as [|y0 [|act more]] eqn:Es;
    try (right; now apply (Hold ltac:(cbn; lia) _ E)). left.
  mku E as E5 E6. pose proof (separate_Separated act 58 (delim_ok 58 ltac:(cbn; auto))) as HB.
  pose proof (Br_intro (elems data) _ _ _ _ HA HB) as HBr. eexists. split; [exact HBr|].
  assert (Hfil : forall ts, Forall2 (fun br b => exists y, br = SlTok y /\ elems y = b)
            (filter sl_truthy (map SlTok ts)) (filter nonempty (map elems ts))).
  { induction ts as [|y ts IH]; cbn [map filter]; [constructor|]. cbn [sl_truthy].
    pose proof (falsy_elems y) as Hf. destruct (truthy y).
    - assert (Hn : nonempty (elems y) = true) by (destruct (elems y); [pose proof (proj2 Hf eq_refl); discriminate|easy]).
      rewrite Hn. constructor; [now exists y|easy].
    - rewrite (proj1 Hf eq_refl). easy. }
  change (fun b : list elem => match b with [] => false | _ :: _ => true end) with nonempty.
  destruct (separate_args (SlTok act) 58 false) as [|y [|z r]]; [discriminate| |]; ret E6.
  - exact (Hfil [y]).
  - exact (Hfil [y; z]).
Qed.

Lemma varcond_ok name data w l c t f : varcond_args name data w = (l, Ok (c, t, f)) ->
  (exists bs, Branches (elems data) bs /\ Forall2 (fun br b => exists y, br = SlTok y /\ elems y = b) (branches t f) bs) \/
  ((forall bs, ~ Branches (elems data) bs) /\ t = SlList (tl (separate_args (SlTok data) 44 false)) /\ f = None).
Proof.
  unfold varcond_args. intros H. mk H as [[c0 t0] f0] E E0. mku E0 as E1 E2. unfold mret in E2.
  injection E2 as _ <- <- <-. now apply if_args_ok in E.
Qed.

Lemma mmap_lift_hang {A B} (f : A -> res B) l : snd (mmap (fun x => mlift (f x)) l) = Hang -> exists x, In x l /\ f x = Hang.
Proof.
  induction l as [|x l IH]; cbn [mmap]; [easy|]. destruct (f x) as [y|e|] eqn:E; cbn.
  - destruct (mmap (fun x => mlift (f x)) l) as [l1 [ys|e|]]; cbn in *; try easy.
    intros H. destruct (IH H) as (z & Hz & Ez). exists z. auto.
  - easy.
  - intros _. exists x. auto.
Qed.
Lemma mmap_lift_ok {A B} (f : A -> res B) l : forall ys, snd (mmap (fun x => mlift (f x)) l) = Ok ys -> Forall2 (fun x y => f x = Ok y) l ys.
Proof.
  induction l as [|x l IH]; intros ys; cbn [mmap].
  - intros [= <-]. constructor.
  - destruct (f x) as [y|e|] eqn:E; cbn; try easy.
    destruct (mmap (fun x => mlift (f x)) l) as [l1 [zs|e|]]; cbn in *; try easy.
    intros [= <-]. constructor; [easy|]. now apply IH.
Qed.

Lemma goto_branch y : 
  (goto_dest (separate_args (SlTok y) 44 true) = Hang <-> exists args, Args 44 (elems y) args /\ (3 < length args)%nat) /\
  (forall d, goto_dest (separate_args (SlTok y) 44 true) = Ok d -> exists args, Args 44 (elems y) args /\ Padded args d).
Proof.
  pose proof (args_of y 44 (delim_ok 44 ltac:(cbn; auto))) as HA. rewrite goto_dest_hang. split; [split|].
  - intros H. exists (map elems (separate_args (SlTok y) 44 true)). split; [easy|]. now rewrite map_length.
  - intros (args & H1 & H2). rewrite <- (Args_fun _ _ _ _ HA H1), map_length in H2. easy.
  - intros d H. exists (map elems (separate_args (SlTok y) 44 true)). split; [easy|].
    destruct (Nat.le_gt_cases (length (separate_args (SlTok y) 44 true)) 3) as [Hle|Hgt].
    + destruct (goto_dest_padded _ (separate_canon _ _ _) (separate_ne _ _ _) Hle) as (d' & E & Hd). congruence.
    + apply goto_dest_hang in Hgt. congruence.
Qed.

Lemma gotoif_exact nested a data w : a_kind a = AGotoIf ->
  (snd (app_call U FT nested a data w) = Hang ->
     exists bs b args, Branches (elems data) bs /\ In b bs /\ Args 44 b args /\ (3 < length args)%nat) /\
  ((exists bs b args, Branches (elems data) bs /\ In b bs /\ Args 44 b args /\ (3 < length args)%nat) ->
     forall ds, snd (app_call U FT nested a data w) <> Ok ds) /\
  (forall ds bs, snd (app_call U FT nested a data w) = Ok ds -> Branches (elems data) bs ->
     Forall2 (fun b d => exists args, Args 44 b args /\ Padded args d) bs ds).
Proof.
  intros Ek. unfold app_call. rewrite Ek. pose proof (nh_varcond (a_name a) data w) as Hn.
  destruct (varcond_args (a_name a) data w) as [l [[[c t] f]|e|]] eqn:E; cbn in Hn; [|cbn; easy|easy]. cbn [mbind snd].
  apply varcond_ok in E. split; [|split].
  - intros H. apply mmap_lift_hang in H as (br & Hbr & Hh). destruct E as [(bs & HB & HF)|(_ & -> & ->)].
    + assert (Hx : exists b, In b bs /\ exists y, br = SlTok y /\ elems y = b).
      { clear - HF Hbr. induction HF as [|x y l m Hx Hl IH]; [easy|]. destruct Hbr as [->|Hbr].
        - exists y. split; [now left|easy].
        - destruct (IH Hbr) as (b & Hb & Hy). exists b. split; [now right|easy]. }
      destruct Hx as (b & Hb & y & -> & <-). apply goto_branch in Hh as (args & HA & Hl). now exists bs, (elems y), args.
    + exfalso. cbn [branches filter] in Hbr. apply goto_dest_hang in Hh.
      assert (Hbr' : br = SlList (tl (separate_args (SlTok data) 44 false))).
      { destruct (sl_truthy _); [|easy]. now destruct Hbr as [<-|[]]. }
      subst br. rewrite old_one in Hh. lia.
  - intros (bs & b & args & HB & Hb & HA & Hl) ds H. apply mmap_lift_ok in H.
    destruct E as [(bs' & HB' & HF)|(HN & _)]; [|now apply HN in HB].
    rewrite <- (Branches_fun _ _ _ HB HB') in HF.
    assert (Hx : exists br, In br (branches t f) /\ exists y, br = SlTok y /\ elems y = b).
    { clear - HF Hb. induction HF as [|x y l m Hx Hl IH]; [easy|]. destruct Hb as [->|Hb].
      - exists x. split; [now left|easy].
      - destruct (IH Hb) as (br & Hbr & Hy). exists br. split; [now right|easy]. }
    destruct Hx as (br & Hbr & y & -> & <-).
    assert (Hh : goto_dest (separate_args (SlTok y) 44 true) = Hang) by (apply goto_branch; now exists args).
    clear - H Hbr Hh. induction H as [|x d l m Hx Hl IH]; [easy|]. destruct Hbr as [->|Hbr]; [congruence|auto].
  - intros ds bs H HB. apply mmap_lift_ok in H.
    destruct E as [(bs' & HB' & HF)|(HN & _)]; [|now apply HN in HB].
    rewrite <- (Branches_fun _ _ _ HB HB') in HF. clear - H HF. revert ds H.
    induction HF as [|x b l m (y & -> & <-) Hl IH]; intros ds H; inversion H; subst; constructor.
    + now apply goto_branch.
    + now apply IH.
Qed.

(* Gosub *)
Lemma gosub_prio_plain p w : ~ In (Ch 40) (elems p) -> gosub_prio p w = ([], Ok (SlTok p)).
Proof.
  intros H. unfold gosub_prio. destruct (cut_first 40 (items p)) as [[a b]|] eqn:E; [|easy].
  apply cut_first_some in E as (x & E & Ex & _); [|apply items_Item]. exfalso. apply H. unfold elems.
  rewrite E, map_app. apply in_app_iff. right. left. easy.
Qed.

Lemma gosub_dest_ok name b args w : Forall2 Canon args (map elems args) -> args <> [] -> (length args <= 3)%nat -> ~ In (Ch 40) (last (map elems args) []) ->
  exists d, gosub_dest name b args w = ([], Ok d) /\ Padded (map elems args) d.
Proof.
  intros Hc Hn Hl Hp. rewrite Forall2_map_r, Forall2_diag in Hc. rewrite Forall_forall in Hc.
  destruct args as [|x [|y [|z [|? ?]]]]; [easy| | | |cbn in Hl; lia]; cbn [map last] in Hp;
    unfold gosub_dest; cbn [length Nat.ltb Nat.leb mbind mret app pad3 map repeat Nat.sub];
    rewrite (gosub_prio_plain _ _ Hp); eexists; (split; [reflexivity|]); constructor; apply Hc; cbn; auto.
Qed.

Lemma gosub_exact nested a data w : a_kind a = AGosub ->
  snd (app_call U FT nested a data w) <> Hang /\
  (forall ds, snd (app_call U FT nested a data w) = Ok ds -> exists d, ds = [d]) /\
  (forall ds args, snd (app_call U FT nested a data w) = Ok ds -> Separated 44 (elems data) args ->
     (length args <= 3)%nat -> ~ In (Ch 40) (last args []) -> exists d, ds = [d] /\ Padded args d).
Proof.
  intros Ek.
  assert (Hone : forall ds, snd (app_call U FT nested a data w) = Ok ds -> exists l d, ds = [d] /\
       gosub_dest (a_name a) true (separate_args (SlTok data) 44 false) w = (l, Ok d)).
  { intros ds H. destruct (app_call U FT nested a data w) as [l r] eqn:E. cbn in H. subst r.
    unfold app_call in E. rewrite Ek in E. apply mbind_ok in E as (l1 & args & l2 & E1 & E2 & ->).
    mku E1 as E3 E4. unfold mret in E4. injection E4 as _ <-. mku E2 as E5 E6.
    apply mbind_ok in E6 as (l5 & d & l6 & E7 & E8 & ->). unfold mret in E8. injection E8 as _ <-. now exists l5, d. }
  split; [|split].
  - apply nh_app_call; rewrite Ek; discriminate.
  - intros ds H. destruct (Hone ds H) as (l & d & -> & _). now exists d.
  - intros ds args H HS Hl Hp. destruct (Hone ds H) as (l & d & -> & E). exists d. split; [easy|].
    assert (HS' : Separated 44 (elems data) (map elems (separate_args (SlTok data) 44 false)))
      by (apply separate_Separated, delim_ok; cbn; auto).
    rewrite (Separated_fun _ _ _ _ HS HS') in *. rewrite map_length in Hl.
    destruct (gosub_dest_ok (a_name a) true _ w (separate_canon _ _ _) (separate_ne (SlTok data) 44 false) Hl Hp) as (d' & E' & Hd).
    congruence.
Qed.

Lemma gosubif_ends nested a data w : a_kind a = AGosubIf -> snd (app_call U FT nested a data w) <> Hang.
Proof. intros Ek. apply nh_app_call; rewrite Ek; discriminate. Qed.
Lemma ifstyle_ends nested a data w : a_kind a = AIfStyle -> snd (app_call U FT nested a data w) <> Hang.
Proof. intros Ek. apply nh_app_call; rewrite Ek; discriminate. Qed.

Lemma mmap_ok_len {A B} (f : A -> M B) l : forall ys, snd (mmap f l) = Ok ys -> length ys = length l.
Proof.
  induction l as [|x l IH]; intros ys; cbn [mmap].
  - now intros [= <-].
  - destruct (f x) as [l1 [y|e|]]; cbn; try easy.
    destruct (mmap f l) as [l2 [zs|e|]]; cbn in *; try easy. intros [= <-]. cbn. f_equal. now apply IH.
Qed.
Lemma gosubif_triples nested a data w ds bs : a_kind a = AGosubIf -> snd (app_call U FT nested a data w) = Ok ds ->
  Branches (elems data) bs -> length ds = length bs.
Proof.
  intros Ek H HB. unfold app_call in H. rewrite Ek in H.
  destruct (varcond_args (a_name a) data w) as [l [[[c t] f]|e|]] eqn:E; cbn [mbind snd] in H; try easy.
  apply varcond_ok in E. destruct E as [(bs' & HB' & HF)|(HN & _)]; [|now apply HN in HB].
  rewrite (Branches_fun _ _ _ HB HB'). apply mmap_ok_len in H. rewrite H. clear - HF. induction HF; cbn; congruence.
Qed.
End Ends.
