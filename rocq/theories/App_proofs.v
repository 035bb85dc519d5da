(* Proofs about argument separation: C24, C25. *)
From Coq Require Import ZifyBool ZifyN ZifyNat.
From Verif Require Import Base PyStr Defines Var VarFun AppM Spec_Var Spec_App Var_proofs VarFun_proofs
  Round_proofs.

(* ---- the machine on elements ---- *)

Record sst := St { s_b : nat; s_p : nat; s_q : bool; s_sk : bool }.
Definition st0 : sst := St 0 0 false false.

Definition stp (d : N) (s : sst) (c : N) : sst :=
  let '(St b p q sk) := s in
  if sk then St b p q false
  else if c =? 91 then St (S b) p q false
  else if c =? 93 then St (pred b) p q false
  else if c =? 40 then St b (S p) q false
  else if c =? 41 then St b (pred p) q false
  else if (c =? 34) && negb (d =? 34) then St b p (negb q) false
  else if c =? 92 then St b p q true
  else St b p q false.

Definition top_st (s : sst) : bool :=
  Nat.eqb (s_b s) 0 && Nat.eqb (s_p s) 0 && negb (s_q s) && negb (s_sk s).

Definition removed (d : N) (s : sst) (c : N) : bool :=
  negb (s_sk s) && (((c =? 34) && negb (d =? 34)) || (c =? 92)).

Definition okd (d : N) : bool := negb (existsb (N.eqb d) (L "[]()\")).
Lemma okd_iff d : okd d = true <-> DelimOk d.
Proof.
  unfold okd, DelimOk. rewrite Bool.negb_true_iff, <- Bool.not_true_iff_false, existsb_exists. split; intros H G; apply H.
  - exists d. split; [easy|apply N.eqb_refl].
  - destruct G as (x & Hx & E). apply N.eqb_eq in E. now subst.
Qed.

Fixpoint esep (d : N) (rm : bool) (s : sst) (cur l : list elem) : list (list elem) :=
  match l with
  | [] => [cur]
  | Va t :: r => esep d rm s (cur ++ [Va t]) r
  | Ch c :: r =>
    if top_st s && ((c =? d) && okd d) then cur :: esep d rm s [] r
    else esep d rm (stp d s c) (if rm && removed d s c then cur else cur ++ [Ch c]) r
  end.

(* ---- from the model to the machine ---- *)

Lemma item_cases x : Item x -> (exists c, x = TS [c] /\ is_var x = false) \/ (Named x /\ is_var x = true).
Proof. intros [c|t H]; [left; eauto|right]. split; [easy|]. now destruct H. Qed.

Lemma isc_char a c : tok_isc (TS [a]) c = (a =? c).
Proof. unfold tok_isc, tok_is. cbn. now rewrite Bool.andb_true_r. Qed.

Lemma sep_esep t d rm l : forall b p q sk cur pend,
  (forall x, In x (rev pend ++ l) -> In x (items t)) ->
  map (flat_map elems) (sep (SlTok t) d rm b p q sk cur pend l) =
  esep d rm (St b p q sk) (flat_map elems cur ++ map el (rev pend)) (map el l).
Proof.
  induction l as [|x l IH]; intros b p q sk cur pend Hin.
  - cbn [sep map esep]. rewrite flat_map_app. cbn [seq_slice]. rewrite slice_elems; [easy|].
    intros y Hy. apply Hin. now rewrite app_nil_r.
  - assert (Ix : Item x).
    { pose proof (items_Item t) as H. rewrite Forall_forall in H. apply H, Hin. apply in_app_iff. right. now left. }
    assert (Hk : forall b p q sk, map (flat_map elems) (sep (SlTok t) d rm b p q sk cur (x :: pend) l) =
        esep d rm (St b p q sk) ((flat_map elems cur ++ map el (rev pend)) ++ [el x]) (map el l)).
    { intros. rewrite IH.
      - cbn [rev]. now rewrite map_app, app_assoc.
      - intros y Hy. apply Hin. cbn [rev] in Hy. rewrite !in_app_iff in *. cbn in *. tauto. }
    assert (Hfl : flat_map elems (cur ++ seq_slice (SlTok t) (rev pend)) = flat_map elems cur ++ map el (rev pend)).
    { rewrite flat_map_app. cbn [seq_slice]. rewrite slice_elems; [easy|].
      intros y Hy. apply Hin. rewrite in_app_iff. now left. }
    assert (Hf : forall b p q sk, map (flat_map elems) (sep (SlTok t) d rm b p q sk (cur ++ seq_slice (SlTok t) (rev pend)) [] l) =
        esep d rm (St b p q sk) (flat_map elems cur ++ map el (rev pend)) (map el l)).
    { intros. rewrite IH.
      - cbn [rev map]. rewrite app_nil_r. now rewrite Hfl.
      - intros y Hy. apply Hin. cbn in Hy. rewrite in_app_iff. right. now right. }
    assert (Hn : forall b p q sk, map (flat_map elems) (sep (SlTok t) d rm b p q sk [] [] l) =
        esep d rm (St b p q sk) [] (map el l)).
    { intros. rewrite IH; [easy|]. intros y Hy. apply Hin. cbn in Hy. rewrite in_app_iff. right. now right. }
    cbn [sep map]. destruct (item_cases x Ix) as [(c & -> & ->)|(Hnm & ->)].
    + cbn [el]. cbn [esep]. change (el (TS [c])) with (Ch c) in Hk.
      rewrite !isc_char. unfold top_st, stp, removed. cbn [s_b s_p s_q s_sk].
      destruct sk; cbn [negb andb].
      { rewrite !Bool.andb_false_r. cbn [andb]. apply Hk. }
      rewrite !Bool.andb_true_r.
      assert (Hne : forall k, In k (L "[]()\") -> c =? k = true -> (c =? d) && okd d = false).
      { intros k Hkd E. apply N.eqb_eq in E. subst c. destruct (N.eqb_spec k d) as [->|]; [|easy].
        apply Bool.not_true_iff_false. cbn [andb]. rewrite okd_iff. intros H. now apply H. }
      destruct (c =? 91) eqn:E1.
      { rewrite (Hne 91), Bool.andb_false_r by (auto; cbn; auto 10). apply N.eqb_eq in E1. subst c.
        replace (rm && _) with false by (destruct rm; reflexivity). apply Hk. }
      destruct (c =? 93) eqn:E2.
      { rewrite (Hne 93), Bool.andb_false_r by (auto; cbn; auto 10). apply N.eqb_eq in E2. subst c.
        replace (rm && _) with false by (destruct rm; reflexivity). apply Hk. }
      destruct (c =? 40) eqn:E3.
      { rewrite (Hne 40), Bool.andb_false_r by (auto; cbn; auto 10). apply N.eqb_eq in E3. subst c.
        replace (rm && _) with false by (destruct rm; reflexivity). apply Hk. }
      destruct (c =? 41) eqn:E4.
      { rewrite (Hne 41), Bool.andb_false_r by (auto; cbn; auto 10). apply N.eqb_eq in E4. subst c.
        replace (rm && _) with false by (destruct rm; reflexivity). apply Hk. }
      destruct ((c =? 34) && negb (d =? 34)) eqn:E5.
      { assert (c =? d = false) as ->.
        { apply Bool.andb_true_iff in E5 as [E E']. apply N.eqb_eq in E. subst c.
          rewrite N.eqb_sym. now destruct (d =? 34). }
        rewrite Bool.andb_false_r. destruct rm; cbn [andb orb]; [apply Hf|apply Hk]. }
      destruct (c =? 92) eqn:E6.
      { rewrite (Hne 92), Bool.andb_false_r by (auto; cbn; auto 10). destruct rm; cbn [andb orb]; [apply Hf|apply Hk]. }
      cbn [orb]. rewrite Bool.andb_false_r.
      replace ((c =? d) && okd d) with (c =? d).
      2:{ destruct (N.eqb_spec c d) as [<-|]; [|easy]. cbn [andb]. symmetry. apply okd_iff. unfold DelimOk. change (L "[]()\") with [91;93;40;41;92]%N. cbn [In].
          apply N.eqb_neq in E1, E2, E3, E4, E6. intros [H|[H|[H|[H|[H|[]]]]]]; congruence. }
      replace ((c =? d) && (b =? 0)%nat && (p =? 0)%nat && negb q)
        with ((b =? 0)%nat && (p =? 0)%nat && negb q && (c =? d)) by
        (destruct (c =? d), (b =? 0)%nat, (p =? 0)%nat, q; reflexivity).
      destruct ((b =? 0)%nat && (p =? 0)%nat && negb q && (c =? d)) eqn:E7.
      * cbn [map]. rewrite Hfl. f_equal. rewrite Hn. reflexivity.
      * apply Hk.
    + rewrite Hk. rewrite (named_el x Hnm). reflexivity.
Qed.

Lemma squash_elems ls : elems (squash ls) = flat_map elems ls.
Proof.
  unfold squash. pose proof (strjoin_elems ls None) as H. cbn [app] in H. unfold strjoin.
  destruct (strjoin_from None ls) as [|x [|y r]]; rewrite <- H.
  - reflexivity.
  - cbn. now rewrite app_nil_r.
  - apply vjoin_elems.
Qed.

Lemma separate_esep t d rm :
  map elems (separate_args (SlTok t) d rm) = esep d rm st0 [] (elems t).
Proof.
  unfold separate_args. rewrite map_map.
  rewrite (map_ext _ (flat_map elems)) by apply squash_elems.
  cbn [sl_items]. rewrite sep_esep; [reflexivity|]. cbn. easy.
Qed.

(* ---- states and their meaning ---- *)

Definition st_run (d : N) (s : sst) (l : str) : sst := fold_left (stp d) l s.

Lemma escaping_inv s : Escaping s -> exists a n, s = a ++ repeat 92 (S (2 * n)) /\ forall b, a <> b ++ [92].
Proof. intros []. eauto. Qed.

Lemma escaping_snoc s c : Escaping (s ++ [c]) <-> c = 92 /\ ~ Escaping s.
Proof.
  assert (Hr : forall n, repeat 92 n ++ [92] = repeat 92 (S n)).
  { intros n. now rewrite <- (repeat_cons n 92). }
  assert (Hcan : forall s, exists a n, s = a ++ repeat 92 n /\ forall b, a <> b ++ [92]).
  { clear s. intros s. induction s as [|x s IH] using rev_ind.
    - exists [], O. split; [easy|]. now intros [].
    - destruct (N.eq_dec x 92) as [->|Hx].
      + destruct IH as (a & n & -> & Ha). exists a, (S n). split; [|easy]. now rewrite <- app_assoc, Hr.
      + exists (s ++ [x]), O. split; [now rewrite app_nil_r|]. intros b Hb.
        apply app_inj_tail in Hb. now destruct Hb. }
  assert (Huniq : forall n m a b, a ++ repeat 92 n = b ++ repeat 92 m ->
            (forall x, a <> x ++ [92]) -> (forall x, b <> x ++ [92]) -> n = m).
  { intros n. induction n as [|n IHn]; intros m a b E Ha Hb.
    - destruct m as [|m]; [easy|]. rewrite <- Hr, app_assoc in E. cbn in E. rewrite app_nil_r in E.
      now apply Ha in E.
    - destruct m as [|m].
      + rewrite <- Hr, app_assoc in E. cbn in E. rewrite app_nil_r in E. symmetry in E. now apply Hb in E.
      + rewrite <- !Hr, !app_assoc in E. apply app_inj_tail in E as [E _]. f_equal. eapply IHn; eassumption. }
  split.
  - intros H. apply escaping_inv in H as (a & n & E & Ha). rewrite <- Hr, app_assoc in E. apply app_inj_tail in E as [E E'].
    split; [easy|]. intros H'. apply escaping_inv in H' as (a' & n' & E2 & Ha'). rewrite E2 in E.
    apply Huniq in E; auto. lia.
  - intros [-> Hn]. destruct (Hcan s) as (a & n & -> & Ha).
    destruct (Nat.Even_or_Odd n) as [[k Hk]|[k Hk]].
    + rewrite <- app_assoc, Hr, Hk. now constructor.
    + exfalso. apply Hn. replace n with (S (2 * k)) by lia. now constructor.
Qed.

Lemma st_run_snoc d s l c : st_run d s (l ++ [c]) = stp d (st_run d s l) c.
Proof. unfold st_run. now rewrite fold_left_app. Qed.

Lemma stp_sk d s c : s_sk (stp d s c) = negb (s_sk s) && (c =? 92).
Proof.
  destruct s as [b p q sk]. cbn. destruct sk; [easy|].
  destruct (N.eqb_spec c 92) as [->|Hc]; cbn; [easy|].
  repeat match goal with |- context [if ?x then _ else _] => destruct x end; easy.
Qed.

Lemma sk_escaping d s : DelimOk d -> s_sk (st_run d st0 s) = true <-> Escaping s.
Proof.
  intros Hd. induction s as [|c s IH] using rev_ind.
  - split; [easy|]. intros H. inversion H. destruct a; cbn in *; discriminate.
  - rewrite escaping_snoc, <- IH, st_run_snoc, stp_sk.
    destruct (s_sk (st_run d st0 s)), (N.eqb_spec c 92); cbn; intuition congruence.
Qed.

(* the depth of a kind of brackets after a text *)
Definition DepthIs (o c : N) (a : str) (n : nat) : Prop :=
  (forall x y, a = x ++ y -> (count o y <= count c y + n)%nat) /\
  (exists x y, a = x ++ y /\ count o y = (count c y + n)%nat).

Lemma depth_open o c a : DepthIs o c a 0 <-> ~ OpenBracket o c a.
Proof.
  split.
  - intros [H _] (x & y & E & Hlt). specialize (H x y E). lia.
  - intros H. split.
    + intros x y E. destruct (Nat.le_gt_cases (count o y) (count c y)) as [?|G]; [lia|].
      exfalso. apply H. now exists x, y.
    + exists a, []. now rewrite app_nil_r.
Qed.

Lemma snoc_split {A} (a x y : list A) e : a ++ [e] = x ++ y ->
  (y = [] /\ x = a ++ [e]) \/ exists y', y = y' ++ [e] /\ a = x ++ y'.
Proof.
  intros E. destruct y as [|z y _] using rev_ind; [left; split; [easy|]; now rewrite app_nil_r in E|].
  right. rewrite app_assoc in E. apply app_inj_tail in E as [-> ->]. now exists y.
Qed.

Lemma count1 o e : count o [e] = if (o =? e)%N then 1%nat else 0%nat.
Proof. unfold count. cbn. now destruct (o =? e). Qed.

Lemma depth_snoc o c a n e : o <> c -> DepthIs o c a n ->
  DepthIs o c (a ++ [e]) (if e =? o then S n else if e =? c then pred n else n).
Proof.
  intros Hne [H1 (x & y & E & H2)]. split.
  - intros x' y' E'. apply snoc_split in E' as [[-> ->]|(y'' & -> & Ea)].
    + cbn. lia.
    + specialize (H1 _ _ Ea). rewrite !count_app, !count1.
      destruct (N.eqb_spec e o), (N.eqb_spec e c), (N.eqb_spec o e), (N.eqb_spec c e); try congruence; lia.
  - destruct (N.eqb_spec e o) as [->|Heo].
    { exists x, (y ++ [o]). rewrite E, app_assoc. split; [easy|]. rewrite !count_app, !count1.
      rewrite N.eqb_refl. destruct (N.eqb_spec c o); [congruence|]. lia. }
    destruct (N.eqb_spec e c) as [->|Hec].
    + destruct n as [|n].
      * exists (a ++ [c]), []. split; [now rewrite app_nil_r|easy].
      * exists x, (y ++ [c]). rewrite E, app_assoc. split; [easy|]. rewrite !count_app, !count1.
        rewrite N.eqb_refl. destruct (N.eqb_spec o c); [congruence|]. cbn [pred]. lia.
    + exists x, (y ++ [e]). rewrite E, app_assoc. split; [easy|]. rewrite !count_app, !count1.
      destruct (N.eqb_spec c e), (N.eqb_spec o e); try congruence. lia.
Qed.

Lemma depth_fun o c a n m : DepthIs o c a n -> DepthIs o c a m -> n = m.
Proof.
  intros [H1 (x & y & E & H2)] [H3 (x' & y' & E' & H4)].
  pose proof (H1 _ _ E'). pose proof (H3 _ _ E). lia.
Qed.

Lemma st_active d s : DelimOk d -> exists a, Active s a /\
  let st := st_run d st0 s in
  DepthIs 91 93 a (s_b st) /\ DepthIs 40 41 a (s_p st) /\
  (d <> 34 -> s_q st = Nat.odd (count 34 a)) /\ (d = 34 -> s_q st = false).
Proof.
  intros Hd.
  induction s as [|c s (a & Ha & IH)] using rev_ind.
  - exists []. split; [constructor|]. cbn. split; [|split; [|easy]].
    + split; [intros [|? ?] [|? ?] E; try discriminate; cbn; lia|]. now exists [], [].
    + split; [intros [|? ?] [|? ?] E; try discriminate; cbn; lia|]. now exists [], [].
  - pose proof (sk_escaping d s Hd) as Hsk. rewrite st_run_snoc. destruct (st_run d st0 s) as [b p q sk].
    cbn in IH, Hsk. destruct IH as (Hb & Hp & Hq & Hq'). destruct sk.
    + exists a. split; [apply Ac_skip; tauto|]. cbn. tauto.
    + exists (a ++ [c]). split; [apply Ac_keep; [easy|]; intros H; now apply Hsk in H|].
      assert (N1 : (91 <> 93)%N) by lia. assert (N2 : (40 <> 41)%N) by lia.
      pose proof (depth_snoc 91 93 a b c N1 Hb) as Gb. pose proof (depth_snoc 40 41 a p c N2 Hp) as Gp.
      cbn [stp]. unfold count in *. rewrite filter_app, app_length. cbn [filter].
      destruct (N.eqb_spec c 91) as [->|C1].
      { cbn in *. rewrite Nat.add_0_r. tauto. }
      destruct (N.eqb_spec c 93) as [->|C2].
      { cbn in *. rewrite Nat.add_0_r. tauto. }
      destruct (N.eqb_spec c 40) as [->|C3].
      { cbn in *. rewrite Nat.add_0_r. tauto. }
      destruct (N.eqb_spec c 41) as [->|C4].
      { cbn in *. rewrite Nat.add_0_r. tauto. }
      destruct (N.eqb_spec c 34) as [->|C5]; [destruct (N.eqb_spec d 34) as [->|C6]|].
      * cbn in *. tauto.
      * cbn in *. repeat split; try tauto; try apply Gb; try apply Gp.
        intros _. rewrite Nat.add_1_r, Nat.odd_succ, <- Nat.negb_odd, <- Hq by easy. easy.
      * cbn [andb]. assert ((34 =? c)%N = false) as -> by now apply N.eqb_neq; auto.
        cbn [length]. rewrite Nat.add_0_r. destruct (c =? 92); cbn; tauto.
Qed.

Lemma active_fun s a : Active s a -> forall b, Active s b -> a = b.
Proof.
  induction 1 as [|s c a H IH Hn|s c a H IH Hn]; intros b Hb; inversion Hb as [E|s' c' b' H' Hn' E|s' c' b' H' Hn' E].
  - easy.
  - now destruct s'.
  - now destruct s'.
  - now destruct s.
  - apply app_inj_tail in E as [-> ->]. f_equal. now apply IH.
  - apply app_inj_tail in E as [-> ->]. contradiction.
  - now destruct s.
  - apply app_inj_tail in E as [-> ->]. contradiction.
  - apply app_inj_tail in E as [-> ->]. now apply IH.
Qed.

Lemma top_spec d p : DelimOk d -> top_st (st_run d st0 (chars_of p)) = true <-> TopLevel d p.
Proof.
  intros Hd. destruct (st_active d (chars_of p) Hd) as (a & Ha & Hb & Hp & Hq & Hq').
  pose proof (sk_escaping d (chars_of p) Hd) as Hsk. unfold TopLevel, top_st, OpenQuote.
  destruct (st_run d st0 (chars_of p)) as [b q qq sk]. cbn in *.
  assert (Hall : (forall a0, Active (chars_of p) a0 ->
       ~ OpenBracket 91 93 a0 /\ ~ OpenBracket 40 41 a0 /\ (d <> 34 -> Nat.odd (count 34 a0) <> true)) <->
       (~ OpenBracket 91 93 a /\ ~ OpenBracket 40 41 a /\ (d <> 34 -> Nat.odd (count 34 a) <> true))).
  { split; [intros H; now apply H|]. intros H a0 H0. now rewrite <- (active_fun _ _ Ha _ H0). }
  pose proof (depth_open 91 93 a) as O1. pose proof (depth_open 40 41 a) as O2.
  assert (B0 : b = O <-> DepthIs 91 93 a 0) by (split; [now intros ->|intros H; eapply depth_fun; eassumption]).
  assert (P0 : q = O <-> DepthIs 40 41 a 0) by (split; [now intros ->|intros H; eapply depth_fun; eassumption]).
  rewrite !Bool.andb_true_iff, !Nat.eqb_eq, !Bool.negb_true_iff.
  split.
  - intros [[[-> ->] E] ->]. split; [rewrite <- Hsk; easy|]. apply Hall. split; [tauto|]. split; [tauto|].
    intros Hne. rewrite <- Hq by easy. now rewrite E.
  - intros [H1 H2]. apply Hall in H2 as (H2 & H3 & H4). split; [split; [split; [tauto|tauto]|]|].
    + destruct (N.eq_dec d 34) as [E|E]; [auto|]. rewrite Hq by easy. specialize (H4 E).
      destruct (Nat.odd (count 34 a)); congruence.
    + destruct sk; tauto.
Qed.

(* ---- raw separation ---- *)

Lemma stp_delim d s : DelimOk d -> top_st s = true -> stp d s d = s.
Proof.
  intros Hd. destruct s as [b p q sk]. unfold top_st. cbn [s_b s_p s_q s_sk stp].
  rewrite !Bool.andb_true_iff. intros [_ Hsk]. destruct sk; [easy|].
  unfold DelimOk in Hd. cbn in Hd.
  repeat match goal with |- context [d =? ?k] => destruct (N.eqb_spec d k); subst; cbn; try tauto end;
    try (exfalso; apply Hd; auto 10; fail); easy.
Qed.

Lemma esep_head d s l : forall cur, exists x ys, esep d false s cur l = (cur ++ x) :: ys.
Proof.
  revert s. induction l as [|[c|t] l IH]; intros s cur; cbn [esep].
  - exists [], []. now rewrite app_nil_r.
  - destruct (top_st s && ((c =? d) && okd d)).
    + exists []. eexists. now rewrite app_nil_r.
    + cbn [andb]. destruct (IH (stp d s c) (cur ++ [Ch c])) as (x & ys & ->).
      exists (Ch c :: x), ys. now rewrite <- app_assoc.
  - destruct (IH s (cur ++ [Va t])) as (x & ys & ->). exists (Va t :: x), ys. now rewrite <- app_assoc.
Qed.

Lemma glue_cons d x ys : ys <> [] -> glue d (x :: ys) = x ++ Ch d :: glue d ys.
Proof. now destruct ys. Qed.

Lemma esep_glue d l : forall s cur, glue d (esep d false s cur l) = cur ++ l.
Proof.
  induction l as [|[c|t] l IH]; intros s cur; cbn [esep].
  - cbn. now rewrite app_nil_r.
  - destruct (top_st s && ((c =? d) && okd d)) eqn:E.
    + apply Bool.andb_true_iff in E as [_ E]. apply Bool.andb_true_iff in E as [E _].
      apply N.eqb_eq in E. subst c. rewrite glue_cons; [now rewrite IH|]. destruct (esep_head d s l []) as (x & ys & ->). easy.
    + cbn [andb]. rewrite IH, <- app_assoc. easy.
  - rewrite IH, <- app_assoc. easy.
Qed.

Definition Cuts (d : N) (rs : list (list elem)) (p : list elem) : Prop :=
  exists a b, a <> [] /\ b <> [] /\ rs = a ++ b /\ p = glue d a.

Lemma glue_len d x a : (length x <= length (glue d (x :: a)))%nat.
Proof. destruct a; cbn; [easy|]. rewrite app_length. cbn. lia. Qed.

Lemma esep_cuts d (Hd : DelimOk d) l : forall s cur p r, l = p ++ Ch d :: r ->
  (top_st (st_run d s (chars_of p)) = true <-> Cuts d (esep d false s cur l) (cur ++ p)).
Proof.
  induction l as [|e l IH]; intros s cur p r E; [now destruct p|].
  assert (Hno : forall s' cur', (length cur < length cur')%nat ->
            ~ Cuts d (esep d false s' cur' l) cur).
  { intros s' cur' Hlt (a & b & Ha & Hb & Er & Ec).
    destruct (esep_head d s' l cur') as (x & ys & Eh). rewrite Eh in Er.
    destruct a as [|a0 a]; [easy|]. injection Er as <- ->.
    pose proof (glue_len d (cur' ++ x) a) as G. rewrite <- Ec, app_length in G. lia. }
  assert (Hgo : forall s' cur' p', length cur' = S (length cur) -> p = e :: p' -> cur ++ p = cur' ++ p' ->
            st_run d s (chars_of p) = st_run d s' (chars_of p') ->
            (top_st (st_run d s (chars_of p)) = true <-> Cuts d (esep d false s' cur' l) (cur ++ p))).
  { intros s' cur' p' Hlen Ep E1 E2. subst p. injection E as E. rewrite E1, E2. now apply (IH s' cur' p' r). }
  destruct e as [c|t]; cbn [esep].
  - destruct (top_st s && ((c =? d) && okd d)) eqn:Et.
    + apply Bool.andb_true_iff in Et as [Et Ec]. apply Bool.andb_true_iff in Ec as [Ec _].
      apply N.eqb_eq in Ec. subst c. destruct p as [|p0 p].
      * cbn. split; [|easy]. intros _. exists [cur]. eexists. repeat split; try easy.
        -- destruct (esep_head d s l []) as (x & ys & ->). easy.
        -- cbn. now rewrite app_nil_r.
      * injection E as <- E. change (chars_of (Ch d :: p)) with (d :: chars_of p).
        change (st_run d s (d :: chars_of p)) with (st_run d (stp d s d) (chars_of p)).
        rewrite stp_delim by easy. rewrite (IH s [] p r E). cbn [app].
        split; intros (a & b & Ha & Hb & Er & Ep).
        -- exists (cur :: a), b. repeat split; try easy; [now rewrite Er|]. rewrite glue_cons by easy. now rewrite Ep.
        -- destruct a as [|a0 a]; [easy|]. injection Er as <- Er. exists a, b.
           destruct a as [|a1 a].
           { exfalso. cbn in Ep. rewrite <- (app_nil_r cur) in Ep at 2. apply app_inv_head in Ep. discriminate. }
           repeat split; try easy. rewrite glue_cons in Ep by easy. apply app_inv_head in Ep. now injection Ep.
    + cbn [andb]. destruct p as [|p0 p].
      * injection E as -> _. rewrite N.eqb_refl, (proj2 (okd_iff d) Hd), Bool.andb_true_r in Et. cbn. rewrite Et.
        split; [easy|]. rewrite app_nil_r. intros H. exfalso. revert H. apply Hno. rewrite app_length. cbn. lia.
      * injection E as <- E. apply (Hgo _ _ p).
        -- rewrite app_length. cbn. lia.
        -- easy.
        -- now rewrite <- app_assoc.
        -- easy.
  - destruct p as [|p0 p]; [discriminate|]. injection E as <- E. apply (Hgo _ _ p).
    + rewrite app_length. cbn. lia.
    + easy.
    + now rewrite <- app_assoc.
    + easy.
Qed.

Lemma separate_Separated t d : DelimOk d ->
  Separated d (elems t) (map elems (separate_args (SlTok t) d false)).
Proof.
  intros Hd. rewrite separate_esep. split; [|split].
  - destruct (esep_head d st0 (elems t) []) as (x & ys & ->). easy.
  - apply esep_glue.
  - intros p s E. rewrite <- top_spec by easy. apply (esep_cuts d Hd _ st0 [] p s E).
Qed.

Lemma Cuts_fun d : forall args args', args <> [] -> args' <> [] -> glue d args = glue d args' ->
  (forall p s, glue d args = p ++ Ch d :: s -> (Cuts d args p <-> Cuts d args' p)) -> args = args'.
Proof.
  assert (Hcut1 : forall x ys, ys <> [] -> Cuts d (x :: ys) x).
  { intros x ys H. exists [x], ys. now repeat split. }
  assert (Hone : forall x p, ~ Cuts d [x] p).
  { intros x p (a & b & Ha & Hb & E & _). destruct a as [|? [|? ?]]; try easy. now injection E as _ <-. }
  induction args as [|x xs IH]; intros args' H1 H2 Eg Hc; [easy|].
  destruct args' as [|y ys]; [easy|].
  destruct xs as [|x2 xs].
  - destruct ys as [|y2 ys]; [cbn in Eg; now subst|]. exfalso. apply (Hone x y).
    apply (Hc y (glue d (y2 :: ys))); [|now apply Hcut1]. rewrite Eg. now rewrite glue_cons.
  - destruct ys as [|y2 ys].
    { exfalso. apply (Hone y x). apply (Hc x (glue d (x2 :: xs))); [|now apply Hcut1]. now rewrite glue_cons. }
    assert (Hxy : x = y).
    { assert (Gx : Cuts d (y :: y2 :: ys) x).
      { apply (Hc x (glue d (x2 :: xs))); [now rewrite glue_cons|now apply Hcut1]. }
      assert (Gy : Cuts d (x :: x2 :: xs) y).
      { apply (Hc y (glue d (y2 :: ys))); [rewrite Eg; now rewrite glue_cons|now apply Hcut1]. }
      assert (Lx : (length y <= length x)%nat).
      { destruct Gx as ([|a0 a] & b & Ha & _ & E & Ex); [easy|]. injection E as <- _. rewrite Ex. apply glue_len. }
      assert (Ly : (length x <= length y)%nat).
      { destruct Gy as ([|a0 a] & b & Ha & _ & E & Ex); [easy|]. injection E as <- _. rewrite Ex. apply glue_len. }
      rewrite !glue_cons in Eg by easy.
      assert (E : firstn (length x) (x ++ Ch d :: glue d (x2 :: xs)) = firstn (length x) (y ++ Ch d :: glue d (y2 :: ys)))
        by now rewrite Eg.
      rewrite firstn_app, firstn_all, Nat.sub_diag in E. cbn in E. rewrite app_nil_r in E.
      rewrite firstn_app in E. replace (length x - length y)%nat with O in E by lia. cbn in E. rewrite app_nil_r in E.
      rewrite E. now rewrite firstn_all2 by lia. }
    subst y. f_equal.
    assert (Hshift : forall (u v : list elem) us p, us <> [] -> Cuts d us p <-> Cuts d (u :: us) (u ++ Ch d :: p)).
    { intros u _ us p Hus. split; intros (a & b & Ha & Hb & E & Ep).
      - exists (u :: a), b. repeat split; try easy; [now rewrite E|]. rewrite glue_cons by easy. now rewrite Ep.
      - destruct a as [|a0 [|a1 a]]; [easy| |].
        + exfalso. injection E as <- E. cbn in Ep.
          assert (G : length (u ++ Ch d :: p) = length u) by now rewrite Ep. rewrite app_length in G. cbn in G. lia.
        + injection E as <- E. exists (a1 :: a), b. repeat split; try easy. rewrite glue_cons in Ep by easy.
          apply app_inv_head in Ep. now injection Ep. }
    apply IH; try easy.
    + rewrite !glue_cons in Eg by easy. apply app_inv_head in Eg. now injection Eg.
    + intros p s E. rewrite (Hshift x x (x2 :: xs)), (Hshift x x (y2 :: ys)) by easy. apply (Hc _ s).
      rewrite glue_cons by easy. rewrite E. now rewrite <- app_assoc.
Qed.

Lemma Separated_fun d data args args' : Separated d data args -> Separated d data args' -> args = args'.
Proof.
  intros (N1 & G1 & H1) (N2 & G2 & H2). apply (Cuts_fun d); try easy.
  - now rewrite G1, G2.
  - intros p s E. rewrite G1 in E. now rewrite <- (H1 p s E), (H2 p s E).
Qed.

(* ---- quote removal ---- *)

Definition Pre (d : N) (sk : bool) (raw rm : list elem) : Prop :=
  if sk then
    exists r0 m0 vs, raw = r0 ++ Ch 92 :: vs /\ rm = m0 ++ vs /\ Forall is_va vs /\
      forall l m, Unquoted d l m -> Unquoted d (r0 ++ l) (m0 ++ m)
  else forall l m, Unquoted d l m -> Unquoted d (raw ++ l) (rm ++ m).

Lemma esep_unquoted d l : forall s raw rm, Pre d (s_sk s) raw rm ->
  Forall2 (Unquoted d) (esep d false s raw l) (esep d true s rm l).
Proof.
  induction l as [|[c|t] l IH]; intros s raw rm HP; cbn [esep].
  - constructor; [|constructor]. unfold Pre in HP. destruct (s_sk s).
    + destruct HP as (r0 & m0 & vs & -> & -> & Hv & H). apply H. now constructor.
    + specialize (HP [] [] (Uq_nil d)). now rewrite !app_nil_r in HP.
  - destruct (top_st s && ((c =? d) && okd d)) eqn:Et.
    + apply Bool.andb_true_iff in Et as [Et _]. unfold top_st in Et.
      rewrite !Bool.andb_true_iff in Et. destruct Et as [_ Et]. unfold Pre in HP.
      destruct (s_sk s) eqn:Esk; [easy|]. constructor.
      * specialize (HP [] [] (Uq_nil d)). now rewrite !app_nil_r in HP.
      * apply IH. unfold Pre. rewrite Esk. easy.
    + cbn [andb]. apply IH. rewrite stp_sk. unfold removed, Pre in *. destruct (s_sk s) eqn:Esk; cbn [negb andb].
      * destruct HP as (r0 & m0 & vs & -> & -> & Hv & H). intros x m Hx.
        rewrite <- !app_assoc. apply H. cbn [app]. now apply Uq_esc.
      * destruct (N.eqb_spec c 92) as [->|Hc].
        { rewrite Bool.orb_true_r. exists raw, rm, []. rewrite app_nil_r. repeat split; auto. }
        rewrite Bool.orb_false_r.
        destruct ((c =? 34) && negb (d =? 34)) eqn:E.
        -- apply Bool.andb_true_iff in E as [E E2]. apply N.eqb_eq in E. subst c.
           intros x m Hx. rewrite <- app_assoc. apply HP. apply Uq_quote; [|easy].
           intros ->. now rewrite N.eqb_refl in E2.
        -- intros x m Hx. rewrite <- !app_assoc. apply HP. apply Uq_char; [easy| |easy].
           apply Bool.andb_false_iff in E as [E|E]; [left; now apply N.eqb_neq|right].
           apply Bool.negb_false_iff in E. now apply N.eqb_eq in E.
  - apply IH. unfold Pre in *. destruct (s_sk s).
    + destruct HP as (r0 & m0 & vs & -> & -> & Hv & H). exists r0, m0, (vs ++ [Va t]).
      rewrite <- !app_assoc. repeat split; auto. apply Forall_app. split; [easy|]. repeat constructor. now exists t.
    + intros x m Hx. rewrite <- !app_assoc. apply HP. now constructor.
Qed.

Lemma separate_glue t d : glue d (map elems (separate_args (SlTok t) d false)) = elems t.
Proof. rewrite separate_esep. apply esep_glue. Qed.

Lemma separate_unquoted t d :
  Forall2 (Unquoted d) (map elems (separate_args (SlTok t) d false)) (map elems (separate_args (SlTok t) d true)).
Proof. rewrite !separate_esep. now apply esep_unquoted. Qed.

Lemma is_va_split vs c l vs' c' l' : Forall is_va vs -> Forall is_va vs' -> vs ++ Ch c :: l = vs' ++ Ch c' :: l' ->
  vs = vs' /\ c = c' /\ l = l'.
Proof.
  revert vs'. induction vs as [|v vs IH]; intros [|v' vs'] H H' E; cbn in E.
  - now injection E.
  - injection E as <- _. inversion H' as [|? ? [? ?]]; discriminate.
  - injection E as -> _. inversion H as [|? ? [? ?]]; discriminate.
  - injection E as <- E. inversion H. inversion H'. subst. apply IH in E; auto. now destruct E as (-> & -> & ->).
Qed.
Lemma is_va_no vs vs' c l : Forall is_va vs -> vs <> vs' ++ Ch c :: l.
Proof.
  intros H ->. apply Forall_app in H as [_ H]. inversion H as [|? ? [? ?]]. discriminate.
Qed.

Lemma Unquoted_esc_inv d l m : Unquoted d (Ch 92 :: l) m -> 
  (exists vs c r m', Forall is_va vs /\ Unquoted d r m' /\ l = vs ++ Ch c :: r /\ m = vs ++ Ch c :: m') \/
  (Forall is_va l /\ m = l).
Proof.
  intros H. remember (Ch 92 :: l) as z eqn:E. destruct H; try discriminate; injection E as E; subst; try congruence.
  - left. do 4 eexists. eauto.
  - now right.
Qed.

Lemma Unquoted_fun d l m : Unquoted d l m -> forall m', Unquoted d l m' -> m = m'.
Proof.
  induction 1 as [|t l m H IH|l m Hd H IH|c l m Hc Hd H IH|vs c l m Hv H IH|vs Hv]; intros m' H'.
  - now inversion H'.
  - inversion H'; subst. f_equal. now apply IH.
  - inversion H'; subst; [now apply IH|]. exfalso. tauto.
  - inversion H'; subst; try congruence; try (exfalso; tauto). f_equal. now apply IH.
  - apply Unquoted_esc_inv in H' as [(vs' & c' & r & m2 & Hv' & Hr & E & ->)|[Hv' ->]].
    + apply is_va_split in E as (-> & -> & ->); auto. f_equal. f_equal. now apply IH.
    + exfalso. now eapply (is_va_no _ vs c l Hv').
  - apply Unquoted_esc_inv in H' as [(vs' & c' & r & m2 & Hv' & Hr & E & ->)|[Hv' ->]]; [|easy].
    exfalso. now apply (is_va_no _ _ _ _ Hv) in E.
Qed.

(* ---- arguments of a str are strs ---- *)
Definition IsTS (t : tok) : Prop := exists s, t = TS s.

Lemma sep_TS s d rm l : forall b p q sk cur pend,
  Forall IsTS cur -> Forall (Forall IsTS) (sep (SlTok (TS s)) d rm b p q sk cur pend l).
Proof.
  assert (Hsl : forall its, Forall IsTS (sl_items (slice_of (TS s) its))).
  { intros its. cbn. unfold chars. rewrite Forall_map. apply Forall_forall. intros c _. now exists [c]. }
  induction l as [|x l IH]; intros b p q sk cur pend Hc; cbn [sep].
  - constructor; [|constructor]. apply Forall_app. split; [easy|]. apply Hsl.
  - assert (Hf : Forall IsTS (cur ++ seq_slice (SlTok (TS s)) (rev pend))).
    { apply Forall_app. split; [easy|]. apply Hsl. }
    repeat match goal with |- context [if ?x then _ else _] => destruct x end; auto.
Qed.

Lemma strjoin_TS l : Forall IsTS l -> forall c, exists x, strjoin_from c l = match x with Some s => [TS s] | None => [] end.
Proof.
  induction 1 as [|t l [s ->] Hl IH]; intros c; cbn [strjoin_from].
  - now exists c.
  - apply IH.
Qed.

Lemma separate_TS s d rm : Forall IsTS (separate_args (SlTok (TS s)) d rm).
Proof.
  unfold separate_args. rewrite Forall_map. eapply Forall_impl; [|apply sep_TS; constructor].
  intros ls Hl. unfold squash, strjoin. destruct (strjoin_TS ls Hl None) as ([x|] & ->); [now exists x|].
  now exists [].
Qed.
