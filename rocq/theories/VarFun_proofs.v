(* Termination of the variable parser, and C28. *)
From Coq Require Import ZifyBool ZifyN ZifyNat.
From Verif Require Import Base PyStr Defines Var VarFun Spec_Var Var_proofs Balance_proofs.

(* the monad *)
Lemma mbind_ok {A B} (m : M A) (f : A -> M B) l b : mbind m f = (l, Ok b) ->
  exists l1 a l2, m = (l1, Ok a) /\ f a = (l2, Ok b) /\ l = l1 ++ l2.
Proof.
  destruct m as [l1 [a|e|]]; cbn; try easy. intros H. injection H as H1 H2.
  exists l1, a, (fst (f a)). repeat split; [|easy]. rewrite <- H2. now destruct (f a).
Qed.

Lemma mbind_snd_ok {A B} (m : M A) (f : A -> M B) l a : m = (l, Ok a) -> snd (mbind m f) = snd (f a).
Proof. now intros ->. Qed.

Lemma mbind_assoc {A B C} (m : M A) (f : A -> M B) (g : B -> M C) :
  mbind (mbind m f) g = mbind m (fun a => mbind (f a) g).
Proof.
  destruct m as [l [a|e|]]; cbn; [|easy|easy].
  destruct (f a) as [l' [b|e|]]; cbn; try easy. now rewrite app_assoc.
Qed.

Definition NoHang {A} (m : M A) : Prop := snd m <> Hang.

Lemma nohang_bind {A B} (m : M A) (f : A -> M B) :
  NoHang m -> (forall l a, m = (l, Ok a) -> NoHang (f a)) -> NoHang (mbind m f).
Proof.
  unfold NoHang. destruct m as [l [a|e|]]; cbn; intros H1 H2; try easy. now apply (H2 l).
Qed.
Lemma nohang_ret {A} (a : A) : NoHang (mret a). Proof. easy. Qed.
Lemma nohang_exn {A} e : NoHang (@mexn A e). Proof. easy. Qed.
Lemma nohang_log e : NoHang (mlog e). Proof. easy. Qed.
Lemma nohang_lift {A} (r : res A) : r <> Hang -> NoHang (mlift r). Proof. easy. Qed.

Lemma bind_nohang {A B} (r : res A) (f : A -> res B) :
  r <> Hang -> (forall a, f a <> Hang) -> (let! x := r in f x) <> Hang.
Proof. destruct r; cbn; auto. easy. Qed.

Lemma str_of_exn t : forall e, str_of t = Exn e -> e = AttributeError.
Proof.
  assert (onum_exn : forall P : tok -> Prop, True) by easy. clear onum_exn.
  induction t using tok_ind2; intros e He; cbn in He.
  - easy.
  - revert e He. induction H; intros e He; cbn in He; [easy|].
    destruct (str_of x) eqn:Ex; cbn in He; [|injection He as <-; auto|easy].
    match type of He with context [bind ?g _] => destruct g eqn:Eg end; cbn in He; try easy.
    injection He as <-. now apply IHForall.
  - destruct (truthy t); [|congruence]. destruct (str_of t) eqn:E; cbn in He; try easy.
    injection He as <-; auto.
  - destruct (truthy t); [|congruence]. destruct (str_of t) eqn:E; cbn in He; try easy.
    injection He as <-; auto.
  - destruct (str_of t) eqn:E; cbn in He; try easy. injection He as <-; auto.
  - destruct (str_of t) eqn:E; cbn in He; try easy; [|injection He as <-; auto].
    destruct s as [z|v]; cbn in He, H.
    + destruct l as [[y|y]|]; cbn in He, H0; try easy.
      destruct (str_of y) eqn:Ey; cbn in He; try easy. injection He as <-; auto.
    + destruct (str_of v) eqn:Ev; cbn in He; try easy; [|injection He as <-; auto].
      destruct l as [[y|y]|]; cbn in He, H0; try easy.
      destruct (str_of y) eqn:Ey; cbn in He; try easy. injection He as <-; auto.
  - destruct (str_of t) eqn:E; cbn in He; try easy. injection He as <-; auto.
  - destruct (str_of t) eqn:E; cbn in He; try easy; [|injection He as <-; auto].
    destruct s as [z|v]; cbn in He, H.
    + destruct l as [[y|y]|]; cbn in He, H0; try easy.
      destruct (str_of y) eqn:Ey; cbn in He; try easy. injection He as <-; auto.
    + destruct (str_of v) eqn:Ev; cbn in He; try easy; [|injection He as <-; auto].
      destruct l as [[y|y]|]; cbn in He, H0; try easy.
      destruct (str_of y) eqn:Ey; cbn in He; try easy. injection He as <-; auto.
Qed.

Lemma str_of_nohang t : str_of t <> Hang.
Proof.
  induction t using tok_ind2; intros He; cbn in He.
  - easy.
  - revert He. induction H; intros He; cbn in He; [easy|].
    destruct (str_of x) eqn:Ex; cbn in He; [|easy|now apply H].
    match type of He with context [bind ?g _] => destruct g eqn:Eg end; cbn in He; try easy.
  - destruct (truthy t); [|congruence]. destruct (str_of t) eqn:E; cbn in He; easy.
  - destruct (truthy t); [|congruence]. destruct (str_of t) eqn:E; cbn in He; easy.
  - destruct (str_of t) eqn:E; cbn in He; easy.
  - destruct (str_of t) eqn:E; cbn in He; try easy.
    destruct s as [z|v]; cbn in He, H.
    + destruct l as [[y|y]|]; cbn in He, H0; try easy.
      destruct (str_of y) eqn:Ey; cbn in He; easy.
    + destruct (str_of v) eqn:Ev; cbn in He; try easy.
      destruct l as [[y|y]|]; cbn in He, H0; try easy.
      destruct (str_of y) eqn:Ey; cbn in He; easy.
  - destruct (str_of t) eqn:E; cbn in He; easy.
  - destruct (str_of t) eqn:E; cbn in He; try easy.
    destruct s as [z|v]; cbn in He, H.
    + destruct l as [[y|y]|]; cbn in He, H0; try easy.
      destruct (str_of y) eqn:Ey; cbn in He; easy.
    + destruct (str_of v) eqn:Ev; cbn in He; try easy.
      destruct l as [[y|y]|]; cbn in He, H0; try easy.
      destruct (str_of y) eqn:Ey; cbn in He; easy.
Qed.

Definition arg_nohang (a : arg) : Prop :=
  match a with AObj s _ => s <> Hang | _ => True end.
Lemma targ_nohang t : arg_nohang (targ t).
Proof. pose proof (str_of_nohang t) as H. destruct t; cbn [targ arg_nohang]; easy. Qed.

Lemma format_nohang fields args :
  Forall (fun p => arg_nohang (snd p)) args -> format_ok fields args <> Hang.
Proof.
  intros Ha. induction fields as [|[f b] r IH]; cbn; [easy|].
  destruct (lookup f args) as [a|] eqn:E; [|easy].
  assert (Hn : arg_nohang a).
  { clear IH. induction args as [|[k v] args IH]; cbn in E; [easy|].
    inversion Ha; subst. destruct (str_eqb f k); [now injection E as <-|now apply IH]. }
  apply bind_nohang; [|easy]. destruct a; cbn; try easy.
  destruct b; [easy|]. apply bind_nohang; easy.
Qed.

Lemma nohang_emit c w args : Forall (fun p => arg_nohang (snd p)) args -> NoHang (memit c w args).
Proof.
  intros H. unfold memit, mw, emit, NoHang. destruct (mdupe c); cbn; [easy|]. now apply format_nohang.
Qed.

Lemma check_balance_nohang l : check_balance l <> Hang.
Proof.
  unfold check_balance. generalize (@nil str). induction l as [|x l IH]; intros arr; cbn.
  - now destruct arr.
  - apply bind_nohang; [|apply IH]. unfold balance_step. destruct x; try easy.
    repeat match goal with |- context [if ?b then _ else _] => destruct b end; easy.
Qed.

Section T.
Variable U : uni.
Variable FT : ftable.

Lemma nh_base_call data w : NoHang (base_call data w).
Proof.
  unfold base_call. pose proof (check_balance_nohang (sl_items data)).
  destruct (check_balance (sl_items data)); [apply nohang_ret| |easy].
  destruct (is_value_error e); [|apply nohang_exn]. apply nohang_bind.
  - apply nohang_lift. destruct data; cbn; [|easy]. apply bind_nohang; [apply str_of_nohang|easy].
  - intros ? ? _. apply nohang_emit. repeat constructor. cbn. destruct data; cbn; [|easy].
    now destruct (str_of t).
Qed.

Lemma nh_func_check f w : NoHang (func_check U FT f w).
Proof.
  unfold func_check, func_get. apply nohang_bind.
  - destruct (lookup _ FT); [easy|]. destruct (lookup _ FT); easy.
  - intros ? ? _. apply nohang_bind; [|easy].
    destruct (str_eqb _ _); [easy|]. destruct (str_eqb _ _); apply nohang_emit; repeat constructor.
Qed.

Lemma nh_count_var v w : NoHang (count_var v w).
Proof.
  unfold count_var. apply nohang_bind; [|easy].
  destruct (forallb _ _); [easy|]. apply nohang_emit. repeat constructor.
Qed.

(* sizes *)
Definition sum (l : list tok) : nat := list_sum (map tsize l).
Lemma sum_app a b : sum (a ++ b) = (sum a + sum b)%nat.
Proof. unfold sum. now rewrite map_app, list_sum_app. Qed.
Lemma sum_cons a b : sum (a :: b) = (tsize a + sum b)%nat.
Proof. reflexivity. Qed.
Lemma sum_rev l : sum (rev l) = sum l.
Proof. induction l; [easy|]. cbn [rev]. rewrite sum_app, !sum_cons, IHl. cbn. lia. Qed.

Lemma push_size copy v : (sum (push copy v) <= sum copy + tsize v)%nat.
Proof.
  unfold push. destruct (negb (truthy v)); [lia|].
  assert (G : (sum (v :: copy) <= sum copy + tsize v)%nat) by (rewrite sum_cons; lia).
  destruct v; try exact G. destruct copy as [|[y| | | | | | |] r]; try exact G.
  rewrite !sum_cons. cbn. rewrite app_length. lia.
Qed.
Lemma vjoin_size l : (tsize (vjoin l) <= sum l)%nat.
Proof.
  assert (H : forall l copy, (sum (fold_left push l copy) <= sum copy + sum l)%nat).
  { clear l. induction l as [|x l IH]; intros copy; cbn [fold_left]; [rewrite Nat.add_0_r; easy|].
    rewrite sum_cons. specialize (IH (push copy x)). pose proof (push_size copy x). lia. }
  specialize (H l []). cbn in H. rewrite <- sum_rev in H. unfold vjoin.
  destruct (rev (fold_left push l [])) as [|x [|y r]]; cbn in *; lia.
Qed.

Lemma ssplit_size c s : forall max,
  (list_sum (map (@List.length N) (ssplit c max s)) + length (ssplit c max s) = S (length s))%nat.
Proof.
  induction s as [|x s IH]; intros max; cbn; [easy|].
  destruct ((x =? c) && _).
  - specialize (IH (option_map pred max)). cbn. unfold list_sum in *. lia.
  - specialize (IH max). destruct (ssplit c max s); cbn in *; lia.
Qed.

Lemma close_group_size cur : (tsize (close_group cur) <= sum cur)%nat.
Proof.
  unfold close_group. rewrite <- sum_rev. destruct (rev cur) as [|x [|y r]]; [easy| |].
  - rewrite sum_cons. lia.
  - apply vjoin_size.
Qed.
Lemma opt_cons_size s cur : (sum (opt_cons s cur) = length s + sum cur)%nat.
Proof. now destruct s. Qed.

Lemma add_parts_size parts : forall cur gs cur', add_parts cur parts = (gs, cur') ->
  (sum gs + sum cur' <= sum cur + list_sum (map (@List.length N) parts))%nat /\
  (parts <> [] -> length parts = S (length gs)).
Proof.
  induction parts as [|p [|q parts] IH]; intros cur gs cur' E.
  - cbn in E. injection E as <- <-. cbn. split; [lia|easy].
  - cbn in E. injection E as <- <-. rewrite opt_cons_size. cbn. split; [lia|easy].
  - change (add_parts cur (p :: q :: parts)) with
      (let '(gs, cur') := add_parts [] (q :: parts) in
       (close_group (opt_cons p cur) :: gs, cur')) in E.
    destruct (add_parts [] (q :: parts)) as [gs0 cur0] eqn:E0. injection E as <- <-.
    destruct (IH _ _ _ E0) as [H1 H2]. rewrite sum_cons.
    pose proof (close_group_size (opt_cons p cur)) as H. rewrite opt_cons_size in H.
    cbn [map] in *. unfold list_sum in *. cbn [fold_right] in *. split; [cbn in *; lia|].
    intros _. cbn. f_equal. now apply H2.
Qed.

Lemma split_items_size c max source : forall done cur,
  (sum (split_items c max done cur source) + length (split_items c max done cur source)
   <= sum cur + sum source + 1)%nat.
Proof.
  induction source as [|t source IH]; intros done cur; cbn [split_items].
  - cbn [length]. rewrite sum_cons. pose proof (close_group_size cur). cbn. lia.
  - assert (G : (sum (split_items c max done (t :: cur) source) +
       length (split_items c max done (t :: cur) source) <= sum cur + sum (t :: source) + 1)%nat).
    { specialize (IH done (t :: cur)). rewrite !sum_cons in *. lia. }
    destruct t; try exact G.
    destruct (_ || _); [exact G|].
    destruct (add_parts cur _) as [gs cur'] eqn:Ea.
    destruct (add_parts_size _ _ _ _ Ea) as [H1 H2].
    rewrite sum_app, app_length.
    match goal with |- context [split_items c max ?d cur' source] => specialize (IH d cur') end.
    match type of Ea with add_parts _ (ssplit _ ?m _) = _ => pose proof (ssplit_size c s m) as Hs end.
    rewrite sum_cons. cbn [tsize].
    assert (Hne : ssplit c (option_map (fun m : nat => (m - done)%nat) max) s <> []).
    { intros E. rewrite E in Hs. cbn in Hs. lia. }
    specialize (H2 Hne). lia.
Qed.

Ltac inv_ok H := match type of H with Ok ?a = Ok ?b => assert (a = b) as <- by congruence; clear H end.
Lemma vsplit_size c max t parts : vsplit c max t = Ok parts -> (sum parts + length parts <= tsize t + 1)%nat.
Proof.
  assert (one : forall n, (sum (split_items c max 0 [] [n]) + length (split_items c max 0 [] [n]) <= tsize n + 1)%nat).
  { intros n. pose proof (split_items_size c max [n] 0 []) as H. rewrite sum_cons in H.
    change (sum []) with O in H. lia. }
  assert (nm : forall n, name_of t = Some n -> (tsize n <= tsize t)%nat).
  { intros n. destruct t; cbn [name_of]; try easy; intros E; injection E as <-; cbn [tsize]; try lia;
    match goal with |- (tsize (vjoin ?l) <= _)%nat => pose proof (vjoin_size l) as H end;
    rewrite !sum_cons in H; change (sum []) with O in H; cbn [tsize] in H;
    change (length (L "(")) with 1%nat in H; change (length (L ")")) with 1%nat in H; lia. }
  assert (G : match name_of t with
         | Some n => if truthy n then Ok (split_items c max 0 [] [n])
                     else Exn AttributeError
         | None => Exn AttributeError
         end = Ok parts -> (sum parts + length parts <= tsize t + 1)%nat).
  { destruct (name_of t) as [n|]; [|easy]. specialize (nm n eq_refl).
    destruct (truthy n); [|easy]. intros H; inv_ok H. specialize (one n). lia. }
  destruct t; try exact G; cbn [vsplit]; intros H; inv_ok H.
  - pose proof (ssplit_size c s max) as Hs. unfold sum. rewrite map_map, map_length. cbn [tsize].
    change (map (fun x : str => length x) (ssplit c max s)) with (map (@List.length N) (ssplit c max s)). lia.
  - pose proof (split_items_size c max l 0 []) as H. change (sum []) with O in H.
    unfold sum at 2 in H. cbn [tsize]. lia.
Qed.

Lemma items_size t : (sum (items t) <= tsize t)%nat.
Proof.
  induction t using tok_ind2; try (cbn; lia).
  - cbn. unfold chars, sum. induction s; cbn in *; lia.
  - cbn [items tsize]. change (list_sum (map tsize l)) with (sum l).
    induction H; [easy|]. cbn [flat_map]. rewrite sum_app, sum_cons. lia.
Qed.

Lemma strjoin_size l : forall c, (sum (strjoin_from c l) <= sum l + match c with Some s => length s | None => 0 end)%nat.
Proof.
  induction l as [|t l IH]; intros c; cbn [strjoin_from].
  - destruct c; unfold sum; cbn; lia.
  - assert (G : (sum (match c with Some s => TS s :: t :: strjoin_from None l
                                | None => t :: strjoin_from None l end)
              <= sum (t :: l) + match c with Some s => length s | None => 0 end)%nat).
    { specialize (IH None). cbv iota in IH. destruct c; rewrite !sum_cons; cbn [tsize]; lia. }
    destruct t; try exact G.
    specialize (IH (Some (match c with Some s0 => s0 ++ s | None => s end))).
    rewrite sum_cons. cbn [tsize]. cbv iota in IH. destruct c; [rewrite app_length in IH|]; lia.
Qed.

Lemma slice_size t its : (sl_size (slice_of t its) <= sum its)%nat.
Proof.
  assert (G : (sl_size (match strjoin its with [x] => SlTok x | l => SlList l end) <= sum its)%nat).
  { pose proof (strjoin_size its None) as H. unfold strjoin in *.
    destruct (strjoin_from None its) as [|x [|y r]]; cbn [sl_size].
    - cbn. lia.
    - rewrite sum_cons in H. change (sum []) with O in H. lia.
    - change (list_sum (map tsize (x :: y :: r))) with (sum (x :: y :: r)). lia. }
  destruct t; try exact G. cbn [slice_of sl_size tsize]. clear G.
  induction its as [|x its IH]; [easy|]. cbn [flat_map]. rewrite app_length, sum_cons.
  destruct x; cbn [tsize length]; lia.
Qed.

Lemma sum_removelast l : (sum (removelast l) <= sum l)%nat.
Proof.
  induction l as [|x l IH]; [easy|]. cbn [removelast]. destruct l; [unfold sum; cbn; lia|].
  rewrite !sum_cons in *. lia.
Qed.

(* the nesting of SET is bounded *)
Lemma nh_assign_gen call t w :
  (forall f d w', (sl_size d < sl_size t)%nat -> NoHang (call f d w')) ->
  NoHang (parse_assignment U FT call t w).
Proof.
  intros Hc. unfold parse_assignment. destruct (negb (sl_truthy t)).
  { apply nohang_emit. constructor. }
  destruct t as [t|l]; [|easy]. cbn in Hc.
  apply nohang_bind.
  { apply nohang_lift. destruct t; cbn; try easy; now destruct (truthy _). }
  intros l0 parts E. injection E as _ E.
  pose proof (vsplit_size _ _ _ _ E) as Hsz.
  destruct parts as [|dest [|v [|? ?]]]; try (apply nohang_emit; repeat constructor; apply targ_nohang).
  apply nohang_bind.
  { destruct (tin 32 dest); [|easy]. apply nohang_emit. repeat constructor. apply targ_nohang. }
  intros _ _ _. destruct (last_opt (items dest)) as [c|]; [|easy].
  destruct (tok_isc c 41); [|easy].
  unfold process_write. destruct (tin 40 dest); [|easy].
  apply nohang_bind.
  { apply nohang_lift. destruct dest; cbn; try easy; now destruct (truthy _). }
  intros l1 parts E1. injection E1 as _ E1. pose proof (vsplit_size _ _ _ _ E1) as Hs1.
  destruct parts as [|func [|args [|? ?]]]; try easy.
  destruct (last_opt (items args)) as [c'|]; [|easy]. destruct (tok_isc c' 41); [|easy].
  destruct func as [fname| | | | | | |]; try easy.
  apply nohang_bind; [apply nh_func_check|]. intros l2 f _. apply Hc.
  pose proof (slice_size args (removelast (items args))) as H1.
  pose proof (sum_removelast (items args)) as H2. pose proof (items_size args) as H3.
  rewrite !sum_cons in *. cbn [length] in *. unfold sum in *. cbn [map list_sum fold_right] in *. lia.
Qed.

Lemma nh_func_call fuel : forall f data w, (sl_size data < fuel)%nat ->
  NoHang (func_call U FT fuel f data w).
Proof.
  induction fuel as [|k IH]; intros f data w Hf; [lia|]. cbn [func_call].
  destruct (f_kind f).
  - apply nh_base_call.
  - apply nohang_bind; [|intros; apply nh_base_call].
    apply nh_assign_gen. intros. apply IH. lia.
  - apply nohang_bind; [apply nh_base_call|]. intros _ _ _.
    destruct data as [[]|]; try easy. apply nh_count_var.
  - apply nohang_bind; [|intros; apply nh_base_call].
    destruct data as [[]|]; try easy. destruct (smem s audio_args); [easy|].
    apply nohang_emit. repeat constructor.
Qed.

Lemma nh_call_func f data w : NoHang (call_func U FT f data w).
Proof. apply nh_func_call. lia. Qed.

Lemma nh_assign t w : NoHang (assign U FT t w).
Proof. apply nh_assign_gen. intros. apply nh_call_func. Qed.

Lemma vsplit_nohang c max t : vsplit c max t <> Hang.
Proof. destruct t; cbn; try easy; now destruct (truthy _). Qed.

Lemma digits_val_nohang s : forall acc, digits_val U acc s <> Hang.
Proof. induction s; intros; cbn; [easy|]. destruct (u_decimal U a); easy. Qed.
Lemma int_of_nohang s : int_of U s <> Hang.
Proof.
  unfold int_of. destruct s as [|c r]; [easy|].
  assert (H : (let! n := digits_val U 0 (c :: r) in Ok (Z.of_N n)) <> Hang)
    by (apply bind_nohang; [apply digits_val_nohang|easy]).
  assert (H' : (let! n := digits_val U 0 r in Ok (- Z.of_N n)%Z) <> Hang)
    by (apply bind_nohang; [apply digits_val_nohang|easy]).
  destruct (N.eq_dec c 45) as [->|Hne]; [exact H'|].
  destruct c as [|p]; [exact H|]. repeat (destruct p as [p|p|]; try exact H). congruence.
Qed.

Lemma nh_split_slice d w : NoHang (split_slice U d w).
Proof.
  unfold split_slice. apply nohang_bind; [apply nohang_lift, vsplit_nohang|].
  intros l parts _. apply nohang_bind.
  { destruct parts as [|a [|b [|c [|e r]]]]; try easy; (apply nohang_bind; [|easy]);
    apply nohang_emit; repeat constructor; apply targ_nohang. }
  intros l1 [[v s] ln] _. apply nohang_bind.
  { unfold sl_start. destruct s as [[]|]; try easy. destruct (int_like U s).
    - apply nohang_bind; [apply nohang_lift, int_of_nohang|easy].
    - apply nohang_bind; [apply nohang_emit; repeat constructor|easy]. }
  intros l2 [st ln'] _. apply nohang_bind.
  { cbn. unfold sl_length. destruct ln' as [[]|]; try easy. destruct (int_like U s0).
    - apply nohang_bind; [apply nohang_lift, int_of_nohang|]. intros l3 z _.
      apply nohang_bind; [destruct (z =? 0)%Z; [easy|]; destruct st as [[]|]; easy|].
      intros l4 bad _. destruct bad; [|easy].
      apply nohang_bind; [apply nohang_emit; repeat constructor|easy].
    - apply nohang_bind; [apply nohang_emit; repeat constructor|easy]. }
  intros l3 [st' ln2] _. cbn.
  destruct st' as [[[]|]|], ln2; try easy.
  all: apply nohang_bind; [apply nohang_emit; repeat constructor|easy].
Qed.

Lemma endpos_nohang a b : slice_endpos a b <> Hang.
Proof. unfold slice_endpos. repeat match goal with |- context [if ?b then _ else _] => destruct b end; easy. Qed.
Lemma mk_slice_nohang n a b : mk_slice n a b <> Hang.
Proof. destruct b; cbn; [|easy]. apply bind_nohang; [apply endpos_nohang|easy]. Qed.
Lemma mk_func_slice_nohang f a s l : mk_func_slice f a s l <> Hang.
Proof.
  destruct l as [[]|]; cbn; try easy. destruct s.
  - apply bind_nohang; [apply endpos_nohang|easy].
  - repeat match goal with |- context [if ?b then _ else _] => destruct b end; easy.
Qed.

Lemma nh_process_slice d w : NoHang (process_slice U d w).
Proof.
  unfold process_slice. apply nohang_bind; [apply nh_split_slice|].
  intros l [[v st] ln] _. apply nohang_bind.
  { destruct v; try easy. apply nh_count_var. }
  intros _ _ _. destruct st as [[]|]; try easy.
  destruct ln as [[]|]; try easy; apply nohang_lift, mk_slice_nohang.
Qed.

Lemma nh_process_read d w : NoHang (process_read U FT d w).
Proof.
  unfold process_read. destruct (cut_first 40 (items d)) as [[before after]|]; [|easy].
  destruct (negb _); [easy|]. apply nohang_bind.
  { destruct (cut_last 41 after) as [[a t]|]; [easy|]. apply nohang_bind; [|easy].
    apply nohang_emit. repeat constructor. apply targ_nohang. }
  intros l [args tail] _. apply nohang_bind.
  { destruct (truthy tail); [|easy]. apply nohang_bind; [apply nh_split_slice|].
    intros l1 [[v st] ln] _. destruct (truthy v); [|easy].
    apply nohang_bind; [|easy]. apply nohang_emit. repeat constructor. apply targ_nohang. }
  intros l1 sl _. destruct (slice_of d before) as [t|]; [|easy].
  assert (G : NoHang (do* _ <- memit W_FUNC_DYNAMIC w [(L "func", targ t)]; @mexn tok KeyError)).
  { apply nohang_bind; [|easy]. apply nohang_emit. repeat constructor. apply targ_nohang. }
  destruct t; try exact G.
  apply nohang_bind; [apply nh_func_check|]. intros l2 f _.
  apply nohang_bind; [apply nh_call_func|]. intros l3 _ _.
  apply nohang_lift. unfold read_result. destruct (fst sl); [apply mk_func_slice_nohang|easy].
Qed.

Lemma nh_process_variable d w : NoHang (process_variable U FT d w).
Proof.
  unfold process_variable. destruct (tin 40 d); [apply nh_process_read|].
  destruct (tin 58 d); [apply nh_process_slice|].
  apply nohang_bind; [|easy]. destruct d; try easy. apply nh_count_var.
Qed.

(* scanning for substitutions *)
Lemma scan_some data : forall pre x rest, scan data = Some (pre, x, rest) ->
  data = pre ++ 36 :: x :: rest /\ is_open x = true /\ ~ Opens pre.
Proof.
  induction data as [|c r IH]; intros pre x rest H; [easy|]. cbn in H.
  assert (Hstep : (exists y r', c = 36 /\ r = y :: r' /\ is_open y = true /\
                    H = H /\ Some ([], y, r') = Some (pre, x, rest)) \/
                  ((c = 36 -> match r with y :: _ => is_open y = false | [] => True end) /\
                    match scan r with
                    | Some (a, x0, b) => Some (c :: a, x0, b)
                    | None => None
                    end = Some (pre, x, rest))).
  { destruct (N.eqb_spec c 36) as [->|Hne].
    - destruct r as [|y r']; [right; auto|]. destruct (is_open y) eqn:Ey.
      + left. exists y, r'. auto.
      + right. split; auto.
    - right. split; [easy|exact H]. }
  destruct Hstep as [(y & r' & -> & -> & Hy & _ & E)|[Hno E]].
  - injection E as <- <- <-. repeat split; [easy|]. intros (a & o & c & b & _ & E). now destruct a.
  - destruct (scan r) as [[[a x0] b]|] eqn:Es; [|easy]. injection E as <- -> ->.
    destruct (IH _ _ _ eq_refl) as (-> & Ho & Hn). repeat split; [easy|].
    intros (a' & o & c' & b & Hop & E). destruct a' as [|z a'].
    + cbn in E. injection E as -> ->. cbn in Hno. specialize (Hno eq_refl).
      destruct Hop; discriminate.
    + cbn in E. injection E as <- ->. apply Hn. exists a', o, c', b. easy.
Qed.

Lemma scan_none data : scan data = None -> ~ Opens data.
Proof.
  intros H (a & o & c & b & Hop & ->). induction a as [|x a IH].
  - cbn in H. destruct Hop; discriminate.
  - cbn in H. apply IH. clear IH.
    destruct (x =? 36); [destruct (a ++ 36 :: o :: b); [easy|destruct (is_open n); [easy|]]|];
    destruct (scan _) as [[[? ?] ?]|] eqn:E; try easy.
Qed.

Lemma open_opener x : is_open x = true <-> Opener x (close_of x).
Proof.
  unfold is_open, close_of. split.
  - destruct (N.eqb_spec x 123) as [E|E]; [rewrite E; constructor|].
    destruct (N.eqb_spec x 91) as [E'|E']; [rewrite E'; constructor|easy].
  - intros H. inversion H; subst; easy.
Qed.
Lemma opener_fun o c : Opener o c -> c = close_of o /\ is_open o = true.
Proof. now intros []. Qed.

Lemma count_cons c x s : count c (x :: s) = ((if (c =? x)%N then 1 else 0) + count c s)%nat.
Proof. unfold count. cbn. now destruct (c =? x). Qed.
Lemma count_app c a b : count c (a ++ b) = (count c a + count c b)%nat.
Proof. unfold count. now rewrite filter_app, app_length. Qed.

(* the closing bracket at nesting depth d *)
Definition ClosedAt (o c : N) (d : nat) (text inner rest : str) : Prop :=
  text = inner ++ c :: rest /\ (count c inner + 1 = count o inner + d)%nat /\
  forall a b, inner = a ++ b -> (count c a + 1 <= count o a + d)%nat.

Lemma closed_at_by o c text inner rest :
  ClosedAt o c 1 text inner rest <-> ClosedBy o c text inner rest.
Proof.
  unfold ClosedAt, ClosedBy. split; intros (H1 & H2 & H3); repeat split; try easy; try lia;
    intros a b E; specialize (H3 a b E); lia.
Qed.

Lemma find_end_some o c data : Opener o c -> forall d inner rest m, (d > 0)%nat ->
  find_end o c d data = Some (inner, rest, m) ->
  ClosedAt o c d data inner rest /\
  (m = true <-> Opens inner).
Proof.
  intros Hop. induction data as [|x r IH]; intros d inner rest m Hd H; [easy|]. cbn in H.
  assert (Hx36 : o <> 36 /\ c <> 36 /\ o <> c) by (destruct Hop; repeat split; congruence).
  destruct (N.eqb_spec x 36) as [->|Hne].
  - destruct (find_end o c d r) as [[[a b] m0]|] eqn:E; [|easy]. injection H as <- <- <-.
    destruct (IH _ _ _ _ Hd E) as [(H1 & H2 & H3) H4]. split.
    + repeat split.
      * now rewrite H1.
      * rewrite !count_cons. replace (c =? 36) with false by lia. replace (o =? 36) with false by lia. cbn. lia.
      * intros a0 b0 E0. destruct a0 as [|y a0]; [cbn; lia|]. cbn in E0. injection E0 as <- E0.
        rewrite !count_cons. replace (c =? 36) with false by lia. replace (o =? 36) with false by lia.
        cbn. apply (H3 _ _ E0).
    + rewrite Bool.orb_true_iff, H4. split.
      * intros [(a0 & o' & c' & b0 & Ho' & ->)|Ho].
        -- exists (36 :: a0), o', c', b0. easy.
        -- destruct r as [|y r']; [easy|]. apply open_opener in Ho.
           destruct a as [|z a].
           ++ cbn in H1. injection H1 as -> _.
              exfalso. clear - Ho Hop. destruct Hop; inversion Ho.
           ++ cbn in H1. injection H1 as -> _. exists [], z, (close_of z), a. easy.
      * intros (a0 & o' & c' & b0 & Ho' & E0). destruct a0 as [|y a0].
        -- right. cbn in E0. injection E0 as E0. subst a. cbn in H1. subst r.
           apply opener_fun in Ho'. apply Ho'.
        -- left. cbn in E0. injection E0 as _ E0. exists a0, o', c', b0. easy.
  - set (d' := if x =? o then S d else if x =? c then pred d else d) in H.
    assert (Hm : forall a, Opens (x :: a) <-> Opens a).
    { intros a. split; intros (a0 & o' & c' & b0 & Ho' & E0).
      - destruct a0 as [|y a0]; cbn in E0; injection E0 as E1 E2; [congruence|].
        exists a0, o', c', b0. easy.
      - exists (x :: a0), o', c', b0. now rewrite E0. }
    destruct d' as [|d2] eqn:Ed.
    + injection H as <- <- <-.
      assert (x = c /\ d = 1%nat) as [-> ->].
      { subst d'. destruct (N.eqb_spec x o); [lia|]. destruct (N.eqb_spec x c); [split; [easy|lia]|lia]. }
      split; [|split; [easy|intros (a0 & ? & ? & ? & _ & E0); now destruct a0]].
      split; [reflexivity|]. split; [cbn; lia|]. intros a b E. destruct a; [cbn; lia|easy].
    + destruct (find_end o c (S d2) r) as [[[a b] m0]|] eqn:E; [|easy]. injection H as <- <- <-.
      destruct (IH _ _ _ _ (Nat.lt_0_succ d2) E) as [(H1 & H2 & H3) H4]. split; [|now rewrite Hm].
      assert (Hcnt : forall a, (count c (x :: a) + S d2 = count c a + d + (if (x =? o)%N then 1 else 0))%nat /\
                               (count o (x :: a) = (if (x =? o)%N then 1 else 0) + count o a)%nat).
      { intros a'. rewrite !count_cons. subst d'. rewrite (N.eqb_sym c x), (N.eqb_sym o x).
        destruct (N.eqb_spec x o), (N.eqb_spec x c); subst; cbn; split; try lia; easy. }
      repeat split.
      * now rewrite H1.
      * destruct (Hcnt a). lia.
      * intros a0 b0 E0. destruct a0 as [|y a0]; [cbn; lia|]. cbn in E0. injection E0 as <- E0.
        specialize (H3 _ _ E0). destruct (Hcnt a0). lia.
Qed.

Lemma find_end_none o c data : Opener o c -> forall d, (d > 0)%nat -> find_end o c d data = None ->
  forall inner rest, ~ ClosedAt o c d data inner rest.
Proof.
  intros Hop. induction data as [|x r IH]; intros d Hd H inner rest (H1 & H2 & H3).
  { now destruct inner. }
  assert (Hx36 : o <> 36 /\ c <> 36 /\ o <> c) by (destruct Hop; repeat split; congruence).
  cbn in H. destruct (N.eqb_spec x 36) as [->|Hne].
  - destruct (find_end o c d r) as [[[a b] m0]|] eqn:E; [easy|].
    destruct inner as [|y inner]; cbn in H1; injection H1 as E1 E2; [lia|]. subst y.
    apply (IH d Hd E inner rest). split; [easy|].
    assert (Hc : forall a, count c (36 :: a) = count c a /\ count o (36 :: a) = count o a).
    { intros a. rewrite !count_cons. replace (c =? 36) with false by lia.
      replace (o =? 36) with false by lia. easy. }
    split; [destruct (Hc inner); lia|]. intros a b E0.
    specialize (H3 (36 :: a) b ltac:(now rewrite E0)). destruct (Hc a). lia.
  - set (d' := if x =? o then S d else if x =? c then pred d else d) in H.
    destruct inner as [|y inner]; cbn in H1; injection H1 as E1 E2.
    + subst x. cbn in H2. assert (d = 1%nat) by lia. subst d. subst d'.
      replace (c =? o) with false in H by lia. rewrite N.eqb_refl in H. easy.
    + subst y.
      assert (Hcnt : forall a, (count c (x :: a) + d' = count c a + d + (if (x =? o)%N then 1 else 0))%nat /\
                               (count o (x :: a) = (if (x =? o)%N then 1 else 0) + count o a)%nat).
      { intros a'. rewrite !count_cons. subst d'. rewrite (N.eqb_sym c x), (N.eqb_sym o x).
        destruct (N.eqb_spec x o), (N.eqb_spec x c); subst; cbn; split; try lia; easy. }
      assert (Hd' : (d' > 0)%nat).
      { specialize (H3 [x] inner eq_refl). destruct (Hcnt []) as [Ha Hb]. cbn [count filter length] in *.
        change (count c []) with O in *. change (count o []) with O in *. lia. }
      destruct d' as [|d2] eqn:Ed; [lia|].
      destruct (find_end o c (S d2) r) as [[[a b] m0]|] eqn:E; [easy|].
      apply (IH (S d2) ltac:(lia) E inner rest). split; [easy|]. split.
      * destruct (Hcnt inner). lia.
      * intros a b E0. specialize (H3 (x :: a) b ltac:(now rewrite E0)). destruct (Hcnt a). lia.
Qed.

Lemma closed_at_fun o c d text i r i' r' : o <> c ->
  ClosedAt o c d text i r -> ClosedAt o c d text i' r' -> i = i' /\ r = r'.
Proof.
  intros Hoc (H1 & H2 & H3) (H1' & H2' & H3').
  assert (Hl : forall i r i' r' : str, i ++ c :: r = i' ++ c :: r' -> (length i < length i')%nat ->
          exists b, i' = i ++ c :: b).
  { clear. induction i as [|x i IH]; intros r [|y i'] r' E Hl; cbn in *; try lia.
    - injection E as <- _. now exists i'.
    - injection E as <- E. destruct (IH _ _ _ E ltac:(lia)) as [b ->]. now exists b. }
  assert (Hc : forall i, (count c (i ++ [c]) = S (count c i))%nat /\ count o (i ++ [c]) = count o i).
  { intros x. rewrite !count_app, !count_cons. rewrite N.eqb_refl. replace (o =? c) with false by lia.
    cbn. lia. }
  destruct (lt_eq_lt_dec (length i) (length i')) as [[Hlt|Heq]|Hgt].
  - destruct (Hl i r i' r') as [b Hb]; [congruence|easy|]. exfalso.
    specialize (H3' (i ++ [c]) b). rewrite Hb, <- app_assoc in H3'. specialize (H3' eq_refl).
    destruct (Hc i). lia.
  - rewrite H1 in H1'. clear - H1' Heq. revert i' H1' Heq.
    induction i as [|x i IH]; intros [|y i'] E Hl; try discriminate.
    + now injection E.
    + cbn in E. injection E as <- E. destruct (IH i' E) as [-> ->]; [cbn in Hl; lia|easy].
  - destruct (Hl i' r' i r) as [b Hb]; [congruence|easy|]. exfalso.
    specialize (H3 (i' ++ [c]) b). rewrite Hb, <- app_assoc in H3. specialize (H3 eq_refl).
    destruct (Hc i'). lia.
Qed.

Lemma first_open_fun s p o c r p' o' c' r' : FirstOpen s p o c r -> FirstOpen s p' o' c' r' ->
  p = p' /\ o = o' /\ c = c' /\ r = r'.
Proof.
  intros (Ho & E & Hn) (Ho' & E' & Hn'). rewrite E in E'. clear E.
  assert (p = p' /\ 36 :: o :: r = 36 :: o' :: r') as [-> E2].
  { revert p' E' Hn'. induction p as [|x p IH]; intros [|y p'] E' Hn'.
    - easy.
    - exfalso. cbn in E'. injection E' as <- E'. destruct p' as [|z p'].
      + cbn in E'. injection E' as -> _. inversion Ho.
      + cbn in E'. injection E' as -> _. apply Hn'. exists [], z, c, p'. easy.
    - exfalso. cbn in E'. injection E' as -> E'. destruct p as [|z p].
      + cbn in E'. injection E' as E1 _. subst o'. inversion Ho'.
      + cbn in E'. injection E' as <- _. apply Hn. exists [], z, c', p. easy.
    - cbn in E'. injection E' as <- E'.
      assert (G1 : ~ Opens p). { intros (a & q & q' & b & Hq & ->). apply Hn. now exists (x :: a), q, q', b. }
      assert (G2 : ~ Opens p'). { intros (a & q & q' & b & Hq & ->). apply Hn'. now exists (x :: a), q, q', b. }
      destruct (IH G1 p' E' G2) as [-> ?]. easy. }
  injection E2 as -> ->. repeat split; auto.
  apply opener_fun in Ho. apply opener_fun in Ho'. destruct Ho, Ho'. congruence.
Qed.

(* one round of the loop *)
Lemma loop_cases data :
  (scan data = None /\ ~ Opens data) \/
  (exists pre x rest, scan data = Some (pre, x, rest) /\ FirstOpen data pre x (close_of x) rest /\
     ((find_end x (close_of x) 1 rest = None /\ forall i r, ~ ClosedBy x (close_of x) rest i r) \/
      exists i r m, find_end x (close_of x) 1 rest = Some (i, r, m) /\
        ClosedBy x (close_of x) rest i r /\ (m = true <-> Opens i))).
Proof.
  destruct (scan data) as [[[pre x] rest]|] eqn:E.
  - right. exists pre, x, rest. split; [easy|].
    destruct (scan_some _ _ _ _ E) as (H1 & H2 & H3).
    assert (Hop : Opener x (close_of x)) by now apply open_opener.
    split; [now repeat split|].
    destruct (find_end x (close_of x) 1 rest) as [[[i r] m]|] eqn:Ef.
    + right. exists i, r, m. split; [easy|].
      destruct (find_end_some _ _ _ Hop _ _ _ _ (Nat.lt_0_succ 0) Ef) as [Hc Hm].
      split; [now apply closed_at_by|easy].
    + left. split; [easy|]. intros i r Hc. apply closed_at_by in Hc.
      now apply (find_end_none _ _ _ Hop _ (Nat.lt_0_succ 0) Ef i r).
  - left. split; [easy|]. now apply scan_none.
Qed.

Lemma closed_by_len o c text i r : ClosedBy o c text i r ->
  (length i < length text /\ length r < length text)%nat.
Proof. intros (-> & _). rewrite app_length. cbn. lia. Qed.

Lemma nh_parse_loop fuel : forall acc data w, (length data < fuel)%nat ->
  NoHang (parse_loop U FT fuel acc data w).
Proof.
  induction fuel as [|k IH]; intros acc data w Hf; [lia|]. cbn [parse_loop].
  destruct (loop_cases data) as [[-> _]|(pre & x & rest & -> & (Ho & Ed & Hn) & Hc)]; [easy|].
  destruct Hc as [[-> _]|(i & r & m & -> & Hc & Hm)]; [easy|].
  apply closed_by_len in Hc. apply (f_equal (@List.length N)) in Ed. rewrite app_length in Ed. cbn in Ed.
  apply nohang_bind.
  { destruct m; [apply IH; lia|easy]. }
  intros l d _. apply nohang_bind; [destruct (x =? 123); [apply nh_process_variable|easy]|].
  intros l' v _. apply IH. lia.
Qed.

Lemma parse_variables_ends data w : snd (parse_variables U FT data w) <> Hang.
Proof. apply nh_parse_loop. lia. Qed.

(* nothing but the bracket search raises VarParseError *)
Definition NoVPE {A} (m : M A) : Prop := snd m <> Exn VarParseError.
Lemma novpe_bind {A B} (m : M A) (f : A -> M B) :
  NoVPE m -> (forall l a, m = (l, Ok a) -> NoVPE (f a)) -> NoVPE (mbind m f).
Proof.
  unfold NoVPE. destruct m as [l [a|e|]]; cbn; intros H1 H2; try easy.
  - now apply (H2 l).
  - congruence.
Qed.
Lemma bind_novpe {A B} (r : res A) (f : A -> res B) :
  r <> Exn VarParseError -> (forall a, f a <> Exn VarParseError) ->
  (let! x := r in f x) <> Exn VarParseError.
Proof. destruct r; cbn; auto; congruence. Qed.

Definition arg_novpe (a : arg) : Prop :=
  match a with AObj s _ => s <> Exn VarParseError | _ => True end.
Lemma targ_novpe t : arg_novpe (targ t).
Proof.
  assert (H : str_of t <> Exn VarParseError).
  { intros H. apply str_of_exn in H. discriminate. }
  destruct t; easy.
Qed.
Lemma novpe_emit c w args : Forall (fun p => arg_novpe (snd p)) args -> NoVPE (memit c w args).
Proof.
  intros Ha. unfold memit, mw, emit, NoVPE. destruct (mdupe c); cbn; [easy|].
  induction (mfields c) as [|[f b] r IH]; cbn; [easy|].
  destruct (lookup f args) as [a|] eqn:E; [|easy].
  assert (Hn : arg_novpe a).
  { clear IH. induction args as [|[k v] args IH]; cbn in E; [easy|].
    inversion Ha; subst. destruct (str_eqb f k); [now injection E as <-|now apply IH]. }
  apply bind_novpe; [|easy]. destruct a; cbn; try easy.
  destruct b; [easy|]. apply bind_novpe; easy.
Qed.

Lemma novpe_lift {A} (r : res A) : r <> Exn VarParseError -> NoVPE (mlift r).
Proof. easy. Qed.

Lemma nv_base_call data w : NoVPE (base_call data w).
Proof.
  unfold base_call. destruct (check_balance (sl_items data)) eqn:E; try easy.
  destruct (is_value_error e) eqn:Ee.
  - apply novpe_bind.
    + destruct data; cbn; [|easy]. unfold NoVPE. cbn. apply bind_novpe; [|easy].
      intros H. apply str_of_exn in H. discriminate.
    + intros ? ? _. apply novpe_emit. repeat constructor. cbn. destruct data; cbn; [|easy].
      now destruct (str_of t).
  - unfold NoVPE. cbn. intros [= ->]. discriminate.
Qed.
Lemma nv_func_check f w : NoVPE (func_check U FT f w).
Proof.
  unfold func_check, func_get. apply novpe_bind.
  - destruct (lookup _ FT); [easy|]. destruct (lookup _ FT); easy.
  - intros ? ? _. apply novpe_bind; [|easy].
    destruct (str_eqb _ _); [easy|]. destruct (str_eqb _ _); apply novpe_emit; repeat constructor.
Qed.
Lemma nv_count_var v w : NoVPE (count_var v w).
Proof.
  unfold count_var. apply novpe_bind; [|easy].
  destruct (forallb _ _); [easy|]. apply novpe_emit. repeat constructor.
Qed.
Lemma vsplit_novpe c max t : vsplit c max t <> Exn VarParseError.
Proof. destruct t; cbn; try easy; now destruct (truthy _). Qed.

Lemma nv_assign_gen call t w : (forall f d w', NoVPE (call f d w')) ->
  NoVPE (parse_assignment U FT call t w).
Proof.
  intros Hc. unfold parse_assignment. destruct (negb (sl_truthy t)).
  { apply novpe_emit. constructor. }
  destruct t as [t|l]; [|easy].
  apply novpe_bind; [apply novpe_lift, vsplit_novpe|]. intros l0 parts _.
  destruct parts as [|dest [|v [|? ?]]]; try (apply novpe_emit; repeat constructor; apply targ_novpe).
  apply novpe_bind.
  { destruct (tin 32 dest); [|easy]. apply novpe_emit. repeat constructor. apply targ_novpe. }
  intros _ _ _. destruct (last_opt (items dest)) as [c|]; [|easy].
  destruct (tok_isc c 41); [|easy].
  unfold process_write. destruct (tin 40 dest); [|easy].
  apply novpe_bind; [apply novpe_lift, vsplit_novpe|]. intros l1 parts _.
  destruct parts as [|func [|args [|? ?]]]; try easy.
  destruct (last_opt (items args)) as [c'|]; [|easy]. destruct (tok_isc c' 41); [|easy].
  destruct func as [fname| | | | | | |]; try easy.
  apply novpe_bind; [apply nv_func_check|]. intros l2 f _. apply Hc.
Qed.
Lemma nv_func_call fuel : forall f data w, NoVPE (func_call U FT fuel f data w).
Proof.
  induction fuel as [|k IH]; intros f data w; [easy|]. cbn [func_call].
  destruct (f_kind f).
  - apply nv_base_call.
  - apply novpe_bind; [|intros; apply nv_base_call]. now apply nv_assign_gen.
  - apply novpe_bind; [apply nv_base_call|]. intros _ _ _.
    destruct data as [[]|]; try easy. apply nv_count_var.
  - apply novpe_bind; [|intros; apply nv_base_call].
    destruct data as [[]|]; try easy. destruct (smem s audio_args); [easy|].
    apply novpe_emit. repeat constructor.
Qed.
Lemma int_of_novpe s : int_of U s <> Exn VarParseError.
Proof.
  assert (G : forall s acc, digits_val U acc s <> Exn VarParseError).
  { clear. induction s; intros; cbn; [easy|]. destruct (u_decimal U a); easy. }
  unfold int_of. destruct s as [|c r]; [easy|].
  assert (H : (let! n := digits_val U 0 (c :: r) in Ok (Z.of_N n)) <> Exn VarParseError)
    by (apply bind_novpe; [apply G|easy]).
  assert (H' : (let! n := digits_val U 0 r in Ok (- Z.of_N n)%Z) <> Exn VarParseError)
    by (apply bind_novpe; [apply G|easy]).
  destruct (N.eq_dec c 45) as [->|Hne]; [exact H'|].
  destruct c as [|p]; [exact H|]. repeat (destruct p as [p|p|]; try exact H). congruence.
Qed.
Lemma nv_split_slice d w : NoVPE (split_slice U d w).
Proof.
  unfold split_slice. apply novpe_bind; [apply novpe_lift, vsplit_novpe|].
  intros l parts _. apply novpe_bind.
  { destruct parts as [|a [|b [|c [|e r]]]]; try easy; (apply novpe_bind; [|easy]);
    apply novpe_emit; repeat constructor; apply targ_novpe. }
  intros l1 [[v s] ln] _. apply novpe_bind.
  { unfold sl_start. destruct s as [[]|]; try easy. destruct (int_like U s).
    - apply novpe_bind; [apply novpe_lift, int_of_novpe|easy].
    - apply novpe_bind; [apply novpe_emit; repeat constructor|easy]. }
  intros l2 [st ln'] _. apply novpe_bind.
  { cbn. unfold sl_length. destruct ln' as [[]|]; try easy. destruct (int_like U s0).
    - apply novpe_bind; [apply novpe_lift, int_of_novpe|]. intros l3 z _.
      apply novpe_bind; [destruct (z =? 0)%Z; [easy|]; destruct st as [[]|]; easy|].
      intros l4 bad _. destruct bad; [|easy].
      apply novpe_bind; [apply novpe_emit; repeat constructor|easy].
    - apply novpe_bind; [apply novpe_emit; repeat constructor|easy]. }
  intros l3 [st' ln2] _. cbn.
  destruct st' as [[[]|]|], ln2; try easy.
  all: apply novpe_bind; [apply novpe_emit; repeat constructor|easy].
Qed.
Lemma endpos_novpe a b : slice_endpos a b <> Exn VarParseError.
Proof. unfold slice_endpos. repeat match goal with |- context [if ?b then _ else _] => destruct b end; easy. Qed.
Lemma nv_process_variable d w : NoVPE (process_variable U FT d w).
Proof.
  unfold process_variable. destruct (tin 40 d).
  - unfold process_read. destruct (cut_first 40 (items d)) as [[before after]|]; [|easy].
    destruct (negb _); [easy|]. apply novpe_bind.
    { destruct (cut_last 41 after) as [[a t]|]; [easy|]. apply novpe_bind; [|easy].
      apply novpe_emit. repeat constructor. apply targ_novpe. }
    intros l [args tail] _. apply novpe_bind.
    { destruct (truthy tail); [|easy]. apply novpe_bind; [apply nv_split_slice|].
      intros l1 [[v st] ln] _. destruct (truthy v); [|easy].
      apply novpe_bind; [|easy]. apply novpe_emit. repeat constructor. apply targ_novpe. }
    intros l1 sl _. destruct (slice_of d before) as [t|]; [|easy].
    assert (G : NoVPE (do* _ <- memit W_FUNC_DYNAMIC w [(L "func", targ t)]; @mexn tok KeyError)).
    { apply novpe_bind; [|easy]. apply novpe_emit. repeat constructor. apply targ_novpe. }
    destruct t; try exact G.
    apply novpe_bind; [apply nv_func_check|]. intros l2 f _.
    apply novpe_bind; [apply nv_func_call|]. intros l3 _ _.
    apply novpe_lift. unfold read_result. destruct (fst sl) as [st|]; [|easy].
    unfold mk_func_slice. destruct (snd sl) as [[z|]|]; try easy. destruct st.
    + apply bind_novpe; [apply endpos_novpe|easy].
    + repeat match goal with |- context [if ?b then _ else _] => destruct b end; easy.
  - destruct (tin 58 d).
    + unfold process_slice. apply novpe_bind; [apply nv_split_slice|].
      intros l [[v st] ln] _. apply novpe_bind; [destruct v; try easy; apply nv_count_var|].
      intros _ _ _. destruct st as [[]|]; try easy.
      destruct ln as [[]|]; try easy; apply novpe_lift; cbn; try easy.
      apply bind_novpe; [apply endpos_novpe|easy].
    + apply novpe_bind; [|easy]. destruct d; try easy. apply nv_count_var.
Qed.

(* C28 *)
Lemma parse_loop_vpe fuel : forall acc data w,
  snd (parse_loop U FT fuel acc data w) = Exn VarParseError -> Unterminated data.
Proof.
  induction fuel as [|k IH]; intros acc data w H; [easy|]. cbn [parse_loop] in H.
  destruct (loop_cases data) as [[E _]|(pre & x & rest & E & Ho & Hc)]; rewrite E in H; [easy|].
  destruct Hc as [[E2 Hn]|(i & r & m & E2 & Hc & Hm)]; rewrite E2 in H.
  { eapply Un_here; eassumption. }
  match type of H with context [mbind ?m0 _] => destruct m0 as [l [d|e|]] eqn:Em end; cbn in H; try easy.
  - match type of H with context [mbind ?m1 _] => destruct m1 as [l' [v|e|]] eqn:Em1 end; cbn in H; try easy.
    + eapply Un_after; [exact Ho|exact Hc|]. eapply IH. exact H.
    + injection H as ->. exfalso. destruct (x =? 123).
      * apply (nv_process_variable d w). now rewrite Em1.
      * discriminate.
  - injection H as ->. destruct m; [|discriminate].
    eapply Un_inner; [exact Ho|exact Hc|]. apply (IH [] i w). now rewrite Em.
Qed.

Lemma unterminated_opens i : Unterminated i -> Opens i.
Proof.
  intros [s pre o c rest (Hop & -> & _) _|s pre o c rest j r (Hop & -> & _) _ _|s pre o c rest j r (Hop & -> & _) _ _];
    now exists pre, o, c, rest.
Qed.

Lemma unterminated_not_ok data : Unterminated data -> forall fuel acc w t,
  snd (parse_loop U FT fuel acc data w) <> Ok t.
Proof.
  intros H. induction H as [s pre o c rest Ho Hn|s pre o c rest i r Ho Hc Hi IH|s pre o c rest i r Ho Hc Hi IH];
    intros fuel acc w t E; destruct fuel as [|k]; try easy; cbn [parse_loop] in E;
    destruct (loop_cases s) as [[Es Hs]|(pre' & x & rest' & Es & Ho' & Hc')];
    try (exfalso; apply Hs; destruct Ho as (Hop & -> & _); now exists pre, o, c, rest);
    rewrite Es in E;
    destruct (first_open_fun _ _ _ _ _ _ _ _ _ Ho Ho') as (<- & <- & -> & <-).
  - destruct Hc' as [[Ef _]|(i & r & m & Ef & Hc & _)].
    + rewrite Ef in E. easy.
    + now apply (Hn i r).
  - assert (Hne : o <> close_of o) by (destruct Ho as ([] & _); easy).
    destruct Hc' as [[Ef Hn]|(i' & r' & m & Ef & Hcb & Hm)]; [now apply (Hn i r)|].
    apply closed_at_by in Hc. apply closed_at_by in Hcb.
    destruct (closed_at_fun _ _ _ _ _ _ _ _ Hne Hc Hcb) as [<- <-].
    rewrite Ef in E.
    assert (Hopen : Opens i).
    { now apply unterminated_opens. }
    apply Hm in Hopen. subst m.
    destruct (parse_loop U FT k [] i w) as [l [d|e|]] eqn:Ei; cbn in E; try easy.
    apply (IH k [] w d). now rewrite Ei.
  - assert (Hne : o <> close_of o) by (destruct Ho as ([] & _); easy).
    destruct Hc' as [[Ef Hn]|(i' & r' & m & Ef & Hcb & Hm)]; [now apply (Hn i r)|].
    apply closed_at_by in Hc. apply closed_at_by in Hcb.
    destruct (closed_at_fun _ _ _ _ _ _ _ _ Hne Hc Hcb) as [<- <-].
    rewrite Ef in E.
    match type of E with context [mbind ?m0 _] => destruct m0 as [l [d|e|]] eqn:Em end; cbn in E; try easy.
    match type of E with context [mbind ?m1 _] => destruct m1 as [l' [v|e|]] eqn:Em1 end; cbn in E; try easy.
    now apply (IH _ _ _ _ E).
Qed.
End T.
