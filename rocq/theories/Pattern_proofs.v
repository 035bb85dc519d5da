(* Proofs about the pattern model: order, construction, language, example. *)
From Verif Require Import Base Utf8 Pattern Spec_Pattern Utf8_proofs.
From Coq Require Import ZifyBool ZifyN ZifyNat.
Ltac Zify.zify_post_hook ::= Z.div_mod_to_equations.

(* ------------------------------------------------------------------ *)
(* Order                                                                *)

Record cmp_ok {A} (cmp : A -> A -> comparison) : Prop := {
  co_eq : forall a b, cmp a b = Eq <-> a = b;
  co_opp : forall a b, cmp b a = CompOpp (cmp a b);
  co_trans : forall a b c, cmp a b = Lt -> cmp b c = Lt -> cmp a c = Lt
}.

Lemma N_cmp_ok : cmp_ok N.compare.
Proof.
  split.
  - apply N.compare_eq_iff.
  - intros a b; apply N.compare_antisym.
  - intros a b c; rewrite !N.compare_lt_iff; lia.
Qed.

Lemma lex_cmp_ok {A} (cmp : A -> A -> comparison) : cmp_ok cmp -> cmp_ok (lex cmp).
Proof.
  intros [Heq Hopp Htr]; split.
  - induction a as [|x a IH]; intros [|y b]; cbn; try (split; congruence).
    destruct (cmp x y) eqn:E.
    + apply Heq in E; subst. rewrite IH. split; congruence.
    + split; [congruence|]. intros H; inversion H; subst.
      assert (cmp y y = Eq) by (now apply Heq). congruence.
    + split; [congruence|]. intros H; inversion H; subst.
      assert (cmp y y = Eq) by (now apply Heq). congruence.
  - induction a as [|x a IH]; intros [|y b]; cbn; try easy.
    rewrite (Hopp x y). destruct (cmp x y); cbn; auto.
  - induction a as [|x a IH]; intros [|y b] [|z c]; cbn; try easy.
    destruct (cmp x y) eqn:E1; destruct (cmp y z) eqn:E2; try discriminate; intros H1 H2.
    + apply Heq in E1, E2; subst. assert (E : cmp z z = Eq) by (now apply Heq).
      rewrite E; eauto.
    + apply Heq in E1; subst. now rewrite E2.
    + apply Heq in E2; subst. now rewrite E1.
    + now rewrite (Htr _ _ _ E1 E2).
Qed.

Lemma value_cmp_ok : cmp_ok value_cmp.
Proof.
  pose proof (lex_cmp_ok _ N_cmp_ok) as [Leq Lopp Ltr].
  destruct N_cmp_ok as [Neq Nopp Ntr].
  split; unfold value_cmp.
  - intros [n x] [m y]; cbn. destruct (N.compare n m) eqn:E.
    + apply Neq in E; subst. destruct x as [x|], y as [y|]; try (split; congruence).
      rewrite Leq; split; congruence.
    + split; [congruence|]; intros H; inversion H; subst; rewrite N.compare_refl in E; congruence.
    + split; [congruence|]; intros H; inversion H; subst; rewrite N.compare_refl in E; congruence.
  - intros [n x] [m y]; cbn. rewrite (Nopp n m). destruct (N.compare n m); cbn; try easy.
    destruct x, y; cbn; auto.
  - intros [n x] [m y] [k z]; cbn.
    destruct (N.compare n m) eqn:E1; destruct (N.compare m k) eqn:E2; try discriminate; intros H1 H2.
    + apply Neq in E1, E2; subst. rewrite N.compare_refl.
      destruct x, y, z; try discriminate; eauto.
    + apply Neq in E1; subst. now rewrite E2.
    + apply Neq in E2; subst. now rewrite E1.
    + now rewrite (Ntr _ _ _ E1 E2).
Qed.

Lemma values_cmp_ok : cmp_ok values_cmp.
Proof.
  pose proof (lex_cmp_ok _ value_cmp_ok) as [Leq Lopp Ltr].
  destruct N_cmp_ok as [Neq Nopp Ntr].
  split; unfold values_cmp.
  - intros [n x] [m y]; cbn. destruct (N.compare n m) eqn:E.
    + apply Neq in E; subst. rewrite Leq; split; congruence.
    + split; [congruence|]; intros H; inversion H; subst; rewrite N.compare_refl in E; congruence.
    + split; [congruence|]; intros H; inversion H; subst; rewrite N.compare_refl in E; congruence.
  - intros [n x] [m y]; cbn. rewrite (Nopp n m). destruct (N.compare n m); cbn; auto.
  - intros [n x] [m y] [k z]; cbn.
    destruct (N.compare n m) eqn:E1; destruct (N.compare m k) eqn:E2; try discriminate; intros H1 H2.
    + apply Neq in E1, E2; subst. rewrite N.compare_refl; eauto.
    + apply Neq in E1; subst. now rewrite E2.
    + apply Neq in E2; subst. now rewrite E1.
    + now rewrite (Ntr _ _ _ E1 E2).
Qed.

Lemma pat_eqb_eq a b : pat_eqb a b = true <-> pv a = pv b.
Proof.
  unfold pat_eqb. rewrite <- (co_eq _ values_cmp_ok).
  destruct (values_cmp (pv a) (pv b)); split; congruence.
Qed.

Lemma pat_eqb_refl a : pat_eqb a a = true.
Proof. now apply pat_eqb_eq. Qed.

Lemma vlist_eqb_eq a b : vlist_eqb a b = true <-> a = b.
Proof.
  unfold vlist_eqb. rewrite <- (co_eq _ (lex_cmp_ok _ value_cmp_ok)).
  destruct (lex value_cmp a b); split; congruence.
Qed.

Lemma pat_order : StrictTotalOrder (fun a b => pat_eqb a b = true) (fun a b => pat_ltb a b = true).
Proof.
  destruct values_cmp_ok as [Ceq Copp Ctr].
  assert (LT : forall a b, pat_ltb a b = true <-> values_cmp (pv a) (pv b) = Lt).
  { intros a b; unfold pat_ltb; destruct (values_cmp (pv a) (pv b)); split; congruence. }
  split.
  - apply pat_eqb_refl.
  - intros a b; rewrite !pat_eqb_eq; congruence.
  - intros a b c; rewrite !pat_eqb_eq; congruence.
  - intros a b; rewrite pat_eqb_eq, LT; intros E; rewrite E.
    assert (H : values_cmp (pv b) (pv b) = Eq) by (now apply Ceq). congruence.
  - intros a b c; rewrite !LT; apply Ctr.
  - intros a b; rewrite !LT, pat_eqb_eq, <- Ceq, (Copp (pv a) (pv b)).
    destruct (values_cmp (pv a) (pv b)); cbn; tauto.
  - intros a b c; rewrite pat_eqb_eq, !LT; intros ->; easy.
  - intros a b c; rewrite pat_eqb_eq, !LT; intros H <-; easy.
Qed.

(* The total_ordering-derived comparison is the reflexive closure and total. *)
Lemma pat_leb_total a b : pat_leb a b = true \/ pat_leb b a = true.
Proof.
  unfold pat_leb. destruct (sto_total _ _ pat_order a b) as [H|[H|H]]; rewrite H.
  - now left.
  - left; now rewrite orb_true_r.
  - now right.
Qed.

Lemma pat_leb_trans a b c : pat_leb a b = true -> pat_leb b c = true -> pat_leb a c = true.
Proof.
  unfold pat_leb; rewrite !orb_true_iff. pose proof pat_order as O. intros [H1|H1] [H2|H2].
  - left; eapply (sto_trans _ _ O); eauto.
  - left; eapply (sto_compat_r _ _ O); eauto.
  - left; eapply (sto_compat_l _ _ O); eauto.
  - right; eapply (sto_eq_trans _ _ O); eauto.
Qed.

(* ------------------------------------------------------------------ *)
(* Sets of bytes                                                        *)

Lemma nrange_len_In a n x : In x (nrange_len a n) <-> a <= x < a + N.of_nat n.
Proof.
  revert a; induction n as [|n IH]; intros a; cbn [nrange_len In].
  - lia.
  - rewrite IH. lia.
Qed.

Lemma nrange_In a b x : In x (nrange a b) <-> a <= x <= b.
Proof. unfold nrange. rewrite nrange_len_In. lia. Qed.

Lemma list_ind3 {A} (P : list A -> Prop) :
  P [] -> (forall a, P [a]) -> (forall a b, P [a; b]) ->
  (forall a b c l, P l -> P (b :: c :: l) -> P (a :: b :: c :: l)) ->
  forall l, P l.
Proof.
  intros H0 H1 H2 H3 l.
  enough (P l /\ (forall a, P (a :: l)) /\ (forall a b, P (a :: b :: l))) by tauto.
  induction l as [|x l [IH0 [IH1 IH2]]].
  - repeat split; auto.
  - repeat split; auto. 
Qed.

Lemma range_used_InSet l d : In d (range_used l) <-> InSet l d.
Proof.
  revert d; induction l as [|a|a b|a m b l IH1 IH2] using list_ind3; intros d.
  - cbn; split; [easy | inversion 1].
  - cbn; split; [intros [->|[]]; constructor | inversion 1; auto].
  - cbn; split; [intros [->|[->|[]]]; constructor | inversion 1; auto].
  - cbn [range_used]. destruct (N.eqb_spec m 0x2d) as [->|Hm].
    + rewrite in_app_iff, IH1. destruct (N.ltb_spec b a); rewrite nrange_In; split.
      * intros [H1|H1]; [apply IS_range; lia | now apply IS_after_range].
      * inversion 1; subst; try congruence; auto. left; lia.
      * intros [H1|H1]; [apply IS_range; lia | now apply IS_after_range].
      * inversion 1; subst; try congruence; auto. left; lia.
    + cbn [In]. change (match l with [] => _ | _ => _ end) with (range_used (m :: b :: l)) in *.
      split.
      * intros [->|H]; [now apply IS_head | apply IS_tail; [easy | now apply IH2]].
      * inversion 1; subst; try congruence; auto. right; now apply IH2.
Qed.

Lemma set_insert_In x l y : In y (set_insert x l) <-> y = x \/ In y l.
Proof.
  induction l as [|z l IH]; cbn; [intuition|].
  destruct (N.ltb_spec x z); cbn; [intuition|].
  destruct (N.eqb_spec x z); cbn; [subst; intuition|]. rewrite IH; intuition.
Qed.

Lemma sorted_set_In l x : In x (sorted_set l) <-> In x l.
Proof. induction l as [|y l IH]; cbn; [easy|]. rewrite set_insert_In, IH. intuition. Qed.

Lemma set_insert_sorted x l : StronglySorted N.lt l -> StronglySorted N.lt (set_insert x l).
Proof.
  induction 1 as [|y l Hs IH Hf]; cbn; [repeat constructor|].
  destruct (N.ltb_spec x y) as [H|H].
  { constructor; [now constructor|]. constructor; [easy|].
    eapply Forall_impl; [|exact Hf]; cbn; intros; lia. }
  destruct (N.eqb_spec x y) as [E|E]; [now constructor|].
  constructor; [easy|]. apply Forall_forall. intros z Hz. apply set_insert_In in Hz as [->|Hz]; [lia|].
  rewrite Forall_forall in Hf; auto.
Qed.

Lemma sorted_set_sorted l : StronglySorted N.lt (sorted_set l).
Proof. induction l; cbn; [constructor | now apply set_insert_sorted]. Qed.

(* Two strictly sorted lists with the same elements are equal. *)
Lemma sorted_ext l1 l2 :
  StronglySorted N.lt l1 -> StronglySorted N.lt l2 -> (forall x, In x l1 <-> In x l2) -> l1 = l2.
Proof.
  intros H1; revert l2; induction H1 as [|x l1 Hs IH Hf]; intros l2 H2 E.
  - destruct l2 as [|y l2]; [easy|]. exfalso; apply (E y); now left.
  - destruct H2 as [|y l2 Hs2 Hf2]. { exfalso; apply (E x); now left. }
    rewrite Forall_forall in Hf, Hf2.
    assert (x = y).
    { destruct (proj1 (E x) (or_introl eq_refl)) as [|Hx]; [easy|].
      destruct (proj2 (E y) (or_introl eq_refl)) as [|Hy]; [easy|].
      apply Hf in Hy; apply Hf2 in Hx; lia. }
    subst y. f_equal. apply IH; [easy|]. intros z; split; intros Hz.
    + destruct (proj1 (E z) (or_intror Hz)) as [->|]; [|easy]. apply Hf in Hz; lia.
    + destruct (proj2 (E z) (or_intror Hz)) as [->|]; [|easy]. apply Hf2 in Hz; lia.
Qed.

Lemma sorted_bounds x l : StronglySorted N.lt (x :: l) ->
  forall y, In y (x :: l) -> x <= y <= last (x :: l) 0.
Proof.
  revert x; induction l as [|z l IH]; intros x H y Hy.
  - destruct Hy as [->|[]]; cbn; lia.
  - inversion H as [|? ? Hs Hf]; subst. inversion Hf; subst.
    change (last (x :: z :: l) 0) with (last (z :: l) 0).
    specialize (IH z Hs). destruct Hy as [->|Hy].
    + specialize (IH z (or_introl eq_refl)). lia.
    + apply IH in Hy; lia.
Qed.

Lemma sorted_length x l : StronglySorted N.lt (x :: l) ->
  N.of_nat (List.length (x :: l)) <= last (x :: l) 0 - x + 1.
Proof.
  revert x; induction l as [|z l IH]; intros x H.
  - cbn; lia.
  - inversion H as [|? ? Hs Hf]; subst. inversion Hf; subst.
    change (last (x :: z :: l) 0) with (last (z :: l) 0).
    pose proof (sorted_bounds z l Hs z (or_introl eq_refl)).
    specialize (IH z Hs). cbn [List.length] in *. lia.
Qed.

Lemma sorted_contiguous x l : StronglySorted N.lt (x :: l) ->
  last (x :: l) 0 - x = N.of_nat (List.length (x :: l)) - 1 ->
  x :: l = nrange_len x (List.length (x :: l)).
Proof.
  revert x; induction l as [|z l IH]; intros x H E; [easy|].
  inversion H as [|? ? Hs Hf]; subst. inversion Hf; subst.
  change (last (x :: z :: l) 0) with (last (z :: l) 0) in E.
  pose proof (sorted_length z l Hs) as HL.
  pose proof (sorted_bounds z l Hs z (or_introl eq_refl)) as HB.
  cbn [List.length nrange_len] in *. f_equal.
  assert (z = x + 1) by lia. subst z. apply (IH (x + 1)); [easy|]. lia.
Qed.

Lemma sorted_lt_bound l b : StronglySorted N.lt l -> Forall (fun x => x < b) l ->
  N.of_nat (List.length l) <= b.
Proof.
  destruct l as [|x l]; [cbn; lia|]. intros H Hb. pose proof (sorted_length x l H) as HL.
  assert (Hin : In (last (x :: l) 0) (x :: l)).
  { clear. revert x; induction l as [|y l IH]; intros x; [now left|].
    right. change (last (x :: y :: l) 0) with (last (y :: l) 0). apply IH. }
  rewrite Forall_forall in Hb. apply Hb in Hin.
  pose proof (sorted_bounds x l H x (or_introl eq_refl)). lia.
Qed.

(* ------------------------------------------------------------------ *)
(* Numbers of the form len * 0x100 | first                              *)

Lemma lor_add a b : b < 0x100 -> N.lor (a * 0x100) b = a * 0x100 + b.
Proof.
  intros H. change 0x100 with (2 ^ 8) in *.
  rewrite <- N.lxor_lor.
  - symmetry. apply N.add_nocarry_lxor. apply N.bits_inj_0. intros n.
    rewrite N.land_spec. destruct (N.lt_ge_cases n 8).
    + rewrite N.mul_pow2_bits_low by easy. easy.
    + replace (N.testbit b n) with false; [now rewrite andb_false_r|].
      symmetry. destruct (N.eq_dec b 0) as [->|Hb]; [apply N.bits_0|].
      apply N.bits_above_log2. apply N.log2_lt_pow2; [lia|].
      eapply N.lt_le_trans; [exact H|]. apply N.pow_le_mono_r; lia.
  - apply N.bits_inj_0. intros n.
    rewrite N.land_spec. destruct (N.lt_ge_cases n 8).
    + rewrite N.mul_pow2_bits_low by easy. easy.
    + replace (N.testbit b n) with false; [now rewrite andb_false_r|].
      symmetry. destruct (N.eq_dec b 0) as [->|Hb]; [apply N.bits_0|].
      apply N.bits_above_log2. apply N.log2_lt_pow2; [lia|].
      eapply N.lt_le_trans; [exact H|]. apply N.pow_le_mono_r; lia.
Qed.

Lemma land_ff n : N.land n 0xff = n mod 0x100.
Proof. change 0xff with (N.ones 8). rewrite N.land_ones. reflexivity. Qed.

Lemma shiftr_8 n : N.shiftr n 8 = n / 0x100.
Proof. rewrite N.shiftr_div_pow2. reflexivity. Qed.

Lemma num_start len first : first < 0x100 -> N.land (len * 0x100 + first) 0xff = first.
Proof. intros H. rewrite land_ff. lia. Qed.

Lemma num_len len first : first < 0x100 -> len < 0x100 ->
  N.land (N.shiftr (len * 0x100 + first) 8) 0xff = len.
Proof. intros H Hl. rewrite land_ff, shiftr_8. lia. Qed.

(* ------------------------------------------------------------------ *)
(* Denotation of one element                                            *)

Definition vden (v : value) (d : N) : Prop :=
  match snd v with
  | Some s => In d s
  | None => N.land (fst v) 0xff <= d < N.land (fst v) 0xff + N.land (N.shiftr (fst v) 8) 0xff
  end.

Lemma vden_num len first d : first < 0x100 -> len < 0x100 ->
  vden (len * 0x100 + first, None) d <-> first <= d < first + len.
Proof. intros H Hl. unfold vden; cbn [fst snd]. now rewrite num_start, num_len. Qed.

Definition vspecial (v : value) : bool :=
  (fst v =? 0x18000) || (fst v =? 0x28000) || (fst v =? 0x30000).

Lemma match_vals_set v vs d e : vspecial v = false ->
  match_vals (v :: vs) (d :: e) = true <-> vden v d /\ match_vals vs e = true.
Proof.
  destruct v as [num set]; unfold vspecial, vden; cbn [fst snd]; intros H.
  cbn [match_vals]. rewrite H. destruct set as [s|].
  - destruct (memb d s) eqn:E.
    + apply memb_In in E; tauto.
    + apply memb_not_In in E; split; [congruence | tauto].
  - destruct ((N.land num 0xff <=? d) && (d <? N.land num 0xff + N.land (N.shiftr num 8) 0xff)) eqn:E.
    + split; [|tauto]. intros H1; split; [lia | easy].
    + split; [congruence|]. lia.
Qed.

Definition bytes_ok (b : bytes) : Prop := Forall (fun x => x < 0xf5) b.

Lemma InSet_bound b : bytes_ok b -> forall d, InSet b d -> d < 0xf5.
Proof.
  intros Hb d H. unfold bytes_ok in *.
  induction H as [a b rest d H|a b rest d H IH|a m b rest Hm|a m b rest d Hm H IH|a|a b|a b].
  - inversion Hb as [|? ? H1 H2]; subst; inversion H2 as [|? ? H3 H4]; subst; inversion H4; subst; lia.
  - inversion Hb as [|? ? H1 H2]; subst; inversion H2 as [|? ? H3 H4]; subst; inversion H4; subst; auto.
  - inversion Hb; easy.
  - inversion Hb; auto.
  - inversion Hb; easy.
  - inversion Hb; easy.
  - inversion Hb as [|? ? H1 H2]; subst; inversion H2; easy.
Qed.

Lemma parse_range_list_spec inner v : bytes_ok inner -> parse_range_list inner = Ok v ->
  let u := sorted_set (range_used inner) in
  exists first rest, u = first :: rest /\ first < 0xf5 /\
    (List.length u <= 245)%nat /\
    fst v = N.of_nat (List.length u) * 0x100 + first /\
    (snd v = Some u /\ last u 0 - first <> N.of_nat (List.length u) - 1
     \/ snd v = None /\ last u 0 - first = N.of_nat (List.length u) - 1).
Proof.
  intros Hb H u. unfold parse_range_list in H. fold u in H.
  pose proof (sorted_set_sorted (range_used inner)) as Hs. fold u in Hs.
  assert (Hu : Forall (fun x => x < 0xf5) u).
  { apply Forall_forall. intros x Hx. apply sorted_set_In, range_used_InSet in Hx.
    eapply InSet_bound; eauto. }
  pose proof (sorted_lt_bound u 0xf5 Hs Hu) as Hl.
  clearbody u. destruct u as [|first rest]; [discriminate|].
  assert (Hf : first < 0xf5) by (inversion Hu; easy).
  exists first, rest. split; [easy|]. split; [easy|]. split; [cbn [List.length] in *; lia|].
  rewrite lor_add in H by lia. unfold last_of in H.
  destruct (1 <? N.of_nat (List.length (first :: rest))) eqn:E1.
  - cbn [andb] in H.
    destruct (last (first :: rest) 0 - first =? N.of_nat (List.length (first :: rest)) - 1) eqn:E2;
      cbn [negb] in H; inversion H; subst; cbn [fst snd].
    + split; [easy|]. right. split; [easy|]. now apply N.eqb_eq.
    + split; [easy|]. left. split; [easy|]. now apply N.eqb_neq.
  - cbn [andb] in H. inversion H; subst; cbn [fst snd]. split; [easy|]. right. split; [easy|].
    destruct rest; [|cbn [List.length] in E1; lia]. cbn. lia.
Qed.

Lemma parse_range_list_den inner v : bytes_ok inner -> parse_range_list inner = Ok v ->
  vspecial v = false /\ forall d, vden v d <-> InSet inner d.
Proof.
  intros Hb H. pose proof (parse_range_list_spec inner v Hb H) as S. cbn zeta in S.
  destruct S as (first & rest & Hu & Hf & Hlen & Hnum & Hsnd).
  pose proof (sorted_set_sorted (range_used inner)) as Hs.
  split.
  - unfold vspecial. rewrite Hnum. clear - Hf Hlen.
    rewrite !orb_false_iff, !N.eqb_neq. lia.
  - intros d. rewrite <- range_used_InSet, <- sorted_set_In. unfold vden.
    destruct Hsnd as [[-> _] | [-> Hc]]; [easy|].
    rewrite Hnum, num_start, num_len by lia.
    rewrite Hu in *. rewrite (sorted_contiguous _ _ Hs Hc) at 2. now rewrite nrange_len_In.
Qed.

Lemma parse_range_list_total inner : inner <> [] -> exists v, parse_range_list inner = Ok v.
Proof.
  intros H. unfold parse_range_list.
  destruct (sorted_set (range_used inner)) eqn:E.
  - exfalso. destruct inner as [|a [|m [|b l]]]; try easy; cbn in E.
    + assert (In a (set_insert a (sorted_set [m]))) as Hi by (apply set_insert_In; auto).
      cbn in Hi. rewrite E in Hi; easy.
    + assert (X : exists x, In x (range_used (a :: m :: b :: l))).
      { cbn [range_used]. destruct (m =? 45); [|exists a; now left].
        exists a. apply in_or_app; left. destruct (N.ltb_spec b a); apply nrange_In; lia. }
      destruct X as [x Hx]. apply sorted_set_In in Hx. cbn [range_used] in Hx. rewrite E in Hx; easy.
  - match goal with |- context [if ?b then _ else _] => destruct b end; eauto.
Qed.

Lemma parse_range_list_nil : parse_range_list [] = Exn IndexError.
Proof. reflexivity. Qed.

(* ------------------------------------------------------------------ *)
(* Cutting at the first ']'                                             *)

Lemma cut_rbracket_some l a b : cut_rbracket l = Some (a, b) <-> l = a ++ 0x5d :: b /\ ~ In 0x5d a.
Proof.
  revert a b; induction l as [|x l IH]; cbn; intros a b.
  - split; [discriminate|]. intros [H _]; destruct a; discriminate.
  - destruct (N.eqb_spec x 0x5d) as [->|Hx].
    + split.
      * intros H; inversion H; subst; auto.
      * intros [H Hn]. destruct a as [|y a]; [cbn in H; inversion H; reflexivity|].
        cbn in H; inversion H; subst. exfalso; apply Hn; now left.
    + destruct (cut_rbracket l) as [[a' b']|] eqn:E.
      * split.
        -- intros H; inversion H; subst.
           destruct (proj1 (IH a' b) eq_refl) as [-> Hn]. split; [easy|]. cbn; intuition.
        -- intros [H Hn]. destruct a as [|y a]; cbn in H; inversion H; subst; [congruence|].
           assert (Some (a', b') = Some (a, b)) as X.
           { apply IH; split; [easy|]. intros Hi; apply Hn; now right. }
           inversion X; subst; easy.
      * split; [discriminate|]. intros [H Hn]. destruct a as [|y a]; cbn in H; inversion H; subst; [congruence|].
        assert (None = Some (a, b)) as X; [|discriminate]. apply IH; split; [easy|]. intros Hi; apply Hn; now right.
Qed.

Lemma cut_rbracket_none l : cut_rbracket l = None <-> ~ In 0x5d l.
Proof.
  induction l as [|x l IH]; cbn; [tauto|].
  destruct (N.eqb_spec x 0x5d) as [->|Hx]; [split; [discriminate|tauto]|].
  destruct (cut_rbracket l) as [[a b]|]; split; try discriminate; try tauto.
  - intros Hn. exfalso. assert (Some (a, b) = None) by (apply IH; tauto). discriminate.
Qed.

(* ------------------------------------------------------------------ *)
(* parse_pattern as a relation                                          *)

Definition is_meta (c : N) : bool :=
  (c =? 0x2d) || (c =? 0x58) || (c =? 0x78) || (c =? 0x5a) || (c =? 0x7a) ||
  (c =? 0x4e) || (c =? 0x6e) || (c =? 0x2e) || (c =? 0x21) || (c =? 0x5b).

Inductive PP : bytes -> list value -> Prop :=
| PP_nil : PP [] [(0x30000, None)]
| PP_dash r vs : PP r vs -> PP (0x2d :: r) vs
| PP_X c r vs : c = 0x58 \/ c = 0x78 -> PP r vs -> PP (c :: r) ((0xa30, None) :: vs)
| PP_Z c r vs : c = 0x5a \/ c = 0x7a -> PP r vs -> PP (c :: r) ((0x931, None) :: vs)
| PP_N c r vs : c = 0x4e \/ c = 0x6e -> PP r vs -> PP (c :: r) ((0x832, None) :: vs)
| PP_dot r vs : PP r vs -> PP (0x2e :: r) ((0x18000, None) :: vs)
| PP_bang r vs : PP r vs -> PP (0x21 :: r) ((0x28000, None) :: vs)
| PP_set inner r v vs : ~ In 0x5d inner -> parse_range_list inner = Ok v -> PP r vs ->
    PP (0x5b :: inner ++ 0x5d :: r) (v :: vs)
| PP_lit c r vs : is_meta c = false -> PP r vs -> PP (c :: r) ((0x100 + c, None) :: vs).

Lemma parse_pattern_b_PP fuel raw vs : parse_pattern_b fuel raw = Ok vs -> PP raw vs.
Proof.
  revert raw vs; induction fuel as [|fuel IH]; intros raw vs H; [discriminate|].
  cbn in H. destruct raw as [|c r]; [inversion H; constructor|].
  destruct (N.eqb_spec c 0x2d) as [->|H1]; [constructor; auto|].
  destruct ((c =? 0x58) || (c =? 0x78)) eqn:H2.
  { apply bind_ok in H as [vs' [Hr H]]. inversion H; subst. constructor; [lia | auto]. }
  destruct ((c =? 0x5a) || (c =? 0x7a)) eqn:H3.
  { apply bind_ok in H as [vs' [Hr H]]. inversion H; subst. constructor; [lia | auto]. }
  destruct ((c =? 0x4e) || (c =? 0x6e)) eqn:H4.
  { apply bind_ok in H as [vs' [Hr H]]. inversion H; subst. constructor; [lia | auto]. }
  destruct (N.eqb_spec c 0x2e) as [->|H5].
  { apply bind_ok in H as [vs' [Hr H]]. inversion H; subst. constructor; auto. }
  destruct (N.eqb_spec c 0x21) as [->|H6].
  { apply bind_ok in H as [vs' [Hr H]]. inversion H; subst. constructor; auto. }
  destruct (N.eqb_spec c 0x5b) as [->|H7].
  { destruct (cut_rbracket r) as [[inner r']|] eqn:E; [|discriminate].
    apply cut_rbracket_some in E as [-> Hn].
    apply bind_ok in H as [v [Hv H]]. apply bind_ok in H as [vs' [Hr H]]. inversion H; subst.
    constructor; auto. }
  apply bind_ok in H as [vs' [Hr H]]. inversion H; subst. constructor; auto.
  unfold is_meta. rewrite !orb_false_iff, !N.eqb_neq. lia.
Qed.

Lemma PP_parse_pattern_b raw vs : PP raw vs -> forall fuel, (List.length raw < fuel)%nat ->
  parse_pattern_b fuel raw = Ok vs.
Proof.
  induction 1 as [|r vs H IH|c r vs Hc H IH|c r vs Hc H IH|c r vs Hc H IH|r vs H IH|r vs H IH
                 |inner r v vs Hn Hv H IH|c r vs Hc H IH];
    intros [|fuel] Hf; try (exfalso; cbn in Hf; lia); cbn [List.length] in Hf.
  - reflexivity.
  - cbn [parse_pattern_b]. change (0x2d =? 0x2d) with true. cbn iota. apply IH; lia.
  - destruct Hc as [-> | ->]; cbn; rewrite IH by lia; reflexivity.
  - destruct Hc as [-> | ->]; cbn; rewrite IH by lia; reflexivity.
  - destruct Hc as [-> | ->]; cbn; rewrite IH by lia; reflexivity.
  - cbn; rewrite IH by lia; reflexivity.
  - cbn; rewrite IH by lia; reflexivity.
  - rewrite app_length in Hf; cbn [List.length] in Hf.
    cbn. rewrite (proj2 (cut_rbracket_some _ inner r)) by auto.
    rewrite Hv; cbn. rewrite IH by lia. reflexivity.
  - unfold is_meta in Hc. rewrite !orb_false_iff in Hc.
    cbn [parse_pattern_b]. decompose [and] Hc. 
    repeat match goal with H : (c =? _) = false |- _ => rewrite H; clear H end. cbn [orb].
    rewrite IH by lia. reflexivity.
Qed.

Lemma PP_fun raw v1 v2 : PP raw v1 -> PP raw v2 -> v1 = v2.
Proof.
  intros H1 H2. apply PP_parse_pattern_b with (fuel := S (List.length raw)) in H1; [|lia].
  apply PP_parse_pattern_b with (fuel := S (List.length raw)) in H2; [|lia]. congruence.
Qed.

(* ------------------------------------------------------------------ *)
(* The language (C05)                                                   *)

Lemma PP_match p vs : PP p vs -> bytes_ok p -> forall e,
  match_vals vs e = true <-> exists e1 e2, e = e1 ++ e2 /\ PatLang p e1.
Proof.
  induction 1 as [|r vs H IH|c r vs Hc H IH|c r vs Hc H IH|c r vs Hc H IH|r vs H IH|r vs H IH
                 |inner r v vs Hn Hv H IH|c r vs Hc H IH]; intros Hb e.
  - split.
    + intros _. exists [], e. split; [easy | apply PL_end].
    + intros _. destruct e; reflexivity.
  - inversion Hb; subst. rewrite IH by easy. split.
    + intros (e1 & e2 & -> & Hl). exists e1, e2; split; [easy | now constructor].
    + intros (e1 & e2 & -> & Hl). inversion Hl; subst; try lia.
      * exists e1, e2; auto.
      * exfalso; cbn in *; tauto.
  - inversion Hb; subst. destruct e as [|d e].
    + split; [discriminate|]. intros (e1 & e2 & E & Hl). symmetry in E; apply app_eq_nil in E as [-> _].
      inversion Hl; subst; lia.
    + rewrite match_vals_set by easy. rewrite IH by easy.
      assert (V : vden (0xa30, None) d <-> 0x30 <= d <= 0x39).
      { change 0xa30 with (10 * 0x100 + 0x30). rewrite vden_num by lia. lia. }
      rewrite V. split.
      * intros [Hd (e1 & e2 & -> & Hl)]. exists (d :: e1), e2; split; [easy | now apply PL_X].
      * intros (e1 & e2 & E & Hl). inversion Hl; subst; try lia; cbn in E; inversion E; subst.
        -- split; [easy|]. eauto.
        -- exfalso; cbn in *; intuition congruence.
  - inversion Hb; subst. destruct e as [|d e].
    + split; [discriminate|]. intros (e1 & e2 & E & Hl). symmetry in E; apply app_eq_nil in E as [-> _].
      inversion Hl; subst; lia.
    + rewrite match_vals_set by easy. rewrite IH by easy.
      assert (V : vden (0x931, None) d <-> 0x31 <= d <= 0x39).
      { change 0x931 with (9 * 0x100 + 0x31). rewrite vden_num by lia. lia. }
      rewrite V. split.
      * intros [Hd (e1 & e2 & -> & Hl)]. exists (d :: e1), e2; split; [easy | now apply PL_Z].
      * intros (e1 & e2 & E & Hl). inversion Hl; subst; try lia; cbn in E; inversion E; subst.
        -- split; [easy|]. eauto.
        -- exfalso; cbn in *; intuition congruence.
  - inversion Hb; subst. destruct e as [|d e].
    + split; [discriminate|]. intros (e1 & e2 & E & Hl). symmetry in E; apply app_eq_nil in E as [-> _].
      inversion Hl; subst; lia.
    + rewrite match_vals_set by easy. rewrite IH by easy.
      assert (V : vden (0x832, None) d <-> 0x32 <= d <= 0x39).
      { change 0x832 with (8 * 0x100 + 0x32). rewrite vden_num by lia. lia. }
      rewrite V. split.
      * intros [Hd (e1 & e2 & -> & Hl)]. exists (d :: e1), e2; split; [easy | now apply PL_N].
      * intros (e1 & e2 & E & Hl). inversion Hl; subst; try lia; cbn in E; inversion E; subst.
        -- split; [easy|]. eauto.
        -- exfalso; cbn in *; intuition congruence.
  - destruct e as [|d e].
    + split; [discriminate|]. intros (e1 & e2 & E & Hl). symmetry in E; apply app_eq_nil in E as [-> _].
      inversion Hl; subst; lia.
    + split; [|reflexivity]. intros _. exists [d], e. split; [easy | apply PL_dot].
  - split.
    + intros _. exists [], e. split; [easy | apply PL_bang].
    + destruct e; reflexivity.
  - assert (Hbi : bytes_ok inner /\ bytes_ok r).
    { inversion Hb as [|? ? ? Hb']; subst. apply Forall_app in Hb' as [? Hr]. inversion Hr; auto. }
    destruct Hbi as [Hbi Hbr]. destruct (parse_range_list_den _ _ Hbi Hv) as [Hsp Hden].
    destruct e as [|d e].
    + split.
      * cbn. unfold vspecial in Hsp. rewrite !orb_false_iff in Hsp. destruct Hsp as [[_ ->] ->]. discriminate.
      * intros (e1 & e2 & E & Hl). symmetry in E; apply app_eq_nil in E as [-> _].
        inversion Hl; subst; lia.
    + rewrite match_vals_set by easy. rewrite Hden, (IH Hbr). split.
      * intros [Hd (e1 & e2 & -> & Hl)]. exists (d :: e1), e2; split; [easy | now apply PL_set].
      * intros (e1 & e2 & E & Hl). inversion Hl as [ | | | | | | |inner' p' d' e' Hn' Hd' Hl' E1 E2| ]; subst; try lia;
          cbn in E; inversion E; subst.
        -- assert (X : inner = inner' /\ r = p').
           { assert (cut_rbracket (inner ++ 0x5d :: r) = Some (inner, r)) as C1 by (apply cut_rbracket_some; auto).
             assert (cut_rbracket (inner' ++ 0x5d :: p') = Some (inner', p')) as C2 by (apply cut_rbracket_some; auto).
             rewrite <- E1 in C1. rewrite C1 in C2. inversion C2; auto. }
           destruct X as [-> ->]. split; [easy | eauto].
        -- exfalso; cbn in *; intuition congruence.
  - inversion Hb; subst. unfold is_meta in Hc.
    assert (Hc' : ~ In c [0x2d; 0x58; 0x78; 0x5a; 0x7a; 0x4e; 0x6e; 0x2e; 0x21; 0x5b]).
    { cbn [In]. lia. }
    destruct e as [|d e].
    + split.
      * cbn. destruct (N.eqb_spec (0x100 + c) 0x28000); [lia|].
        destruct (N.eqb_spec (0x100 + c) 0x30000); [lia | discriminate].
      * intros (e1 & e2 & E & Hl). symmetry in E; apply app_eq_nil in E as [-> _].
        inversion Hl; subst; cbn in Hc'; intuition congruence.
    + rewrite match_vals_set by (unfold vspecial; cbn; rewrite !orb_false_iff, !N.eqb_neq; lia).
      rewrite IH by easy.
      assert (V : vden (0x100 + c, None) d <-> d = c).
      { unfold vden; cbn [fst snd]. change (0x100 + c) with (1 * 0x100 + c).
        rewrite num_start, num_len by lia. lia. }
      rewrite V. split.
      * intros [-> (e1 & e2 & -> & Hl)]. exists (c :: e1), e2; split; [easy | now apply PL_lit].
      * intros (e1 & e2 & E & Hl). inversion Hl; subst; cbn in E; inversion E; subst;
          try (exfalso; cbn in Hc'; intuition congruence).
        split; [easy|]. eauto.
Qed.

(* ------------------------------------------------------------------ *)
(* Which strings parse (C02)                                            *)

Lemma ppb_chr c : c <> 0x5b -> exists f : list value -> list value, forall fuel r,
  parse_pattern_b (S fuel) (c :: r) = (let! vs := parse_pattern_b fuel r in Ok (f vs)).
Proof.
  intros Hc. 
  destruct (N.eqb_spec c 0x2d) as [->|H1].
  { exists (fun vs => vs). intros fuel r. cbn. destruct (parse_pattern_b fuel r); reflexivity. }
  destruct ((c =? 0x58) || (c =? 0x78)) eqn:H2.
  { eexists (fun vs => _ :: vs). intros fuel r. cbn [parse_pattern_b]. apply N.eqb_neq in H1. rewrite H1, H2. reflexivity. }
  destruct ((c =? 0x5a) || (c =? 0x7a)) eqn:H3.
  { eexists (fun vs => _ :: vs). intros fuel r. cbn [parse_pattern_b]. apply N.eqb_neq in H1. rewrite H1, H2, H3. reflexivity. }
  destruct ((c =? 0x4e) || (c =? 0x6e)) eqn:H4.
  { eexists (fun vs => _ :: vs). intros fuel r. cbn [parse_pattern_b]. apply N.eqb_neq in H1. rewrite H1, H2, H3, H4. reflexivity. }
  destruct (c =? 0x2e) eqn:H5.
  { eexists (fun vs => _ :: vs). intros fuel r. cbn [parse_pattern_b]. apply N.eqb_neq in H1. rewrite H1, H2, H3, H4, H5. reflexivity. }
  destruct (c =? 0x21) eqn:H6.
  { eexists (fun vs => _ :: vs). intros fuel r. cbn [parse_pattern_b]. apply N.eqb_neq in H1. rewrite H1, H2, H3, H4, H5, H6. reflexivity. }
  eexists (fun vs => _ :: vs). intros fuel r. cbn [parse_pattern_b]. apply N.eqb_neq in H1, Hc.
  rewrite H1, H2, H3, H4, H5, H6, Hc. reflexivity.
Qed.

Lemma ppb_set c inner : c <> 0x5d -> ~ In 0x5d inner ->
  exists f : list value -> list value, forall fuel r,
  parse_pattern_b (S fuel) (0x5b :: (c :: inner) ++ 0x5d :: r) =
  (let! vs := parse_pattern_b fuel r in Ok (f vs)).
Proof.
  intros Hc Hi. destruct (parse_range_list_total (c :: inner)) as [v Hv]; [easy|].
  exists (fun vs => v :: vs). intros fuel r.
  assert (C : cut_rbracket ((c :: inner) ++ 0x5d :: r) = Some (c :: inner, r)).
  { apply cut_rbracket_some; split; [easy|]. cbn; intuition. }
  change (0x5b :: (c :: inner) ++ 0x5d :: r) with (0x5b :: ((c :: inner) ++ 0x5d :: r)).
  cbn [parse_pattern_b]. cbn [N.eqb]. 
  change (0x5b =? 0x2d) with false. change (0x5b =? 0x58) with false. change (0x5b =? 0x78) with false.
  change (0x5b =? 0x5a) with false. change (0x5b =? 0x7a) with false. change (0x5b =? 0x4e) with false.
  change (0x5b =? 0x6e) with false. change (0x5b =? 0x2e) with false. change (0x5b =? 0x21) with false.
  change (0x5b =? 0x5b) with true. cbn [orb]. rewrite C, Hv. reflexivity.
Qed.

Lemma Closed_ppb p : Closed p -> forall fuel, (List.length p < fuel)%nat ->
  exists vs, parse_pattern_b fuel p = Ok vs.
Proof.
  induction 1 as [|c p Hc H IH|c inner p Hc Hi H IH]; intros [|fuel] Hf; try (exfalso; cbn in Hf; lia).
  - cbn; eauto.
  - destruct (ppb_chr c Hc) as [f ->]. destruct (IH fuel) as [vs ->]; [cbn in Hf; lia|]. cbn; eauto.
  - destruct (ppb_set c inner Hc Hi) as [f ->]. destruct (IH fuel) as [vs ->].
    { cbn [List.length app] in Hf. rewrite app_length in Hf; cbn in Hf. lia. } cbn; eauto.
Qed.

Lemma FU_ppb p : FirstUnclosed p -> forall fuel, (List.length p < fuel)%nat ->
  parse_pattern_b fuel p = Exn ValueError.
Proof.
  induction 1 as [p Hn|c p Hc H IH|c inner p Hc Hi H IH]; intros [|fuel] Hf; try (exfalso; cbn in Hf; lia).
  - cbn. apply cut_rbracket_none in Hn. now rewrite Hn.
  - destruct (ppb_chr c Hc) as [f ->]. rewrite IH; [easy | cbn in Hf; lia].
  - destruct (ppb_set c inner Hc Hi) as [f ->]. rewrite IH; [easy|].
    cbn [List.length app] in Hf. rewrite app_length in Hf; cbn in Hf. lia.
Qed.

Lemma FE_ppb p : FirstEmpty p -> forall fuel, (List.length p < fuel)%nat ->
  parse_pattern_b fuel p = Exn IndexError.
Proof.
  induction 1 as [p|c p Hc H IH|c inner p Hc Hi H IH]; intros [|fuel] Hf; try (exfalso; cbn in Hf; lia).
  - reflexivity.
  - destruct (ppb_chr c Hc) as [f ->]. rewrite IH; [easy | cbn in Hf; lia].
  - destruct (ppb_set c inner Hc Hi) as [f ->]. rewrite IH; [easy|].
    cbn [List.length app] in Hf. rewrite app_length in Hf; cbn in Hf. lia.
Qed.

Lemma closed_cases p : Closed p \/ FirstUnclosed p \/ FirstEmpty p.
Proof.
  remember (List.length p) as n eqn:E. assert (Hn : (List.length p <= n)%nat) by lia. clear E.
  revert p Hn; induction n as [|n IH]; intros p Hn.
  { destruct p; [left; constructor | cbn in Hn; lia]. }
  destruct p as [|c p]; [left; constructor|]. cbn in Hn.
  destruct (N.eq_dec c 0x5b) as [->|Hc].
  - destruct (cut_rbracket p) as [[inner r]|] eqn:C.
    + apply cut_rbracket_some in C as [-> Hi]. destruct inner as [|c inner].
      { right; right. apply FE_here. }
      assert (Hc : c <> 0x5d) by (intros ->; apply Hi; now left).
      assert (Hi' : ~ In 0x5d inner) by (intros X; apply Hi; now right).
      destruct (IH r) as [H|[H|H]].
      { rewrite app_length in Hn; cbn in Hn; lia. }
      * left. now apply Closed_set.
      * right; left. now apply FU_set.
      * right; right. now apply FE_set.
    + apply cut_rbracket_none in C. right; left. now apply FU_here.
  - destruct (IH p) as [H|[H|H]]; [lia| left | right; left | right; right].
    + now apply Closed_chr.
    + now apply FU_chr.
    + now apply FE_chr.
Qed.

(* The three cases survive UTF-8 encoding. *)
Lemma utf8_In_ascii s b x : utf8_encode s = Ok b -> x < 0x80 -> (In x b <-> In x s).
Proof.
  revert b; induction s as [|c s IH]; cbn; intros b H Hx.
  - inversion H; easy.
  - apply bind_ok in H as [b1 [H1 H]]. apply bind_ok in H as [b2 [H2 H]]. inversion H; subst.
    rewrite in_app_iff, (IH _ H2 Hx). destruct (N.lt_ge_cases c 0x80) as [Hc|Hc].
    + rewrite encode1_ascii in H1 by easy. inversion H1; subst. cbn. tauto.
    + apply encode1_high in H1 as [H1 _]; [|easy]. rewrite Forall_forall in H1.
      split; [|intros [->|?]; [lia|tauto]]. intros [Hi|?]; [|tauto]. apply H1 in Hi; lia.
Qed.

Lemma prefix_chars (P : str -> Prop) b1 b2 :
  (forall c p, c <> 0x5b -> P p -> P (c :: p)) ->
  Forall (fun x => x <> 0x5b) b1 -> P b2 -> P (b1 ++ b2).
Proof. intros HP. induction 1; cbn; auto. Qed.

Lemma encode1_no_bracket c b : utf8_encode1 c = Ok b -> c <> 0x5b -> Forall (fun x => x <> 0x5b) b.
Proof.
  intros H Hc. destruct (N.lt_ge_cases c 0x80) as [Hl|Hl].
  - rewrite encode1_ascii in H by easy. inversion H; subst. constructor; auto.
  - apply encode1_high in H as [H _]; [|easy]. eapply Forall_impl; [|exact H]. cbn; intros; lia.
Qed.

Lemma encode_cons c s b : utf8_encode (c :: s) = Ok b ->
  exists b1 b2, utf8_encode1 c = Ok b1 /\ utf8_encode s = Ok b2 /\ b = b1 ++ b2.
Proof.
  cbn. intros H. apply bind_ok in H as [b1 [H1 H]]. apply bind_ok in H as [b2 [H2 H]].
  inversion H; subst. eauto.
Qed.

Lemma encode_split s t b : utf8_encode (s ++ t) = Ok b ->
  exists b1 b2, utf8_encode s = Ok b1 /\ utf8_encode t = Ok b2 /\ b = b1 ++ b2.
Proof.
  revert b; induction s as [|c s IH]; cbn [app]; intros b H.
  - exists [], b; auto.
  - apply encode_cons in H as (b1 & b2 & H1 & H2 & ->). apply IH in H2 as (b3 & b4 & H3 & H4 & ->).
    exists (b1 ++ b3), b4. split; [|split; [easy | apply app_assoc]].
    cbn. now rewrite H1, H3.
Qed.

Lemma encode_set_shape c inner p b : c <> 0x5d -> ~ In 0x5d inner ->
  utf8_encode (0x5b :: (c :: inner) ++ 0x5d :: p) = Ok b ->
  exists c' inner' bp, c' <> 0x5d /\ ~ In 0x5d inner' /\ utf8_encode p = Ok bp /\
    b = 0x5b :: (c' :: inner') ++ 0x5d :: bp.
Proof.
  intros Hc Hi H. apply encode_cons in H as (b1 & b2 & H1 & H2 & ->).
  rewrite encode1_ascii in H1 by lia. inversion H1; subst b1.
  apply encode_split in H2 as (b3 & b4 & H3 & H4 & ->).
  apply encode_cons in H4 as (b5 & b6 & H5 & H6 & ->).
  rewrite encode1_ascii in H5 by lia. inversion H5; subst b5.
  assert (Hn : ~ In 0x5d b3).
  { rewrite (utf8_In_ascii _ _ 0x5d H3) by lia. cbn; intuition. }
  destruct b3 as [|c' inner'].
  { exfalso. apply encode_cons in H3 as (b1 & b2 & Hb1 & Hb2 & E). symmetry in E.
    apply app_eq_nil in E as [-> _]. destruct (N.lt_ge_cases c 0x80).
    - rewrite encode1_ascii in Hb1 by easy; discriminate.
    - apply encode1_high in Hb1 as [_ X]; congruence. }
  exists c', inner', b6. repeat split; auto.
  - intros ->; apply Hn; now left.
  - intros X; apply Hn; now right.
Qed.

Lemma Closed_encode p : Closed p -> forall b, utf8_encode p = Ok b -> Closed b.
Proof.
  induction 1 as [|c p Hc H IH|c inner p Hc Hi H IH]; intros b E.
  - inversion E; constructor.
  - apply encode_cons in E as (b1 & b2 & H1 & H2 & ->).
    apply prefix_chars; [exact Closed_chr | now apply encode1_no_bracket with c | auto].
  - apply encode_set_shape in E as (c' & inner' & bp & Hc' & Hi' & Hp & ->); auto.
    apply Closed_set; auto.
Qed.

Lemma FU_encode p : FirstUnclosed p -> forall b, utf8_encode p = Ok b -> FirstUnclosed b.
Proof.
  induction 1 as [p Hn|c p Hc H IH|c inner p Hc Hi H IH]; intros b E.
  - apply encode_cons in E as (b1 & b2 & H1 & H2 & ->).
    rewrite encode1_ascii in H1 by lia. inversion H1; subst b1. apply FU_here.
    rewrite (utf8_In_ascii _ _ 0x5d H2) by lia. easy.
  - apply encode_cons in E as (b1 & b2 & H1 & H2 & ->).
    apply prefix_chars; [exact FU_chr | now apply encode1_no_bracket with c | auto].
  - apply encode_set_shape in E as (c' & inner' & bp & Hc' & Hi' & Hp & ->); auto.
    apply FU_set; auto.
Qed.

Lemma FE_encode p : FirstEmpty p -> forall b, utf8_encode p = Ok b -> FirstEmpty b.
Proof.
  induction 1 as [p|c p Hc H IH|c inner p Hc Hi H IH]; intros b E.
  - apply encode_cons in E as (b1 & b2 & H1 & H2 & ->).
    rewrite encode1_ascii in H1 by lia. inversion H1; subst b1.
    apply encode_cons in H2 as (b3 & b4 & H3 & H4 & ->).
    rewrite encode1_ascii in H3 by lia. inversion H3; subst b3. apply FE_here.
  - apply encode_cons in E as (b1 & b2 & H1 & H2 & ->).
    apply prefix_chars; [exact FE_chr | now apply encode1_no_bracket with c | auto].
  - apply encode_set_shape in E as (c' & inner' & bp & Hc' & Hi' & Hp & ->); auto.
    apply FE_set; auto.
Qed.

Lemma valid_str_scalar s : valid_str s <-> Forall (fun c => is_scalar c = true) s.
Proof.
  unfold valid_str. rewrite !Forall_forall. unfold unicode_scalar, is_scalar.
  split; intros H c Hc; specialize (H c Hc); lia.
Qed.

Lemma not_valid_encode s : ~ valid_str s -> utf8_encode s = Exn UnicodeEncodeError.
Proof.
  intros H. destruct (utf8_encode s) as [b|e|] eqn:E.
  - exfalso. apply H, valid_str_scalar, utf8_encode_total; eauto.
  - apply utf8_encode_exn in E; now subst.
  - now apply utf8_encode_no_hang in E.
Qed.

Lemma valid_encode s : valid_str s -> exists b, utf8_encode s = Ok b.
Proof. intros H. apply utf8_encode_total, valid_str_scalar, H. Qed.

Lemma parse_pattern_cases p : valid_str p ->
  (Closed p -> exists vs, parse (0x5f :: p) = Ok (mkv IS_A_PATTERN vs)) /\
  (FirstUnclosed p -> parse (0x5f :: p) = Exn ValueError) /\
  (FirstEmpty p -> parse (0x5f :: p) = Exn IndexError).
Proof.
  intros Hv. destruct (valid_encode p Hv) as [b Hb].
  cbn. change (0x5f =? 0x5f) with true; cbn iota. unfold parse_pattern. rewrite Hb.
  cbn [bind]. split; [|split]; intros H.
  - destruct (Closed_ppb b (Closed_encode _ H _ Hb) (S (List.length b))) as [vs ->]; [lia|]. cbn; eauto.
  - rewrite (FU_ppb b (FU_encode _ H _ Hb)); [easy|lia].
  - rewrite (FE_ppb b (FE_encode _ H _ Hb)); [easy|lia].
Qed.

Lemma parse_spec raw :
  (raw = [] -> parse raw = Exn TypeError) /\
  (raw <> [] -> ~ valid_str raw -> parse raw = Exn UnicodeEncodeError) /\
  (raw <> [] -> valid_str raw -> hd 0 raw <> 0x5f -> exists v, parse raw = Ok v /\ ptype v = NOT_A_PATTERN) /\
  (valid_str raw -> hd 0 raw = 0x5f ->
     (Closed (tl raw) -> exists v, parse raw = Ok v /\ ptype v = IS_A_PATTERN) /\
     (FirstUnclosed (tl raw) -> parse raw = Exn ValueError) /\
     (FirstEmpty (tl raw) -> parse raw = Exn IndexError) /\
     (Closed (tl raw) \/ FirstUnclosed (tl raw) \/ FirstEmpty (tl raw))).
Proof.
  split; [now intros ->|]. destruct raw as [|c p].
  { repeat split; try easy. }
  split; [|split].
  - intros _ Hv. unfold parse. destruct (N.eqb_spec c 0x5f) as [->|Hc].
    + unfold parse_pattern. rewrite not_valid_encode; [easy|]. intros X; apply Hv.
      constructor; [left; lia | easy].
    + rewrite not_valid_encode by easy. easy.
  - intros _ Hv Hc. cbn in Hc. destruct (valid_encode _ Hv) as [b Hb].
    unfold parse. destruct (N.eqb_spec c 0x5f); [easy|]. rewrite Hb. cbn; eauto.
  - intros Hv Hc. cbn in Hc; subst c. cbn [tl]. inversion Hv as [|? ? _ Hp]; subst.
    destruct (parse_pattern_cases p Hp) as (H1 & H2 & H3). split; [|split; [|split]]; auto.
    + intros H. destruct (H1 H) as [vs E]. exists (mkv IS_A_PATTERN vs); auto.
    + apply closed_cases.
Qed.

Lemma parse_ok_iff raw : (exists v, parse raw = Ok v) <->
  raw <> [] /\ valid_str raw /\ (hd 0 raw = 0x5f -> Closed (tl raw)).
Proof.
  destruct (parse_spec raw) as (H1 & H2 & H3 & H4). split.
  - intros [v Hv]. destruct raw as [|c p]; [rewrite H1 in Hv by easy; discriminate|].
    split; [easy|]. assert (V : valid_str (c :: p)).
    { apply valid_str_scalar, utf8_encode_total. destruct (utf8_encode (c :: p)) as [b|e|] eqn:E; eauto.
      - exfalso. rewrite H2 in Hv; [discriminate|easy|]. intros V. apply valid_encode in V as [b Vb].
        rewrite Vb in E; discriminate.
      - now apply utf8_encode_no_hang in E. }
    split; [easy|]. intros Hc. destruct (H4 V Hc) as (_ & HU & HE & [C|[C|C]]); [easy| |].
    + rewrite HU in Hv by easy; discriminate.
    + rewrite HE in Hv by easy; discriminate.
  - intros (Hn & V & HC). destruct (N.eq_dec (hd 0 raw) 0x5f) as [E|E].
    + destruct (H4 V E) as (HK & _). destruct (HK (HC E)) as [v [Hv _]]; eauto.
    + destruct (H3 Hn V E) as [v [Hv _]]; eauto.
Qed.

Lemma parse_no_hang raw : parse raw <> Hang.
Proof.
  destruct (parse_spec raw) as (H1 & H2 & H3 & H4). destruct raw as [|c p]; [easy|].
  assert (D : valid_str (c :: p) \/ ~ valid_str (c :: p)).
  { destruct (utf8_encode (c :: p)) as [b|e|] eqn:E.
    - left. apply valid_str_scalar, utf8_encode_total; eauto.
    - right. intros V. apply valid_encode in V as [b Hb]; congruence.
    - now apply utf8_encode_no_hang in E. }
  destruct D as [V|V]; [|rewrite H2 by easy; easy].
  destruct (N.eq_dec (hd 0 (c :: p)) 0x5f) as [E|E].
  - destruct (H4 V E) as (HC & HU & HE & [C|[C|C]]).
    + destruct (HC C) as [v [-> _]]; easy.
    + rewrite HU by easy; easy.
    + rewrite HE by easy; easy.
  - destruct (H3 ltac:(easy) V E) as [v [-> _]]; easy.
Qed.

(* ------------------------------------------------------------------ *)
(* matches_extension against the language (C05)                         *)

Lemma parse_pattern_inv p v : parse (0x5f :: p) = Ok v ->
  exists b, utf8_encode p = Ok b /\ ptype v = IS_A_PATTERN /\ PP b (pvals v).
Proof.
  cbn. change (0x5f =? 0x5f) with true; cbn iota. unfold parse_pattern. intros H.
  apply bind_ok in H as [vs [H1 H]]. apply bind_ok in H1 as [b [Hb H1]]. inversion H; subst.
  exists b. repeat split; auto. cbn. eapply parse_pattern_b_PP; eauto.
Qed.

Lemma parse_literal_inv raw v : hd 0 raw <> 0x5f -> parse raw = Ok v ->
  exists b, utf8_encode raw = Ok b /\ ptype v = NOT_A_PATTERN /\
    pvals v = map (fun i => (0x100 + i, None)) (no_dash b) /\ raw <> [].
Proof.
  destruct raw as [|c p]; [discriminate|]. cbn [hd]; intros Hc. unfold parse.
  destruct (N.eqb_spec c 0x5f); [easy|]. intros H. apply bind_ok in H as [b [Hb H]].
  inversion H; subst; cbn. exists b; repeat split; auto; discriminate.
Qed.

Lemma latin1_no_dash ext b : latin1_encode (no_dash ext) = Ok b -> b = no_dash ext.
Proof. intros H; now apply latin1_encode_ok in H. Qed.

Lemma matches_pattern_spec p v ext : parse (0x5f :: p) = Ok v -> Forall (fun c => c < 0x100) (no_dash ext) ->
  exists b, utf8_encode p = Ok b /\
  (matches_extension v ext = Ok true <->
     exists e1 e2, no_dash ext = e1 ++ e2 /\ PatLang b e1).
Proof.
  intros H He. apply parse_pattern_inv in H as (b & Hb & _ & HP). exists b; split; [easy|].
  unfold matches_extension. rewrite (proj2 (latin1_encode_ok _ (no_dash ext))) by auto. cbn.
  rewrite <- (PP_match _ _ HP (utf8_encode_bytes _ _ Hb)).
  split; [intros E; now inversion E | now intros ->].
Qed.

Lemma match_vals_literal b e : Forall (fun x => x < 0x100) b ->
  match_vals (map (fun i => (0x100 + i, None)) b) e = true <-> b = e.
Proof.
  revert e; induction b as [|x b IH]; intros e Hb; cbn [map].
  - destruct e; cbn; split; congruence.
  - inversion Hb; subst. destruct e as [|d e].
    + cbn. destruct (N.eqb_spec (0x100 + x) 0x28000); [lia|].
      destruct (N.eqb_spec (0x100 + x) 0x30000); [lia | split; discriminate].
    + rewrite match_vals_set by (unfold vspecial; cbn; rewrite !orb_false_iff, !N.eqb_neq; lia).
      rewrite IH by easy. change (0x100 + x) with (1 * 0x100 + x). rewrite vden_num by lia.
      split; [intros [? ->]; f_equal; lia | intros E; inversion E; subst; split; [lia|easy]].
Qed.

Lemma matches_literal_spec raw v ext : hd 0 raw <> 0x5f -> parse raw = Ok v ->
  Forall (fun c => c < 0x100) (no_dash ext) ->
  exists b, utf8_encode raw = Ok b /\
  (matches_extension v ext = Ok true <-> no_dash b = no_dash ext).
Proof.
  intros Hh H He. apply parse_literal_inv in H as (b & Hb & _ & Hv & _); [|easy].
  exists b; split; [easy|]. unfold matches_extension.
  rewrite (proj2 (latin1_encode_ok _ (no_dash ext))) by auto. cbn. rewrite Hv.
  rewrite <- match_vals_literal.
  - split; [intros E; now inversion E | now intros ->].
  - apply Forall_forall. intros x Hx. apply filter_In in Hx as [Hx _].
    apply utf8_encode_bytes in Hb. rewrite Forall_forall in Hb. apply Hb in Hx; lia.
Qed.

Lemma matches_extension_crash v ext : ~ Forall (fun c => c < 0x100) (no_dash ext) ->
  matches_extension v ext = Exn UnicodeEncodeError.
Proof.
  unfold matches_extension. intros H.
  enough (latin1_encode (no_dash ext) = Exn UnicodeEncodeError) as -> by easy.
  induction (no_dash ext) as [|c s IH]; [exfalso; apply H; constructor|].
  cbn. destruct (N.ltb_spec c 0x100); [|easy]. rewrite IH; [easy|].
  intros X; apply H; now constructor.
Qed.

(* ------------------------------------------------------------------ *)
(* Example (C06)                                                        *)

(* smallest member of a set is the dash *)
Definition low_dash (v : value) : bool := N.land (fst v) 0xff =? 0x2d.

Lemma no_dash_app a b : no_dash (a ++ b) = no_dash a ++ no_dash b.
Proof. apply filter_app. Qed.

Lemma PP_example_matches p vs : PP p vs -> bytes_ok p ->
  Forall (fun v => vspecial v = true \/ low_dash v = false) vs ->
  Forall (fun c => c < 0x100) (List.concat (map example_piece vs)) /\
  match_vals vs (no_dash (List.concat (map example_piece vs))) = true.
Proof.
  assert (STEP : forall v ws, vspecial v = false -> low_dash v = false ->
    vden v (N.land (fst v) 0xff) ->
    (Forall (fun c => c < 0x100) (List.concat (map example_piece ws)) /\
     match_vals ws (no_dash (List.concat (map example_piece ws))) = true) ->
    Forall (fun c => c < 0x100) (List.concat (map example_piece (v :: ws))) /\
    match_vals (v :: ws) (no_dash (List.concat (map example_piece (v :: ws)))) = true).
  { intros v ws Hs Hd Hm [IH1 IH2].
    assert (EP : example_piece v = [N.land (fst v) 0xff]).
    { unfold example_piece. unfold vspecial in Hs. rewrite !orb_false_iff in Hs.
      destruct Hs as [[-> ->] ->]. reflexivity. }
    cbn [map List.concat]. rewrite EP. cbn [app]. split.
    - constructor; [|easy]. rewrite land_ff. lia.
    - unfold low_dash in Hd. cbn [no_dash filter]. rewrite Hd. cbn [negb].
      apply match_vals_set; auto. }
  induction 1 as [|r vs H IH|c r vs Hc H IH|c r vs Hc H IH|c r vs Hc H IH|r vs H IH|r vs H IH
                 |inner r v vs Hn Hv H IH|c r vs Hc H IH]; intros Hb Hd.
  - split; [constructor | reflexivity].
  - inversion Hb; subst. auto.
  - inversion Hb; inversion Hd; subst. apply STEP; auto; try reflexivity.
    change 0xa30 with (10 * 0x100 + 0x30). cbn [fst]. rewrite num_start by lia. apply vden_num; lia.
  - inversion Hb; inversion Hd; subst. apply STEP; auto; try reflexivity.
    change 0x931 with (9 * 0x100 + 0x31). cbn [fst]. rewrite num_start by lia. apply vden_num; lia.
  - inversion Hb; inversion Hd; subst. apply STEP; auto; try reflexivity.
    change 0x832 with (8 * 0x100 + 0x32). cbn [fst]. rewrite num_start by lia. apply vden_num; lia.
  - inversion Hb; inversion Hd; subst. destruct IH as [IH1 IH2]; auto. split; [|reflexivity].
    cbn [map List.concat]. apply Forall_app; split; [|easy]. vm_compute. repeat constructor.
  - inversion Hb; inversion Hd; subst. destruct IH as [IH1 IH2]; auto. split; [|reflexivity].
    cbn [map List.concat]. apply Forall_app; split; [|easy]. vm_compute. repeat constructor.
  - assert (Hbi : bytes_ok inner /\ bytes_ok r).
    { inversion Hb as [|? ? ? Hb']; subst. apply Forall_app in Hb' as [? Hr]. inversion Hr; auto. }
    destruct Hbi as [Hbi Hbr]. destruct (parse_range_list_den _ _ Hbi Hv) as [Hsp Hden].
    inversion Hd as [|? ? Hdv Hdr]; subst. apply STEP; auto.
    + destruct Hdv; congruence.
    + pose proof (parse_range_list_spec inner v Hbi Hv) as S. cbn zeta in S.
      destruct S as (first & rest & Hu & Hf & Hlen & Hnum & Hsnd).
      rewrite Hnum, num_start by lia. apply Hden. apply range_used_InSet, sorted_set_In.
      rewrite Hu; now left.
  - inversion Hb; inversion Hd as [|? ? Hdv Hdr]; subst.
    assert (vspecial (0x100 + c, None) = false) as HS.
    { unfold vspecial; cbn; rewrite !orb_false_iff, !N.eqb_neq; lia. }
    apply STEP; auto.
    + destruct Hdv; congruence.
    + change (0x100 + c) with (1 * 0x100 + c). cbn [fst]. rewrite num_start by lia. apply vden_num; lia.
Qed.

Lemma example_matches raw v :
  parse raw = Ok v ->
  Forall (fun x => vspecial x = true \/ low_dash x = false) (pvals v) ->
  exists e, example v = Ok e /\ matches_extension v e = Ok true.
Proof.
  intros H Hd. destruct raw as [|c p]; [discriminate|].
  destruct (N.eq_dec c 0x5f) as [->|Hc].
  - apply parse_pattern_inv in H as (b & Hb & Ht & HP).
    destruct (PP_example_matches _ _ HP (utf8_encode_bytes _ _ Hb) Hd) as [E1 E2].
    unfold example. rewrite Ht. cbn. eexists; split; [reflexivity|].
    unfold matches_extension. rewrite (proj2 (latin1_encode_ok _ (no_dash (List.concat (map example_piece (pvals v)))))); [cbn; now rewrite E2|].
    split; [easy|]. apply Forall_forall. intros x Hx. apply filter_In in Hx as [Hx _].
    rewrite Forall_forall in E1; auto.
  - apply parse_literal_inv in H as (b & Hb & Ht & Hv & _); [|easy].
    assert (B : Forall (fun x => x < 0x100) (no_dash b)).
    { apply Forall_forall. intros x Hx. apply filter_In in Hx as [Hx _].
      apply utf8_encode_bytes in Hb. rewrite Forall_forall in Hb. apply Hb in Hx; lia. }
    assert (M : map (fun v => N.land (fst v) 0xff) (map (fun i : N => (0x100 + i, @None bytes)) (no_dash b)) = no_dash b).
    { rewrite map_map. rewrite <- (map_id (no_dash b)) at 2. apply map_ext_in. intros x Hx. cbn [fst].
      rewrite Forall_forall in B. apply B in Hx. change (0x100 + x) with (1 * 0x100 + x). now apply num_start. }
    assert (ND : no_dash (no_dash b) = no_dash b).
    { unfold no_dash. clear. induction b as [|x b IH]; cbn; [easy|].
      destruct (negb (x =? 45)) eqn:E; cbn; [rewrite E|]; congruence. }
    unfold example. rewrite Ht, Hv. cbn.
    match goal with |- context [forallb ?f ?l] => replace (forallb f l) with true end.
    2:{ symmetry. apply forallb_forall. intros x Hx. apply in_map_iff in Hx as (y & <- & _). reflexivity. }
    eexists; split; [reflexivity|]. rewrite M.
    unfold matches_extension. rewrite ND, (proj2 (latin1_encode_ok _ (no_dash b))) by auto. cbn.
    rewrite Hv. rewrite (proj2 (match_vals_literal _ _ B)); easy.
Qed.

(* ------------------------------------------------------------------ *)
(* Sorting (C01)                                                        *)

Lemma pat_insert_perm p l : Permutation (pat_insert p l) (p :: l).
Proof.
  induction l as [|x l IH]; cbn; [easy|]. destruct (pat_ltb x p); [|easy].
  rewrite IH. constructor.
Qed.

Lemma pat_sort_perm l : Permutation (pat_sort l) l.
Proof. induction l as [|p l IH]; cbn; [easy|]. rewrite pat_insert_perm. now constructor. Qed.

Definition ple (a b : pattern) : Prop := pat_leb a b = true.

Lemma pat_insert_sorted p l : StronglySorted ple l -> StronglySorted ple (pat_insert p l).
Proof.
  induction 1 as [|x l Hs IH Hf]; cbn; [repeat constructor|].
  destruct (pat_ltb x p) eqn:E.
  - constructor; [easy|]. eapply Permutation_Forall; [symmetry; apply pat_insert_perm|].
    constructor; [|easy]. unfold ple, pat_leb. now rewrite E.
  - assert (ple p x) as Hpx.
    { unfold ple, pat_leb. rewrite orb_true_iff. destruct (sto_total _ _ pat_order p x) as [H|[H|H]]; auto.
      congruence. }
    constructor; [now constructor|]. constructor; [easy|].
    eapply Forall_impl; [|exact Hf]. intros y Hy. eapply pat_leb_trans; eauto.
Qed.

Lemma pat_sort_sorted l : StronglySorted ple (pat_sort l).
Proof. induction l; cbn; [constructor | now apply pat_insert_sorted]. Qed.

(* no two elements at different places are == *)
Definition Distinct (l : list pattern) : Prop :=
  ForallOrdPairs (fun a b => pat_eqb a b = false) l.

Lemma Distinct_perm l l' : Permutation l l' -> Distinct l -> Distinct l'.
Proof.
  assert (SYM : forall a b, pat_eqb a b = false -> pat_eqb b a = false).
  { intros a b H. destruct (pat_eqb b a) eqn:E; [|easy]. apply (sto_eq_sym _ _ pat_order) in E. congruence. }
  unfold Distinct. induction 1 as [|x l l' HP IH|x y l|l1 l2 l3 H1 IH1 H2 IH2]; intros HD; auto.
  - inversion HD; subst. constructor; [|auto]. eapply Permutation_Forall; eauto.
  - inversion HD as [|? ? H1 H2]; subst. inversion H2 as [|? ? H3 H4]; subst. inversion H1; subst.
    repeat (constructor; auto).
Qed.

Lemma sorted_distinct_unique l1 l2 : Permutation l1 l2 -> Distinct l1 ->
  StronglySorted ple l1 -> StronglySorted ple l2 -> l1 = l2.
Proof.
  revert l2; induction l1 as [|x l1 IH]; intros l2 HP HD H1 H2.
  - now apply Permutation_nil in HP.
  - destruct l2 as [|y l2]; [symmetry in HP; now apply Permutation_nil in HP|].
    inversion HD as [|? ? D1 D2]; subst. inversion H1 as [|? ? S1 F1]; subst.
    inversion H2 as [|? ? S2 F2]; subst.
    assert (x = y) as ->.
    { assert (In y (x :: l1)) as Hy by (eapply Permutation_in; [symmetry; exact HP | now left]).
      assert (In x (y :: l2)) as Hx by (eapply Permutation_in; [exact HP | now left]).
      destruct Hy as [->|Hy]; [easy|]. destruct Hx as [->|Hx]; [easy|].
      rewrite Forall_forall in F1, F2, D1. specialize (F1 _ Hy). specialize (F2 _ Hx). specialize (D1 _ Hy).
      unfold ple, pat_leb in *. rewrite orb_true_iff in *.
      destruct F1 as [F1|F1]; [|congruence]. destruct F2 as [F2|F2].
      - exfalso. pose proof (sto_trans _ _ pat_order _ _ _ F1 F2) as X.
        revert X. apply (sto_irrefl _ _ pat_order). apply pat_eqb_refl.
      - apply (sto_eq_sym _ _ pat_order) in F2. congruence. }
    f_equal. apply IH; auto. now apply Permutation_cons_inv in HP.
Qed.

Lemma pat_dedup_distinct l : Distinct (pat_dedup l).
Proof.
  assert (H : forall l seen, Distinct (pat_dedup_acc seen l) /\
    forall x, In x (pat_dedup_acc seen l) -> Forall (fun s => pat_eqb x s = false) seen).
  { clear l. induction l as [|p l IH]; intros seen; cbn.
    - split; [constructor | easy].
    - destruct (existsb (pat_eqb p) seen) eqn:E; [apply IH|].
      destruct (IH (p :: seen)) as [I1 I2]. split.
      + constructor; [|easy]. apply Forall_forall. intros x Hx. apply I2 in Hx. inversion Hx; subst.
        destruct (pat_eqb p x) eqn:EE; [|easy]. apply (sto_eq_sym _ _ pat_order) in EE. congruence.
      + intros x [<-|Hx].
        * apply Forall_forall. intros s Hs. destruct (pat_eqb p s) eqn:EE; [|easy].
          assert (existsb (pat_eqb p) seen = true) by (apply existsb_exists; eauto). congruence.
        * apply I2 in Hx. now inversion Hx. }
  apply (H l []).
Qed.

Lemma pat_dedup_sound l x : In x (pat_dedup l) -> In x l.
Proof.
  unfold pat_dedup. generalize (@nil pattern). induction l as [|p l IH]; intros seen; cbn; [easy|].
  destruct (existsb _ _); [intros; right; eauto|]. intros [<-|H]; [now left | right; eauto].
Qed.

Lemma pat_dedup_complete l x : In x l -> exists y, In y (pat_dedup l) /\ pat_eqb x y = true.
Proof.
  assert (H : forall l seen x, In x l ->
    (exists y, In y seen /\ pat_eqb x y = true) \/ exists y, In y (pat_dedup_acc seen l) /\ pat_eqb x y = true).
  { clear. induction l as [|p l IH]; intros seen x Hx; [easy|]. cbn. destruct Hx as [->|Hx].
    - destruct (existsb (pat_eqb x) seen) eqn:E.
      + left. now apply existsb_exists in E.
      + right. exists x. split; [now left | apply pat_eqb_refl].
    - destruct (existsb (pat_eqb p) seen) eqn:E.
      + now apply IH.
      + destruct (IH (p :: seen) x Hx) as [(y & [<-|Hy] & Hxy)|(y & Hy & Hxy)].
        * right. exists p. split; [now left|easy].
        * left; eauto.
        * right. exists y. split; [now right|easy]. }
  intros Hx. destruct (H l [] x Hx) as [(y & [] & _)|Hy]; easy.
Qed.

Lemma pat_sort_order_free ps order : Permutation order (pat_dedup ps) ->
  pat_sort order = pat_sort (pat_dedup ps).
Proof.
  intros H. apply sorted_distinct_unique; try apply pat_sort_sorted.
  - now rewrite !pat_sort_perm.
  - eapply Distinct_perm; [symmetry; rewrite pat_sort_perm; exact H | apply pat_dedup_distinct].
Qed.
