(* Listings, searching and the report: C10-C13. *)
From Verif Require Import Base PyStr Utf8 Defines FileRd Config Pattern Spec_Pattern Pattern_proofs Var VarFun VarFun_proofs AppM
  Dialplan Spec_Dialplan Dialplan_proofs.

(* ---- C10 ---- *)
Lemma plt_trans a b c : pat_lt a b -> pat_lt b c -> pat_lt a c.
Proof. apply (sto_trans _ _ pat_order). Qed.
Lemma plt_neq a b : pat_lt a b -> ~ SamePat a b.
Proof. intros H E. apply same_pat_iff in E. now apply (sto_irrefl _ _ pat_order a b E). Qed.
Lemma plt_compat_l a b c : SamePat a b -> pat_lt b c -> pat_lt a c.
Proof. intros E. apply (sto_compat_l _ _ pat_order). now apply same_pat_iff. Qed.
Lemma plt_compat_r a b c : pat_lt a b -> SamePat b c -> pat_lt a c.
Proof. intros H E. apply (sto_compat_r _ _ pat_order a b c H). now apply same_pat_iff. Qed.

Lemma sorted_strict ps : StronglySorted ple ps -> ForallOrdPairs (fun a b => pat_eqb a b = false) ps -> StronglySorted pat_lt ps.
Proof.
  intros S. induction S as [|a l S IH F]; intros D; [constructor|]. inversion_clear D as [|? ? Da Dl].
  constructor; [now apply IH|]. rewrite Forall_forall in *. intros b Hb. specialize (F b Hb). specialize (Da b Hb).
  unfold ple, pat_leb in F. rewrite Da, orb_false_r in F. exact F.
Qed.
Lemma fop_perm {A} (R : A -> A -> Prop) l l' : (forall a b, R a b -> R b a) ->
  Permutation l l' -> ForallOrdPairs R l -> ForallOrdPairs R l'.
Proof.
  intros sym P. induction P; intros F; auto.
  - inversion_clear F as [|? ? F1 F2]. constructor; [|auto]. rewrite Forall_forall in *. intros y Hy. apply F1.
    now apply Permutation_in with l'; [apply Permutation_sym|].
  - inversion_clear F as [|? ? F1 F2]. inversion_clear F2 as [|? ? F3 F4]. inversion_clear F1.
    constructor; [constructor; auto|]. now constructor.
Qed.

Lemma fresh_ok l : StronglySorted pat_lt (fresh_patterns l) /\
  (forall p, In p (fresh_patterns l) -> exists x, In x l /\ p = x_pat x) /\
  (forall x, In x l -> exists p, In p (fresh_patterns l) /\ SamePat (x_pat x) p).
Proof.
  unfold fresh_patterns. pose proof (pat_sort_perm (pat_dedup (map x_pat l))) as P. split; [|split].
  - apply sorted_strict; [apply pat_sort_sorted|].
    eapply fop_perm; [|apply Permutation_sym, P|apply pat_dedup_distinct].
    intros a b. cbn. rewrite !same_pat_false. unfold SamePat. congruence.
  - intros p Hp. apply (Permutation_in _ P) in Hp. apply pat_dedup_sound in Hp. apply in_map_iff in Hp as (x & <- & Hx).
    now exists x.
  - intros x Hx. destruct (pat_dedup_complete (map x_pat l) (x_pat x)) as (p & Hp & E); [now apply in_map|].
    exists p. split; [|now apply same_pat_iff]. apply (Permutation_in _ (Permutation_sym P)). easy.
Qed.

(* The list in use has these properties, memoised or not. *)
Record Pats (exts : list ext) (ps : list pattern) : Prop := {
  pa_sorted : StronglySorted pat_lt ps;
  pa_sound : forall p, In p ps -> exists x, In x exts /\ p = x_pat x;
  pa_complete : forall x, In x exts -> exists p, In p ps /\ SamePat (x_pat x) p
}.
Lemma sorted_pats c : MemoOk c -> Pats (dc_exts c) (fst (sorted_patterns c)).
Proof.
  unfold sorted_patterns. intros [E|(ps & E & H1 & H2 & H3)]; rewrite E; [|now constructor].
  destruct (fresh_ok (dc_exts c)) as (? & ? & ?). now constructor.
Qed.

Definition cls (p : pattern) (x : ext) : bool := pat_eqb (x_pat x) p.
Lemma cls_iff p x : cls p x = true <-> SamePat (x_pat x) p.
Proof. apply same_pat_iff. Qed.

Lemma filter_disjoint {A} (f g : A -> bool) l : (forall x, f x = true -> g x = true -> False) ->
  Permutation (filter f l ++ filter g l) (filter (fun x => f x || g x) l).
Proof.
  intros D. induction l as [|x l IH]; [constructor|]. cbn. destruct (f x) eqn:F, (g x) eqn:G; cbn.
  - now destruct (D x).
  - now constructor.
  - eapply perm_trans; [apply Permutation_sym, Permutation_middle|]. now constructor.
  - easy.
Qed.
Lemma classes_perm l ps : StronglySorted pat_lt ps ->
  Permutation (flat_map (fun p => filter (cls p) l) ps) (filter (fun x => existsb (fun p => cls p x) ps) l).
Proof.
  induction 1 as [|p ps S IH F]; cbn.
  - induction l; [constructor|easy].
  - eapply perm_trans; [apply Permutation_app_head, IH|]. apply filter_disjoint.
    intros x H1 H2. apply existsb_exists in H2 as (q & Hq & H2). apply cls_iff in H1, H2.
    rewrite Forall_forall in F. apply (plt_neq _ _ (F q Hq)). unfold SamePat in *. congruence.
Qed.
Lemma filter_all {A} (f : A -> bool) l : (forall x, In x l -> f x = true) -> filter f l = l.
Proof. induction l as [|x l IH]; intros H; cbn; [easy|]. rewrite (H x) by (cbn; auto). rewrite IH; [easy|]. intros; apply H; cbn; auto. Qed.
Lemma filter_none {A} (f : A -> bool) l : (forall x, In x l -> f x = false) -> filter f l = [].
Proof. induction l as [|x l IH]; intros H; cbn; [easy|]. rewrite (H x) by (cbn; auto). apply IH. intros; apply H; cbn; auto. Qed.
Lemma filter_filter {A} (f g : A -> bool) l : filter f (filter g l) = filter (fun x => g x && f x) l.
Proof. induction l as [|x l IH]; cbn; [easy|]. destruct (g x); cbn; [destruct (f x)|]; now rewrite IH. Qed.
Lemma filter_flat_map {A B} (f : B -> bool) (g : A -> list B) l : filter f (flat_map g l) = flat_map (fun a => filter f (g a)) l.
Proof. induction l as [|x l IH]; cbn; [easy|]. now rewrite filter_app, IH. Qed.

Lemma classes_stable l ps p : StronglySorted pat_lt ps -> (forall x, In x l -> exists q, In q ps /\ SamePat (x_pat x) q) ->
  filter (cls p) (flat_map (fun q => filter (cls q) l) ps) = filter (cls p) l.
Proof.
  intros S C. rewrite filter_flat_map.
  assert (forall q, SamePat q p -> filter (cls p) (filter (cls q) l) = filter (cls p) l) as E1.
  { intros q E. rewrite filter_filter. apply filter_ext. intros x. destruct (cls p x) eqn:Ep.
    - apply cls_iff in Ep. replace (cls q x) with true; [easy|]. symmetry. apply cls_iff. unfold SamePat in *. congruence.
    - now rewrite andb_false_r. }
  assert (forall q, ~ SamePat q p -> filter (cls p) (filter (cls q) l) = []) as E2.
  { intros q N. apply filter_none. intros x Hx. apply filter_In in Hx as [_ Hx]. apply cls_iff in Hx.
    destruct (cls p x) eqn:Ep; [|easy]. apply cls_iff in Ep. destruct N. unfold SamePat in *. congruence. }
  assert (forall ps, Forall (fun q => ~ SamePat q p) ps -> flat_map (fun q => filter (cls p) (filter (cls q) l)) ps = []) as E3.
  { intros qs F. induction F as [|q qs N F IH]; [easy|]. cbn. now rewrite E2, IH. }
  destruct (existsb (fun q => pat_eqb q p) ps) eqn:EX.
  - clear C. induction S as [|q qs S IH F]; [easy|]. cbn in *. destruct (pat_eqb q p) eqn:Eq.
    + apply same_pat_iff in Eq. rewrite E1 by easy. rewrite E3; [apply app_nil_r|].
      rewrite Forall_forall in *. intros r Hr. specialize (F r Hr). intros K. apply (plt_neq _ _ F). unfold SamePat in *. congruence.
    + apply same_pat_false in Eq. rewrite E2 by easy. now apply IH.
  - rewrite E3.
    + symmetry. apply filter_none. intros x Hx. destruct (cls p x) eqn:Ep; [|easy]. apply cls_iff in Ep.
      destruct (C x Hx) as (q & Hq & Eq). assert (existsb (fun q => pat_eqb q p) ps = true); [|congruence].
      apply existsb_exists. exists q. split; [easy|]. apply same_pat_iff. unfold SamePat in *. congruence.
    + apply Forall_forall. intros q Hq K. assert (existsb (fun q => pat_eqb q p) ps = true); [|congruence].
      apply existsb_exists. exists q. split; [easy|]. now apply same_pat_iff.
Qed.

Lemma ssorted_app {A} (R : A -> A -> Prop) l1 l2 : StronglySorted R l1 -> StronglySorted R l2 ->
  (forall a b, In a l1 -> In b l2 -> R a b) -> StronglySorted R (l1 ++ l2).
Proof.
  induction 1 as [|a l S IH F]; intros S2 H; cbn; [easy|]. constructor.
  - apply IH; [easy|]. intros; apply H; cbn; auto.
  - apply Forall_app. split; [easy|]. apply Forall_forall. intros b Hb. apply H; cbn; auto.
Qed.
Definition xle (x y : ext) : Prop := pat_lt (x_pat x) (x_pat y) \/ SamePat (x_pat x) (x_pat y).
Lemma classes_sorted l ps : StronglySorted pat_lt ps -> StronglySorted xle (flat_map (fun q => filter (cls q) l) ps).
Proof.
  induction 1 as [|p ps S IH F]; cbn; [constructor|]. apply ssorted_app; [|easy|].
  - assert (forall m, Forall (fun x => cls p x = true) m -> StronglySorted xle m) as K.
    { intros m Hm. induction Hm as [|x m Hx Hm IHm]; constructor; [easy|].
      eapply Forall_impl; [|exact Hm]. intros y Hy. right. apply cls_iff in Hx, Hy. unfold SamePat in *. congruence. }
    apply K. apply Forall_forall. intros x Hx. now apply filter_In in Hx.
  - intros x y Hx Hy. apply filter_In in Hx as [_ Hx]. apply in_flat_map in Hy as (q & Hq & Hy).
    apply filter_In in Hy as [_ Hy]. apply cls_iff in Hx, Hy. rewrite Forall_forall in F. left.
    apply (plt_compat_l _ p _ Hx). apply (plt_compat_r _ q _ (F q Hq)). unfold SamePat in *. congruence.
Qed.

Lemma by_pattern_listing c : MemoOk c -> Listing (dc_exts c) (fst (by_pattern c)).
Proof.
  intros M. apply sorted_pats in M as [P1 P2 P3]. unfold by_pattern.
  destruct (sorted_patterns c) as [ps c'] eqn:E. cbn [fst] in *.
  change (flat_map (fun p => filter (fun x => pat_eqb (x_pat x) p) (dc_exts c)) ps)
    with (flat_map (fun p => filter (cls p) (dc_exts c)) ps). constructor.
  - eapply perm_trans; [now apply classes_perm|]. rewrite filter_all; [easy|].
    intros x Hx. apply existsb_exists. destruct (P3 x Hx) as (p & Hp & Ep). exists p. split; [easy|]. now apply cls_iff.
  - now apply classes_sorted.
  - intros p. now apply (classes_stable (dc_exts c) ps p).
Qed.

Lemma cstep_memo U c c' : CStep U c c' -> MemoOk c -> MemoOk c'.
Proof.
  intros H M. destruct H as [g x l g' c c' H|n c c' H|i c|c|c].
  - left. unfold ctx_add in H. apply mbind_ok in H as (l1 & r & l2 & H1 & H2 & ->).
    destruct r as [[p q]|]; [|now injection H2 as <- <- <-].
    apply mbind_ok in H2 as (l3 & o & l4 & H2 & H3 & ->). destruct o as [[[lb pc] ls]|]; [|now injection H3 as <- <- <-].
    apply mbind_ok in H3 as (l5 & js & l6 & H3 & H4 & ->). now injection H4 as <- <- <-.
  - left. unfold ctx_update in H. destruct (c_comment n); [easy|]. destruct (c_templates n); [|easy]. now injection H as <-.
  - easy.
  - unfold by_pattern. destruct (sorted_patterns c) as [ps c'] eqn:E. cbn.
    pose proof (sorted_pats c M) as P. rewrite E in P. cbn in P. unfold sorted_patterns in E.
    destruct (dc_sorted c) as [l0|] eqn:ES; injection E as <- <-; [easy|]. right. eexists. split; [reflexivity|]. cbn.
    apply fresh_ok.
  - pose proof (sorted_pats c M) as P. unfold sorted_patterns in *.
    destruct (dc_sorted c) as [l0|] eqn:ES; [easy|]. right. eexists. split; [reflexivity|]. cbn. apply fresh_ok.
Qed.
Lemma csteps_memo U c c' : CSteps U c c' -> MemoOk c -> MemoOk c'.
Proof. induction 1; [easy|]. intros M. apply IHCSteps. now apply (cstep_memo U c). Qed.
Lemma csteps_listing U n w c : CSteps U (new_ctx n w) c -> Listing (dc_exts c) (fst (by_pattern c)).
Proof. intros H. apply by_pattern_listing. apply (csteps_memo U _ _ H). now left. Qed.

(* The listing is determined by what is stored. *)
Lemma listing_det l o o' : Listing l o -> Listing l o' -> o = o'.
Proof.
  assert (forall o o', StronglySorted xle o -> StronglySorted xle o' ->
    (forall p, filter (cls p) o = filter (cls p) o') -> o = o') as K.
  { clear. induction o as [|x o IH]; intros o' S S' F.
    - destruct o' as [|y o']; [easy|]. specialize (F (x_pat y)). cbn in F.
      replace (cls (x_pat y) y) with true in F by (symmetry; now apply cls_iff). easy.
    - inversion_clear S as [|? ? S1 S2]. destruct o' as [|y o'].
      { specialize (F (x_pat x)). cbn in F. replace (cls (x_pat x) x) with true in F by (symmetry; now apply cls_iff). easy. }
      inversion_clear S' as [|? ? S1' S2']. rewrite Forall_forall in S2, S2'.
      assert (In x (y :: o')) as Ix.
      { pose proof (F (x_pat x)) as Fx. assert (In x (filter (cls (x_pat x)) (y :: o'))) as I.
        { rewrite <- Fx. apply filter_In. split; [cbn; auto|now apply cls_iff]. }
        now apply filter_In in I. }
      assert (In y (x :: o)) as Iy.
      { pose proof (F (x_pat y)) as Fy. assert (In y (filter (cls (x_pat y)) (x :: o))) as I.
        { rewrite Fy. apply filter_In. split; [cbn; auto|now apply cls_iff]. }
        now apply filter_In in I. }
      assert (SamePat (x_pat x) (x_pat y)) as E.
      { destruct Ix as [->|Ix]; [easy|]. destruct Iy as [->|Iy]; [easy|].
        destruct (S2 _ Iy) as [L1|E1]; [|easy]. destruct (S2' _ Ix) as [L2|E2]; [|symmetry; exact E2].
        exfalso. apply (plt_neq _ _ (plt_trans _ _ _ L1 L2)). reflexivity. }
      pose proof (F (x_pat x)) as Fx. cbn in Fx.
      replace (cls (x_pat x) x) with true in Fx by (symmetry; now apply cls_iff).
      replace (cls (x_pat x) y) with true in Fx by (symmetry; apply cls_iff; symmetry; exact E).
      injection Fx as -> _. f_equal. apply IH; [easy|easy|].
      intros p. specialize (F p). cbn in F. destruct (cls p y); [now injection F|easy]. }
  intros [L1 L2 L3] [L1' L2' L3']. apply K; [easy|easy|]. intros p. unfold cls. now rewrite L3, L3'.
Qed.

(* ---- C11: one context ---- *)
Lemma prio_hit_iff q x b : prio_hit q x = Ok b -> (b = true <-> Answers q x).
Proof.
  destruct q as [z|t|l]; cbn.
  - intros [= <-]. apply Z.eqb_eq.
  - destruct t; cbn; intros [= <-]; try apply orb_true_iff.
    destruct (x_label x) as [m|]; [|easy]. rewrite str_eqb_eq. split; congruence.
  - easy.
Qed.
Lemma prio_hit_no_hang q x : prio_hit q x <> Hang.
Proof. destruct q as [z|[]|l]; easy. Qed.
Lemma first_hit_no_hang q l : first_hit q l <> Hang.
Proof.
  induction l as [|x l IH]; cbn; [easy|]. pose proof (prio_hit_no_hang q x).
  destruct (prio_hit q x) as [b|e|]; cbn; [|easy|easy]. now destruct b.
Qed.
Lemma me_no_hang p e : matches_extension p e <> Hang.
Proof.
  unfold matches_extension. assert (latin1_encode (no_dash e) <> Hang) as K.
  { induction (no_dash e) as [|c s IH]; [easy|]. cbn. destruct (c <? 256); [|easy]. destruct (latin1_encode s); easy. }
  now destruct (latin1_encode (no_dash e)).
Qed.
Lemma own_hit_no_hang c ps e q : own_hit c ps e q <> Hang.
Proof.
  induction ps as [|p ps IH]; cbn; [easy|]. pose proof (me_no_hang (pv p) e).
  destruct (matches_extension (pv p) e) as [[]|?|]; cbn; try easy.
  pose proof (first_hit_no_hang q (same_pat c p)). now destruct (first_hit q (same_pat c p)) as [[]|?|].
Qed.

Lemma first_hit_some q l x : first_hit q l = Ok (Some x) ->
  exists l1 l2, l = l1 ++ x :: l2 /\ Answers q x /\ Forall (fun y => ~ Answers q y) l1.
Proof.
  induction l as [|y l IH]; cbn; [easy|]. destruct (prio_hit q y) as [[]|?|] eqn:E; cbn; try easy.
  - intros [= ->]. exists [], l. split; [easy|]. split; [now apply (prio_hit_iff q x true)|constructor].
  - intros H. destruct (IH H) as (l1 & l2 & -> & A & F). exists (y :: l1), l2. split; [easy|]. split; [easy|].
    constructor; [|easy]. intros K. apply (prio_hit_iff q y false E) in K. easy.
Qed.
Lemma first_hit_none q l : first_hit q l = Ok None -> Forall (fun y => ~ Answers q y) l.
Proof.
  induction l as [|y l IH]; cbn; [constructor|]. destruct (prio_hit q y) as [[]|?|] eqn:E; cbn; try easy.
  intros H. constructor; [|now apply IH]. intros K. apply (prio_hit_iff q y false E) in K. easy.
Qed.

Lemma same_pat_in c p x : In x (same_pat c p) <-> In x (dc_exts c) /\ SamePat (x_pat x) p.
Proof. unfold same_pat. rewrite filter_In. now rewrite same_pat_iff. Qed.

Lemma filter_split {A} (f : A -> bool) l l1 x l2 : filter f l = l1 ++ x :: l2 ->
  exists m1 m2, l = m1 ++ x :: m2 /\ filter f m1 = l1.
Proof.
  revert l1. induction l as [|y l IH]; cbn; intros l1; [now destruct l1|]. destruct (f y) eqn:E.
  - destruct l1 as [|z l1]; cbn.
    + intros [= -> _]. now exists [], l.
    + intros [= -> H]. destruct (IH l1 H) as (m1 & m2 & -> & <-). exists (z :: m1), m2. cbn. now rewrite E.
  - intros H. destruct (IH l1 H) as (m1 & m2 & -> & <-). exists (y :: m1), m2. cbn. now rewrite E.
Qed.

Lemma own_hit_none c ps e q : (forall x, In x (dc_exts c) -> exists p, In p ps /\ SamePat (x_pat x) p) ->
  own_hit c ps e q = Ok None -> forall x, ~ HitIn c e q x.
Proof.
  intros C H x (Hx & M & A). destruct (C x Hx) as (p & Hp & E). clear C. induction ps as [|p' ps IH]; [easy|].
  cbn in H. destruct (matches_extension (pv p') e) as [[]|?|] eqn:EM; cbn in H; try easy.
  - destruct (first_hit q (same_pat c p')) as [[y|]|?|] eqn:EF; cbn in H; try easy.
    destruct Hp as [->|Hp]; [|now apply IH]. apply first_hit_none in EF. rewrite Forall_forall in EF.
    apply (EF x); [|easy]. now apply same_pat_in.
  - destruct Hp as [->|Hp]; [|now apply IH]. unfold SamePat in E. rewrite E in M. congruence.
Qed.

Lemma own_hit_some c ps e q x : StronglySorted pat_lt ps ->
  (forall y, In y (dc_exts c) -> exists p, In p ps /\ SamePat (x_pat y) p) ->
  own_hit c ps e q = Ok (Some x) -> BestIn c e q x.
Proof.
  intros S C. assert (forall y, HitIn c e q y -> exists p, In p ps /\ SamePat (x_pat y) p) as C' by (intros y Hy; apply C, Hy).
  clear C. induction S as [|p ps S IH F]; cbn; [easy|].
  destruct (matches_extension (pv p) e) as [[]|?|] eqn:EM; cbn; try easy.
  - destruct (first_hit q (same_pat c p)) as [[y|]|?|] eqn:EF; cbn; try easy.
    + intros [= ->]. apply first_hit_some in EF as (l1 & l2 & E & A & FN).
      destruct (filter_split _ _ _ _ _ E) as (m1 & m2 & E2 & E1).
      assert (In x (same_pat c p)) as Hx by (rewrite E; apply in_elt). apply same_pat_in in Hx as [Hx Px].
      assert (HitIn c e q x) as HX. { split; [easy|]. split; [|easy]. unfold SamePat in Px. now rewrite Px. }
      exists m1, m2. split; [easy|]. split; [easy|]. split.
      * intros y Hy L. destruct (C' y Hy) as (p' & [->|Hp'] & Ep').
        -- apply (plt_neq _ _ L). unfold SamePat in *. congruence.
        -- rewrite Forall_forall in F. specialize (F p' Hp').
           apply (plt_neq _ _ (plt_trans _ _ _ F (plt_compat_l p' (x_pat y) _ (eq_sym Ep') L))).
           unfold SamePat in *. congruence.
      * intros y Hy Ey HH. rewrite Forall_forall in FN. apply (FN y); [|apply HH]. rewrite <- E1. apply filter_In.
        split; [easy|]. apply same_pat_iff. unfold SamePat in *. congruence.
    + intros H. apply IH; [|easy]. intros y Hy. destruct (C' y Hy) as (p' & [->|Hp'] & Ep'); [|now exists p'].
      exfalso. apply first_hit_none in EF. rewrite Forall_forall in EF. apply (EF y); [|apply Hy].
      apply same_pat_in. split; [apply Hy|easy].
  - intros H. apply IH; [|easy]. intros y Hy. destruct (C' y Hy) as (p' & [->|Hp'] & Ep'); [|now exists p'].
    exfalso. destruct Hy as (_ & My & _). unfold SamePat in Ep'. rewrite Ep' in My. congruence.
Qed.

(* ---- C11: all contexts ---- *)
Section Search.
Variable ctxs : list dctx.
Notation mp := match_pattern.

Fixpoint sub (f : dctx -> res (option ext)) (l : list (str * loc)) : res (option ext) :=
  match l with
  | [] => Ok None
  | (n, _) :: r =>
    match find_ctx n ctxs with
    | None => sub f r
    | Some c' => let! h := f c' in match h with Some x => Ok (Some x) | None => sub f r end
    end
  end.
Lemma mp_S k c e q : mp (S k) ctxs c e q =
  let! h := own_hit c (fst (sorted_patterns c)) e q in
  match h with
  | Some x => Ok (Some x)
  | None =>
    let! h2 := sub (fun c' => mp k ctxs c' e q) (dc_includes c) in
    match h2 with
    | Some x => Ok (Some x)
    | None => match q with
              | JInt _ => if str_eqb e (L "i") then Ok None else mp k ctxs c (L "i") (JInt 1)
              | _ => Ok None
              end
    end
  end.
Proof.
  cbn [match_pattern]. destruct (own_hit c (fst (sorted_patterns c)) e q) as [[]|?|]; cbn; try easy.
  match goal with |- (let! h2 := ?a in _) = (let! h2' := ?b in _) => assert (a = b) as E end.
  { induction (dc_includes c) as [|[n w] l IH]; [easy|]. cbn [sub]. destruct (find_ctx n ctxs) as [c'|]; [|exact IH].
    destruct (mp k ctxs c' e q) as [[]|?|]; cbn [bind]; easy. }
  now rewrite E.
Qed.

Lemma find_some n c : find_ctx n ctxs = Some c -> In c ctxs /\ dc_name c = n.
Proof. apply find_ctx_in. Qed.

Lemma sub_some f l x : sub f l = Ok (Some x) ->
  exists n w c', In (n, w) l /\ find_ctx n ctxs = Some c' /\ f c' = Ok (Some x).
Proof.
  induction l as [|[n w] l IH]; cbn; [easy|]. destruct (find_ctx n ctxs) as [c'|] eqn:E.
  - destruct (f c') as [[y|]|?|] eqn:Ef; cbn; try easy.
    + intros [= ->]. exists n, w, c'. auto.
    + intros H. destruct (IH H) as (n' & w' & c2 & I & K). exists n', w', c2. split; [now right|easy].
  - intros H. destruct (IH H) as (n' & w' & c2 & I & K). exists n', w', c2. split; [now right|easy].
Qed.
Lemma sub_none f l n w c' : sub f l = Ok None -> In (n, w) l -> find_ctx n ctxs = Some c' -> f c' = Ok None.
Proof.
  induction l as [|[n0 w0] l IH]; cbn; [easy|]. intros H I E. destruct (find_ctx n0 ctxs) as [c0|] eqn:E0.
  - destruct (f c0) as [[y|]|?|] eqn:Ef; cbn in H; try easy.
    destruct I as [[= -> ->]|I]; [congruence|now apply IH].
  - destruct I as [[= -> ->]|I]; [congruence|now apply IH].
Qed.

Definition Memos : Prop := Forall MemoOk ctxs.

Lemma mp_sound k : Memos -> forall c e q x, In c ctxs -> mp k ctxs c e q = Ok (Some x) -> Target ctxs c e q x.
Proof.
  intros M. induction k as [|k IH]; [easy|]. intros c e q x Hc. rewrite mp_S.
  destruct (own_hit c (fst (sorted_patterns c)) e q) as [[y|]|?|] eqn:EO; cbn [bind]; try easy.
  - intros [= ->]. destruct (sorted_pats c (proj1 (Forall_forall _ _) M c Hc)) as [P1 P2 P3].
    apply (own_hit_some c _ e q x P1 P3) in EO as (l & r & _ & HX & _). exists c. split; [constructor|now left].
  - destruct (sub (fun c' => mp k ctxs c' e q) (dc_includes c)) as [[y|]|?|] eqn:ES; cbn [bind]; try easy.
    + intros [= ->]. apply sub_some in ES as (n & w & c' & I & EF & H). apply find_some in EF as [Hc' <-].
      destruct (IH _ _ _ _ Hc' H) as (c2 & R & T). exists c2. split; [|easy]. apply Reach_step with c'; [|easy].
      split; [easy|]. now exists w.
    + destruct q as [z|t|lq]; try easy. destruct (str_eqb e (L "i")) eqn:Ei; [easy|]. intros H.
      destruct (IH _ _ _ _ Hc H) as (c2 & R & [T|(_ & T & _)]); [|easy]. exists c2. split; [easy|]. right.
      split; [now exists z|]. split; [|easy]. intros ->. now rewrite str_eqb_refl in Ei.
Qed.

Hypothesis ND : NoDup (map dc_name ctxs).
Lemma find_in c : In c ctxs -> find_ctx (dc_name c) ctxs = Some c.
Proof. now apply find_ctx_some. Qed.

Lemma mp_none_step k c e q c1 : mp (S k) ctxs c e q = Ok None -> Incl ctxs c c1 -> mp k ctxs c1 e q = Ok None.
Proof.
  rewrite mp_S. destruct (own_hit c (fst (sorted_patterns c)) e q) as [[y|]|?|] eqn:EO; cbn [bind]; try easy.
  destruct (sub (fun c' => mp k ctxs c' e q) (dc_includes c)) as [[y|]|?|] eqn:ES; cbn [bind]; try easy.
  intros _ [Hc1 [w Hw]]. now apply (sub_none _ _ (dc_name c1) w c1 ES Hw), find_in.
Qed.
Lemma mp_none_reach c c' : Reach ctxs c c' -> forall k e q, mp k ctxs c e q = Ok None ->
  exists k', (k' <= k)%nat /\ mp k' ctxs c' e q = Ok None.
Proof.
  induction 1 as [c|c c1 c2 I R IH]; intros k e q H; [now exists k|].
  destruct k as [|k]; [easy|]. destruct (IH k e q (mp_none_step k c e q c1 H I)) as (k' & L & K).
  exists k'. split; [lia|easy].
Qed.
Lemma reach_in c c' : Reach ctxs c c' -> In c ctxs -> In c' ctxs.
Proof. induction 1 as [c|c c1 c2 [I _] R IH]; auto. Qed.
Lemma mp_none_own k c e q : Memos -> In c ctxs -> mp k ctxs c e q = Ok None -> forall x, ~ HitIn c e q x.
Proof.
  intros M Hc H. destruct k as [|k]; [easy|]. rewrite mp_S in H.
  destruct (own_hit c (fst (sorted_patterns c)) e q) as [[y|]|?|] eqn:EO; cbn [bind] in H; try easy.
  destruct (sorted_pats c (proj1 (Forall_forall _ _) M c Hc)) as [P1 P2 P3]. now apply (own_hit_none c _ e q P3).
Qed.
Lemma mp_none k c e q : Memos -> In c ctxs -> mp k ctxs c e q = Ok None -> forall x, ~ Target ctxs c e q x.
Proof.
  intros M Hc H x (c' & R & T). destruct (mp_none_reach c c' R k e q H) as (k' & _ & H'). pose proof (reach_in c c' R Hc) as Hc'.
  destruct T as [T|((z & ->) & Ne & T)]; [now apply (mp_none_own k' c' e q M Hc' H' x)|].
  destruct k' as [|k']; [easy|]. rewrite mp_S in H'.
  destruct (own_hit c' (fst (sorted_patterns c')) e (JInt z)) as [[y|]|?|] eqn:EO; cbn [bind] in H'; try easy.
  destruct (sub (fun c' => mp k' ctxs c' e (JInt z)) (dc_includes c')) as [[y|]|?|] eqn:ES; cbn [bind] in H'; try easy.
  destruct (str_eqb e (L "i")) eqn:Ei; [now apply str_eqb_eq in Ei|].
  now apply (mp_none_own k' c' (L "i") (JInt 1) M Hc' H' x).
Qed.

(* The own context comes first, best pattern first. *)
Lemma mp_own_first k c e q x y : Memos -> In c ctxs -> HitIn c e q y -> mp k ctxs c e q = Ok (Some x) -> BestIn c e q x.
Proof.
  intros M Hc HY H. destruct k as [|k]; [easy|]. rewrite mp_S in H.
  destruct (sorted_pats c (proj1 (Forall_forall _ _) M c Hc)) as [P1 P2 P3].
  destruct (own_hit c (fst (sorted_patterns c)) e q) as [[z|]|?|] eqn:EO; cbn [bind] in H; try easy.
  - injection H as ->. now apply (own_hit_some c _ e q x P1 P3).
  - now destruct (own_hit_none c _ e q P3 EO y).
Qed.

(* ---- C12 ---- *)
Lemma sub_ext f g l : (forall n w c, In (n, w) l -> find_ctx n ctxs = Some c -> f c = g c) -> sub f l = sub g l.
Proof.
  induction l as [|[n w] l IH]; intros H; cbn; [easy|].
  assert (sub f l = sub g l) as E by (apply IH; intros; eapply H; [right; eassumption|easy]).
  destruct (find_ctx n ctxs) as [c'|] eqn:EF; [|easy]. rewrite (H n w c') by (cbn; auto).
  destruct (g c') as [[]|?|]; cbn; easy.
Qed.
Lemma sub_mono f g l : (forall c r, f c = r -> r <> Hang -> g c = r) -> sub f l <> Hang -> sub g l = sub f l.
Proof.
  intros H. induction l as [|[n w] l IH]; cbn; [easy|]. destruct (find_ctx n ctxs) as [c'|]; [|easy].
  destruct (f c') as [[y|]|?|] eqn:E; cbn [bind]; try easy; intros K; rewrite (H c' _ E) by easy; cbn; auto.
Qed.
Lemma mp_mono1 k : forall c e q, mp k ctxs c e q <> Hang -> mp (S k) ctxs c e q = mp k ctxs c e q.
Proof.
  induction k as [|k IH]; [easy|]. intros c e q. rewrite (mp_S (S k)), (mp_S k).
  destruct (own_hit c (fst (sorted_patterns c)) e q) as [[y|]|?|] eqn:EO; cbn [bind]; try easy.
  intros H. rewrite (sub_mono (fun c' => mp k ctxs c' e q) (fun c' => mp (S k) ctxs c' e q)).
  - destruct (sub (fun c' => mp k ctxs c' e q) (dc_includes c)) as [[y|]|?|] eqn:ES; cbn [bind] in *; try easy.
    destruct q as [z|t|lq]; try easy. destruct (str_eqb e (L "i")); [easy|]. now apply IH.
  - intros c' r <- N. now apply IH.
  - intros E. rewrite E in H. now cbn [bind] in H.
Qed.
Lemma mp_mono k k' c e q : (k <= k')%nat -> mp k ctxs c e q <> Hang -> mp k' ctxs c e q = mp k ctxs c e q.
Proof.
  induction 1 as [|k' L IH]; [easy|]. intros H. rewrite mp_mono1; [now apply IH|]. now rewrite IH.
Qed.

(* A search is called with the given target or with i,1. *)
Variable e0 : str.
Variable q0 : jprio.
Definition state : Type := dctx * bool.
Definition ste (s : state) : str := if snd s then L "i" else e0.
Definition stq (s : state) : jprio := if snd s then JInt 1 else q0.
Definition run (k : nat) (s : state) : res (option ext) := mp k ctxs (fst s) (ste s) (stq s).
Lemma run_mono k k' s : (k <= k')%nat -> run k s <> Hang -> run k' s = run k s.
Proof. apply mp_mono. Qed.
Definition Calls (s s' : state) : Prop :=
  In (fst s') ctxs /\
  ((snd s' = snd s /\ Incl ctxs (fst s) (fst s')) \/ (snd s = false /\ snd s' = true /\ fst s' = fst s)) /\
  forall K, run (S K) s <> Hang -> run K s' <> Hang.

Lemma sub_hang f l : sub f l = Hang -> exists l1 n w c' l2, l = l1 ++ (n, w) :: l2 /\
  find_ctx n ctxs = Some c' /\ f c' = Hang /\ (forall g, (forall c, f c <> Hang -> g c = f c) -> g c' = Hang -> sub g l = Hang).
Proof.
  induction l as [|[n w] l IH]; cbn; [easy|]. destruct (find_ctx n ctxs) as [c'|] eqn:E.
  - destruct (f c') as [[y|]|?|] eqn:EF; cbn [bind]; try easy.
    + intros H. destruct (IH H) as (l1 & n' & w' & c2 & l2 & -> & A & B & C).
      exists ((n, w) :: l1), n', w', c2, l2. split; [easy|]. split; [easy|]. split; [easy|].
      intros g Hg Hh. rewrite (Hg c') by (now rewrite EF). rewrite EF. cbn. now apply C.
    + intros _. exists [], n, w, c', l. split; [easy|]. split; [easy|]. split; [easy|].
      intros g _ Hh. now rewrite Hh.
  - intros H. destruct (IH H) as (l1 & n' & w' & c2 & l2 & -> & A & B & C).
    exists ((n, w) :: l1), n', w', c2, l2. auto.
Qed.

Lemma run_hang_child k s : In (fst s) ctxs -> run (S k) s = Hang -> exists s', Calls s s' /\ run k s' = Hang.
Proof.
  intros Hs H. assert (forall K, run (S K) s <> Hang -> (k <= K)%nat) as LE.
  { intros K HK. destruct (Nat.le_gt_cases k K) as [|G]; [easy|]. destruct HK.
    destruct (run (S K) s) eqn:E; [|exfalso|easy]; rewrite (run_mono (S K) (S k) s) in H by (try lia; rewrite E; easy); congruence. }
  pose proof H as H0. unfold run in H. rewrite mp_S in H.
  destruct (own_hit (fst s) (fst (sorted_patterns (fst s))) (ste s) (stq s)) as [[y|]|?|] eqn:EO; cbn [bind] in H; try easy;
    [|now apply own_hit_no_hang in EO].
  destruct (sub (fun c' => mp k ctxs c' (ste s) (stq s)) (dc_includes (fst s))) as [[y|]|?|] eqn:ES; cbn [bind] in H; try easy.
  - assert (snd s = false /\ exists z, q0 = JInt z /\ str_eqb e0 (L "i") = false) as (B & z & Q & Ei).
    { destruct s as [c []]; unfold stq, ste in H; cbn [fst snd] in H; [easy|]. split; [easy|].
      destruct q0 as [z|t|lq]; try easy. exists z. split; [easy|]. destruct (str_eqb e0 (L "i")); easy. }
    destruct s as [c b]. cbn in B. subst b. unfold run, stq, ste in *. cbn [fst snd] in *. rewrite Q, Ei in *.
    exists (c, true). split; [|easy]. split; [easy|]. split; [now right|]. intros K HK E. unfold run, stq, ste in HK, E. cbn [fst snd] in HK, E. rewrite Q in HK. specialize (LE K HK).
    apply HK. cbn [fst snd]. rewrite mp_S, EO. cbn [bind].
    rewrite (sub_mono (fun c' => mp k ctxs c' e0 (JInt z)) (fun c' => mp K ctxs c' e0 (JInt z))).
    + rewrite ES. cbn [bind]. rewrite Ei. exact E.
    + intros c' r <- N. now apply mp_mono.
    + now rewrite ES.
  - apply sub_hang in ES as (l1 & n & w & c' & l2 & EI & EF & EH & C). apply find_some in EF as [Hc' En].
    exists (c', snd s). split; [|exact EH]. split; [easy|]. split.
    + left. split; [easy|]. split; [easy|]. exists w. cbn. rewrite EI, En. apply in_elt.
    + intros K HK E. specialize (LE K HK). apply HK. unfold run. rewrite mp_S, EO. cbn [bind].
      rewrite (C (fun c0 => mp K ctxs c0 (ste s) (stq s))); [easy| |exact E]. intros c0 N. now apply mp_mono.
Qed.

Inductive Path : list state -> Prop :=
| Path_one s : Path [s]
| Path_cons s s' l : Calls s s' -> Path (s' :: l) -> Path (s :: s' :: l).
Lemma run_hang_path k : forall s, In (fst s) ctxs -> run k s = Hang ->
  exists l, Path (s :: l) /\ length l = k /\ Forall (fun s => In (fst s) ctxs) (s :: l).
Proof.
  induction k as [|k IH]; intros s Hs H; [exists []; repeat constructor; easy|].
  destruct (run_hang_child k s Hs H) as (s' & C & H'). destruct (IH s' (proj1 C) H') as (l & P & E & F).
  exists (s' :: l). split; [now constructor|]. split; [cbn; congruence|now constructor].
Qed.

Definition key (s : state) : str * bool := (dc_name (fst s), snd s).
Lemma key_dec (a b : str * bool) : {a = b} + {a <> b}.
Proof. decide equality; [apply bool_dec|apply str_eq_dec]. Qed.
Lemma name_inj c c' : In c ctxs -> In c' ctxs -> dc_name c = dc_name c' -> c = c'.
Proof. intros H H' E. apply find_in in H, H'. rewrite E in H. congruence. Qed.
Lemma dup_split {A} (dec : forall a b : A, {a = b} + {a <> b}) (l : list A) : ~ NoDup l ->
  exists a l1 l2 l3, l = l1 ++ a :: l2 ++ a :: l3.
Proof.
  induction l as [|x l IH]; intros H; [destruct H; constructor|]. destruct (in_dec dec x l) as [I|I].
  - apply in_split in I as (l2 & l3 & ->). now exists x, [], l2, l3.
  - destruct IH as (a & l1 & l2 & l3 & ->); [intros N; apply H; now constructor|]. now exists a, (x :: l1), l2, l3.
Qed.

Lemma repeat_state l : Forall (fun s : state => In (fst s) ctxs) l -> (2 * length ctxs < length l)%nat ->
  exists s l1 l2 l3, l = l1 ++ s :: l2 ++ s :: l3.
Proof.
  intros F G. assert (~ NoDup (map key l)) as N.
  { intros N. assert (incl (map key l) (list_prod (map dc_name ctxs) [true; false])) as I.
    { intros k Hk. apply in_map_iff in Hk as (s & <- & Hs). rewrite Forall_forall in F. unfold key. apply in_prod.
      - now apply in_map, F.
      - destruct (snd s); cbn; auto. }
    apply (NoDup_incl_length N) in I. rewrite prod_length, !map_length in I. cbn in I. lia. }
  apply (dup_split key_dec) in N as (a & l1 & l2 & l3 & E).
  apply map_eq_app in E as (m1 & m2 & -> & <- & E). destruct m2 as [|s m2]; [easy|]. injection E as Es E.
  apply map_eq_app in E as (m3 & m4 & -> & <- & E). destruct m4 as [|s' m4]; [easy|]. injection E as Es' E.
  assert (s = s') as <-.
  { rewrite Forall_forall in F. assert (key s = key s') as K by congruence. unfold key in K. injection K as K1 K2.
    destruct s as [c b], s' as [c' b']. cbn in *. subst b'. f_equal. apply name_inj; [| |easy].
    - apply (F (c, b)). apply in_elt.
    - apply (F (c', b)). apply in_or_app. right. right. apply in_elt. }
  now exists s, m1, m3, m4.
Qed.

Lemma path_app l1 s l2 : Path (l1 ++ s :: l2) -> Path (s :: l2).
Proof. induction l1 as [|a l1 IH]; [easy|]. cbn. intros P. apply IH. inversion P; [now destruct l1|easy]. Qed.
Lemma path_runs l s s' l' : Path (s :: l ++ s' :: l') -> forall K, run (S (length l) + K) s <> Hang -> run K s' <> Hang.
Proof.
  revert s. induction l as [|a l IH]; intros s P K H.
  - inversion P as [|? ? ? C P']; subst. now apply (proj2 (proj2 C)).
  - inversion P as [|? ? ? C P']; subst. apply (IH a P'). now apply (proj2 (proj2 C)).
Qed.
Lemma path_loop l s l' : Path (s :: l ++ s :: l') -> forall K, run K s = Hang.
Proof.
  intros P K. destruct (run K s) eqn:E; [| |easy]; exfalso.
  all: assert (run K s <> Hang) as H by (rewrite E; easy); clear E; revert H;
    induction K as [K IH] using lt_wf_ind; intros H;
    destruct (Nat.le_gt_cases (S (length l)) K) as [G|G];
    [apply (IH (K - S (length l))%nat); [lia|]; apply (path_runs l s s l' P);
      replace (S (length l) + (K - S (length l)))%nat with K by lia; easy
    |assert (run 0 s <> Hang) as Z; [|now apply Z]; apply (path_runs l s s l' P); rewrite (run_mono K); [easy|lia|easy]].
Qed.
Lemma path_prefix_hang l s l' s0 : Path (s0 :: l ++ s :: l') -> (forall K, run K s = Hang) -> forall K, run K s0 = Hang.
Proof.
  intros P H K. destruct (run K s0) eqn:E; [| |easy]; exfalso;
  (assert (run (S (length l) + K) s0 <> Hang) as N by (rewrite (run_mono K); [rewrite E; easy|lia|rewrite E; easy]);
   apply (path_runs l s0 s l' P) in N; now rewrite H in N).
Qed.

Lemma run_enough s : In (fst s) ctxs -> run (S (2 * length ctxs)) s = Hang -> forall K, run K s = Hang.
Proof.
  intros Hs H. destruct (run_hang_path _ s Hs H) as (l & P & E & F).
  destruct (repeat_state (s :: l) F) as (s' & l1 & l2 & l3 & EQ); [change (2 * length ctxs < S (length l))%nat; rewrite E; lia|]. rewrite EQ in P.
  pose proof (path_app l1 s' _ P) as P'. pose proof (path_loop _ _ _ P') as L. destruct l1 as [|a l1].
  - injection EQ as -> _. exact L.
  - injection EQ as -> _. now apply (path_prefix_hang l1 s' (l2 ++ s' :: l3) a P).
Qed.

Lemma path_reach l s s' l' : Path (s :: l ++ s' :: l') -> Reach ctxs (fst s) (fst s').
Proof.
  revert s. induction l as [|a l IH]; intros s P; inversion P as [|? ? ? C P']; subst.
  - destruct C as (_ & [(_ & I)|(_ & _ & ->)] & _); [|constructor]. apply Reach_step with (fst s'); [easy|constructor].
  - specialize (IH a P'). destruct C as (_ & [(_ & I)|(_ & _ & E)] & _); [|now rewrite E in IH].
    now apply Reach_step with (fst a).
Qed.
Lemma path_mode l s s' l' : Path (s :: l ++ s' :: l') -> snd s = true -> snd s' = true.
Proof.
  revert s. induction l as [|a l IH]; intros s P B; inversion P as [|? ? ? C P']; subst.
  - destruct C as (_ & [(E & _)|(E & _)] & _); congruence.
  - apply (IH a P'). destruct C as (_ & [(E & _)|(E & _)] & _); congruence.
Qed.
Lemma run_acyclic s : In (fst s) ctxs -> ~ Cyclic ctxs (fst s) -> run (S (2 * length ctxs)) s <> Hang.
Proof.
  intros Hs A H. apply A. destruct (run_hang_path _ s Hs H) as (l & P & E & F).
  destruct (repeat_state (s :: l) F) as (s' & l1 & l2 & l3 & EQ); [change (2 * length ctxs < S (length l))%nat; rewrite E; lia|]. rewrite EQ in P.
  pose proof (path_app l1 s' _ P) as P'.
  assert (Reach ctxs (fst s) (fst s')) as R.
  { destruct l1 as [|a l1]; injection EQ as -> _; [constructor|]. now apply path_reach in P. }
  destruct l2 as [|a l2].
  - inversion P' as [|? ? ? C P2]; subst. destruct C as (_ & [(_ & I)|(B & B' & _)] & _); [|congruence].
    exists (fst s'), (fst s'). split; [easy|]. split; [easy|constructor].
  - inversion P' as [|? ? ? C P2]; subst. destruct C as (_ & [(_ & I)|(B & B' & _)] & _).
    + exists (fst s'), (fst a). split; [easy|]. split; [easy|]. now apply path_reach in P2.
    + apply path_mode in P2; [congruence|easy].
Qed.
End Search.

Lemma mp_enough ctxs c e q : NoDup (map dc_name ctxs) -> In c ctxs ->
  match_pattern (S (2 * length ctxs)) ctxs c e q = Hang -> forall k, match_pattern k ctxs c e q = Hang.
Proof. intros N H. exact (run_enough ctxs N e q (c, false) H). Qed.
Lemma mp_acyclic ctxs c e q : NoDup (map dc_name ctxs) -> In c ctxs -> ~ Cyclic ctxs c ->
  match_pattern (S (2 * length ctxs)) ctxs c e q <> Hang.
Proof. intros N H. exact (run_acyclic ctxs N e q (c, false) H). Qed.

(* With a cycle only a hit can end the search. *)
Lemma mp_cyclic_none ctxs c e q k : NoDup (map dc_name ctxs) -> Cyclic ctxs c -> match_pattern k ctxs c e q <> Ok None.
Proof.
  intros N (c1 & c2 & R1 & I & R2) H. destruct (mp_none_reach ctxs N c c1 R1 k e q H) as (k1 & _ & H1). clear H k.
  induction k1 as [k1 IH] using lt_wf_ind. destruct k1 as [|k1]; [easy|].
  pose proof (mp_none_step ctxs N k1 c1 e q c2 H1 I) as H2.
  destruct (mp_none_reach ctxs N c2 c1 R2 k1 e q H2) as (k3 & L & H3). apply (IH k3); [lia|easy].
Qed.

(* No exception for text that can be encoded. *)
Lemma latin1_ok e : latin1_str e -> exists b, latin1_encode (no_dash e) = Ok b.
Proof.
  unfold latin1_str. induction 1 as [|c e H F [b IH]]; [now exists []|]. unfold no_dash in *. cbn [filter]. destruct (c =? 45) eqn:E; cbn [negb]; [now exists b|]. cbn [latin1_encode].
  apply N.ltb_lt in H. rewrite H, IH. cbn [bind]. now eexists.
Qed.
Lemma own_hit_exn c ps e q x : latin1_str e -> usable q -> own_hit c ps e q <> Exn x.
Proof.
  intros H Q. destruct (latin1_ok e H) as [b E]. induction ps as [|p ps IH]; cbn; [easy|].
  unfold matches_extension. rewrite E. cbn. destruct (match_vals _ _); [|easy].
  assert (exists r, first_hit q (same_pat c p) = Ok r) as [r Er].
  { induction (same_pat c p) as [|y l [r IHl]]; cbn; [now eexists|]. destruct q as [z|[]|l0]; try easy; cbn;
    match goal with |- context[if ?b then _ else _] => destruct b end; eauto. }
  rewrite Er. cbn. now destruct r.
Qed.
Lemma mp_exn ctxs k x : forall c e q, latin1_str e -> usable q -> match_pattern k ctxs c e q <> Exn x.
Proof.
  induction k as [|k IH]; [easy|]. intros c e q He Hq. rewrite mp_S.
  destruct (own_hit c (fst (sorted_patterns c)) e q) as [[y|]|?|] eqn:EO; cbn [bind]; try easy.
  - assert (forall l, sub ctxs (fun c' => match_pattern k ctxs c' e q) l <> Exn x) as S.
    { induction l as [|[n w] l IHl]; cbn; [easy|]. destruct (find_ctx n ctxs) as [c'|]; [|easy].
      specialize (IH c' e q He Hq). destruct (match_pattern k ctxs c' e q) as [[]|?|]; cbn; easy. }
    specialize (S (dc_includes c)). destruct (sub ctxs (fun c' => match_pattern k ctxs c' e q) (dc_includes c)) as [[]|?|]; cbn [bind]; try easy.
    destruct q as [z|t|lq]; try easy. destruct (str_eqb e (L "i")); [easy|]. apply IH; [|easy].
    repeat constructor.
  - now apply own_hit_exn in EO.
Qed.
