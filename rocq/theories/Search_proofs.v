(* Which searches for a Goto target return (C12). *)
From Verif Require Import Base PyStr Utf8 Defines FileRd Config Pattern Spec_Pattern Pattern_proofs Var VarFun VarFun_proofs AppM
  VSpace Loader_proofs Dialplan Spec_Dialplan Dialplan_proofs DialplanC_proofs DialplanJ_proofs DialplanK_proofs Spec_Search.

Section Search.
Variable ctxs : list dctx.
Hypothesis ND : NoDup (map dc_name ctxs).
Hypothesis MO : Memos ctxs.
Notation mp := match_pattern.

Lemma find_iff n c : find_ctx n ctxs = Some c <-> In c ctxs /\ dc_name c = n.
Proof. split; [apply find_ctx_in|]. intros [H <-]. now apply find_in. Qed.

Lemma sub_before f l w r c : (forall n u c1, In (n, u) l -> In c1 ctxs -> dc_name c1 = n -> f c1 = Ok None) -> In c ctxs ->
  sub ctxs f (l ++ (dc_name c, w) :: r) = match f c with Ok (Some x) => Ok (Some x) | Ok None => sub ctxs f r | Exn e => Exn e | Hang => Hang end.
Proof.
  intros H Hc. induction l as [|[n u] l IH]; cbn [List.app sub].
  - rewrite (proj2 (find_iff (dc_name c) c)) by easy. now destruct (f c) as [[]| |].
  - destruct (find_ctx n ctxs) as [c1|] eqn:E.
    + apply find_iff in E as [H1 H2]. rewrite (H n u c1) by (cbn; auto). cbn [bind]. apply IH. intros. apply (H n0 u0); cbn; auto.
    + apply IH. intros. apply (H n0 u0); cbn; auto.
Qed.
Lemma same_name c c1 : In c ctxs -> In c1 ctxs -> dc_name c1 = dc_name c -> c1 = c.
Proof.
  intros H H1 E. assert (Some c1 = Some c) as [= ->]; [|easy].
  rewrite <- (proj2 (find_iff (dc_name c) c1)), <- (proj2 (find_iff (dc_name c) c)); auto.
Qed.
Lemma sub_split f l x : sub ctxs f l = Ok (Some x) -> exists l1 w r c, l = l1 ++ (dc_name c, w) :: r /\ In c ctxs /\
  f c = Ok (Some x) /\ forall n u c1, In (n, u) l1 -> In c1 ctxs -> dc_name c1 = n -> f c1 = Ok None.
Proof.
  induction l as [|[n w] l IH]; cbn [sub]; [easy|]. intros H.
  destruct (find_ctx n ctxs) as [c|] eqn:E.
  - apply find_iff in E as [H1 <-]. destruct (f c) as [[y|]| |] eqn:EF; cbn [bind] in H; try easy.
    + injection H as ->. exists [], w, l, c. repeat split; auto. intros ? ? ? [].
    + destruct (IH H) as (l1 & w1 & r & c' & -> & A & B & C). exists ((dc_name c, w) :: l1), w1, r, c'. split; [easy|]. split; [easy|].
      split; [easy|]. intros n1 u c1 [[= <- <-]|I] H3 H4; [|now apply (C n1 u)]. now rewrite (same_name c c1).
  - destruct (IH H) as (l1 & w1 & r & c' & -> & A & B & C). exists ((n, w) :: l1), w1, r, c'. split; [easy|]. split; [easy|].
    split; [easy|]. intros n1 u c1 [[= <- <-]|I] H3 H4; [|now apply (C n1 u)].
    rewrite (proj2 (find_iff n c1)) in E by easy. discriminate E.
Qed.

Lemma max_fuel k k' c e q r : mp k ctxs c e q = Ok r -> (k <= k')%nat -> mp k' ctxs c e q = Ok r.
Proof. intros H L. rewrite (mp_mono ctxs k k') by (auto; congruence). easy. Qed.

Lemma none_list e q (l : list (str * loc)) : latin1_str e -> usable q ->
  (forall n u c1, In (n, u) l -> In c1 ctxs -> dc_name c1 = n -> ~ Cyclic ctxs c1 /\ forall y, ~ Target ctxs c1 e q y) ->
  forall n u c1, In (n, u) l -> In c1 ctxs -> dc_name c1 = n -> mp (S (2 * length ctxs)) ctxs c1 e q = Ok None.
Proof.
  intros He Hq H n u c1 I H1 H2. destruct (H n u c1 I H1 H2) as [A B].
  pose proof (mp_acyclic ctxs c1 e q ND H1 A) as N1. pose proof (fun x => mp_exn ctxs (S (2 * length ctxs)) x c1 e q He Hq) as N2.
  destruct (mp (S (2 * length ctxs)) ctxs c1 e q) as [[x|]|x|] eqn:E; try easy.
  - destruct (B x). now apply (mp_sound ctxs _ MO) in E.
  - now destruct (N2 x).
Qed.

Lemma own_hit_hang c ps e q : own_hit c ps e q <> Hang.
Proof.
  induction ps as [|p ps IH]; cbn; [easy|].
  destruct (matches_extension (pv p) e) as [[]| |] eqn:EM; cbn; try easy.
  - assert (first_hit q (same_pat c p) <> Hang) as EF.
    { clear. induction (same_pat c p) as [|z l IH]; cbn; [easy|].
      destruct q as [z0|[]|l0]; cbn; try easy; match goal with |- context[if ?b then _ else _] => destruct b end; easy. }
    now destruct (first_hit q (same_pat c p)) as [[]| |].
  - exfalso. unfold matches_extension in EM. clear - EM. destruct (latin1_encode (no_dash e)) eqn:E; cbn in EM; try easy. clear EM.
    revert E. induction (no_dash e) as [|x l IH]; cbn; [easy|]. destruct (x <? 256); [|easy]. destruct (latin1_encode l); cbn; easy.
Qed.
Lemma own_hit_ok c ps e q : latin1_str e -> usable q -> exists r, own_hit c ps e q = Ok r.
Proof.
  intros He Hq. pose proof (own_hit_exn c ps e q) as N. pose proof (own_hit_hang c ps e q) as N2.
  destruct (own_hit c ps e q) as [r|x|]; [now exists r|now destruct (N x)|easy].
Qed.

Lemma finds_some e q c : latin1_str e -> usable q -> In c ctxs -> Finds ctxs e q c -> exists k x, mp k ctxs c e q = Ok (Some x).
Proof.
  intros He Hq Hc F. induction F as [c x HX|c l w r c' x EI Hc' HN A T|c l w r c' EI Hc' HN F IH];
    destruct (own_hit_ok c (fst (sorted_patterns c)) e q He Hq) as [[y|] EO];
    try (exists 1%nat, y; rewrite mp_S, EO; reflexivity).
  - exfalso. destruct (sorted_pats c (proj1 (Forall_forall _ _) MO c Hc)) as [P1 P2 P3]. now destruct (own_hit_none c _ e q P3 EO x).
  - set (k := S (2 * length ctxs)). exists (S k). rewrite mp_S, EO. cbn [bind].
    pose proof (none_list e q l He Hq HN) as NL. fold k in NL.
    assert (exists y, mp k ctxs c' e q = Ok (Some y)) as [y Ey].
    { pose proof (mp_acyclic ctxs c' e q ND Hc' A) as N1. pose proof (fun x => mp_exn ctxs k x c' e q He Hq) as N2. fold k in N1.
      destruct (mp k ctxs c' e q) as [[y|]|y|] eqn:E; [now exists y| | |]; exfalso; [|now apply (N2 y)|easy].
      now apply (mp_none ctxs ND k c' e q MO Hc' E x). }
    exists y. rewrite EI, sub_before by easy. rewrite Ey. reflexivity.
  - destruct (IH Hc') as (k0 & x & Ex). set (k := (k0 + S (2 * length ctxs))%nat). exists (S k), x. rewrite mp_S, EO. cbn [bind].
    rewrite EI, sub_before; [|intros n u c1 I H1 H2; apply (max_fuel (S (2 * length ctxs))); [now apply (none_list e q l He Hq HN n u)|unfold k; lia]|easy].
    rewrite (max_fuel k0 k c' e q (Some x)) by (easy || (unfold k; lia)). reflexivity.
Qed.

Lemma cyclic_step c : Cyclic ctxs c -> exists c', Incl ctxs c c' /\ Cyclic ctxs c'.
Proof.
  intros (c1 & c2 & R1 & I & R2). destruct R1 as [c|c c' c1 I1 R1].
  - exists c2. split; [easy|]. exists c, c2. auto.
  - exists c'. split; [easy|]. exists c1, c2. auto.
Qed.

Lemma returns_finds k : forall e q c r, latin1_str e -> usable q -> In c ctxs -> mp k ctxs c e q = Ok r -> ~ Cyclic ctxs c \/ Finds ctxs e q c.
Proof.
  induction k as [|k IH]; [easy|]. intros e q c r He Hq Hc H.
  assert (forall k c, mp k ctxs c e q = Ok None -> ~ Cyclic ctxs c) as NC.
  { intros k1 c1 H1 C. now apply (mp_cyclic_none ctxs c1 e q k1 ND C). }
  destruct r as [x|]; [|left; now apply (NC (S k))].
  rewrite mp_S in H. destruct (own_hit c (fst (sorted_patterns c)) e q) as [[y|]|y|] eqn:EO; cbn [bind] in H; try easy.
  - right. destruct (sorted_pats c (proj1 (Forall_forall _ _) MO c Hc)) as [P1 P2 P3].
    apply (own_hit_some c _ e q y P1 P3) in EO as (l & r & _ & HX & _). now apply (Fi_own _ _ _ _ y).
  - destruct (sub ctxs (fun c' => mp k ctxs c' e q) (dc_includes c)) as [[y|]|y|] eqn:ES; cbn [bind] in H; try easy.
    + right. apply sub_split in ES as (l & w & r & c' & EI & Hc' & EY & HN).
      assert (forall n u c1, In (n, u) l -> In c1 ctxs -> dc_name c1 = n -> ~ Cyclic ctxs c1 /\ forall y, ~ Target ctxs c1 e q y) as HN'.
      { intros n u c1 I H1 H2. specialize (HN n u c1 I H1 H2). split; [now apply (NC k)|now apply (mp_none ctxs ND k c1 e q)]. }
      destruct (IH e q c' _ He Hq Hc' EY) as [A|F].
      * apply (Fi_below _ _ _ _ l w r c' y); try easy. now apply (mp_sound ctxs k).
      * now apply (Fi_cycle _ _ _ _ l w r c').
    + left. intros C. destruct (cyclic_step c C) as (c' & [Hc' [w Hw]] & C').
      pose proof (sub_none ctxs _ _ _ w c' ES Hw (proj2 (find_iff _ c') (conj Hc' eq_refl))) as E. now apply (NC k c').
Qed.

(* A list as priority is never compared. *)
Lemma list_some e ls k c x : In c ctxs -> mp k ctxs c e (JList ls) <> Ok (Some x).
Proof. intros Hc H. destruct (mp_sound ctxs k MO c e (JList ls) x Hc H) as (c' & _ & [(_ & _ & [])|((z & [=]) & _)]). Qed.
Lemma first_list ls l : first_hit (JList ls) l = match l with [] => Ok None | _ => Exn AttributeError end.
Proof. now destruct l. Qed.
Lemma own_list c ps e ls : latin1_str e ->
  (forall x, In x (dc_exts c) -> exists p, In p ps /\ SamePat (x_pat x) p) ->
  (own_hit c ps e (JList ls) = Ok None <-> forall x, In x (dc_exts c) -> matches_extension (pv (x_pat x)) e <> Ok true) /\
  forall y, own_hit c ps e (JList ls) = Ok y -> y = None.
Proof.
  intros He HC. destruct (latin1_ok e He) as [b E]. split.
  - split.
    + intros H x Hx M. destruct (HC x Hx) as (p & Hp & EP). clear HC. induction ps as [|p' ps IH]; [easy|]. cbn [own_hit] in H.
      destruct (matches_extension (pv p') e) as [[]| |] eqn:EM; cbn [bind] in H; try easy.
      * rewrite first_list in H. destruct (same_pat c p') as [|z l] eqn:ES; cbn [bind] in H; [|easy].
        destruct Hp as [->|Hp]; [|now apply IH]. assert (In x (same_pat c p)) as I by now apply same_pat_in. rewrite ES in I. easy.
      * destruct Hp as [->|Hp]; [|now apply IH]. unfold SamePat in EP. rewrite EP in M. congruence.
    + intros H. clear HC. induction ps as [|p ps IH]; [easy|]. cbn [own_hit].
      destruct (matches_extension (pv p) e) as [[]| |] eqn:EM; cbn [bind]; [|easy| |].
      * rewrite first_list. destruct (same_pat c p) as [|z l] eqn:ES; cbn [bind]; [easy|]. exfalso.
        assert (In z (same_pat c p)) as I by (rewrite ES; now left). apply same_pat_in in I as [I P]. apply (H z I).
        unfold SamePat in P. now rewrite P.
      * unfold matches_extension in EM. rewrite E in EM. discriminate EM.
      * unfold matches_extension in EM. rewrite E in EM. discriminate EM.
  - clear HC. induction ps as [|p ps IH]; cbn [own_hit]; [now intros y [= <-]|]. intros y.
    destruct (matches_extension (pv p) e) as [[]| |]; cbn [bind]; try easy; [|apply IH].
    rewrite first_list. destruct (same_pat c p); cbn [bind]; [apply IH|easy].
Qed.

Lemma touch_step c c' e : Incl ctxs c c' -> Touches ctxs c' e -> Touches ctxs c e.
Proof. intros I (c2 & x & R & H). exists c2, x. split; [|easy]. now apply (Reach_step _ _ c'). Qed.
Lemma list_fine e ls k x : latin1_str e -> forall c, In c ctxs -> ~ Touches ctxs c e -> mp k ctxs c e (JList ls) <> Exn x.
Proof.
  intros He. induction k as [|k IH]; [easy|]. intros c Hc NT. rewrite mp_S.
  destruct (sorted_pats c (proj1 (Forall_forall _ _) MO c Hc)) as [P1 P2 P3].
  destruct (own_list c (fst (sorted_patterns c)) e ls He P3) as [O _]. rewrite (proj2 O).
  - cbn [bind]. assert (forall l, (forall n w, In (n, w) l -> In (n, w) (dc_includes c)) -> sub ctxs (fun c' => mp k ctxs c' e (JList ls)) l <> Exn x) as K.
    { induction l as [|[n w] l IHl]; intros HI; cbn [sub]; [easy|].
      assert (sub ctxs (fun c' => mp k ctxs c' e (JList ls)) l <> Exn x) as K1 by (apply IHl; intros; apply HI; now right).
      destruct (find_ctx n ctxs) as [c'|] eqn:EF; [|easy]. apply find_iff in EF as [Hc' <-].
      assert (mp k ctxs c' e (JList ls) <> Exn x) as K2.
      { apply IH; [easy|]. intros T. apply NT. apply (touch_step c c'); [|easy]. split; [easy|]. exists w. apply HI. now left. }
      destruct (mp k ctxs c' e (JList ls)) as [[]| |]; cbn [bind]; easy. }
    specialize (K (dc_includes c) (fun _ _ I => I)).
    destruct (sub ctxs (fun c' => mp k ctxs c' e (JList ls)) (dc_includes c)) as [[]| |]; cbn [bind]; easy.
  - intros y Hy M. apply NT. exists c, y. split; [constructor|easy].
Qed.
Lemma list_touch e ls k c : latin1_str e -> In c ctxs -> mp k ctxs c e (JList ls) = Ok None -> ~ Touches ctxs c e.
Proof.
  intros He Hc H (c' & x & R & Hx & M). destruct (mp_none_reach ctxs ND c c' R k e _ H) as (k' & _ & H').
  destruct k' as [|k']; [easy|]. rewrite mp_S in H'. pose proof (reach_in ctxs c c' R Hc) as Hc'.
  destruct (sorted_pats c' (proj1 (Forall_forall _ _) MO c' Hc')) as [P1 P2 P3].
  destruct (own_list c' (fst (sorted_patterns c')) e ls He P3) as [O O2].
  destruct (own_hit c' (fst (sorted_patterns c')) e (JList ls)) as [[y|]| |] eqn:EO; cbn [bind] in H'; try easy.
  now apply (proj1 O eq_refl x).
Qed.

Theorem returns_iff c e q : latin1_str e -> In c ctxs ->
  ((exists k r, mp k ctxs c e q = Ok r) <-> Returns ctxs c e q) /\
  ((exists k r, mp k ctxs c e q = Ok r) <-> exists r, mp (S (2 * length ctxs)) ctxs c e q = Ok r).
Proof.
  intros He Hc. split.
  - assert (forall z t, q = JInt z \/ q = JTok t -> (exists k r, mp k ctxs c e q = Ok r) <-> ~ Cyclic ctxs c \/ Finds ctxs e q c) as K.
    { intros z t Q. assert (usable q) as Hq by (destruct Q as [-> | ->]; easy). split.
      - intros (k & r & H). now apply (returns_finds k e q c r).
      - intros [A|F].
        + exists (S (2 * length ctxs)). pose proof (mp_acyclic ctxs c e q ND Hc A) as N1. pose proof (fun x => mp_exn ctxs (S (2 * length ctxs)) x c e q He Hq) as N2.
          destruct (mp (S (2 * length ctxs)) ctxs c e q) as [r|x|]; [now exists r|now destruct (N2 x)|easy].
        + destruct (finds_some e q c He Hq Hc F) as (k & x & E). now exists k, (Some x). }
    destruct q as [z|t|ls]; [apply (K z (TS [])); now left|apply (K 0%Z t); now right|]. cbn [Returns]. split.
    + intros (k & r & H). destruct r as [x|]; [now destruct (list_some e ls k c x)|]. split; [|now apply (list_touch e ls k c)].
      intros C. now apply (mp_cyclic_none ctxs c e (JList ls) k ND C).
    + intros [A T]. exists (S (2 * length ctxs)). pose proof (mp_acyclic ctxs c e (JList ls) ND Hc A) as N1.
      pose proof (fun x => list_fine e ls (S (2 * length ctxs)) x He c Hc T) as N2.
      destruct (mp (S (2 * length ctxs)) ctxs c e (JList ls)) as [r|x|]; [now exists r|now destruct (N2 x)|easy].
  - split; [|intros (r & H); now exists (S (2 * length ctxs)), r]. intros (k & r & H).
    destruct (mp (S (2 * length ctxs)) ctxs c e q) as [r'|x|] eqn:E; [now exists r'| |].
    + exfalso. destruct (Nat.le_ge_cases k (S (2 * length ctxs))) as [Le|Le].
      * rewrite (mp_mono ctxs k (S (2 * length ctxs))) in E by (auto; congruence). congruence.
      * rewrite (mp_mono ctxs (S (2 * length ctxs)) k) in H by (auto; congruence). congruence.
    + rewrite (mp_enough ctxs c e q ND Hc E k) in H. discriminate H.
Qed.
End Search.

Lemma ready_returns U FT AT d c e q : Ready U FT AT d -> In c (dp_ctxs d) -> latin1_str e ->
  ((exists r, match_pattern (jump_fuel d) (dp_ctxs d) c e q = Ok r) <-> Returns (dp_ctxs d) c e q).
Proof.
  intros R Hc He. destruct (ready_inv U FT AT d R) as [h I].
  destruct (returns_iff (dp_ctxs d) (inv_nodup U h d I) (inv_memos U h d I) c e q He Hc) as [A B]. unfold jump_fuel. now rewrite <- B.
Qed.
Lemma ready_hangs U FT AT d c e q : Ready U FT AT d -> In c (dp_ctxs d) -> latin1_str e -> usable q ->
  ((forall k, match_pattern k (dp_ctxs d) c e q = Hang) <-> ~ Returns (dp_ctxs d) c e q).
Proof.
  intros R Hc He Hq. destruct (ready_inv U FT AT d R) as [h I].
  destruct (returns_iff (dp_ctxs d) (inv_nodup U h d I) (inv_memos U h d I) c e q He Hc) as [A B]. split.
  - intros H K. apply A in K as (k & r & E). rewrite H in E. discriminate E.
  - intros N k. pose proof (mp_exn (dp_ctxs d) k) as N2. destruct (match_pattern k (dp_ctxs d) c e q) as [r|x|] eqn:E; [|now destruct (N2 x c e q He Hq)|easy].
    exfalso. apply N, A. now exists k, r.
Qed.
