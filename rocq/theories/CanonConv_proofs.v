(* Proof that the canonical spelling is faithful only for the patterns of
   SafePattern (C03, the converse). *)
From Verif Require Import Base Utf8 Pattern Spec_Pattern Utf8_proofs Pattern_proofs Canon_proofs.
From Coq Require Import ZifyBool ZifyN ZifyNat Permutation.
Ltac Zify.zify_post_hook ::= Z.div_mod_to_equations.

Definition vL : value := (0x15b, None).
Definition vR : value := (0x15d, None).
Definition vD : value := (0x22d, Some [0x2d; 0x5d]).
Definition cv (vs : list value) : bytes := List.concat (map canonical_value vs).
Definition br (c : N) : Prop := c = 0x5b \/ c = 0x5d \/ c = 0x2d.
Notation outs w := (Exists (fun x => x <> 0x5b /\ x <> 0x2d) w).

Lemma Elem_L : Elem vL [0x5b].
Proof. apply (Elem_lit 0x5b). lia. Qed.
Lemma Elem_R : Elem vR [0x5d].
Proof. apply (Elem_lit 0x5d). lia. Qed.
Lemma Elem_D : Elem vD [0x2d; 0x5d].
Proof.
  exists 0x2d, [0x5d]. split; [easy|]. split; [repeat constructor; lia|]. split; [repeat constructor; lia|].
  split; [easy|]. left. split; [easy|]. cbn. lia.
Qed.

(* ---- the members a set text gives ---- *)
Lemma ru_step a m b rest : range_used (a :: m :: b :: rest) =
  if m =? 0x2d then (if b <? a then nrange b a else nrange a b) ++ range_used rest else a :: range_used (m :: b :: rest).
Proof. reflexivity. Qed.

Lemma ru_char n : forall i x, (List.length i <= n)%nat -> In x i -> x = 0x2d \/ In x (range_used i).
Proof.
  induction n as [|n IH]; intros i x Hl Hx; [destruct i; [easy|cbn in Hl; lia]|].
  destruct i as [|a [|m [|b rest]]]; try (right; exact Hx).
  rewrite ru_step. cbn [List.length] in Hl. destruct (N.eqb_spec m 0x2d) as [->|Hm].
  - rewrite in_app_iff. destruct Hx as [<-|[<-|[<-|Hx]]].
    + right; left. destruct (N.ltb_spec b a); apply nrange_In; lia.
    + now left.
    + right; left. destruct (N.ltb_spec b a); apply nrange_In; lia.
    + destruct (IH rest x ltac:(lia) Hx); auto.
  - destruct Hx as [<-|Hx]; [right; now left|]. destruct (IH (m :: b :: rest) x ltac:(cbn [List.length]; lia) Hx); auto. right; now right.
Qed.

Lemma ru_5d n : forall i, (List.length i <= n)%nat -> ~ In 0x5d i -> In 0x5d (range_used i) -> In 0x5c (range_used i).
Proof.
  induction n as [|n IH]; intros i Hl H5 Hx; [destruct i; [easy|cbn in Hl; lia]|].
  destruct i as [|a [|m [|b rest]]]; try tauto.
  rewrite ru_step in *. cbn [List.length] in Hl. destruct (N.eqb_spec m 0x2d) as [->|Hm].
  - rewrite in_app_iff in *. destruct Hx as [Hx|Hx].
    + left. cbn [In] in H5. destruct (N.ltb_spec b a); apply nrange_In in Hx; apply nrange_In; lia.
    + right. apply IH; [lia| |easy]. cbn in H5; tauto.
  - destruct Hx as [->|Hx]; [cbn in H5; tauto|]. right. apply IH; [cbn [List.length]; lia| |easy]. cbn in H5 |- *; tauto.
Qed.

Lemma ru_pre k i : In 0x2d (range_used (0x5b :: i)) -> In 0x2d (range_used (repeat 0x5b k ++ 0x5b :: i)).
Proof.
  intros H. induction k as [|k IH]; [exact H|]. cbn [repeat app].
  apply range_used_cons; [|now right]. left. destruct k; cbn; lia.
Qed.

Definition Has5d (v : value) : Prop := exists u, Elem v u /\ In 0x5d u.
Lemma no5d v u : Elem v u -> ~ In 0x5d u -> ~ Has5d v.
Proof. intros He Hn (u' & He' & H). now rewrite (Elem_set_fun _ _ _ He He') in Hn. Qed.
Lemma no5d_special v : vspecial v = true -> ~ Has5d v.
Proof. intros Hs (u & He & _). apply Elem_special in He. congruence. Qed.
Lemma no5d_range len first : 1 <= len -> first + len <= 0x5d -> ~ Has5d (len * 0x100 + first, None).
Proof. intros H1 H2. apply (no5d _ _ (Elem_range len first H1 ltac:(lia) ltac:(lia))). rewrite nrange_len_In. lia. Qed.

(* ---- what a value read from the front of a text tells ---- *)
Lemma PP_set_inv inner r vs : ~ In 0x5d inner -> PP (0x5b :: inner ++ 0x5d :: r) vs ->
  exists v vs', vs = v :: vs' /\ parse_range_list inner = Ok v /\ PP r vs'.
Proof.
  intros H5 H. inversion H as [| | | | | | |i' r' v vs' Hn Hv HP [E1]|c r' vs' Hm]; subst; try lia.
  - apply set_inj in E1 as [-> ->]; auto. eauto.
  - discriminate.
Qed.
Lemma PP_lit_inv c r vs : c <> 0x5b -> c <> 0x2d -> PP (c :: r) vs ->
  exists v, (forall r' vs', PP r' vs' -> PP (c :: r') (v :: vs')) /\ (c = 0x5d -> v = vR) /\
    (c <> 0x5d -> c < 0xf5 -> v <> vL /\ ~ Has5d v) /\ exists vs', vs = v :: vs' /\ PP r vs'.
Proof.
  intros H1 H2 H. inversion H as [|r' vs' HP|c' r' vs' Hc HP|c' r' vs' Hc HP|c' r' vs' Hc HP|r' vs' HP|r' vs' HP|i' r' v vs' Hn Hv HP|c' r' vs' Hm HP]; subst; try easy;
    (eexists; split; [intros; constructor; eassumption|]; split; [|split; [|eauto]]).
  all: try (intros HH; exfalso; lia).
  - intros _ _. split; [discriminate|]. apply (no5d_range 10 0x30); lia.
  - intros _ _. split; [discriminate|]. apply (no5d_range 9 0x31); lia.
  - intros _ _. split; [discriminate|]. apply (no5d_range 8 0x32); lia.
  - intros _ _. split; [discriminate|]. now apply no5d_special.
  - intros _ _. split; [discriminate|]. now apply no5d_special.
  - now intros ->.
  - intros Hd Hf. split; [unfold vL; intros [= E]; lia|]. apply (no5d _ _ (Elem_lit c Hf)). cbn. intuition.
Qed.

(* values a text within brackets cannot give, or gives in one way only *)
Lemma set_L inner : asc inner -> parse_range_list inner = Ok vL ->
  inner <> [] /\ ~ outs inner /\ ~ In 0x2d (range_used inner).
Proof.
  intros Ha H. assert (inner <> []) as Hn by (intros ->; discriminate).
  pose proof (prl_Elem _ _ (asc_bytes_ok _ Ha) H) as He.
  pose proof (Elem_set_fun _ _ _ He Elem_L) as E.
  assert (K : forall d, In d (range_used inner) -> d = 0x5b).
  { intros d Hd. rewrite <- sorted_set_In, E in Hd. cbn in Hd. intuition. }
  split; [easy|]. split.
  - intros X. apply Exists_exists in X as (x & Hx & X1 & X2).
    destruct (ru_char _ inner x (le_n _) Hx) as [?|Hr]; [easy|]. now apply K in Hr.
  - intros X. apply K in X. discriminate.
Qed.
Lemma set_5d inner v u : asc inner -> ~ In 0x5d inner -> parse_range_list inner = Ok v -> Elem v u -> In 0x5d u -> In 0x5c u.
Proof.
  intros Ha H5 H He Hu. pose proof (prl_Elem _ _ (asc_bytes_ok _ Ha) H) as He'.
  rewrite (Elem_set_fun _ _ _ He He') in Hu |- *. rewrite sorted_set_In in *. now apply (ru_5d _ inner (le_n _)).
Qed.
Definition B (v : value) : Prop := v = vL \/ v = vR \/ v = vD.
Lemma set_B inner v : asc inner -> ~ In 0x5d inner -> parse_range_list inner = Ok v -> B v -> v = vL.
Proof.
  intros Ha H5 H [->|[->| ->]]; [easy| |].
  - pose proof (set_5d inner vR _ Ha H5 H Elem_R ltac:(now left)) as X. cbn in X. lia.
  - pose proof (set_5d inner vD _ Ha H5 H Elem_D ltac:(right; now left)) as X. cbn in X. lia.
Qed.

(* ---- the texts of single values ---- *)
(* read back as the value itself *)
Definition Piece (v : value) (txt : bytes) : Prop :=
  (exists c, txt = [c] /\ c <> 0x5b /\ c <> 0x2d /\ (v = vR -> c = 0x5d) /\ (c = 0x5d -> v = vR)) \/
  (exists i, txt = 0x5b :: i ++ [0x5d] /\ ~ In 0x5d i /\ v <> vR /\
     (outs i \/ In 0x2d (range_used (0x5b :: i)))).
(* a set with ']' that is written first *)
Definition Front (v : value) (txt : bytes) : Prop :=
  exists w, txt = 0x5b :: 0x5d :: w ++ [0x5d] /\
   ((v = vD /\ w = [0x2d]) \/ (exists x w', w = 0x2d :: x :: w' /\ ~ br x) \/ (exists c w', w = c :: w' /\ ~ br c) \/
    w = [0x5b] \/ w = [0x5b; 0x2d] \/
    exists y w', w = 0x5b :: y :: w' /\ ~ br y /\ ~ In 0x5d (y :: w') /\ ~ In 0x5d (range_used (y :: w'))) /\ Has5d v.
(* a set with ']' that is written as an end of the range or within it *)
Definition Mid (v : value) (txt : bytes) : Prop :=
  exists i w, txt = 0x5b :: i ++ 0x5d :: w /\ ~ In 0x5d i /\ (List.length i <= 2)%nat /\
   (outs i \/ i = [0x2d; 0x2d]) /\ Has5d v.

Lemma nrange_len_sorted f n : StronglySorted N.lt (nrange_len f n).
Proof.
  revert f; induction n; intros; cbn; constructor; auto. apply Forall_forall. intros x Hx.
  apply nrange_len_In in Hx. lia.
Qed.

Lemma get_ranges_starts fuel l : StronglySorted N.lt l ->
  StronglySorted N.lt (map crange_start (get_ranges fuel l)) /\ incl (map crange_start (get_ranges fuel l)) l.
Proof.
  revert l; induction fuel as [|fuel IH]; intros l Hs; [cbn; split; [constructor|easy]|].
  destruct l as [|x l]; [cbn; split; [constructor|easy]|]. inversion Hs as [|? ? Hs' Hf]; subst. cbn [get_ranges].
  destruct (2 <=? run_at x 1 l)%nat.
  - set (i := run_at x 1 l) in *.
    assert (Hsk : StronglySorted N.lt (skipn i l) /\ incl (skipn i l) l).
    { clearbody i. clear - Hs'. revert i. induction Hs' as [|y l Hs IH Hf]; intros i.
      - destruct i; cbn; split; try constructor; easy.
      - destruct i as [|i]; [cbn; split; [now constructor|easy]|]. destruct (IH i) as [I1 I2]. cbn. split; [easy|].
        intros z Hz. right; auto. }
    destruct Hsk as [S1 S2]. destruct (IH _ S1) as [I1 I2]. cbn [map crange_start]. split.
    + constructor; [easy|]. apply Forall_forall. intros y Hy. apply I2, S2 in Hy. rewrite Forall_forall in Hf; auto.
    + intros y [<-|Hy]; [now left|]. right. auto.
  - destruct (IH _ Hs') as [I1 I2]. cbn [map crange_start]. split.
    + constructor; [easy|]. apply Forall_forall. intros y Hy. apply I2 in Hy. rewrite Forall_forall in Hf; auto.
    + intros y [<-|Hy]; [now left|]. right. auto.
Qed.

Lemma crange_bytes_cons r : cgood r -> exists t, crange_bytes r = crange_start r :: t.
Proof.
  destruct r as [a|a b]; cbn; [eauto|]. intros H. destruct (b - a + 1 <=? 3); [|eauto].
  unfold nrange. destruct (N.to_nat (b + 1 - a)) eqn:E; [lia|]. cbn. eauto.
Qed.

(* the ranges of a set after '-' and ']' have been taken out *)
Lemma ranges_shape b1 : StronglySorted N.lt b1 -> ~ In 0x5d b1 -> ~ In 0x2d b1 ->
  let w := List.concat (map crange_bytes (crange_sort (get_ranges (List.length b1) b1))) in
  (b1 = [] /\ w = []) \/ (exists c w', w = c :: w' /\ ~ br c) \/ (b1 = [0x5b] /\ w = [0x5b]) \/
  exists y w', w = 0x5b :: y :: w' /\ ~ br y /\ forall t, t = [] \/ t = [0x2d] ->
    ~ In 0x5d (y :: w' ++ t) /\ ~ In 0x5d (range_used (y :: w' ++ t)).
Proof.
  intros Hs H5 H2 w. set (rs0 := get_ranges (List.length b1) b1) in *. set (rs := crange_sort rs0) in *.
  assert (PM : Permutation rs rs0) by apply crange_sort_perm.
  destruct (get_ranges_starts (List.length b1) b1 Hs) as [S1 S2]. fold rs0 in S1, S2.
  assert (ND : NoDup (map crange_start rs)).
  { eapply Permutation_NoDup; [symmetry; apply Permutation_map, PM|]. now apply sorted_NoDup. }
  assert (IN : incl (map crange_start rs) b1).
  { intros x Hx. apply S2. eapply Permutation_in; [apply Permutation_map, PM|easy]. }
  assert (RG : Forall cgood rs) by (eapply Permutation_Forall; [symmetry; exact PM | apply get_ranges_good]).
  assert (RI : forall d, In d b1 <-> exists r, In r rs /\ cden r d).
  { intros d. rewrite (get_ranges_In (List.length b1) b1) by lia. fold rs0. split; intros (r & Hr & Hd); exists r; split; auto.
    - eapply Permutation_in; [symmetry; exact PM | easy].
    - eapply Permutation_in; [exact PM | easy]. }
  clearbody rs. clear PM S1 S2 rs0. destruct rs as [|r rs].
  { left. split; [|easy]. destruct b1 as [|x b1]; [easy|]. destruct (proj1 (RI x) (or_introl eq_refl)) as (r & [] & _). }
  right. cbn [map List.concat] in w. inversion RG as [|? ? G1 G2]; subst.
  assert (NB : forall r', In r' (r :: rs) -> crange_start r' <> 0x5d /\ crange_start r' <> 0x2d).
  { intros r' Hr'. assert (In (crange_start r') b1) as Y by (apply IN; now apply in_map). split; intros E; rewrite E in Y; easy. }
  destruct (N.eq_dec (crange_start r) 0x5b) as [E|E].
  2:{ left. destruct (crange_bytes_cons r G1) as (t & Et). unfold w. rewrite Et. exists (crange_start r). eexists. split; [reflexivity|].
      destruct (NB r (or_introl eq_refl)). intros [?|[?|?]]; easy. }
  right. destruct r as [a|a b]; cbn in E; subst a.
  2:{ exfalso. cbn in G1. apply H5, RI. exists (CRange 0x5b b). split; [now left|]. cbn. lia. }
  unfold w. cbn [crange_bytes app]. destruct rs as [|r' rs].
  - left. split; [|easy]. apply sorted_ext; [easy|repeat constructor|]. intros x. rewrite RI. cbn. split.
    + intros (r & [<-|[]] & Hd). cbn in Hd. auto.
    + intros [<-|[]]. exists (CSingle 0x5b). cbn. auto.
  - right. cbn [map List.concat]. inversion G2 as [|? ? G3 G4]; subst. destruct (crange_bytes_cons r' G3) as (t0 & Et). rewrite Et.
    cbn [app]. exists (crange_start r'). eexists. split; [reflexivity|]. destruct (NB r' (or_intror (or_introl eq_refl))).
    split.
    { cbn [map] in ND. inversion ND as [|? ? N1 N2]; subst. cbn in N1. intros [?|[?|?]]; try easy. tauto. }
    intros t Ht.
    assert (ET : crange_start r' :: (t0 ++ List.concat (map crange_bytes rs)) ++ t = List.concat (map crange_bytes (r' :: rs)) ++ t).
    { cbn [map List.concat]. now rewrite Et. }
    rewrite ET. split.
    + rewrite in_app_iff. intros [X|X]; [|destruct Ht as [->| ->]; cbn in X; lia].
      apply in_concat in X as (l & Hl & Hx). apply in_map_iff in Hl as (r & <- & Hr).
      assert (Y : forall y, cden r y -> y <> 0x5d) by (intros y Hy ->; apply H5, RI; exists r; cbn; auto).
      rewrite Forall_forall in G2. specialize (G2 r Hr). destruct r as [a|a b]; cbn in Hx, Y, G2.
      * destruct Hx as [X|[]]. now apply (Y a).
      * destruct (b - a + 1 <=? 3); [apply nrange_In in Hx; now apply (Y 0x5d)|].
        destruct Hx as [X|[X|[X|[]]]]; [apply (Y a); lia|lia|apply (Y b); lia].
    + rewrite ranges_read; auto.
      * intros [(r & Hr & Hd)|X]; [|destruct Ht as [->| ->]; cbn in X; lia]. apply H5, RI. exists r; split; [now right|easy].
      * intros r Hr Hd. apply H2, RI. exists r; split; [now right|easy].
Qed.

Lemma remove1_sorted x l : StronglySorted N.lt l -> StronglySorted N.lt (remove1 x l).
Proof.
  induction 1 as [|y l Hs IH Hf]; cbn; [constructor|]. destruct (x =? y); [easy|]. constructor; [easy|].
  apply Forall_forall. intros z Hz. rewrite Forall_forall in Hf. apply Hf.
  apply (remove1_In x l z (sorted_NoDup _ Hs)) in Hz. tauto.
Qed.

(* sets with gaps *)
Lemma gap_shape u : StronglySorted N.lt u -> (2 <= List.length u)%nat ->
  exists w, (In 0x5d u /\ canonical_add_range u = 0x5b :: 0x5d :: w ++ [0x5d] /\
     ((u = [0x2d; 0x5d] /\ w = [0x2d]) \/ (exists c w', w = c :: w' /\ ~ br c) \/
      w = [0x5b] \/ w = [0x5b; 0x2d] \/
      exists y w', w = 0x5b :: y :: w' /\ ~ br y /\ ~ In 0x5d (y :: w') /\ ~ In 0x5d (range_used (y :: w')))) \/
   (~ In 0x5d u /\ canonical_add_range u = 0x5b :: w ++ [0x5d] /\
      (outs w \/ In 0x2d (range_used (0x5b :: w)))).
Proof.
  intros Hs HL. unfold canonical_add_range.
  set (dash := memb 0x2d u). set (b1 := if dash then remove1 0x2d u else u).
  assert (N0 : NoDup u) by now apply sorted_NoDup.
  assert (S1 : StronglySorted N.lt b1) by (unfold b1; destruct dash; [now apply remove1_sorted|easy]).
  assert (I1 : forall d, In d b1 <-> In d u /\ d <> 0x2d).
  { intros d. unfold b1, dash. destruct (memb 0x2d u) eqn:E.
    - now apply remove1_In.
    - apply memb_not_In in E. split; [|tauto]. intros Hd; split; [easy|]. congruence. }
  set (brack := memb 0x5d b1). set (b2 := if brack then remove1 0x5d b1 else b1).
  assert (S2 : StronglySorted N.lt b2) by (unfold b2; destruct brack; [now apply remove1_sorted|easy]).
  assert (I2 : forall d, In d b2 <-> In d u /\ d <> 0x2d /\ d <> 0x5d).
  { intros d. unfold b2, brack. destruct (memb 0x5d b1) eqn:E.
    - rewrite remove1_In by now apply sorted_NoDup. rewrite I1. tauto.
    - apply memb_not_In in E. rewrite I1. rewrite I1 in E. split; [|tauto]. intros Hd. split; [tauto|]. split; [tauto|]. intros ->; tauto. }
  assert (BR : brack = true <-> In 0x5d u).
  { unfold brack. rewrite memb_In, I1. split; [tauto|]. intros H; split; [easy|discriminate]. }
  assert (DA : dash = true <-> In 0x2d u) by (unfold dash; now rewrite memb_In).
  pose proof (ranges_shape b2 S2 ltac:(rewrite I2; tauto) ltac:(rewrite I2; tauto)) as SH. cbn zeta in SH.
  set (w0 := List.concat (map crange_bytes (crange_sort (get_ranges (List.length b2) b2)))) in *.
  set (dt := if dash then [0x2d] else []).
  exists (w0 ++ dt). destruct brack eqn:EB.
  - left. assert (In 0x5d u) as HB by (now apply BR). split; [easy|]. split; [cbn [app]; now rewrite <- app_assoc|].
    destruct SH as [[E1 E2]|[(c & w' & E & Hc)|[[E1 E2]|(y & w' & E & Hy & Hin)]]].
    + left. rewrite E2. cbn [app].
      assert (K : forall d, In d u -> d = 0x2d \/ d = 0x5d).
      { intros d Hd. destruct (N.eq_dec d 0x2d); [auto|]. destruct (N.eq_dec d 0x5d); [auto|].
        assert (In d b2) as X by (apply I2; auto). now rewrite E1 in X. }
      assert (HD : In 0x2d u).
      { destruct u as [|a [|b u]]; cbn in HL; try lia. inversion N0 as [|? ? M1 M2]; subst. cbn in M1.
        destruct (K a ltac:(cbn; auto)) as [->| ->]; [now left|]. destruct (K b ltac:(cbn; auto)) as [->| ->]; [right; now left|]. exfalso; apply M1; now left. }
      split.
      * apply sorted_ext; [easy|repeat constructor; lia|]. intros x. cbn. split; [intros Hx; destruct (K x Hx); auto|].
        intros [<-|[<-|[]]]; easy.
      * unfold dt. apply DA in HD. now rewrite HD.
    + right; left. exists c, (w' ++ dt). rewrite E. easy.
    + right; right. rewrite E2. unfold dt. destruct dash; cbn; auto.
    + right; right; right; right. exists y, (w' ++ dt). rewrite E. split; [easy|]. split; [easy|]. apply Hin. unfold dt. destruct dash; auto.
  - right. assert (~ In 0x5d u) as HB by (rewrite <- BR; discriminate). split; [easy|]. split; [cbn [app]; now rewrite <- app_assoc|].
    destruct SH as [[E1 E2]|[(c & w' & E & Hc)|[[E1 E2]|(y & w' & E & Hy & Hin)]]].
    + exfalso. assert (K : forall d, In d u -> d = 0x2d).
      { intros d Hd. destruct (N.eq_dec d 0x2d); [auto|]. destruct (N.eq_dec d 0x5d); [now subst|].
        assert (In d b2) as X by (apply I2; auto). now rewrite E1 in X. }
      destruct u as [|a [|b u]]; cbn in HL; try lia. inversion N0 as [|? ? M1 M2]; subst. cbn in M1.
      apply M1. left. rewrite (K a), (K b) by (cbn; auto). reflexivity.
    + left. rewrite E. cbn [app]. constructor. unfold br in Hc. tauto.
    + right. rewrite E2. unfold dt. destruct dash eqn:ED; [vm_compute; auto|]. exfalso.
      assert (K : forall d, In d u -> d = 0x5b).
      { intros d Hd. destruct (N.eq_dec d 0x2d) as [->|]; [apply DA in Hd; congruence|]. destruct (N.eq_dec d 0x5d); [now subst|].
        assert (In d b2) as X by (apply I2; auto). rewrite E1 in X. cbn in X; intuition. }
      destruct u as [|a [|b u]]; cbn in HL; try lia. inversion N0 as [|? ? M1 M2]; subst. cbn in M1.
      apply M1. left. rewrite (K a), (K b) by (cbn; auto). reflexivity.
    + left. rewrite E. cbn [app]. apply Exists_cons_tl. constructor. unfold br in Hy. tauto.
Qed.

Lemma Elem_two v u : Elem v u -> (2 <= List.length u)%nat -> v <> vR.
Proof. intros He HL ->. rewrite (Elem_set_fun _ _ _ He Elem_R) in HL. cbn in HL. lia. Qed.

(* every one-character element falls into one of the cases *)
Lemma elem_cases v u : Elem v u -> asc u ->
  (v = vL /\ canonical_value v = [0x5b] /\ u = [0x5b]) \/ (SafeTok (TOne (fun d => In d u)) /\ Piece v (canonical_value v)) \/
  Front v (canonical_value v) \/ Mid v (canonical_value v).
Proof.
  intros He Ha. destruct v as [n [s|]].
  - assert (s = u /\ (2 <= List.length u)%nat /\ StronglySorted N.lt u) as (-> & HL & Hs).
    { destruct He as (f & r & -> & Hs & Hb & Hn & [[H Hg]|[H _]]); [|discriminate]. cbn [snd] in H.
      inversion H; subst. split; [easy|]. split; [|easy]. destruct r; cbn in *; lia. }
    pose proof (Elem_two _ _ He HL) as HR. cbn [canonical_value].
    destruct (gap_shape u Hs HL) as (w & [(H5 & E & HW)|(H5 & E & HW)]); rewrite E.
    + right; right; left. exists w. split; [easy|]. split; [|now exists u]. destruct HW as [[-> ->]|[HW|[HW|[HW|HW]]]]; auto 7.
      left. split; [|easy]. apply (Elem_fun _ _ _ He Elem_D).
    + right; left. split.
      * cbn [SafeTok]. split; [|auto]. intros X. destruct u as [|a [|b u]]; cbn in HL; try lia.
        inversion Hs as [|? ? ? Hf]; subst. inversion Hf; subst. assert (a = 0x5b) by (apply X; cbn; auto). assert (b = 0x5b) by (apply X; cbn; auto). lia.
      * right. exists w. split; [easy|]. split; [|easy].
        destruct (add_range_read u Hs H5 HL Ha) as (inner & E' & I5 & _). rewrite E in E'. injection E' as E'.
        apply app_inj_tail in E' as [-> _]. easy.
  - destruct (Elem_contig _ _ He) as (f & len & -> & Hu & Hl1 & Hl2).
    assert (HI : forall d, In d u <-> f <= d < f + len).
    { intros d. rewrite Hu, nrange_len_In. lia. }
    assert (HA : f + len <= 0x80).
    { unfold asc in Ha; rewrite Forall_forall in Ha.
      assert (In (f + len - 1) u) as X by (apply HI; lia). apply Ha in X. lia. }
    assert (ST : f <> 0x5b \/ len <> 1 -> ~ (forall d, In d u <-> d = 0x5b)).
    { intros Hor X. assert (f = 0x5b) by (apply X, HI; lia). assert (f + len - 1 = 0x5b) by (apply X, HI; lia). lia. }
    assert (NR : len <> 1 -> (len * 0x100 + f, None) <> vR).
    { intros Hl E. injection E as E. lia. }
    unfold canonical_value. destruct (N.ltb_spec (len * 0x100 + f) 0x200) as [L1|L1].
    + assert (len = 1) by lia. subst len. rewrite num_start by lia.
      destruct (N.eq_dec f 0x5b) as [->|Hf].
      { left. split; [reflexivity|]. split; [reflexivity|]. rewrite Hu. reflexivity. }
      right; left. split.
      { cbn [SafeTok]. split; [apply ST; lia|]. destruct (N.eq_dec f 0x5d) as [->|Hf'].
        - right; left. intros d. rewrite HI. lia.
        - left. rewrite HI. lia. }
      destruct (memb f special) eqn:Em.
      * right. exists [f]. split; [easy|]. apply memb_In in Em. cbn in Em. split; [cbn; lia|].
        split; [unfold vR; intros [= E]; lia|].
        destruct (N.eq_dec f 0x2d) as [->|Hf2]; [right; cbn; auto|left; constructor; easy].
      * left. exists f. split; [easy|]. split; [easy|]. apply memb_not_In in Em. cbn in Em. split; [lia|].
        unfold vR. split; [intros [= E]; lia | intros ->; reflexivity].
    + assert (2 <= len) by lia. specialize (NR ltac:(lia)). specialize (ST ltac:(lia)).
      assert (NB : f > 0x5d \/ f + len <= 0x5d -> SafeTok (TOne (fun d => In d u))).
      { intros Hor. cbn [SafeTok]. split; [easy|]. left. rewrite HI. lia. }
      destruct (N.eqb_spec (len * 0x100 + f) 0xa30) as [E|N1].
      { right; left. split; [apply NB; lia|]. left. eexists. split; [reflexivity|]. split; [lia|]. split; [lia|]. split; [intros E'; now rewrite E' in NR | lia]. }
      destruct (N.eqb_spec (len * 0x100 + f) 0x931) as [E|N2].
      { right; left. split; [apply NB; lia|]. left. eexists. split; [reflexivity|]. split; [lia|]. split; [lia|]. split; [intros E'; now rewrite E' in NR | lia]. }
      destruct (N.eqb_spec (len * 0x100 + f) 0x832) as [E|N3].
      { right; left. split; [apply NB; lia|]. left. eexists. split; [reflexivity|]. split; [lia|]. split; [lia|]. split; [intros E'; now rewrite E' in NR | lia]. }
      destruct (N.eqb_spec (len * 0x100 + f) 0x18000) as [X|_]; [lia|].
      destruct (N.eqb_spec (len * 0x100 + f) 0x28000) as [X|_]; [lia|].
      assert (N.shiftr (N.land (len * 0x100 + f) 0xff00) 8 = len) as ->.
      { rewrite N.shiftr_land. change (N.shiftr 0xff00 8) with 0xff. apply num_len; lia. }
      rewrite num_start by lia.
      assert (MID : forall i w txt, txt = 0x5b :: i ++ 0x5d :: w -> ~ In 0x5d i -> (List.length i <= 2)%nat -> f <= 0x5d < f + len ->
        (outs i \/ i = [0x2d; 0x2d]) -> Mid (len * 0x100 + f, None) txt).
      { intros i w txt E H5 HLn Hin Ho. exists i, w. repeat split; auto. exists u. split; [easy|]. now apply HI. }
      destruct (N.eqb_spec len 2) as [->|L2].
      { destruct (N.eq_dec f 0x5d) as [->|F1].
        { right; right; left. exists [0x5e]. split; [reflexivity|]. split; [right; right; left; exists 0x5e, []; split; [easy|]; unfold br; lia|]. exists u. split; [easy|]. apply HI; lia. }
        destruct (N.eq_dec f 0x5c) as [->|F2].
        { right; right; right. eapply (MID [0x5c] [0x5d]); [reflexivity|cbn; lia|cbn; lia|lia|]. left; constructor; lia. }
        right; left. split; [apply NB; lia|]. right. exists [f; f + 1]. split; [reflexivity|]. split; [cbn; lia|]. split; [easy|].
        left. destruct (N.eq_dec f 0x5b) as [->|]; [apply Exists_cons_tl; constructor; lia|].
        destruct (N.eq_dec f 0x2d) as [->|]; [apply Exists_cons_tl; constructor; lia|]. constructor; easy. }
      destruct (N.eqb_spec len 3) as [->|L3].
      { destruct (N.eq_dec f 0x5d) as [->|F1].
        { right; right; left. exists [0x5e; 0x5f]. split; [reflexivity|]. split; [right; right; left; exists 0x5e, [0x5f]; split; [easy|]; unfold br; lia|]. exists u. split; [easy|]. apply HI; lia. }
        destruct (N.eq_dec f 0x5c) as [->|F2].
        { right; right; right. eapply (MID [0x5c] [0x5e; 0x5d]); [reflexivity|cbn; lia|cbn; lia|lia|]. left; constructor; lia. }
        destruct (N.eq_dec f 0x5b) as [->|F3].
        { right; right; right. eapply (MID [0x5b; 0x5c] [0x5d]); [reflexivity|cbn; lia|cbn; lia|lia|]. left; apply Exists_cons_tl; constructor; lia. }
        right; left. split; [apply NB; lia|]. right. exists [f; f + 1; f + 2]. split; [reflexivity|]. split; [cbn; lia|]. split; [easy|].
        left. destruct (N.eq_dec f 0x2d) as [->|]; [apply Exists_cons_tl; constructor; lia|]. constructor; easy. }
      destruct (N.eq_dec f 0x5d) as [->|F1].
      { right; right; left. exists [0x2d; 0x5d + len - 1]. split; [reflexivity|]. split; [right; left; exists (0x5d + len - 1), []; split; [easy|]; unfold br; lia|]. exists u. split; [easy|]. apply HI; lia. }
      destruct (N.eq_dec (f + len - 1) 0x5d) as [E|F2].
      { right; right; right. eapply (MID [f; 0x2d] [0x5d]); [now rewrite E|cbn; lia|cbn; lia|lia|].
        destruct (N.eq_dec f 0x2d) as [->|]; [now right|]. left. constructor. lia. }
      right; left. split.
      { cbn [SafeTok]. split; [easy|]. destruct (N.lt_ge_cases 0x5d f); [left; rewrite HI; lia|]. destruct (N.lt_ge_cases 0x5d (f + len)); [|left; rewrite HI; lia].
        right; right. exists f, (f + len - 1). split; [lia|]. split; [lia|]. intros d. rewrite HI. lia. }
      right. exists [f; 0x2d; f + len - 1]. split; [reflexivity|]. split; [cbn; lia|]. split; [easy|].
      destruct (N.eq_dec f 0x5b) as [->|]; [left; do 2 apply Exists_cons_tl; constructor; lia|].
      destruct (N.eq_dec f 0x2d) as [->|]; [|left; constructor; lia].
      right. rewrite ru_step. change (0x2d =? 0x2d) with true. cbn iota. apply in_app_iff. left. vm_compute. auto 60.
Qed.

Lemma ranges_asc l : asc l -> asc (List.concat (map crange_bytes (crange_sort (get_ranges (List.length l) l)))).
Proof.
  intros Ha. set (rs0 := get_ranges (List.length l) l). set (rs := crange_sort rs0).
  assert (PM : Permutation rs rs0) by apply crange_sort_perm.
  apply Forall_forall. intros x Hx. apply in_concat in Hx as (t & Ht & Hx). apply in_map_iff in Ht as (r & <- & Hr).
  eapply Permutation_in in Hr; [|exact PM].
  assert (G : cgood r) by (pose proof (get_ranges_good (List.length l) l) as X; rewrite Forall_forall in X; auto).
  assert (Y : forall y, cden r y -> y < 0x80).
  { intros y Hy. unfold asc in Ha. rewrite Forall_forall in Ha. apply Ha. apply (get_ranges_In (List.length l) l (le_n _)). eauto. }
  destruct r as [a|a b]; cbn in Hx, Y, G.
  - destruct Hx as [<-|[]]; auto.
  - destruct (b - a + 1 <=? 3).
    + apply nrange_In in Hx. now apply Y.
    + destruct Hx as [<-|[<-|[<-|[]]]]; [apply Y; lia|lia|apply Y; lia].
Qed.
Lemma remove1_incl x l : incl (remove1 x l) l.
Proof. induction l as [|y l IH]; cbn; [easy|]. destruct (x =? y); intros z Hz; [now right|]. destruct Hz as [<-|Hz]; [now left|right; auto]. Qed.
Lemma asc_incl a b : incl a b -> asc b -> asc a.
Proof. intros H Hb. apply Forall_forall. intros x Hx. unfold asc in Hb. rewrite Forall_forall in Hb. auto. Qed.
Lemma value_asc v u : Elem v u -> asc u -> asc (canonical_value v).
Proof.
  intros He Ha. destruct v as [n [s|]].
  - assert (s = u) as ->.
    { destruct He as (f & r & -> & Hs & Hb & Hn & [[H Hg]|[H _]]); [|discriminate]. cbn [snd] in H. now inversion H. }
    cbn [canonical_value]. unfold canonical_add_range.
    set (b1 := if memb 0x2d u then remove1 0x2d u else u). assert (A1 : asc b1) by (unfold b1; destruct (memb 0x2d u); [|easy]; eapply asc_incl; [apply remove1_incl|easy]).
    set (b2 := if memb 0x5d b1 then remove1 0x5d b1 else b1). assert (A2 : asc b2) by (unfold b2; destruct (memb 0x5d b1); [|easy]; eapply asc_incl; [apply remove1_incl|easy]).
    apply Forall_app. split; [repeat constructor; lia|]. apply Forall_app. split; [destruct (memb 0x5d b1); repeat constructor; lia|].
    apply Forall_app. split; [now apply ranges_asc|]. apply Forall_app. split; [destruct (memb 0x2d u); repeat constructor; lia|repeat constructor; lia].
  - destruct (Elem_contig _ _ He) as (f & len & -> & Hu & Hl1 & Hl2).
    assert (HA : f + len <= 0x80).
    { unfold asc in Ha; rewrite Forall_forall in Ha.
      assert (In (f + len - 1) u) as X by (rewrite Hu; apply nrange_len_In; lia). apply Ha in X. lia. }
    unfold canonical_value. 
    assert (N.shiftr (N.land (len * 0x100 + f) 0xff00) 8 = len) as ->.
    { rewrite N.shiftr_land. change (N.shiftr 0xff00 8) with 0xff. apply num_len; lia. }
    rewrite num_start by lia.
    repeat match goal with |- asc (if ?b then _ else _) => destruct b eqn:? end; unfold asc; repeat (apply Forall_cons; [lia|]); apply Forall_nil.
Qed.

(* ---- reading a whole canonical text ---- *)
Definition Good (v : value) : Prop := Piece v (canonical_value v) /\ Readable v (canonical_value v).
Definition Cls (v : value) : Prop := v = vL \/ Good v \/ Front v (canonical_value v) \/ Mid v (canonical_value v).

Lemma cv_cons v vs : cv (v :: vs) = canonical_value v ++ cv vs.
Proof. reflexivity. Qed.

Lemma good_head v r vs : Good v -> PP (canonical_value v ++ r) vs -> exists vs', vs = v :: vs' /\ PP r vs'.
Proof.
  intros [HP (_ & _ & HR)] H. pose proof (HR [] _ PP_nil) as H1. rewrite app_nil_r in H1.
  destruct HP as [(c & E & N1 & N2 & _)|(i & E & N1 & _)]; rewrite E in *.
  - destruct (PP_lit_inv _ _ _ N1 N2 H1) as (v1 & _ & _ & _ & vs1 & [= <- <-] & _).
    destruct (PP_lit_inv _ _ _ N1 N2 H) as (v2 & K & _ & _ & vs2 & -> & P2).
    exists vs2. split; [|easy]. pose proof (PP_fun _ _ _ H1 (K _ _ PP_nil)) as X. congruence.
  - cbn [app] in H. rewrite <- app_assoc in H. cbn [app] in H.
    apply PP_set_inv in H as (v2 & vs2 & -> & Q2 & P2); auto. apply PP_set_inv in H1 as (v1 & vs1 & [= <- <-] & Q1 & P1); auto.
    exists vs2. split; [congruence|easy].
Qed.

Lemma good_R v : v = vR -> Cls v -> Good v.
Proof.
  intros -> [X|[X|[(w & X & _)|(i & w & X & _)]]]; try easy; discriminate.
Qed.

(* the bytes up to a ']' that only say '[' *)
Lemma walk rem : Forall Cls rem -> forall k inner p, cv rem = inner ++ 0x5d :: p -> ~ In 0x5d inner ->
  ~ outs inner -> ~ In 0x2d (range_used (repeat 0x5b k ++ inner)) ->
  exists j e rem2, rem = repeat vL j ++ e :: rem2 /\
    ((e = vR /\ p = cv rem2) \/ (exists w, canonical_value e = 0x5b :: 0x5d :: w ++ [0x5d] /\ Front e (canonical_value e) /\ p = w ++ 0x5d :: cv rem2)).
Proof.
  induction 1 as [|v rem Hv HF IH]; intros k inner p E H5 Ho H2.
  { destruct inner; discriminate. }
  rewrite cv_cons in E.
  assert (UNI : forall i q t, canonical_value v = 0x5b :: i ++ 0x5d :: q -> ~ In 0x5d i -> outs i \/ In 0x2d (range_used (0x5b :: i)) ->
    t = canonical_value v ++ cv rem -> t = inner ++ 0x5d :: p -> False).
  { intros i q t Ev Hi Hor -> Et. rewrite Ev in Et. destruct inner as [|c inner]; [discriminate|]. cbn [app] in Et. injection Et as <- Et.
    rewrite <- app_assoc in Et. cbn [app] in Et. apply set_inj in Et as [-> _]; auto; [|cbn in H5; tauto].
    destruct Hor as [Hor|Hor]; [apply Ho; now apply Exists_cons_tl|]. apply H2. now apply ru_pre. }
  destruct Hv as [->|[[HP HR]|[HFr|HM]]].
  - change (canonical_value vL) with [0x5b] in E. cbn [app] in E. destruct inner as [|c inner]; [discriminate|]. cbn [app] in E. injection E as <- E.
    destruct (IH (S k) inner p E) as (j & e & rem2 & -> & K).
    + cbn in H5; tauto.
    + intros X. apply Ho. now apply Exists_cons_tl.
    + cbn [repeat app]. replace (0x5b :: repeat 0x5b k ++ inner) with (repeat 0x5b k ++ 0x5b :: inner); [easy|].
      clear. induction k as [|k IH]; [easy|]. cbn. now rewrite IH.
    + exists (S j), e, rem2. split; [easy|exact K].
  - destruct HP as [(c & Ec & N1 & N2 & V1 & V2)|(i & Ei & N1 & _ & Hor)].
    + rewrite Ec in E. cbn [app] in E. destruct inner as [|c' inner].
      * injection E as -> <-. exists 0%nat, v, rem. split; [easy|]. left. split; [now apply V2|easy].
      * injection E as <- E. exfalso. apply Ho. constructor. easy.
    + exfalso. eapply (UNI i []); eauto.
  - pose proof HFr as HFr'. destruct HFr as (w & Ew & Hw). rewrite Ew in E. cbn [app] in E.
    destruct inner as [|c inner]; [discriminate|]. injection E as <- E. cbn [app] in E. destruct inner as [|c inner].
    2:{ exfalso. injection E as <- E. apply H5. right; now left. }
    cbn [app] in E. injection E as <-. exists 0%nat, v, rem. split; [easy|]. right. exists w. split; [easy|]. split; [easy|].
    now rewrite <- app_assoc.
  - exfalso. destruct HM as (i & w & Ei & N1 & _ & Hor & _). eapply UNI; eauto. destruct Hor as [Hor| ->]; [now left|]. right. vm_compute; auto 60.
Qed.

Lemma B_has v : B v -> v = vL \/ Has5d v.
Proof.
  intros [->|[->| ->]]; [now left| |]; right.
  - exists [0x5d]. split; [apply Elem_R|now left].
  - exists [0x2d; 0x5d]. split; [apply Elem_D|right; now left].
Qed.
Lemma lit_head c r v vs : PP (c :: r) (v :: vs) -> ~ br c -> c < 0xf5 -> v <> vL /\ ~ Has5d v.
Proof.
  intros H Hc Hf. unfold br in Hc. destruct (PP_lit_inv c r (v :: vs)) as (v' & _ & _ & K & vs' & [= <- <-] & _); [tauto|tauto|easy|].
  apply K; [tauto|easy].
Qed.
Lemma dash_head r vs : PP (0x2d :: r) vs -> PP r vs.
Proof. inversion 1; subst; try lia; try discriminate. easy. Qed.

(* what follows the ']' of a set that is written with it in front *)
Lemma front_head e w rest v vs : canonical_value e = 0x5b :: 0x5d :: w ++ [0x5d] -> Front e (canonical_value e) -> asc w ->
  PP (w ++ 0x5d :: rest) (v :: vs) -> (w = [0x2d] /\ e = vD /\ v = vR /\ PP rest vs) \/ (v <> vL /\ ~ Has5d v).
Proof.
  intros Ew (w' & Ew' & Hw & _) Ha H. rewrite Ew in Ew'. injection Ew' as Ew'. apply app_inj_tail in Ew' as [<- _].
  destruct Hw as [[E ->]|[(x & w' & -> & Hx)|[(c & w' & -> & Hc)|[->|[->|(y & w' & -> & Hy & Y1 & Y2)]]]]]; cbn [app] in H.
  - left. split; [easy|]. split; [easy|]. apply dash_head in H.
    destruct (PP_lit_inv 0x5d rest (v :: vs)) as (v' & _ & K & _ & vs' & [= <- <-] & HP); [lia|lia|easy|]. split; [now apply K|easy].
  - right. apply dash_head in H. inversion Ha as [|? ? _ Ha']; subst. inversion Ha'; subst. eapply lit_head; eauto. lia.
  - right. inversion Ha; subst. eapply lit_head; eauto. lia.
  - exfalso. apply (PP_set_inv []) in H as (v' & vs' & _ & Hp & _); [discriminate|easy].
  - right. apply (PP_set_inv [0x2d]) in H as (v' & vs' & [= <- <-] & Hp & _); [|cbn; lia]. vm_compute in Hp. injection Hp as <-.
    split; [discriminate|]. apply (no5d _ _ (Elem_lit 0x2d ltac:(lia))). cbn; lia.
  - right. apply (PP_set_inv (y :: w')) in H as (v' & vs' & [= <- <-] & Hp & _); [|easy].
    assert (Ai : asc (y :: w')) by now inversion Ha.
    split.
    + intros ->. destruct (set_L _ Ai Hp) as (_ & Ho & _). apply Ho. constructor. unfold br in Hy. tauto.
    + apply (no5d _ _ (prl_Elem _ _ (asc_bytes_ok _ Ai) Hp)). now rewrite sorted_set_In.
Qed.

Lemma stuck n : forall rem A, (List.length rem <= n)%nat -> Forall Cls rem -> asc (cv rem) -> Forall B A ->
  (A <> [] \/ hd vR rem = vL) -> ~ PP (cv rem) (A ++ rem ++ [(0x30000, None)]).
Proof.
  induction n as [|n IH]; intros rem A Hn HC Ha HB Hor H.
  all: destruct rem as [|r rem]; [destruct Hor as [Hor|Hor]; [|discriminate]; cbn in H; inversion H as [X|X|X|X|X|X|X|X|X]; destruct A as [|a [|? ?]]; [easy|inversion HB as [|? ? [Y|[Y|Y]]]; subst; discriminate|discriminate]|].
  { cbn in Hn; lia. }
  cbn [List.length] in Hn. inversion HC as [|? ? HC1 HC2]; subst. rewrite cv_cons in H, Ha. apply Forall_app in Ha as [Ha1 Ha2].
  (* the first expected value is one of B *)
  assert (HD : exists a vs, A ++ (r :: rem) ++ [(0x30000, None)] = a :: vs /\ B a).
  { destruct A as [|a A]; [|inversion HB; subst; cbn; eauto]. destruct Hor as [Hor|Hor]; [easy|]. cbn in Hor. subst r. cbn. do 2 eexists. split; [reflexivity|]. now left. }
  destruct HD as (a & vs & E & Bv). rewrite E in H.
  destruct HC1 as [->|[HG|[HFr|HM]]].
  - change (canonical_value vL) with [0x5b] in H. cbn [app] in H.
    assert (exists inner p, cv rem = inner ++ 0x5d :: p /\ ~ In 0x5d inner /\ parse_range_list inner = Ok a /\ PP p vs) as (inner & p & Ecv & H5 & Hpr & HP).
    { inversion H as [| | | | | | |i' r' v vs' Hn' Hv HP|c r' vs' Hm]; subst; try lia; try discriminate. eauto 6. }
    assert (Ai : asc inner /\ asc p).
    { rewrite Ecv in Ha2. apply Forall_app in Ha2 as [X Y]. inversion Y; auto. } destruct Ai as [Ai Ap].
    pose proof (set_B _ _ Ai H5 Hpr Bv) as ->. destruct (set_L _ Ai Hpr) as (Hne & Ho & H2).
    destruct (walk rem HC2 0%nat inner p Ecv H5 Ho H2) as (j & e & rem2 & -> & K).
    apply Forall_app in HC2 as [_ HC2]. inversion HC2 as [|? ? HCe HC3]; subst.
    assert (EV : vs = tl (A ++ repeat vL (S j)) ++ e :: rem2 ++ [(0x30000, None)]).
    { apply (f_equal (@tl _)) in E. destruct A as [|a A]; cbn [app tl repeat] in *; rewrite <- E.
      - now rewrite <- app_assoc.
      - cbn. rewrite <- !app_assoc. cbn. rewrite <- ?app_assoc. reflexivity. }
    set (A2 := tl (A ++ repeat vL (S j))) in *.
    assert (HA2 : Forall B A2).
    { assert (Forall B (A ++ repeat vL (S j))) as X.
      { apply Forall_app. split; [easy|]. apply Forall_forall. intros x Hx. apply repeat_spec in Hx. now left. }
      unfold A2. destruct (A ++ repeat vL (S j)); [constructor|]. now inversion X. }
    subst vs. clearbody A2. rewrite app_length in Hn. cbn [List.length] in Hn.
    destruct K as [[-> ->]|(w & Ew & HFr & ->)].
    + apply (IH rem2 (A2 ++ [vR])); auto; try lia.
      * apply Forall_app. split; [easy|]. constructor; [right; now left|constructor].
      * left. now destruct A2.
      * now rewrite <- app_assoc.
    + apply Forall_app in Ap as [Aw Ap]. inversion Ap as [|? ? _ Ap']; subst.
      assert (exists b vs, A2 ++ e :: rem2 ++ [(0x30000, None)] = b :: vs /\ ((B b /\ exists A3, A2 = b :: A3) \/ (A2 = [] /\ b = e))) as (b & vs & Eb & Hb).
      { destruct A2 as [|b A2]; cbn; [eauto 7|]. inversion HA2; eauto 9. }
      rewrite Eb in HP. destruct (front_head _ _ _ _ _ Ew HFr Aw HP) as [(-> & -> & -> & HP2)|[K1 K2]].
      * destruct Hb as [[_ (A3 & ->)]|[_ X]]; [|discriminate]. cbn [app] in Eb. injection Eb as <-. inversion HA2; subst.
        apply (IH rem2 (A3 ++ [vD])); auto; try lia.
        -- apply Forall_app. split; [easy|]. constructor; [right; now right|constructor].
        -- left. now destruct A3.
        -- now rewrite <- app_assoc.
      * destruct Hb as [[Hb _]|[_ ->]]; [destruct (B_has _ Hb); easy|]. destruct HFr as (_ & _ & _ & X). easy.
  - pose proof (good_head _ _ _ HG H) as (vs' & EH & HP). injection EH as -> <-.
    destruct A as [|a A]; cbn [app] in E.
    + destruct Hor as [Hor|Hor]; [easy|]. cbn in Hor. subst r. destruct HG as [[(c & X0 & X & _)|(i & X & _)] _]; [change (canonical_value vL) with [0x5b] in X0; injection X0 as <-; easy|].
      change (canonical_value vL) with [0x5b] in X. destruct i; discriminate.
    + injection E as E1 E2. subst. inversion HB; subst. apply (IH rem (A ++ [r])); auto; try lia.
      * apply Forall_app. split; [easy|]. constructor; [easy|constructor].
      * left. now destruct A.
      * now rewrite <- app_assoc.
  - destruct HFr as (w & Ew & _). rewrite Ew in H. cbn [app] in H.
    apply (PP_set_inv []) in H as (v' & vs' & _ & Hp & _); [discriminate|easy].
  - destruct HM as (i & w & Ew & H5 & HL & Hor2 & _). rewrite Ew in H, Ha1. cbn [app] in H. rewrite <- app_assoc in H. cbn [app] in H.
    apply PP_set_inv in H as (v' & vs' & [= <- <-] & Hp & _); [|easy].
    assert (Ai : asc i) by (inversion Ha1 as [|? ? _ X]; apply Forall_app in X as [X _]; easy).
    pose proof (set_B _ _ Ai H5 Hp Bv) as ->. destruct (set_L _ Ai Hp) as (_ & Ho & H2).
    destruct Hor2 as [X| ->]; [easy|]. apply H2. now left.
Qed.

(* the values of a text that reads back are all written so that they can be read *)
Lemma reads_good vs : Forall Cls vs -> asc (cv vs) -> PP (cv vs) (vs ++ [(0x30000, None)]) -> Forall Good vs.
Proof.
  induction 1 as [|v vs Hv HF IH]; intros Ha H; [constructor|]. pose proof H as H0. pose proof Ha as Ha0.
  rewrite cv_cons in H, Ha. apply Forall_app in Ha as [Ha1 Ha2]. destruct Hv as [->|[HG|[HFr|HM]]].
  - exfalso. apply (stuck _ (vL :: vs) [] (le_n _)); auto; [constructor; [now left|easy]].
  - pose proof (good_head _ _ _ HG H) as (vs' & [= <-] & HP). constructor; auto.
  - exfalso. destruct HFr as (w & Ew & _). rewrite Ew in H. cbn [app] in H.
    apply (PP_set_inv []) in H as (v' & vs' & _ & Hp & _); [discriminate|easy].
  - exfalso. destruct HM as (i & w & Ew & H5 & HL & _ & H5d). rewrite Ew in H, Ha1. cbn [app] in H. rewrite <- app_assoc in H. cbn [app] in H.
    apply PP_set_inv in H as (v' & vs' & [= <- <-] & Hp & _); [|easy].
    assert (Ai : asc i) by (inversion Ha1 as [|? ? _ X]; apply Forall_app in X as [X _]; easy).
    revert H5d. apply (no5d _ _ (prl_Elem _ _ (asc_bytes_ok _ Ai) Hp)). rewrite sorted_set_In.
    destruct i as [|a [|b [|]]]; cbn in HL; try lia; easy.
Qed.

(* ---- whole patterns ---- *)
Lemma R_cls v t : R v t -> tok_asc t -> (SafeTok t /\ Cls v /\ asc (canonical_value v)) \/ (~ Good v /\ Cls v /\ asc (canonical_value v)).
Proof.
  intros HR Ha. destruct t as [| |P]; cbn [R] in HR.
  - left. split; [easy|]. subst v. split; [|repeat constructor; lia]. right; left. split.
    + left. exists 0x2e. split; [easy|]. split; [lia|]. split; [lia|]. split; [discriminate|lia].
    + apply (R_readable _ TAny1); easy.
  - left. split; [easy|]. subst v. split; [|repeat constructor; lia]. right; left. split.
    + left. exists 0x21. split; [easy|]. split; [lia|]. split; [lia|]. split; [discriminate|lia].
    + apply (R_readable _ TAny0); easy.
  - destruct HR as (u & He & Hu). assert (Hau : asc u) by (apply Forall_forall; intros x Hx; apply Ha, Hu, Hx).
    pose proof (value_asc _ _ He Hau) as HA.
    destruct (elem_cases v u He Hau) as [(-> & E & ->)|[[HS HP]|[HF|HM]]].
    + right. split; [|split; [now left|easy]]. intros [[(c & X0 & X & _)|(i & X & _)] _]; rewrite E in *; [congruence|]. destruct i; discriminate.
    + left. assert (SafeTok (TOne P)) as HS'.
      { cbn [SafeTok] in *. destruct HS as [S1 S2]. split; [intros X; apply S1; intros d; rewrite Hu; apply X|].
        destruct S2 as [S2|[S2|(lo & hi & H1 & H2 & S2)]]; [left; now rewrite <- Hu|right; left; intros d; now rewrite <- Hu|].
        right; right. exists lo, hi. split; [easy|]. split; [easy|]. intros d; now rewrite <- Hu. }
      split; [easy|]. split; [|easy]. right; left. split; [easy|]. apply (R_readable _ (TOne P)); auto. now exists u.
    + right. split; [|split; [right; right; now left|easy]]. intros [HP HR]. destruct HR as (_ & _ & HR).
      specialize (HR _ _ PP_nil). destruct HF as (w & Ew & _). rewrite Ew in HR. cbn [app] in HR.
      rewrite <- app_assoc in HR. apply (PP_set_inv []) in HR as (v' & vs' & _ & Hp & _); [discriminate|easy].
    + right. split; [|split; [right; right; now right|easy]]. intros [HP HR]. destruct HR as (_ & _ & HR).
      specialize (HR _ _ PP_nil). destruct HM as (i & w & Ew & H5 & HL & _ & H5d). rewrite Ew in HR, HA. cbn [app] in HR. rewrite <- app_assoc in HR. cbn [app] in HR.
      apply PP_set_inv in HR as (v' & vs' & [= <- <-] & Hp & _); [|easy].
      assert (Ai : asc i) by (inversion HA as [|? ? _ X]; apply Forall_app in X as [X _]; easy).
      revert H5d. apply (no5d _ _ (prl_Elem _ _ (asc_bytes_ok _ Ai) Hp)). rewrite sorted_set_In.
      destruct i as [|a [|b [|]]]; cbn in HL; try lia; easy.
Qed.

Lemma PP_length p vs : PP p vs -> (List.length vs <= S (List.length p))%nat.
Proof. induction 1; cbn [List.length] in *; rewrite ?app_length; cbn [List.length]; lia. Qed.

Lemma no_dash_len s : List.length (no_dash s) = List.length s -> ~ In 0x2d s.
Proof.
  induction s as [|c s IH]; [easy|]. intros H. unfold no_dash in H. cbn [filter] in H. fold (no_dash s) in H.
  assert (List.length (no_dash s) <= List.length s)%nat.
  { clear. induction s as [|x s IH]; [easy|]. unfold no_dash in *. cbn [filter]. destruct (negb _); cbn [List.length]; lia. }
  destruct (N.eqb_spec c 0x2d) as [->|Hc]; cbn [negb List.length] in H; [lia|]. injection H as H. intros [X|X]; [easy|]. now apply IH.
Qed.

Theorem pattern_safe p v v' : ascii_str p -> parse (0x5f :: p) = Ok v -> parse (canonical v) = Ok v' ->
  matches_same v v' = true -> SafePattern p.
Proof.
  intros Ha Hp Hc Hm.
  apply parse_pattern_inv in Hp as (b & Hb & Ht & HP). rewrite utf8_asc in Hb by easy. inversion Hb; subst b.
  destruct (PP_toks _ _ HP) as [ts HT]. pose proof (toks_asc _ _ HT Ha) as TA.
  destruct (canonical_shape v p Ht HP (asc_bytes_ok _ Ha) ts HT) as (vs0 & E & F & Hcan).
  exists ts. split; [easy|]. revert Hcan; destruct (forallb (fun v => fst v <? 0x200) vs0) eqn:EF; intros Hcan.
  - left. destruct (singles_vals _ _ F EF) as (cs & HSi & -> & Hcb). rewrite (land_single _ Hcb) in Hcan.
    exists cs. split; [easy|]. rewrite Hcan in Hc.
    assert (Hca : asc cs).
    { clear - HSi TA. induction HSi as [|t c ts cs (P & -> & HP) H IH]; [constructor|]. inversion TA as [|? ? T1 T2]; subst. constructor.
      - apply T1, HP; easy.
      - apply IH, T2. }
    destruct cs as [|c cs]; [discriminate|]. split; [easy|]. cbn [hd].
    destruct (N.eq_dec c 0x5f) as [->|Hh].
    + exfalso. apply parse_pattern_inv in Hc as (b & Hb' & Ht' & HP').
      rewrite utf8_asc in Hb' by (now inversion Hca). inversion Hb'; subst b.
      apply PP_length in HP'. unfold matches_same in Hm. rewrite Ht, Ht', N.eqb_refl in Hm. apply vlist_eqb_eq in Hm.
      rewrite <- Hm, E in HP'. rewrite app_length, map_length in HP'. cbn [List.length] in HP'. lia.
    + split; [easy|]. rewrite parse_literal in Hc by easy. inversion Hc; subst v'. clear Hc.
      unfold matches_same in Hm. cbn [ptype pvals] in Hm. rewrite Ht in Hm. change (IS_A_PATTERN =? NOT_A_PATTERN) with false in Hm.
      change (IS_A_PATTERN =? IS_A_PATTERN) with true in Hm. cbn iota in Hm. apply vlist_eqb_eq in Hm.
      rewrite E in Hm. unfold drop_last in Hm. rewrite removelast_last in Hm. apply (f_equal (@List.length _)) in Hm. rewrite !map_length in Hm.
      now apply no_dash_len.
  - right.
    assert (CLS : Forall Cls vs0 /\ asc (cv vs0)).
    { clear - F TA. induction F as [|v t vs ts HR F IH]; [split; constructor|]. inversion TA as [|? ? T1 T2]; subst. destruct (IH T2) as [I1 I2].
      destruct (R_cls _ _ HR T1) as [(_ & C & A)|(_ & C & A)]; (split; [constructor; auto|rewrite cv_cons; apply Forall_app; auto]). }
    destruct CLS as [CL CA]. rewrite Hcan in Hc. fold (cv vs0) in Hc.
    apply parse_pattern_inv in Hc as (b & Hb' & Ht' & HP'). rewrite utf8_asc in Hb' by easy. inversion Hb'; subst b.
    unfold matches_same in Hm. rewrite Ht, Ht', N.eqb_refl in Hm. apply vlist_eqb_eq in Hm. rewrite <- Hm, E in HP'.
    pose proof (reads_good _ CL CA HP') as HG. split.
    + intros cs HSi. destruct (vals_singles _ _ _ F HSi) as [-> Hb'']. 
      assert (forallb (fun v : N * option bytes => fst v <? 0x200) (map (fun c => (0x100 + c, None)) cs) = true); [|congruence].
      apply forallb_forall. intros x Hx. apply in_map_iff in Hx as (c & <- & Hc').
      rewrite Forall_forall in Hb''. apply Hb'' in Hc'. cbn [fst]. apply N.ltb_lt. lia.
    + clear - F TA HG. induction F as [|v t vs ts HR F IH]; [constructor|]. inversion TA as [|? ? T1 T2]; subst. inversion HG; subst.
      constructor; [|auto]. destruct (R_cls _ _ HR T1) as [(S & _)|(N & _)]; easy.
Qed.

Theorem literal_safe raw v v' : ascii_str raw -> hd 0 raw <> 0x5f -> parse raw = Ok v -> parse (canonical v) = Ok v' ->
  matches_same v v' = true -> no_dash raw <> [] /\ hd 0 (no_dash raw) <> 0x5f.
Proof.
  intros Ha Hh Hp Hc Hm. assert (raw <> []) as Hr by (intros ->; easy).
  rewrite parse_literal in Hp by easy. inversion Hp; subst v. clear Hp.
  assert (Hda : asc (no_dash raw)).
  { apply Forall_forall. intros x Hx. apply filter_In in Hx as [Hx _]. unfold ascii_str in Ha. rewrite Forall_forall in Ha; auto. }
  assert (C : canonical (mkv NOT_A_PATTERN (map (fun i => (0x100 + i, None)) (no_dash raw))) = no_dash raw).
  { unfold canonical. cbn [ptype pvals]. change (NOT_A_PATTERN =? NOT_A_PATTERN) with true. cbn iota. apply land_single, asc_bytes_ok, Hda. }
  rewrite C in Hc. destruct (no_dash raw) as [|c s] eqn:EN; [discriminate|]. split; [easy|]. cbn [hd]. intros ->.
  apply parse_pattern_inv in Hc as (b & Hb' & Ht' & HP'). rewrite utf8_asc in Hb' by (now inversion Hda). inversion Hb'; subst b.
  apply PP_length in HP'. unfold matches_same in Hm. cbn [ptype pvals] in Hm. rewrite Ht' in Hm.
  change (NOT_A_PATTERN =? IS_A_PATTERN) with false in Hm. cbn iota in Hm. apply vlist_eqb_eq in Hm.
  apply (f_equal (@List.length _)) in Hm. rewrite map_length in Hm. unfold drop_last in Hm. cbn [List.length] in Hm.
  assert (forall (l : list value), List.length (removelast l) = pred (List.length l)) as LR.
  { induction l as [|x [|y l] IH]; [easy|easy|]. change (removelast (x :: y :: l)) with (x :: removelast (y :: l)). cbn [List.length] in *. lia. }
  rewrite LR in Hm. lia.
Qed.

Theorem canonical_exact raw v : ascii_str raw -> parse raw = Ok v ->
  (exists v', parse (canonical v) = Ok v' /\ matches_same v v' = true) <-> SafeText raw.
Proof.
  intros Ha Hp. destruct raw as [|c p]; [discriminate|]. cbn [SafeText]. destruct (N.eqb_spec c 0x5f) as [->|Hc].
  - split.
    + intros (v' & H1 & H2). apply (pattern_safe p v v'); auto. now inversion Ha.
    + intros HS. destruct (canonical_pattern_keeps p v ltac:(now inversion Ha) Hp HS) as (v' & H1 & H2 & _). eauto.
  - split.
    + intros (v' & H1 & H2). now apply (literal_safe (c :: p) v v').
    + intros [H1 H2]. destruct (canonical_literal_keeps (c :: p) v Ha Hc Hp H2 H1) as (_ & v' & H3 & H4 & _). eauto.
Qed.
