(* Proofs about canonical pattern spelling (C03, C04). *)
From Verif Require Import Base Utf8 Pattern Spec_Pattern Utf8_proofs Pattern_proofs.
From Coq Require Import ZifyBool ZifyN ZifyNat.
Ltac Zify.zify_post_hook ::= Z.div_mod_to_equations.

(* A one-character element with its sorted list of members *)
Definition Elem (v : value) (u : list N) : Prop :=
  exists first rest, u = first :: rest /\ StronglySorted N.lt u /\
    Forall (fun x => x < 0xf5) u /\
    fst v = N.of_nat (List.length u) * 0x100 + first /\
    (snd v = Some u /\ last u 0 - first <> N.of_nat (List.length u) - 1
     \/ snd v = None /\ last u 0 - first = N.of_nat (List.length u) - 1).

Lemma Elem_len v u : Elem v u -> (1 <= List.length u <= 245)%nat.
Proof.
  intros (f & r & -> & Hs & Hb & _). pose proof (sorted_lt_bound _ _ Hs Hb). cbn [List.length] in *. lia.
Qed.

Lemma Elem_special v u : Elem v u -> vspecial v = false.
Proof.
  intros H. pose proof (Elem_len _ _ H) as HL. destruct H as (f & r & E & Hs & Hb & Hn & _).
  unfold vspecial. rewrite Hn, E in *. inversion Hb; subst.
  rewrite !orb_false_iff, !N.eqb_neq. lia.
Qed.

Lemma Elem_fun v v' u : Elem v u -> Elem v' u -> v = v'.
Proof.
  intros (f & r & E & _ & _ & Hn & Hsn) (f' & r' & E' & _ & _ & Hn' & Hsn').
  rewrite E in E'. inversion E'; subst f' r'.
  destruct v as [n s], v' as [n' s']. cbn [fst snd] in *.
  destruct Hsn as [[-> ?]|[-> ?]], Hsn' as [[-> ?]|[-> ?]]; try lia; f_equal; congruence.
Qed.

Lemma prl_Elem inner v : bytes_ok inner -> parse_range_list inner = Ok v ->
  Elem v (sorted_set (range_used inner)).
Proof.
  intros Hb Hv. destruct (parse_range_list_spec _ _ Hb Hv) as (f & r & Hu & Hf & Hl & Hn & Hs).
  exists f, r. split; [easy|]. split; [apply sorted_set_sorted|]. split; [|auto].
  apply Forall_forall. intros x Hx. apply sorted_set_In, range_used_InSet in Hx. eapply InSet_bound; eauto.
Qed.

(* A set text with the members of u parses to the element with members u. *)
Lemma prl_of_set inner v u : bytes_ok inner -> inner <> [] -> Elem v u ->
  (forall d, In d (range_used inner) <-> In d u) -> parse_range_list inner = Ok v.
Proof.
  intros Hb Hi He Hset. destruct (parse_range_list_total inner Hi) as [v' Hv'].
  pose proof (prl_Elem _ _ Hb Hv') as He'.
  assert (sorted_set (range_used inner) = u) as E.
  { apply sorted_ext; [apply sorted_set_sorted | now destruct He as (? & ? & ? & ? & _) |].
    intros x. rewrite sorted_set_In. apply Hset. }
  rewrite E in He'. now rewrite Hv', (Elem_fun _ _ _ He He').
Qed.

Lemma Elem_lit c : c < 0xf5 -> Elem (0x100 + c, None) [c].
Proof.
  intros H. exists c, []. repeat split; auto.
  - repeat constructor.
  - right; split; [easy|]. cbn. lia.
Qed.

(* Relation of parsed elements to specification tokens *)
Definition R (v : value) (t : tok) : Prop :=
  match t with
  | TAny1 => v = (0x18000, None)
  | TAny0 => v = (0x28000, None)
  | TOne P => exists u, Elem v u /\ forall d, In d u <-> P d
  end.

Lemma Elem_range len first : 1 <= len -> len < 0xf5 -> first + len <= 0xf5 ->
  Elem (len * 0x100 + first, None) (nrange_len first (N.to_nat len)).
Proof.
  intros H1 H2 H3.
  assert (forall n f, List.length (nrange_len f n) = n) as LEN.
  { induction n; intros; cbn; auto. }
  assert (forall n f, StronglySorted N.lt (nrange_len f n)) as SRT.
  { induction n; intros; cbn; constructor; auto. apply Forall_forall. intros x Hx.
    apply nrange_len_In in Hx. lia. }
  assert (forall n f, last (nrange_len f (S n)) 0 = f + N.of_nat n) as LST.
  { induction n; intros f. { cbn; lia. }
    change (nrange_len f (S (S n))) with (f :: nrange_len (f + 1) (S n)).
    change (last (f :: nrange_len (f + 1) (S n)) 0) with (last (nrange_len (f + 1) (S n)) 0).
    rewrite IHn. lia. }
  destruct (N.to_nat len) as [|n] eqn:E; [lia|].
  exists first, (nrange_len (first + 1) n). split; [easy|]. split; [apply SRT|]. split.
  { apply Forall_forall. intros x Hx. apply nrange_len_In in Hx. lia. }
  rewrite LEN, LST. cbn [fst snd]. split; [lia|]. right. split; [easy|]. lia.
Qed.

Lemma PP_R p vs : PP p vs -> bytes_ok p -> forall ts, Toks p ts ->
  exists vs0, vs = vs0 ++ [(0x30000, None)] /\ Forall2 R vs0 ts.
Proof.
  induction 1 as [|r vs H IH|c r vs Hc H IH|c r vs Hc H IH|c r vs Hc H IH|r vs H IH|r vs H IH
                 |inner r v vs Hn Hv H IH|c r vs Hc H IH]; intros Hb ts Ht.
  - inversion Ht; subst. exists []; split; [easy | constructor].
  - inversion Hb; subst. inversion Ht; subst; try lia; auto. exfalso; cbn in *; tauto.
  - inversion Hb; subst. inversion Ht; subst; try lia; try (exfalso; cbn in *; intuition congruence).
    destruct (IH ltac:(easy) _ ltac:(eassumption)) as (vs0 & -> & HF).
    eexists (_ :: vs0); split; [reflexivity|]. constructor; [|easy].
    cbn [R]. exists (nrange_len 0x30 (N.to_nat 10)). split; [apply (Elem_range 10 0x30); lia|].
    intros d; rewrite nrange_len_In; lia.
  - inversion Hb; subst. inversion Ht; subst; try lia; try (exfalso; cbn in *; intuition congruence).
    destruct (IH ltac:(easy) _ ltac:(eassumption)) as (vs0 & -> & HF).
    eexists (_ :: vs0); split; [reflexivity|]. constructor; [|easy].
    cbn [R]. exists (nrange_len 0x31 (N.to_nat 9)). split; [apply (Elem_range 9 0x31); lia|].
    intros d; rewrite nrange_len_In; lia.
  - inversion Hb; subst. inversion Ht; subst; try lia; try (exfalso; cbn in *; intuition congruence).
    destruct (IH ltac:(easy) _ ltac:(eassumption)) as (vs0 & -> & HF).
    eexists (_ :: vs0); split; [reflexivity|]. constructor; [|easy].
    cbn [R]. exists (nrange_len 0x32 (N.to_nat 8)). split; [apply (Elem_range 8 0x32); lia|].
    intros d; rewrite nrange_len_In; lia.
  - inversion Hb; subst. inversion Ht; subst; try lia; try (exfalso; cbn in *; intuition congruence).
    destruct (IH ltac:(easy) _ ltac:(eassumption)) as (vs0 & -> & HF).
    eexists (_ :: vs0); split; [reflexivity|]. constructor; easy.
  - inversion Hb; subst. inversion Ht; subst; try lia; try (exfalso; cbn in *; intuition congruence).
    destruct (IH ltac:(easy) _ ltac:(eassumption)) as (vs0 & -> & HF).
    eexists (_ :: vs0); split; [reflexivity|]. constructor; easy.
  - assert (Hbi : bytes_ok inner /\ bytes_ok r).
    { inversion Hb as [|? ? ? Hb']; subst. apply Forall_app in Hb' as [? Hr]. inversion Hr; auto. }
    destruct Hbi as [Hbi Hbr].
    inversion Ht as [| | | | | | |inner' p' ts' Hn' Ht' E1 E2|]; subst; try lia; try (exfalso; cbn in *; intuition congruence).
    assert (X : inner = inner' /\ r = p').
    { assert (cut_rbracket (inner ++ 0x5d :: r) = Some (inner, r)) as C1 by (apply cut_rbracket_some; auto).
      assert (cut_rbracket (inner' ++ 0x5d :: p') = Some (inner', p')) as C2 by (apply cut_rbracket_some; auto).
      rewrite <- E1 in C1. rewrite C1 in C2. inversion C2; auto. }
    destruct X as [-> ->].
    destruct (IH ltac:(easy) _ ltac:(eassumption)) as (vs0 & -> & HF).
    eexists (_ :: vs0); split; [reflexivity|]. constructor; [|easy].
    cbn [R]. exists (sorted_set (range_used inner')). split; [now apply prl_Elem|].
    intros d. rewrite sorted_set_In. apply range_used_InSet.
  - inversion Hb; subst. unfold is_meta in Hc.
    inversion Ht; subst; try lia.
    destruct (IH ltac:(easy) _ ltac:(eassumption)) as (vs0 & -> & HF).
    eexists (_ :: vs0); split; [reflexivity|]. constructor; [|easy].
    cbn [R]. exists [c]. split; [now apply Elem_lit|]. cbn; intuition.
Qed.

(* ------------------------------------------------------------------ *)
(* get_ranges                                                           *)

Definition cden (r : crange) (d : N) : Prop :=
  match r with CSingle a => d = a | CRange a b => a <= d <= b end.

Lemma run_at_firstn first i l : firstn (run_at first i l) l = nrange_len (first + i) (run_at first i l).
Proof.
  revert i; induction l as [|x l IH]; intros i; cbn; [easy|].
  destruct (N.eqb_spec x (first + i)) as [->|H]; cbn; [|easy]. rewrite IH.
  replace (first + (i + 1)) with (first + i + 1) by lia. easy.
Qed.

Lemma get_ranges_In fuel l : (List.length l <= fuel)%nat -> forall d,
  In d l <-> exists r, In r (get_ranges fuel l) /\ cden r d.
Proof.
  revert l; induction fuel as [|fuel IH]; intros l Hl d.
  { destruct l; cbn in *; [|lia]. split; [easy | intros (r & [] & _)]. }
  destruct l as [|x l]; cbn [get_ranges].
  { cbn. split; [easy | intros (r & [] & _)]. }
  cbn in Hl. destruct (2 <=? run_at x 1 l)%nat eqn:E.
  - pose proof (run_at_firstn x 1 l) as HF. set (i := run_at x 1 l) in *.
    rewrite <- (firstn_skipn i l) at 1. change (x :: firstn i l ++ skipn i l) with ((x :: firstn i l) ++ skipn i l).
    rewrite in_app_iff, (IH (skipn i l)) by (rewrite skipn_length; lia). rewrite HF.
    cbn [In]. rewrite nrange_len_In. split.
    + intros [H|(r & Hr & Hd)]; [exists (CRange x (x + N.of_nat i)); cbn; split; [auto | lia] | exists r; auto].
    + intros (r & [<-|Hr] & Hd); [left; cbn in Hd; lia | right; eauto].
  - cbn [In]. rewrite (IH l) by lia. split.
    + intros [H|(r & Hr & Hd)]; [exists (CSingle x); cbn; auto | exists r; auto].
    + intros (r & [<-|Hr] & Hd); [left; cbn in Hd; lia | right; eauto].
Qed.

Definition cgood (r : crange) : Prop :=
  match r with CSingle a => True | CRange a b => a + 2 <= b end.

Lemma get_ranges_good fuel l : Forall cgood (get_ranges fuel l).
Proof.
  revert l; induction fuel as [|fuel IH]; intros l; [constructor|].
  destruct l as [|x l]; [constructor|]. cbn [get_ranges].
  destruct (2 <=? run_at x 1 l)%nat eqn:E; constructor; auto; cbn -[N.of_nat]; try lia.
Qed.

Lemma get_ranges_nil fuel l : (List.length l <= fuel)%nat -> get_ranges fuel l = [] -> l = [].
Proof.
  intros Hl H. destruct l as [|x l]; [easy|]. exfalso.
  assert (In x (x :: l)) as Hx by now left. apply (get_ranges_In fuel _ Hl) in Hx as (r & Hr & _).
  now rewrite H in Hr.
Qed.

Lemma crange_insert_perm r l : Permutation (crange_insert r l) (r :: l).
Proof.
  induction l as [|x l IH]; cbn; [easy|]. destruct (_ <=? _); [easy|].
  rewrite IH. constructor.
Qed.

Lemma crange_sort_perm l : Permutation (crange_sort l) l.
Proof.
  induction l as [|r l IH]; cbn; [easy|]. rewrite crange_insert_perm. now constructor.
Qed.

(* ------------------------------------------------------------------ *)
(* Reading back a list of ranges                                        *)

Lemma range_used_cons x l d : (hd 0 l <> 0x2d \/ (List.length l <= 1)%nat) ->
  In d (range_used (x :: l)) <-> d = x \/ In d (range_used l).
Proof.
  intros H. destruct l as [|m [|b l]].
  - cbn; intuition.
  - cbn; intuition.
  - destruct H as [H|H]; [|cbn in H; lia]. cbn in H.
    change (range_used (x :: m :: b :: l)) with
      (if m =? 0x2d then (if b <? x then nrange b x else nrange x b) ++ range_used l
       else x :: range_used (m :: b :: l)).
    destruct (N.eqb_spec m 0x2d); [easy|]. cbn [In]. intuition.
Qed.

Lemma crange_bytes_hd r rest : cgood r -> hd 0 (crange_bytes r ++ rest) = crange_start r.
Proof.
  destruct r as [a|a b]; cbn; [easy|]. intros H. destruct (b - a + 1 <=? 3); [|easy].
  unfold nrange. destruct (N.to_nat (b + 1 - a)) eqn:E; [lia|]. easy.
Qed.

Lemma ranges_read rs t : Forall cgood rs -> (t = [] \/ t = [0x2d]) ->
  (forall r, In r rs -> ~ cden r 0x2d) ->
  forall d, In d (range_used (List.concat (map crange_bytes rs) ++ t)) <->
    (exists r, In r rs /\ cden r d) \/ In d t.
Proof.
  intros Hg Ht. induction Hg as [|r rs Hr Hg IH]; intros Hd d; cbn [map List.concat].
  - cbn [app]. split.
    + destruct Ht as [->| ->]; cbn; tauto.
    + intros [(r & [] & _)|H]. destruct Ht as [->| ->]; cbn in *; tauto.
  - assert (IH' : forall d, In d (range_used (List.concat (map crange_bytes rs) ++ t)) <->
      (exists r, In r rs /\ cden r d) \/ In d t) by (apply IH; intros; apply Hd; now right).
    clear IH.
    assert (HDT : hd 0 (List.concat (map crange_bytes rs) ++ t) <> 0x2d \/
                  (List.length (List.concat (map crange_bytes rs) ++ t) <= 1)%nat).
    { destruct rs as [|r' rs'].
      - right. destruct Ht as [->| ->]; cbn; lia.
      - left. cbn [map List.concat]. rewrite <- app_assoc. inversion Hg; subst.
        rewrite crange_bytes_hd by easy. specialize (Hd r' ltac:(cbn; auto)).
        destruct r'; cbn in *; lia. }
    specialize (Hd r (or_introl eq_refl)).
    rewrite <- app_assoc. set (tl := List.concat (map crange_bytes rs) ++ t) in *.
    assert (GOAL : In d (range_used (crange_bytes r ++ tl)) <-> cden r d \/ In d (range_used tl)).
    { destruct r as [a|a b]; cbn [crange_bytes cden] in *.
      - cbn [app]. rewrite range_used_cons by easy. tauto.
      - cbn in Hr. destruct (N.leb_spec (b - a + 1) 3) as [L|L].
        + assert (b = a + 2) by lia. subst b.
          replace (nrange a (a + 2)) with [a; a + 1; a + 2].
          2:{ unfold nrange. replace (N.to_nat (a + 2 + 1 - a)) with 3%nat by lia. cbn.
              replace (a + 2) with (a + 1 + 1) by lia. reflexivity. }
          cbn [app]. rewrite range_used_cons by (left; cbn; lia).
          rewrite range_used_cons by (left; cbn; lia).
          rewrite range_used_cons by easy. 
          assert (a <= d <= a + 2 <-> d = a \/ d = a + 1 \/ d = a + 2) by lia. tauto.
        + cbn [app].
          change (range_used (a :: 0x2d :: b :: tl)) with
            (if 0x2d =? 0x2d then (if b <? a then nrange b a else nrange a b) ++ range_used tl
             else a :: range_used (0x2d :: b :: tl)).
          change (0x2d =? 0x2d) with true; cbn iota.
          destruct (N.ltb_spec b a); [lia|]. rewrite in_app_iff, nrange_In. tauto. }
    rewrite GOAL, IH'. split.
    + intros [H|[(r' & Hr' & H)|H]]; [left; exists r; cbn; auto | left; exists r'; cbn; auto | auto].
    + intros [(r' & [<-|Hr'] & H)|H]; [auto | right; left; eauto | auto].
Qed.

Lemma remove1_In x l d : NoDup l -> In d (remove1 x l) <-> In d l /\ d <> x.
Proof.
  induction 1 as [|y l Hy Hn IH]; cbn; [tauto|].
  destruct (N.eqb_spec x y) as [->|H].
  - split; [|intuition congruence]. intros Hd; split; [auto|]. intros ->; easy.
  - cbn. rewrite IH. intuition congruence.
Qed.

Lemma remove1_NoDup x l : NoDup l -> NoDup (remove1 x l).
Proof.
  intros H. induction H as [|y l Hy Hn IH]; cbn; [constructor|].
  destruct (N.eqb_spec x y); [easy|]. constructor; [|easy]. rewrite remove1_In by easy. tauto.
Qed.

Lemma sorted_NoDup l : StronglySorted N.lt l -> NoDup l.
Proof.
  induction 1 as [|x l Hs IH Hf]; constructor; auto. intros Hx.
  rewrite Forall_forall in Hf. apply Hf in Hx; lia.
Qed.

(* The text between the brackets for a set with gaps and without ']' *)
Lemma add_range_read u : StronglySorted N.lt u -> ~ In 0x5d u -> (2 <= List.length u)%nat ->
  Forall (fun x => x < 0x80) u ->
  exists inner, canonical_add_range u = 0x5b :: inner ++ [0x5d] /\ ~ In 0x5d inner /\ inner <> [] /\
    Forall (fun x => x < 0x80) inner /\
    (forall d, In d (range_used inner) <-> In d u) /\
    (~ In 0x0a u -> hd 0 inner <> 0x0a).
Proof.
  intros Hs H5d Hlen Hasc. unfold canonical_add_range.
  set (dash := memb 0x2d u). set (b1 := if dash then remove1 0x2d u else u).
  assert (N1 : NoDup b1).
  { unfold b1; destruct dash; [apply remove1_NoDup|]; now apply sorted_NoDup. }
  assert (I1 : forall d, In d b1 <-> In d u /\ d <> 0x2d).
  { intros d. unfold b1. destruct dash eqn:E.
    - apply remove1_In, sorted_NoDup, Hs.
    - apply memb_not_In in E. split; [|tauto]. intros Hd; split; [easy|]. congruence. }
  assert (M : memb 0x5d b1 = false).
  { apply memb_not_In. rewrite I1. tauto. }
  rewrite M. cbn [app].
  set (rs := crange_sort (get_ranges (List.length b1) b1)).
  assert (PM : Permutation rs (get_ranges (List.length b1) b1)) by apply crange_sort_perm.
  assert (RI : forall d, In d b1 <-> exists r, In r rs /\ cden r d).
  { intros d. rewrite (get_ranges_In (List.length b1) b1) by lia. split; intros (r & Hr & Hd); exists r; split; auto.
    - eapply Permutation_in; [symmetry; exact PM | easy].
    - eapply Permutation_in; [exact PM | easy]. }
  assert (RG : Forall cgood rs).
  { eapply Permutation_Forall; [symmetry; exact PM | apply get_ranges_good]. }
  set (t := if dash then [0x2d] else []).
  assert (Ht : t = [] \/ t = [0x2d]) by (unfold t; destruct dash; auto).
  assert (RD : forall r, In r rs -> ~ cden r 0x2d).
  { intros r Hr Hd. assert (In 0x2d b1) as X by (apply RI; eauto). apply I1 in X. tauto. }
  exists (List.concat (map crange_bytes rs) ++ t).
  assert (BYTES : forall x, In x (List.concat (map crange_bytes rs)) -> In x b1 \/ x = 0x2d).
  { intros x Hx. apply in_concat in Hx as (l & Hl & Hx). apply in_map_iff in Hl as (r & <- & Hr).
    rewrite Forall_forall in RG. specialize (RG r Hr).
    assert (forall y, cden r y -> In y b1) as Y by (intros y Hy; apply RI; eauto).
    destruct r as [a|a b]; cbn in Hx, Y, RG.
    - destruct Hx as [<-|[]]; left; auto.
    - destruct (b - a + 1 <=? 3).
      + apply nrange_In in Hx. left; apply Y; easy.
      + destruct Hx as [<-|[<-|[<-|[]]]]; [left; apply Y; lia | now right | left; apply Y; lia]. }
  split; [now rewrite !app_assoc|]. split; [|split; [|split; [|split]]].
  - rewrite in_app_iff. intros [H|H].
    + apply BYTES in H as [H|H]; [|lia]. apply I1 in H; tauto.
    + destruct Ht as [E|E]; rewrite E in H; cbn in H; lia.
  - destruct rs as [|r rs'] eqn:E.
    + assert (b1 = []) as B.
      { destruct b1 as [|y b1']; [easy|]. destruct (proj1 (RI y) (or_introl eq_refl)) as (r & [] & _). }
      unfold b1 in B. unfold t. destruct dash eqn:ED; [cbn; easy|]. subst u. cbn in Hlen; lia.
    + cbn. inversion RG as [|? ? Hr ?]; subst. destruct r as [a|a b]; cbn; [easy|]. cbn in Hr.
      destruct (b - a + 1 <=? 3); [|easy]. unfold nrange. destruct (N.to_nat (b + 1 - a)) eqn:EE; [lia|easy].
  - apply Forall_forall. intros x Hx. apply in_app_iff in Hx as [Hx|Hx].
    + apply BYTES in Hx as [Hx|Hx]; [|lia]. apply I1 in Hx as [Hx _]. rewrite Forall_forall in Hasc; auto.
    + destruct Ht as [E|E]; rewrite E in Hx; cbn in Hx; lia.
  - intros d. rewrite (ranges_read rs t RG Ht RD d), <- RI, I1.
    unfold t. destruct dash eqn:ED; cbn [In].
    + apply memb_In in ED. destruct (N.eq_dec d 0x2d) as [->|Hd]; [tauto|]. intuition congruence.
    + apply memb_not_In in ED. destruct (N.eq_dec d 0x2d) as [->|Hd]; tauto.
  - intros Hnl. destruct rs as [|r rs'] eqn:E.
    + cbn [map List.concat app]. destruct Ht as [X|X]; rewrite X; cbn; lia.
    + cbn [map List.concat]. rewrite <- app_assoc. inversion RG; subst. rewrite crange_bytes_hd by easy.
      intros X. apply Hnl. assert (In 0x0a b1) as Y; [|apply I1 in Y; tauto].
      apply RI. exists r; split; [now left|]. destruct r; cbn in *; lia.
Qed.

(* ------------------------------------------------------------------ *)
(* One element, read back                                               *)

Lemma Elem_contig n u : Elem (n, None) u ->
  exists first len, n = len * 0x100 + first /\ u = nrange_len first (N.to_nat len) /\ 1 <= len /\ first + len <= 0xf5.
Proof.
  intros (f & r & -> & Hs & Hb & Hn & [[H _]|[_ Hc]]); [discriminate|]. cbn [fst] in Hn.
  pose proof (sorted_contiguous _ _ Hs Hc) as E.
  exists f, (N.of_nat (List.length (f :: r))). split; [easy|]. rewrite Nnat.Nat2N.id. split; [easy|].
  split; [cbn [List.length]; lia|].
  assert (In (last (f :: r) 0) (f :: r)) as HL.
  { clear. revert f; induction r as [|a r IH]; intros f; [now left|].
    change (last (f :: a :: r) 0) with (last (a :: r) 0). right; apply IH. }
  rewrite Forall_forall in Hb. apply Hb in HL. 
  pose proof (sorted_bounds f r Hs f (or_introl eq_refl)). lia.
Qed.

Lemma PP_of_set inner v u r vs : Forall (fun x => x < 0x80) inner -> inner <> [] -> ~ In 0x5d inner ->
  Elem v u -> (forall d, In d (range_used inner) <-> In d u) -> PP r vs ->
  PP ((0x5b :: inner ++ [0x5d]) ++ r) (v :: vs).
Proof.
  intros Hb Hne H5 He Hset HP. cbn [app]. rewrite <- app_assoc. cbn [app].
  apply PP_set; auto. eapply prl_of_set; eauto. eapply Forall_impl; [|exact Hb]. cbn; lia.
Qed.

Definition asc (u : list N) : Prop := Forall (fun x => x < 0x80) u.

(* What is known about the text of one element *)
Definition Readable (v : value) (txt : bytes) : Prop :=
  asc txt /\ txt <> [] /\ forall r vs, PP r vs -> PP (txt ++ r) (v :: vs).

Lemma range_used_pair a b : range_used [a; b] = [a; b].
Proof. reflexivity. Qed.

Lemma elem_readable v P u : Elem v u -> (forall d, In d u <-> P d) -> SafeTok (TOne P) -> asc u ->
  Readable v (canonical_value v).
Proof.
  intros He HP [Hnb Hbr] Ha. destruct v as [n [s|]].
  - (* gaps *)
    assert (s = u /\ (2 <= List.length u)%nat /\ StronglySorted N.lt u /\
            last u 0 - hd 0 u <> N.of_nat (List.length u) - 1) as (-> & HL & Hs & Hgap).
    { destruct He as (f & r & -> & Hs & Hb & Hn & [[H Hg]|[H _]]); [|discriminate]. cbn [snd] in H.
      inversion H; subst. split; [easy|]. split; [|split; [easy|exact Hg]].
      destruct r; cbn in *; lia. }
    assert (H5 : ~ In 0x5d u).
    { rewrite HP. destruct Hbr as [H|[H|(lo & hi & H1 & H2 & H)]]; [easy| |]; exfalso.
      - destruct u as [|a [|b u]]; cbn in HL; try lia. inversion Hs as [|? ? ? Hf]; subst.
        inversion Hf; subst.
        assert (a = 0x5d) by (apply H, HP; cbn; auto). assert (b = 0x5d) by (apply H, HP; cbn; auto). lia.
      - apply Hgap. assert (u = nrange_len lo (N.to_nat (hi + 1 - lo))) as E.
        { apply sorted_ext; [easy| |].
          - destruct (Elem_range (hi + 1 - lo) lo) as (? & ? & ? & ? & _); auto; try lia.
            + assert (In lo u) by (apply HP, H; lia). assert (In hi u) by (apply HP, H; lia).
              unfold asc in Ha; rewrite Forall_forall in Ha. specialize (Ha _ H3). lia.
            + assert (In hi u) by (apply HP, H; lia).
              unfold asc in Ha; rewrite Forall_forall in Ha. specialize (Ha _ H0). lia.
          - intros x. rewrite HP, H, nrange_len_In. lia. }
        destruct (N.to_nat (hi + 1 - lo)) as [|k] eqn:EK; [lia|].
        assert (LEN : forall n f, List.length (nrange_len f n) = n).
        { induction n0; intros; cbn; auto. }
        assert (LST : forall n f, last (nrange_len f (S n)) 0 = f + N.of_nat n).
        { induction n0; intros f. { cbn; lia. }
          change (nrange_len f (S (S n0))) with (f :: nrange_len (f + 1) (S n0)).
          change (last (f :: nrange_len (f + 1) (S n0)) 0) with (last (nrange_len (f + 1) (S n0)) 0).
          rewrite IHn0. lia. }
        rewrite E, LEN, LST. cbn [nrange_len hd]. lia. }
    destruct (add_range_read u Hs H5 HL Ha) as (inner & E & I5 & Ine & Iasc & Iset & _).
    cbn [canonical_value]. rewrite E. split; [|split; [easy|]].
    + constructor; [lia|]. apply Forall_app; split; [easy|]. repeat constructor; lia.
    + intros r vs HR. eapply PP_of_set; eauto.
  - destruct (Elem_contig _ _ He) as (f & len & -> & Hu & Hl1 & Hl2).
    assert (HI : forall d, In d u <-> f <= d < f + len).
    { intros d. rewrite Hu, nrange_len_In. lia. }
    assert (HA : f + len <= 0x80).
    { unfold asc in Ha; rewrite Forall_forall in Ha.
      assert (In (f + len - 1) u) as X by (apply HI; lia). apply Ha in X. lia. }
    unfold canonical_value. destruct (N.ltb_spec (len * 0x100 + f) 0x200) as [L1|L1].
    + assert (len = 1) by lia. subst len. rewrite num_start by lia.
      assert (f <> 0x5b) as Hf.
      { intros ->. apply Hnb. intros d. rewrite <- HP, HI. lia. }
      destruct (memb f special) eqn:Em.
      * split; [repeat constructor; lia|]. split; [easy|]. intros r vs HR.
        apply (PP_of_set [f] _ u); auto.
        -- repeat constructor; lia.
        -- easy.
        -- cbn. intros [H|[]]. subst f. vm_compute in Em; discriminate.
        -- intros d. rewrite HI. cbn. lia.
      * split; [repeat constructor; lia|]. split; [easy|]. intros r vs HR. cbn [app].
        replace (1 * 0x100 + f) with (0x100 + f) by lia. apply PP_lit; [|easy].
        apply memb_not_In in Em. unfold is_meta. cbn in Em. lia.
    + assert (2 <= len) by lia.
      destruct (N.eqb_spec (len * 0x100 + f) 0xa30) as [->|N1].
      { split; [repeat constructor; lia|]. split; [easy|]. intros. apply PP_X; auto. }
      destruct (N.eqb_spec (len * 0x100 + f) 0x931) as [->|N2].
      { split; [repeat constructor; lia|]. split; [easy|]. intros. apply PP_Z; auto. }
      destruct (N.eqb_spec (len * 0x100 + f) 0x832) as [->|N3].
      { split; [repeat constructor; lia|]. split; [easy|]. intros. apply PP_N; auto. }
      destruct (N.eqb_spec (len * 0x100 + f) 0x18000) as [X|_]; [lia|].
      destruct (N.eqb_spec (len * 0x100 + f) 0x28000) as [X|_]; [lia|].
      assert (N.shiftr (N.land (len * 0x100 + f) 0xff00) 8 = len) as ->.
      { rewrite N.shiftr_land. change (N.shiftr 0xff00 8) with 0xff. apply num_len; lia. }
      rewrite num_start by lia.
      assert (HB : (f <= 0x5d < f + len) -> f < 0x5d /\ 0x5d < f + len - 1 /\ 4 <= len).
      { intros Hin. assert (P 0x5d) as Hp by (apply HP, HI; easy).
        destruct Hbr as [H1|[H1|(lo & hi & H1 & H2 & H3)]]; [easy| |].
        - assert (f = 0x5d) by (apply H1, HP, HI; lia).
          assert (f + 1 = 0x5d) by (apply H1, HP, HI; lia). lia.
        - assert (forall d, f <= d < f + len <-> lo <= d <= hi) as Y.
          { intros d. rewrite <- HI, HP. apply H3. }
          pose proof (proj1 (Y f)). pose proof (proj1 (Y (f + len - 1))).
          pose proof (proj2 (Y lo)). pose proof (proj2 (Y hi)). lia. }
      destruct (N.eqb_spec len 2) as [->|L2].
      { split; [repeat constructor; lia|]. split; [easy|]. intros r vs HR.
        apply (PP_of_set [f; f + 1] _ u); auto.
        - repeat constructor; lia.
        - easy.
        - cbn. intros X. lia.
        - intros d. rewrite range_used_pair, HI. cbn. lia. }
      destruct (N.eqb_spec len 3) as [->|L3].
      { split; [repeat constructor; lia|]. split; [easy|]. intros r vs HR.
        apply (PP_of_set [f; f + 1; f + 2] _ u); auto.
        - repeat constructor; lia.
        - easy.
        - cbn. intros X. lia.
        - intros d. rewrite HI.
          change (range_used [f; f + 1; f + 2]) with
            (if f + 1 =? 0x2d then (if f + 2 <? f then nrange (f + 2) f else nrange f (f + 2)) ++ []
             else [f; f + 1; f + 2]).
          destruct (f + 1 =? 0x2d).
          + destruct (N.ltb_spec (f + 2) f); [lia|]. rewrite app_nil_r, nrange_In. lia.
          + cbn. lia. }
      split; [repeat constructor; lia|]. split; [easy|]. intros r vs HR.
      apply (PP_of_set [f; 0x2d; f + len - 1] _ u); auto.
      * repeat constructor; lia.
      * easy.
      * cbn. intros X. lia.
      * intros d. rewrite HI.
        change (range_used [f; 0x2d; f + len - 1]) with
            (if 0x2d =? 0x2d then (if f + len - 1 <? f then nrange (f + len - 1) f else nrange f (f + len - 1)) ++ []
             else [f; 0x2d; f + len - 1]).
        change (0x2d =? 0x2d) with true; cbn iota.
        destruct (N.ltb_spec (f + len - 1) f); [lia|]. rewrite app_nil_r, nrange_In. lia.
Qed.

(* ------------------------------------------------------------------ *)
(* Language of tokens                                                   *)

Inductive TokLang : list tok -> bytes -> Prop :=
| TL_end : TokLang [] []
| TL_one (P : N -> Prop) ts d e : P d -> TokLang ts e -> TokLang (TOne P :: ts) (d :: e)
| TL_any1 ts d e : TokLang (TAny1 :: ts) (d :: e)
| TL_any0 ts e : TokLang (TAny0 :: ts) e.

Lemma set_inj i1 r1 i2 r2 : ~ In 0x5d i1 -> ~ In 0x5d i2 ->
  i1 ++ 0x5d :: r1 = i2 ++ 0x5d :: r2 -> i1 = i2 /\ r1 = r2.
Proof.
  intros H1 H2 E.
  assert (cut_rbracket (i1 ++ 0x5d :: r1) = Some (i1, r1)) as C1 by (apply cut_rbracket_some; auto).
  assert (cut_rbracket (i2 ++ 0x5d :: r2) = Some (i2, r2)) as C2 by (apply cut_rbracket_some; auto).
  rewrite E, C2 in C1. inversion C1; auto.
Qed.

Lemma toks_lang p ts : Toks p ts -> forall e, PatLang p e <-> TokLang ts e.
Proof.
  induction 1 as [|p ts H IH|c p ts Hc H IH|c p ts Hc H IH|c p ts Hc H IH|p ts H IH|p ts H IH
                 |inner p ts Hn H IH|c p ts Hc H IH]; intros e.
  - split; inversion 1; constructor.
  - rewrite <- IH. split; [|now constructor]. inversion 1; subst; try lia; auto. exfalso; cbn in *; tauto.
  - split.
    + inversion 1; subst; try lia; try (exfalso; cbn in *; intuition congruence). constructor; [easy|]. now apply IH.
    + inversion 1; subst. apply PL_X; auto. now apply IH.
  - split.
    + inversion 1; subst; try lia; try (exfalso; cbn in *; intuition congruence). constructor; [easy|]. now apply IH.
    + inversion 1; subst. apply PL_Z; auto. now apply IH.
  - split.
    + inversion 1; subst; try lia; try (exfalso; cbn in *; intuition congruence). constructor; [easy|]. now apply IH.
    + inversion 1; subst. apply PL_N; auto. now apply IH.
  - split.
    + inversion 1; subst; try lia; try (exfalso; cbn in *; intuition congruence). constructor.
    + inversion 1; subst. apply PL_dot.
  - split.
    + inversion 1; subst; try lia; try (exfalso; cbn in *; intuition congruence). constructor.
    + inversion 1; subst. apply PL_bang.
  - split.
    + inversion 1 as [| | | | | | |inner' p' d e' Hn' Hd HP E1 E2|]; subst; try lia; try (exfalso; cbn in *; intuition congruence).
      apply set_inj in E1 as [-> ->]; auto. constructor; [easy|]. now apply IH.
    + inversion 1; subst. apply PL_set; auto. now apply IH.
  - split.
    + inversion 1; subst; try (exfalso; cbn in *; intuition congruence). constructor; [easy|]. now apply IH.
    + inversion 1; subst. apply PL_lit; auto. now apply IH.
Qed.

Lemma PP_toks p vs : PP p vs -> exists ts, Toks p ts.
Proof.
  induction 1 as [|r vs H [ts IH]|c r vs Hc H [ts IH]|c r vs Hc H [ts IH]|c r vs Hc H [ts IH]|r vs H [ts IH]|r vs H [ts IH]
                 |inner r v vs Hn Hv H [ts IH]|c r vs Hc H [ts IH]].
  - eexists; apply TK_nil.
  - eexists; apply TK_dash; eauto.
  - eexists; apply TK_X; eauto.
  - eexists; apply TK_Z; eauto.
  - eexists; apply TK_N; eauto.
  - eexists; apply TK_dot; eauto.
  - eexists; apply TK_bang; eauto.
  - eexists; apply TK_set; eauto.
  - eexists; apply TK_lit; eauto. unfold is_meta in Hc. cbn. lia.
Qed.

Lemma Elem_set_fun v u u' : Elem v u -> Elem v u' -> u = u'.
Proof.
  intros (f & r & -> & Hs & Hb & Hn & Hc) (f' & r' & -> & Hs' & Hb' & Hn' & Hc').
  rewrite Hn in Hn'. inversion Hb; subst; inversion Hb'; subst.
  destruct Hc as [[E Hc]|[E Hc]], Hc' as [[E' Hc']|[E' Hc']]; try congruence.
  assert (f = f' /\ List.length (f :: r) = List.length (f' :: r')) as [<- EL] by (cbn [List.length] in *; lia).
  rewrite (sorted_contiguous _ _ Hs Hc), (sorted_contiguous _ _ Hs' Hc'). now rewrite EL.
Qed.

Lemma R_lang vs ts ts' : Forall2 R vs ts -> Forall2 R vs ts' -> forall e, TokLang ts e -> TokLang ts' e.
Proof.
  intros H; revert ts'; induction H as [|v t vs ts HR H IH]; intros ts' H' e HT; inversion H' as [|? t' ? ts'' HR' H'']; subst.
  - easy.
  - destruct t as [| |P], t' as [| |P']; cbn [R] in HR, HR'; subst; try discriminate.
    + inversion HT; constructor.
    + destruct HR' as (u & He & _). apply Elem_special in He; discriminate.
    + inversion HT; constructor.
    + destruct HR' as (u & He & _). apply Elem_special in He; discriminate.
    + destruct HR as (u & He & _). apply Elem_special in He; discriminate.
    + destruct HR as (u & He & _). apply Elem_special in He; discriminate.
    + destruct HR as (u & He & Hu), HR' as (u' & He' & Hu').
      rewrite (Elem_set_fun _ _ _ He' He) in Hu'.
      inversion HT; subst. constructor; [|auto]. apply Hu', Hu. easy.
Qed.

Lemma PP_bytes_lang p p' vs : bytes_ok p -> bytes_ok p' -> PP p vs -> PP p' vs ->
  forall e, PatLang p e <-> PatLang p' e.
Proof.
  intros B B' H H'. destruct (PP_toks _ _ H) as [ts Ht], (PP_toks _ _ H') as [ts' Ht'].
  destruct (PP_R _ _ H B _ Ht) as (vs0 & E & F). destruct (PP_R _ _ H' B' _ Ht') as (vs0' & E' & F').
  rewrite E in E'. apply app_inj_tail in E' as [<- _].
  intros e. rewrite (toks_lang _ _ Ht), (toks_lang _ _ Ht'). split; eapply R_lang; eauto.
Qed.

(* ------------------------------------------------------------------ *)
(* Whole patterns                                                       *)

Lemma InSet_lt bnd b d : InSet b d -> Forall (fun x => x < bnd) b -> d < bnd.
Proof.
  intros H Hb.
  induction H as [a b rest d H|a b rest d H IH|a m b rest Hm|a m b rest d Hm H IH|a|a b|a b].
  - inversion Hb as [|? ? H1 H2]; subst; inversion H2 as [|? ? H3 H4]; subst; inversion H4; subst; lia.
  - inversion Hb as [|? ? H1 H2]; subst; inversion H2 as [|? ? H3 H4]; subst; inversion H4; subst; auto.
  - inversion Hb; easy.
  - inversion Hb; auto.
  - inversion Hb; easy.
  - inversion Hb; easy.
  - inversion Hb as [|? ? H1 H2]; subst; inversion H2; easy.
Qed.

Definition tok_asc (t : tok) : Prop := match t with TOne P => forall d, P d -> d < 0x80 | _ => True end.

Lemma toks_asc p ts : Toks p ts -> asc p -> Forall tok_asc ts.
Proof.
  induction 1; intros Ha; inversion Ha; subst; try constructor; auto; cbn; try lia.
  - intros d Hd. match goal with H : Forall _ (_ ++ _) |- _ => apply Forall_app in H as [H _] end.
    eapply InSet_lt; eauto.
  - match goal with H : Forall _ (_ ++ _) |- _ => apply Forall_app in H as [_ H]; inversion H; auto end.
Qed.

Lemma utf8_asc s : asc s -> utf8_encode s = Ok s.
Proof. apply utf8_encode_ascii. Qed.

Lemma asc_bytes_ok s : asc s -> bytes_ok s.
Proof. apply Forall_impl; intros; lia. Qed.

Lemma R_readable v t : R v t -> SafeTok t -> tok_asc t -> Readable v (canonical_value v).
Proof.
  destruct t as [| |P]; cbn [R].
  - intros -> _ _. split; [repeat constructor; lia|]. split; [easy|]. intros. apply PP_dot; auto.
  - intros -> _ _. split; [repeat constructor; lia|]. split; [easy|]. intros. apply PP_bang; auto.
  - intros (u & He & Hu) HS Ha. eapply elem_readable; eauto. apply Forall_forall. intros x Hx.
    apply Ha, Hu, Hx.
Qed.

Lemma canon_vals_PP vs ts : Forall2 R vs ts -> Forall SafeTok ts -> Forall tok_asc ts ->
  asc (List.concat (map canonical_value vs)) /\
  PP (List.concat (map canonical_value vs)) (vs ++ [(0x30000, None)]).
Proof.
  induction 1 as [|v t vs ts HR H IH]; intros HS HA.
  - cbn. split; constructor.
  - inversion HS; inversion HA; subst. destruct IH as [I1 I2]; auto.
    destruct (R_readable _ _ HR) as (R1 & R2 & R3); auto. cbn. split.
    + apply Forall_app; auto.
    + apply R3, I2.
Qed.

Lemma Elem_single v u : Elem v u -> (fst v <? 0x200) = true -> exists c, u = [c] /\ v = (0x100 + c, None).
Proof.
  intros He Hn. pose proof (Elem_len _ _ He) as HL.
  destruct He as (f & r & -> & Hs & Hb & Hn' & Hc). inversion Hb; subst.
  destruct r as [|x r]; [|cbn [List.length] in *; lia]. exists f; split; [easy|].
  destruct v as [n s]; cbn in *. destruct Hc as [[_ Hc]|[-> _]]; [lia|]. f_equal. lia.
Qed.

(* all values below 0x200: the tokens are single characters and vice versa *)
Lemma singles_vals vs ts : Forall2 R vs ts -> forallb (fun v => fst v <? 0x200) vs = true ->
  exists cs, Singles ts cs /\ vs = map (fun c => (0x100 + c, None)) cs /\ Forall (fun c => c < 0xf5) cs.
Proof.
  induction 1 as [|v t vs ts HR H IH]; intros HF.
  - exists []; repeat split; constructor.
  - cbn [forallb] in HF. apply andb_true_iff in HF as [H1 H2]. destruct (IH H2) as (cs & I1 & I2 & I3).
    destruct t as [| |P]; cbn [R] in HR; try (subst v; discriminate).
    destruct HR as (u & He & Hu). destruct (Elem_single _ _ He H1) as (c & -> & ->).
    exists (c :: cs). repeat split.
    + constructor; [|easy]. exists P; split; [easy|]. intros d. rewrite <- Hu. cbn. intuition.
    + cbn. now rewrite I2.
    + constructor; [|easy]. destruct He as (? & ? & ? & _ & Hb & _). inversion Hb; easy.
Qed.

Lemma vals_singles vs ts cs : Forall2 R vs ts -> Singles ts cs ->
  vs = map (fun c => (0x100 + c, None)) cs /\ Forall (fun c => c < 0xf5) cs.
Proof.
  intros H; revert cs; induction H as [|v t vs ts HR H IH]; intros cs HS; inversion HS as [|? c ? cs' Hc HS']; subst.
  - split; constructor.
  - destruct Hc as (P & -> & HP). cbn [R] in HR. destruct HR as (u & He & Hu).
    destruct (IH _ HS') as [-> I2].
    assert (u = [c]) as ->.
    { apply sorted_ext.
      - now destruct He as (? & ? & ? & ? & _).
      - repeat constructor.
      - intros x. rewrite Hu, HP. cbn. intuition. }
    assert (c < 0xf5) by (destruct He as (? & ? & ? & _ & Hb & _); inversion Hb; easy).
    cbn. rewrite (Elem_fun _ _ _ He (Elem_lit c H0)). auto.
Qed.

Lemma canonical_shape v b : ptype v = IS_A_PATTERN -> PP b (pvals v) -> bytes_ok b ->
  forall ts, Toks b ts ->
  exists vs0, pvals v = vs0 ++ [(0x30000, None)] /\ Forall2 R vs0 ts /\
    canonical v = if forallb (fun v => fst v <? 0x200) vs0
                  then map (fun v => N.land (fst v) 0xff) vs0
                  else 0x5f :: List.concat (map canonical_value vs0).
Proof.
  intros Ht HP Hb ts HT. destruct (PP_R _ _ HP Hb _ HT) as (vs0 & E & F).
  exists vs0. split; [easy|]. split; [easy|].
  unfold canonical. rewrite Ht. change (IS_A_PATTERN =? NOT_A_PATTERN) with false. cbn iota.
  unfold drop_last. rewrite E, removelast_last, app_length. cbn [List.length].
  replace (List.length vs0 + 1 - 1)%nat with (List.length vs0) by lia.
  rewrite skipn_app, skipn_all, Nat.sub_diag. cbn [app skipn].
  rewrite (proj2 (vlist_eqb_eq _ _) eq_refl), andb_true_r. easy.
Qed.

Lemma land_single cs : Forall (fun c => c < 0xf5) cs ->
  map (fun v : N * option bytes => N.land (fst v) 0xff) (map (fun c => (0x100 + c, None)) cs) = cs.
Proof.
  induction 1 as [|c cs Hc H IH]; cbn; [easy|]. rewrite IH.
  change (0x100 + c) with (1 * 0x100 + c). now rewrite num_start by lia.
Qed.

Lemma no_dash_id s : ~ In 0x2d s -> no_dash s = s.
Proof.
  induction s as [|c s IH]; intros H; cbn; [easy|]. cbn in H.
  destruct (N.eqb_spec c 0x2d) as [->|Hc]; [tauto|]. cbn. f_equal. apply IH. tauto.
Qed.

Lemma no_dash_no_dash s : ~ In 0x2d (no_dash s).
Proof. intros H. unfold no_dash in H. apply filter_In in H as [_ H]. discriminate. Qed.

Lemma parse_literal s : s <> [] -> hd 0 s <> 0x5f -> asc s ->
  parse s = Ok (mkv NOT_A_PATTERN (map (fun i => (0x100 + i, None)) (no_dash s))).
Proof.
  intros Hn Hh Ha. destruct s as [|c s]; [easy|]. unfold parse. cbn in Hh.
  destruct (N.eqb_spec c 0x5f); [easy|]. now rewrite utf8_asc by easy.
Qed.

Lemma parse_pattern_PP p vs : asc p -> PP p vs -> parse (0x5f :: p) = Ok (mkv IS_A_PATTERN vs).
Proof.
  intros Ha HP. unfold parse, parse_pattern. change (0x5f =? 0x5f) with true. cbn iota.
  rewrite utf8_asc by easy. cbn [bind].
  rewrite (PP_parse_pattern_b _ _ HP) by lia. reflexivity.
Qed.

Lemma Singles_lang ts cs : Singles ts cs -> forall e, TokLang ts e <-> e = cs.
Proof.
  induction 1 as [|t c ts cs (P & -> & HP) H IH]; intros e.
  - split; [inversion 1; easy | intros ->; constructor].
  - split.
    + inversion 1; subst. f_equal; [now apply HP | now apply IH].
    + intros ->. constructor; [now apply HP | now apply IH].
Qed.

Theorem canonical_pattern_keeps p v : ascii_str p -> parse (0x5f :: p) = Ok v -> SafePattern p ->
  exists v', parse (canonical v) = Ok v' /\ matches_same v v' = true /\ canonical v' = canonical v /\
    forall e, ExtenLang (0x5f :: p) e <-> ExtenLang (canonical v) e.
Proof.
  intros Ha Hp (ts & HT & HS).
  apply parse_pattern_inv in Hp as (b & Hb & Ht & HP). rewrite utf8_asc in Hb by easy. inversion Hb; subst b.
  destruct (canonical_shape v p Ht HP (asc_bytes_ok _ Ha) ts HT) as (vs0 & E & F & Hc).
  revert Hc; destruct (forallb (fun v => fst v <? 0x200) vs0) eqn:EF; intros Hc.
  - (* literal rendering *)
    destruct (singles_vals _ _ F EF) as (cs & HSi & -> & Hcb). rewrite (land_single _ Hcb) in Hc.
    destruct HS as [(cs' & HSi' & Hne & Hh & Hd)|[HS _]]; [|now specialize (HS cs)].
    assert (cs' = cs) as ->.
    { destruct (vals_singles _ _ _ F HSi') as [E' Hb'].
      rewrite <- (land_single cs) by easy. rewrite E'. now rewrite land_single. }
    assert (Hca : asc cs).
    { pose proof (toks_asc _ _ HT Ha) as TA. clear - HSi TA.
      induction HSi as [|t c ts cs (P & -> & HP) H IH]; [constructor|]. inversion TA as [|? ? T1 T2]; subst. constructor.
      - apply T1, HP; easy.
      - apply IH, T2. }
    rewrite Hc. eexists. split; [now apply parse_literal|]. split; [|split].
    + unfold matches_same. cbn [ptype pvals]. rewrite Ht. change (IS_A_PATTERN =? NOT_A_PATTERN) with false.
      change (IS_A_PATTERN =? IS_A_PATTERN) with true. cbn iota. apply vlist_eqb_eq.
      rewrite E. unfold drop_last. rewrite removelast_last. now rewrite no_dash_id.
    + unfold canonical. cbn [ptype pvals]. change (NOT_A_PATTERN =? NOT_A_PATTERN) with true. cbn iota.
      rewrite no_dash_id by easy. now apply land_single.
    + intros e. cbn [ExtenLang]. change (0x5f =? 0x5f) with true. cbn iota.
      rewrite (toks_lang _ _ HT), (Singles_lang _ _ HSi).
      unfold ExtenLang. destruct cs as [|c cs]; [easy|]. cbn in Hh.
      destruct (N.eqb_spec c 0x5f); [easy|].
      change (filter (fun x => negb (x =? 0x2d)) (c :: cs)) with (no_dash (c :: cs)). now rewrite no_dash_id.
  - destruct HS as [(cs' & HSi' & _)|[_ HS]].
    { destruct (vals_singles _ _ _ F HSi') as [-> Hb']. exfalso.
      assert (forallb (fun v : N * option bytes => fst v <? 0x200) (map (fun c => (0x100 + c, None)) cs') = true).
      { apply forallb_forall. intros x Hx. apply in_map_iff in Hx as (c & <- & Hc').
        rewrite Forall_forall in Hb'. apply Hb' in Hc'. cbn [fst]. apply N.ltb_lt. lia. }
      congruence. }
    destruct (canon_vals_PP _ _ F HS (toks_asc _ _ HT Ha)) as [CA CP].
    rewrite Hc. assert (CP' : PP (List.concat (map canonical_value vs0)) (pvals v)) by (rewrite E; exact CP).
    clear CP. rename CP' into CP. exists v. split; [|split; [|split]].
    + rewrite (parse_pattern_PP _ _ CA CP). rewrite <- Ht. now destruct v.
    + unfold matches_same. rewrite N.eqb_refl. now apply vlist_eqb_eq.
    + easy.
    + intros e. cbn [ExtenLang]. change (0x5f =? 0x5f) with true. cbn iota.
      apply (PP_bytes_lang p _ (pvals v)); auto using asc_bytes_ok.
Qed.

Theorem canonical_literal_keeps raw v : ascii_str raw -> hd 0 raw <> 0x5f -> parse raw = Ok v ->
  hd 0 (no_dash raw) <> 0x5f -> no_dash raw <> [] ->
  canonical v = no_dash raw /\
  exists v', parse (canonical v) = Ok v' /\ matches_same v v' = true /\ canonical v' = canonical v /\
    forall e, ExtenLang raw e <-> ExtenLang (canonical v) e.
Proof.
  intros Ha Hh Hp Hh' Hne.
  assert (raw <> []) as Hr by (intros ->; easy).
  rewrite parse_literal in Hp by easy. inversion Hp; subst v. clear Hp.
  assert (Hda : asc (no_dash raw)).
  { apply Forall_forall. intros x Hx. apply filter_In in Hx as [Hx _].
    unfold ascii_str in Ha. rewrite Forall_forall in Ha; auto. }
  assert (C : canonical (mkv NOT_A_PATTERN (map (fun i => (0x100 + i, None)) (no_dash raw))) = no_dash raw).
  { unfold canonical. cbn [ptype pvals]. change (NOT_A_PATTERN =? NOT_A_PATTERN) with true. cbn iota.
    apply land_single, asc_bytes_ok, Hda. }
  split; [exact C|]. rewrite C. eexists; split; [now apply parse_literal|].
  rewrite (no_dash_id (no_dash raw)) by apply no_dash_no_dash. split; [|split].
  - unfold matches_same. rewrite N.eqb_refl. now apply vlist_eqb_eq.
  - exact C.
  - intros e. unfold ExtenLang. destruct raw as [|c raw]; [easy|]. cbn in Hh.
    destruct (N.eqb_spec c 0x5f); [easy|].
    destruct (no_dash (c :: raw)) as [|c' r'] eqn:EN; [easy|]. cbn in Hh'.
    destruct (N.eqb_spec c' 0x5f); [easy|].
    change (filter (fun x => negb (x =? 0x2d)) (c :: raw)) with (no_dash (c :: raw)).
    change (filter (fun x => negb (x =? 0x2d)) (c' :: r')) with (no_dash (c' :: r')).
    rewrite <- EN. rewrite (no_dash_id (no_dash (c :: raw))) by apply no_dash_no_dash. easy.
Qed.

(* ------------------------------------------------------------------ *)
(* The hint (C04)                                                       *)

Lemma take_set_app a b : ~ In 0x5d a -> take_set (a ++ 0x5d :: b) = Some (a ++ [0x5d], b).
Proof.
  induction a as [|c a IH]; intros H; cbn.
  - reflexivity.
  - cbn in H. destruct (N.eqb_spec c 0x5d); [tauto|]. rewrite IH by tauto. easy.
Qed.

(* text pieces left alone by the dash remover *)
Definition Kept (txt : bytes) : Prop :=
  (exists c, txt = [c] /\ ~ In c [0x5b; 0x5d; 0x2d]) \/
  (exists d inner, txt = 0x5b :: (d :: inner) ++ [0x5d] /\ d <> 0x0a /\ ~ In 0x5d (d :: inner)).

Lemma re_no_dash_kept txts : Forall Kept txts -> forall fuel, (List.length (List.concat txts) <= fuel)%nat ->
  re_no_dash fuel (List.concat txts) = List.concat txts.
Proof.
  induction 1 as [|t txts Ht H IH]; intros fuel Hf.
  - destruct fuel; easy.
  - cbn [List.concat] in *. rewrite app_length in Hf.
    destruct Ht as [(c & -> & Hc)|(d & inner & -> & Hd & Hi)].
    + destruct fuel as [|fuel]; [cbn in Hf; lia|]. cbn [app re_no_dash]. cbn in Hc.
      destruct (N.eqb_spec c 0x5b) as [X|_]; [exfalso; apply Hc; auto|].
      destruct (N.eqb_spec c 0x5d) as [X|_]; [exfalso; apply Hc; auto|].
      destruct (N.eqb_spec c 0x2d) as [X|_]; [exfalso; apply Hc; auto|].
      cbn [orb]. f_equal. apply IH. cbn in Hf. lia.
    + destruct fuel as [|fuel]; [cbn in Hf; lia|]. cbn [app re_no_dash].
      change (0x5b =? 0x5b) with true. cbn iota.
      destruct (N.eqb_spec d 0x0a); [easy|]. rewrite <- app_assoc. cbn [app].
      rewrite take_set_app by (cbn in Hi; tauto). rewrite <- app_assoc. cbn [app].
      rewrite IH; [easy|]. cbn in Hf. rewrite app_length in Hf. cbn in Hf. lia.
Qed.

Lemma elem_kept v P u : Elem v u -> (forall d, In d u <-> P d) -> SafeTok (TOne P) -> PlainTok (TOne P) ->
  asc u -> Kept (canonical_value v).
Proof.
  intros He HP HS (Hnr & Hnl & Hnn) Ha.
  pose proof (elem_readable v P u He HP HS Ha) as (_ & _ & HPP). destruct HS as [_ Hbr].
  destruct v as [n [s|]].
  - assert (s = u /\ (2 <= List.length u)%nat /\ StronglySorted N.lt u) as (-> & HL & Hs).
    { destruct He as (f & r & -> & Hs & Hb & Hn & [[H Hg]|[H _]]); [|discriminate]. cbn [snd] in H.
      inversion H; subst. split; [easy|]. split; [|easy].
      destruct r; cbn in *; lia. }
    assert (D : In 0x5d u \/ ~ In 0x5d u) by (destruct (in_dec N.eq_dec 0x5d u); auto).
    destruct D as [D|D].
    + exfalso. (* then P is a contiguous range and the value has no set *)
      apply HP in D. destruct Hbr as [H|[H|(lo & hi & H1 & H2 & H)]]; [easy| |].
      * apply Hnr; exact H.
      * assert (He2 : Elem ((hi + 1 - lo) * 0x100 + lo, None) u).
        { assert (In hi u) as X by (apply HP, H; lia). unfold asc in Ha. rewrite Forall_forall in Ha. apply Ha in X.
          replace u with (nrange_len lo (N.to_nat (hi + 1 - lo))).
          - apply Elem_range; lia.
          - apply sorted_ext; [|easy|].
            + destruct (Elem_range (hi + 1 - lo) lo) as (? & ? & ? & ? & _); auto; lia.
            + intros x. rewrite HP, H, nrange_len_In. lia. }
        pose proof (Elem_fun _ _ _ He He2). discriminate.
    + destruct (add_range_read u Hs D HL Ha) as (inner & E & I5 & Ine & _ & _ & Inl).
      cbn [canonical_value]. rewrite E. right. destruct inner as [|d inner]; [easy|].
      exists d, inner. split; [easy|]. split; [|easy]. apply Inl. rewrite HP; easy.
  - destruct (Elem_contig _ _ He) as (f & len & -> & Hu & Hl1 & Hl2).
    assert (HI : forall d, In d u <-> f <= d < f + len).
    { intros d. rewrite Hu, nrange_len_In. lia. }
    assert (HA : f + len <= 0x80).
    { unfold asc in Ha; rewrite Forall_forall in Ha.
      assert (In (f + len - 1) u) as X by (apply HI; lia). apply Ha in X. lia. }
    assert (HN : f <> 0x0a).
    { intros ->. apply Hnn, HP, HI. lia. }
    unfold canonical_value. destruct (N.ltb_spec (len * 0x100 + f) 0x200) as [L1|L1].
    + assert (len = 1) by lia. subst len. rewrite num_start by lia.
      assert (f <> 0x5b) by (intros ->; apply Hnl; intros d; rewrite <- HP, HI; lia).
      assert (f <> 0x5d) by (intros ->; apply Hnr; intros d; rewrite <- HP, HI; lia).
      destruct (memb f special) eqn:Em.
      * right. exists f, []. split; [easy|]. split; [easy|]. cbn. intuition.
      * left. exists f. split; [easy|]. apply memb_not_In in Em. cbn in *. intuition.
    + assert (2 <= len) by lia.
      destruct (N.eqb_spec (len * 0x100 + f) 0xa30) as [_|N1].
      { left. eexists; split; [reflexivity|]. cbn; intuition discriminate. }
      destruct (N.eqb_spec (len * 0x100 + f) 0x931) as [_|N2].
      { left. eexists; split; [reflexivity|]. cbn; intuition discriminate. }
      destruct (N.eqb_spec (len * 0x100 + f) 0x832) as [_|N3].
      { left. eexists; split; [reflexivity|]. cbn; intuition discriminate. }
      destruct (N.eqb_spec (len * 0x100 + f) 0x18000) as [X|_]; [lia|].
      destruct (N.eqb_spec (len * 0x100 + f) 0x28000) as [X|_]; [lia|].
      assert (N.shiftr (N.land (len * 0x100 + f) 0xff00) 8 = len) as ->.
      { rewrite N.shiftr_land. change (N.shiftr 0xff00 8) with 0xff. apply num_len; lia. }
      rewrite num_start by lia.
      assert (HB : (f <= 0x5d < f + len) -> f < 0x5d /\ 0x5d < f + len - 1 /\ 4 <= len).
      { intros Hin. assert (P 0x5d) as Hp by (apply HP, HI; easy).
        destruct Hbr as [H1|[H1|(lo & hi & H1 & H2 & H3)]]; [easy| |].
        - assert (f = 0x5d) by (apply H1, HP, HI; lia).
          assert (f + 1 = 0x5d) by (apply H1, HP, HI; lia). lia.
        - assert (forall d, f <= d < f + len <-> lo <= d <= hi) as Y.
          { intros d. rewrite <- HI, HP. apply H3. }
          pose proof (proj1 (Y f)). pose proof (proj1 (Y (f + len - 1))).
          pose proof (proj2 (Y lo)). pose proof (proj2 (Y hi)). lia. }
      destruct (N.eqb_spec len 2) as [->|L2].
      { right. exists f, [f + 1]. split; [easy|]. split; [easy|]. cbn. lia. }
      destruct (N.eqb_spec len 3) as [->|L3].
      { right. exists f, [f + 1; f + 2]. split; [easy|]. split; [easy|]. cbn. lia. }
      right. exists f, [0x2d; f + len - 1]. split; [easy|]. split; [easy|]. cbn. lia.
Qed.

Lemma R_kept v t : R v t -> SafeTok t -> PlainTok t -> tok_asc t -> Kept (canonical_value v).
Proof.
  destruct t as [| |P]; cbn [R].
  - intros -> _ _ _. left. eexists; split; [reflexivity|]. cbn; intuition discriminate.
  - intros -> _ _ _. left. eexists; split; [reflexivity|]. cbn; intuition discriminate.
  - intros (u & He & Hu) HS HP Ha. eapply elem_kept; eauto. apply Forall_forall. intros x Hx.
    apply Ha, Hu, Hx.
Qed.

Lemma concat_singles (s : str) : List.concat (map (fun c => [c]) s) = s.
Proof. induction s; cbn; congruence. Qed.

Lemma re_no_dash_plain s : (forall c, In c s -> ~ In c [0x5b; 0x5d; 0x2d]) ->
  re_no_dash (List.length s) s = s.
Proof.
  intros H. rewrite <- (concat_singles s) at 2. rewrite re_no_dash_kept.
  - apply concat_singles.
  - apply Forall_forall. intros t Ht. apply in_map_iff in Ht as (c & <- & Hc). left; exists c; auto.
  - now rewrite concat_singles.
Qed.

Theorem canonical_not_hinted p v : ascii_str p -> parse (0x5f :: p) = Ok v ->
  SafePattern p -> PlainPattern p ->
  re_no_dash (List.length (canonical v)) (canonical v) = canonical v.
Proof.
  intros Ha Hp (ts & HT & HS) (ts' & HT' & HPl).
  apply parse_pattern_inv in Hp as (b & Hb & Ht & HP). rewrite utf8_asc in Hb by easy. inversion Hb; subst b.
  destruct (canonical_shape v p Ht HP (asc_bytes_ok _ Ha) ts HT) as (vs0 & E & F & Hc).
  destruct (canonical_shape v p Ht HP (asc_bytes_ok _ Ha) ts' HT') as (vs0' & E' & F' & _).
  rewrite E in E'. apply app_inj_tail in E' as [<- _].
  assert (HPl' : Forall PlainTok ts).
  { clear - F F' HPl. revert ts' F' HPl. induction F as [|v t vs ts HR F IH]; intros ts' F' HPl; [constructor|].
    inversion F' as [|? t' ? ts'' HR' F'']; subst. inversion HPl as [|? ? P1 P2]; subst.
    constructor; [|eauto]. destruct t as [| |P]; try easy.
    destruct t' as [| |P']; cbn [R] in HR, HR'.
    - subst v. destruct HR as (u & He & _). apply Elem_special in He; discriminate.
    - subst v. destruct HR as (u & He & _). apply Elem_special in He; discriminate.
    - destruct HR as (u & He & Hu), HR' as (u' & He' & Hu'). rewrite (Elem_set_fun _ _ _ He' He) in Hu'.
      assert (X : forall d, P d <-> P' d) by (intros d; rewrite <- Hu, <- Hu'; easy).
      destruct P1 as (Q1 & Q2 & Q3). split; [|split].
      + intros H; apply Q1. intros d. rewrite <- X. apply H.
      + intros H; apply Q2. intros d. rewrite <- X. apply H.
      + rewrite X; easy. }
  revert Hc; destruct (forallb (fun v => fst v <? 0x200) vs0) eqn:EF; intros Hc.
  - destruct (singles_vals _ _ F EF) as (cs & HSi & -> & Hcb). rewrite (land_single _ Hcb) in Hc.
    destruct HS as [(cs' & HSi' & Hne & Hh & Hd)|[HS _]]; [|now specialize (HS cs)].
    assert (cs' = cs) as ->.
    { destruct (vals_singles _ _ _ F HSi') as [E' Hb'].
      rewrite <- (land_single cs) by easy. rewrite E'. now rewrite land_single. }
    rewrite Hc. apply re_no_dash_plain. intros c Hin.
    assert (~ c = 0x5b /\ ~ c = 0x5d).
    { clear - HSi HPl' Hin. induction HSi as [|t x ts cs (P & -> & HP) H IH]; [easy|].
      inversion HPl' as [|? ? QQ Q]; subst. destruct QQ as (Q1 & Q2 & _). destruct Hin as [->|Hin]; [|auto].
      split; intros ->; auto. }
    cbn. intros [X|[X|[X|[]]]]; subst; try tauto.
  - destruct HS as [(cs' & HSi' & _)|[_ HS]].
    { destruct (vals_singles _ _ _ F HSi') as [-> Hb']. exfalso.
      assert (forallb (fun v : N * option bytes => fst v <? 0x200) (map (fun c => (0x100 + c, None)) cs') = true).
      { apply forallb_forall. intros x Hx. apply in_map_iff in Hx as (c & <- & Hc').
        rewrite Forall_forall in Hb'. apply Hb' in Hc'. cbn [fst]. apply N.ltb_lt. lia. }
      congruence. }
    rewrite Hc. change (0x5f :: List.concat (map canonical_value vs0)) with (List.concat ([0x5f] :: map canonical_value vs0)).
    apply re_no_dash_kept; [|lia]. constructor.
    + left. eexists; split; [reflexivity|]. cbn; intuition discriminate.
    + clear - F HS HPl' HT Ha. pose proof (toks_asc _ _ HT Ha) as TA. clear HT.
      induction F as [|v t vs ts HR F IH]; [constructor|].
      inversion HS; inversion HPl'; inversion TA; subst. cbn. constructor; [|auto].
      eapply R_kept; eauto.
Qed.

(* ------------------------------------------------------------------ *)
(* The example (C06)                                                    *)

Lemma R_low_dash v t : R v t -> LowDashFree t -> vspecial v = true \/ low_dash v = false.
Proof.
  destruct t as [| |P]; cbn [R].
  - intros -> _. left; reflexivity.
  - intros -> _. left; reflexivity.
  - intros (u & He & Hu) HL. right. unfold low_dash.
    destruct He as (f & r & -> & Hs & Hb & Hn & _). inversion Hb; subst.
    rewrite Hn, num_start by lia. destruct (N.eqb_spec f 0x2d) as [->|]; [|easy].
    exfalso. apply HL. split; [apply Hu; now left|]. intros d Hd. apply Hu in Hd.
    apply (sorted_bounds _ _ Hs) in Hd. lia.
Qed.

Theorem example_pattern_matches p b ts v : parse (0x5f :: p) = Ok v -> utf8_encode p = Ok b ->
  Toks b ts -> Forall LowDashFree ts ->
  exists e, example v = Ok e /\ matches_extension v e = Ok true.
Proof.
  intros Hp Hb HT HL. apply (example_matches _ _ Hp).
  apply parse_pattern_inv in Hp as (b' & Hb' & Ht & HP). rewrite Hb in Hb'. inversion Hb'; subst b'.
  destruct (PP_R _ _ HP (utf8_encode_bytes _ _ Hb) _ HT) as (vs0 & E & F). rewrite E.
  apply Forall_app. split; [|constructor; [left; reflexivity | constructor]].
  clear - F HL. induction F; inversion HL; subst; constructor; auto. eapply R_low_dash; eauto.
Qed.

Lemma R_example v t ts e : R v t -> ExampleText ts e -> ExampleText (t :: ts) (example_piece v ++ e).
Proof.
  destruct t as [| |P]; cbn [R].
  - intros -> H. now apply ET_any1.
  - intros -> H. now apply ET_any0.
  - intros (u & He & Hu) H. pose proof (Elem_len _ _ He) as HL. destruct He as (f & r & -> & Hs & Hb & Hn & Hl). inversion Hb; subst.
    assert (EP : example_piece v = [f]).
    { unfold example_piece.
      assert (F : N.land (fst v) 0xff = f) by (rewrite Hn; apply num_start; lia).
      destruct (N.eqb_spec (fst v) 0x18000) as [E|_]; [exfalso|destruct (N.eqb_spec (fst v) 0x28000) as [E|_]; [exfalso|
        destruct (N.eqb_spec (fst v) 0x30000) as [E|_]; [exfalso|now rewrite F]]].
      all: rewrite Hn in E; lia. }
    rewrite EP. cbn [app]. apply ET_one; [apply Hu; now left| |easy]. intros d Hd. apply Hu in Hd.
    apply (sorted_bounds _ _ Hs) in Hd. lia.
Qed.
Lemma piece_small v : Forall (fun c => c < 0x100) (example_piece v).
Proof.
  unfold example_piece. destruct (fst v =? 0x18000); [vm_compute; repeat constructor|].
  destruct (fst v =? 0x28000); [vm_compute; repeat constructor|]. destruct (fst v =? 0x30000); [constructor|].
  constructor; [|constructor]. rewrite land_ff. lia.
Qed.
Theorem example_exact p b ts v : parse (0x5f :: p) = Ok v -> utf8_encode p = Ok b -> Toks b ts ->
  exists e, example v = Ok e /\ ExampleText ts e /\
    (matches_extension v e = Ok true <-> exists e1 e2, no_dash e = e1 ++ e2 /\ PatLang b e1).
Proof.
  intros Hp Hb HT. pose proof (fun ext => matches_pattern_spec p v ext Hp) as MS.
  apply parse_pattern_inv in Hp as (b' & Hb' & Ht & HP). rewrite Hb in Hb'. inversion Hb'; subst b'.
  destruct (PP_R _ _ HP (utf8_encode_bytes _ _ Hb) _ HT) as (vs0 & E & F).
  unfold example. rewrite Ht. cbn [N.eqb IS_A_PATTERN NOT_A_PATTERN]. 
  change (IS_A_PATTERN =? NOT_A_PATTERN) with false. change (IS_A_PATTERN =? IS_A_PATTERN) with true. cbn iota.
  assert (T : ExampleText ts (List.concat (map example_piece (pvals v)))).
  { rewrite E, map_app, concat_app. cbn [map List.concat]. change (example_piece (0x30000, None)) with (@nil N). rewrite !app_nil_r.
    clear - F. induction F as [|x t l l' HR F IH]; [constructor|]. cbn [map List.concat]. now apply R_example. }
  eexists. split; [reflexivity|]. split; [exact T|].
  destruct (MS (List.concat (map example_piece (pvals v)))) as (b' & Eb & M).
  { apply Forall_forall. intros x Hx. apply filter_In in Hx as [Hx _]. apply in_concat in Hx as (l & Hl & Hx).
    apply in_map_iff in Hl as (y & <- & _). exact (proj1 (Forall_forall _ _) (piece_small y) x Hx). }
  rewrite Hb in Eb. injection Eb as <-. exact M.
Qed.

Theorem example_literal_matches raw v : hd 0 raw <> 0x5f -> parse raw = Ok v ->
  exists e, example v = Ok e /\ matches_extension v e = Ok true.
Proof.
  intros Hh Hp. apply (example_matches _ _ Hp).
  apply parse_literal_inv in Hp as (b & Hb & Ht & Hv & _); [|easy]. rewrite Hv.
  apply Forall_forall. intros x Hx. apply in_map_iff in Hx as (y & <- & Hy). right.
  unfold no_dash in Hy. apply filter_In in Hy as [Hy Hd]. unfold low_dash. cbn [fst].
  apply utf8_encode_bytes in Hb. rewrite Forall_forall in Hb. apply Hb in Hy.
  change (0x100 + y) with (1 * 0x100 + y). rewrite num_start by lia.
  destruct (y =? 0x2d); easy.
Qed.

(* ------------------------------------------------------------------ *)
(* Literals are never hinted (C04)                                      *)

Lemma re_no_dash_filter s : ~ In 0x5b s -> ~ In 0x5d s -> forall fuel, (List.length s <= fuel)%nat ->
  re_no_dash fuel s = no_dash s.
Proof.
  induction s as [|c s IH]; intros H1 H2 fuel Hf; destruct fuel as [|fuel]; try easy; try (exfalso; cbn in Hf; lia).
  cbn in H1, H2, Hf. cbn [re_no_dash]. unfold no_dash. cbn [filter]. fold (no_dash s).
  destruct (N.eqb_spec c 0x5b) as [->|_]; [tauto|].
  destruct (N.eqb_spec c 0x5d) as [->|_]; [tauto|]. cbn [orb].
  destruct (c =? 0x2d); cbn [negb]; rewrite IH by (tauto || lia); reflexivity.
Qed.

Theorem literal_never_hinted raw v : ascii_str raw -> hd 0 raw <> 0x5f -> parse raw = Ok v ->
  ~ In 0x5b raw -> ~ In 0x5d raw -> is_canonical (mkpat raw v) = true.
Proof.
  intros Ha Hh Hp H1 H2. assert (raw <> []) as Hr by (intros ->; easy).
  rewrite parse_literal in Hp by easy. inversion Hp; subst v. unfold is_canonical. cbn [praw pv].
  rewrite re_no_dash_filter by auto. apply str_eqb_eq. symmetry.
  unfold canonical. cbn [ptype pvals]. change (NOT_A_PATTERN =? NOT_A_PATTERN) with true. cbn iota.
  apply land_single, asc_bytes_ok. apply Forall_forall. intros x Hx. apply filter_In in Hx as [Hx _].
  unfold ascii_str in Ha. rewrite Forall_forall in Ha; auto.
Qed.
Lemma ExampleText_fun ts e e' : ExampleText ts e -> ExampleText ts e' -> e = e'.
Proof.
  intros H. revert e'. induction H as [|ts e H IH|ts e H IH|P c ts e HP HL H IH]; intros e' H'; inversion H'; subst; try reflexivity.
  - f_equal. now apply IH.
  - f_equal. now apply IH.
  - match goal with A : P ?d, B : forall d, P d -> ?d0 <= d |- _ => idtac end.
    f_equal; [|now apply IH]. apply N.le_antisymm; auto.
Qed.
(* re_no_dash loses nothing exactly on such texts *)
Lemma take_set_some s a b : take_set s = Some (a, b) <-> exists inner, a = inner ++ [0x5d] /\ s = inner ++ 0x5d :: b /\ ~ In 0x5d inner.
Proof.
  revert a b. induction s as [|c s IH]; intros a b; cbn [take_set].
  - split; [easy|]. intros ([|x i] & _ & E & _); discriminate.
  - destruct (N.eqb_spec c 0x5d) as [->|Hc].
    + split; [intros [= <- <-]; now exists []|]. intros ([|x i] & -> & E & N); [now injection E as ->|].
      injection E as <- E. exfalso. apply N. now left.
    + destruct (take_set s) as [[a' b']|].
      * split.
        -- intros [= <- <-]. destruct (proj1 (IH a' b') eq_refl) as (i & -> & -> & N). exists (c :: i). repeat split; try easy. intros [->|I]; auto.
        -- intros ([|x i] & -> & E & N); [now injection E as -> _|]. injection E as <- ->.
           assert (X : Some (a', b') = Some (i ++ [0x5d], b)) by (apply IH; exists i; repeat split; auto; intros I; apply N; now right).
           now injection X as -> ->.
      * split; [easy|]. intros ([|x i] & -> & E & N); [now injection E as -> _|]. injection E as <- ->.
        assert (X : @None (str * str) = Some (i ++ [0x5d], b)) by (apply IH; exists i; repeat split; auto; intros I; apply N; now right). easy.
Qed.
Lemma re_no_dash_len fuel : forall s, (List.length (re_no_dash fuel s) <= List.length s)%nat.
Proof.
  induction fuel as [|fuel IH]; intros s; cbn [re_no_dash]; [cbn; lia|]. destruct s as [|c r]; [cbn; lia|].
  destruct (c =? 0x5b).
  - destruct r as [|d r']; [cbn [List.length]; specialize (IH []); cbn in IH; lia|]. destruct (d =? 0x0a); [specialize (IH (d :: r')); cbn [List.length] in *; lia|].
    destruct (take_set r') as [[a b]|] eqn:E; [|specialize (IH (d :: r')); cbn [List.length] in *; lia].
    apply take_set_some in E as (i & -> & -> & _). specialize (IH b). cbn [List.length]. rewrite !app_length. cbn [List.length]. lia.
  - destruct ((c =? 0x5d) || (c =? 0x2d)); specialize (IH r); cbn [List.length]; lia.
Qed.
Lemma lossless_iff fuel : forall s, (List.length s <= fuel)%nat -> re_no_dash fuel s = s <-> Lossless s.
Proof.
  induction fuel as [|fuel IH]; intros s Hs.
  - destruct s; [|cbn in Hs; lia]. split; [constructor|easy].
  - destruct s as [|c r]; [split; [constructor|easy]|]. cbn [List.length] in Hs. cbn [re_no_dash].
    assert (Drop : forall x, re_no_dash fuel r = c :: x -> List.length x = List.length r -> False).
    { intros x E El. pose proof (re_no_dash_len fuel r) as H. rewrite E in H. cbn in H. lia. }
    destruct (N.eqb_spec c 0x5b) as [->|H1].
    + destruct r as [|d r']; [split; [intros E; now apply Drop in E|inversion 1; subst; cbn in *; tauto]|].
      assert (Bad : re_no_dash fuel (d :: r') = 0x5b :: d :: r' <-> False) by (split; [intros E; now apply Drop in E|easy]).
      destruct (N.eqb_spec d 0x0a) as [->|H2].
      { rewrite Bad. split; [easy|]. inversion 1; subst; [cbn in *; tauto|congruence]. }
      destruct (take_set r') as [[a b]|] eqn:E.
      * apply take_set_some in E as (i & -> & -> & NI). cbn [List.length] in Hs. rewrite app_length in Hs. cbn [List.length] in Hs.
        split.
        -- intros X. injection X as X. rewrite <- app_assoc in X. apply app_inv_head in X. injection X as X.
           apply Ll_set; auto. apply (IH b); [lia|easy].
        -- intros X. inversion X as [|? ? K|d' i' s' Hd Hi Hl [E1 E2]]; subst; [cbn in K; tauto|].
           assert (EQ : take_set (i' ++ 0x5d :: s') = Some (i' ++ [0x5d], s')) by (apply take_set_some; now exists i').
           assert (EQ' : take_set (i ++ 0x5d :: b) = Some (i ++ [0x5d], b)) by (apply take_set_some; now exists i).
           rewrite E2, EQ' in EQ. injection EQ as EQ1 <-. rewrite (proj2 (IH b ltac:(lia)) Hl), <- app_assoc, ?E2. reflexivity.
      * rewrite Bad. split; [easy|]. intros X. inversion X as [|? ? K|d' i' s' Hd Hi Hl [E1 E2]]; subst; [cbn in K; tauto|].
        assert (EQ : take_set (i' ++ 0x5d :: s') = Some (i' ++ [0x5d], s')) by (apply take_set_some; now exists i'). congruence.
    + destruct (N.eqb_spec c 0x5d) as [->|H2]; [|destruct (N.eqb_spec c 0x2d) as [->|H3]]; cbn [orb].
      1,2: split; [intros E; now apply Drop in E|inversion 1; subst; cbn in *; tauto].
      split.
      * intros E. injection E as E. apply Ll_chr; [cbn; intuition|]. apply (IH r); [lia|easy].
      * intros X. inversion X; subst; [|congruence]. f_equal. apply (IH r); [lia|easy].
Qed.
Lemma kept_iff fuel : forall s k, (List.length s <= fuel)%nat -> re_no_dash fuel s = k <-> Compared s k.
Proof.
  induction fuel as [|fuel IH]; intros s k Hs.
  - destruct s; [|cbn in Hs; lia]. cbn. split; [intros <-; constructor|now inversion 1].
  - destruct s as [|c r]; [cbn; split; [intros <-; constructor|now inversion 1]|]. cbn [List.length] in Hs. cbn [re_no_dash].
    destruct (N.eqb_spec c 0x5b) as [->|H1].
    + assert (Open : ~ SetAt r -> re_no_dash fuel r = k <-> Compared (0x5b :: r) k).
      { intros NS. rewrite (IH r k) by lia. split; [now apply Kp_open|]. inversion 1; subst; [cbn in *; tauto|exfalso; apply NS; now exists d, inner, s|intuition discriminate|easy]. }
      destruct r as [|d r']; [apply Open; intros (d & i & r & [=] & _)|].
      destruct (N.eqb_spec d 0x0a) as [->|H2]; [apply Open; intros (d & i & r & E & Nd & _); injection E as <- _; easy|].
      destruct (take_set r') as [[a b]|] eqn:E.
      * apply take_set_some in E as (i & -> & -> & NI). cbn [List.length] in Hs. rewrite app_length in Hs. cbn [List.length] in Hs. split.
        -- intros <-. rewrite <- app_assoc. apply Kp_set; auto. apply IH; [lia|easy].
        -- intros X. inversion X as [|? ? ? K|d' i' s' k' Hd Hi Hk [E0 E1] E2|? ? ? K|? ? NS]; subst; [cbn in K; tauto| |intuition discriminate|].
           ++ assert (EQ : take_set (i' ++ 0x5d :: s') = Some (i' ++ [0x5d], s')) by (apply take_set_some; now exists i').
              assert (EQ' : take_set (i ++ 0x5d :: b) = Some (i ++ [0x5d], b)) by (apply take_set_some; now exists i).
              rewrite E1, EQ' in EQ. injection EQ as EQ1 EQ2. subst s'. apply app_inv_tail in EQ1. subst i'.
              rewrite (proj2 (IH b k' ltac:(lia)) Hk), <- app_assoc. reflexivity.
           ++ exfalso. apply NS. now exists d, i, b.
      * apply Open. intros (d' & i & r & [= <- ->] & _ & NI).
        assert (EQ : take_set (i ++ 0x5d :: r) = Some (i ++ [0x5d], r)) by (apply take_set_some; now exists i). congruence.
    + destruct ((c =? 0x5d) || (c =? 0x2d)) eqn:E.
      * assert (HE : c = 0x5d \/ c = 0x2d) by (apply Bool.orb_true_iff in E; rewrite !N.eqb_eq in E; easy).
        rewrite (IH r k) by lia. split; [now apply Kp_drop|]. inversion 1; subst; try easy; cbn in *; intuition congruence.
      * assert (HE : ~ In c [0x5b; 0x5d; 0x2d]).
        { apply Bool.orb_false_iff in E. rewrite !N.eqb_neq in E. cbn. intuition. }
        split.
        -- intros <-. apply Kp_chr; [easy|]. apply IH; [lia|easy].
        -- inversion 1; subst; try (cbn in *; intuition congruence). f_equal. apply IH; [lia|easy].
Qed.
Theorem hint_exact raw v : is_canonical (mkpat raw v) = true <-> Compared raw (canonical v).
Proof. unfold is_canonical. cbn [praw pv]. rewrite str_eqb_eq. now apply kept_iff. Qed.
Lemma own_hint raw v : canonical v = raw -> is_canonical (mkpat raw v) = true <-> Lossless raw.
Proof. intros E. unfold is_canonical. cbn [praw pv]. rewrite str_eqb_eq, E. now apply lossless_iff. Qed.
Theorem canon_hint_pattern p v q : ascii_str p -> parse (0x5f :: p) = Ok v -> SafePattern p ->
  mk_pattern (canonical v) = Ok q -> is_canonical q = true <-> Lossless (canonical v).
Proof.
  intros Ha Hp HS Hq. destruct (canonical_pattern_keeps p v Ha Hp HS) as (v' & Hv' & _ & Hi & _).
  unfold mk_pattern in Hq. rewrite Hv' in Hq. inversion Hq; subst q. now apply own_hint.
Qed.
Theorem canon_hint_literal raw v q : ascii_str raw -> hd 0 raw <> 0x5f -> parse raw = Ok v ->
  hd 0 (no_dash raw) <> 0x5f -> no_dash raw <> [] ->
  mk_pattern (canonical v) = Ok q -> is_canonical q = true <-> Lossless (canonical v).
Proof.
  intros Ha Hh Hp H1 H2 Hq. destruct (canonical_literal_keeps raw v Ha Hh Hp H1 H2) as (_ & v' & Hv' & _ & Hi & _).
  unfold mk_pattern in Hq. rewrite Hv' in Hq. inversion Hq; subst q. now apply own_hint.
Qed.
