(* Proofs about ident-scan: the order of sets (C41), the whole command (C65). *)
From Verif Require Import Base PyStr Defines Var VarFun AppM FileRd Config Dialplan Commands Spec_VarFun Spec_Dialplan Spec_Commands
  Commands_proofs Spec_CmdLs CmdLs_proofs Spec_Annotate Annotate_proofs IdentScan Spec_Ident Ident_proofs Spec_Run Run_proofs
  Whole_proofs Dialplan_proofs DialplanK_proofs Spec_IdentRun.
From Verif Require Spec_Reader.
From Coq Require Import Permutation Sorted.

(* ---- one order only ---- *)
Lemma before_cons_iff {A} (x : A) l a b : Before (x :: l) a b <-> (x = a /\ In b l) \/ Before l a b.
Proof.
  split.
  - intros ([|y l1] & l2 & l3 & E); cbn [List.app] in E; injection E as E1 E2.
    + left. split; [easy|]. rewrite E2. apply in_or_app. right. now left.
    + right. now exists l1, l2, l3.
  - intros [[-> H]|(l1 & l2 & l3 & ->)]; [|now exists (x :: l1), l2, l3].
    apply in_split in H as (l2 & l3 & ->). now exists [], l2, l3.
Qed.
Lemma before_in {A} (l : list A) a b : Before l a b -> In a l /\ In b l.
Proof.
  intros (l1 & l2 & l3 & ->). split; apply in_or_app; right; [now left|]. right. apply in_or_app. right. now left.
Qed.
Lemma before_anti {A} (l : list A) a b : NoDup l -> Before l a b -> Before l b a -> False.
Proof.
  induction 1 as [|x l NI N IH]; [intros (l1 & ? & ? & E) _; now destruct l1|]. rewrite !before_cons_iff.
  intros [[-> H1]|H1] [[E H2]|H2].
  - now subst.
  - apply before_in in H2 as [_ H2]. now apply NI.
  - subst. apply before_in in H1 as [_ H1]. now apply NI.
  - now apply IH.
Qed.
Lemma before_total {A} (l : list A) a b : In a l -> In b l -> a <> b -> Before l a b \/ Before l b a.
Proof.
  induction l as [|x l IH]; [easy|]. intros HA HB NE. rewrite !before_cons_iff. destruct HA as [<-|HA], HB as [<-|HB]; try easy.
  - left. now left.
  - right. now left.
  - destruct (IH HA HB NE) as [H|H]; [left|right]; now right.
Qed.
Lemma put_det (R : str -> str -> Prop) l a b : NoDup l -> PutInOrder R l a -> PutInOrder R l b -> a = b.
Proof.
  intros N [P1 S1] [P2 S2]. eapply sorted_unique; [exact S1|exact S2|now rewrite P1, P2|].
  intros x y _ _ [H1 H2] [H3 H4]. exfalso. apply (before_anti l x y N); auto.
Qed.
Lemma first_det {A} (l l1 l2 m1 m2 : list A) a b : l = l1 ++ a :: l2 -> ~ In b l1 -> l = m1 ++ b :: m2 -> ~ In a m1 -> a = b.
Proof.
  intros -> H1 E H2. revert m1 E H1 H2. induction l1 as [|c l1 IH]; intros m1 E H1 H2.
  - destruct m1 as [|c m1]; cbn [List.app] in E; injection E as E1 E2; [easy|]. exfalso. apply H2. now left.
  - destruct m1 as [|c' m1]; cbn [List.app] in E; injection E as E1 E2; [exfalso; apply H1; now left|]. subst c'.
    apply (IH m1 E2); intros X; [apply H1|apply H2]; now right.
Qed.
Lemma firsts_det l a b : Firsts l a -> Firsts l b -> a = b.
Proof.
  intros (N1 & I1 & S1) (N2 & I2 & S2). eapply sorted_unique; [exact S1|exact S2| |].
  - apply NoDup_Permutation; [easy|easy|]. intros x. now rewrite I1, I2.
  - intros x y _ _ (l1 & l2 & E1 & H1) (m1 & m2 & E2 & H2). exact (first_det l l1 l2 m1 m2 x y E1 H1 E2 H2).
Qed.
Lemma strlt_set a b : StronglySorted StrLt a -> StronglySorted StrLt b -> (forall x, In x a <-> In x b) -> a = b.
Proof.
  assert (ND : forall l, StronglySorted StrLt l -> NoDup l).
  { induction 1 as [|x l S IH F]; constructor; [|easy]. intros X. rewrite Forall_forall in F. apply F in X. now destruct X. }
  intros S1 S2 H. eapply sorted_unique; [exact S1|exact S2|apply NoDup_Permutation; auto|].
  intros x y _ _ [H1 _] [H2 _]. now apply strle_antisym.
Qed.
Lemma padded_fun s t t' : Padded s t -> Padded s t' -> t = t'.
Proof.
  intros (k & -> & H) (k' & -> & H'). rewrite !app_length, !repeat_length in *. f_equal. f_equal. lia.
Qed.
Lemma rows_det {A} (r : list (str * A)) : forall r', map fst r = map fst r' -> (forall k vs vs', In (k, vs) r -> In (k, vs') r' -> vs = vs') -> r = r'.
Proof.
  induction r as [|[k vs] r IH]; intros [|[k' vs'] r'] E H; cbn [map fst] in E; try discriminate; [easy|].
  injection E as <- E. rewrite (H k vs vs'); [|now left|now left]. f_equal. apply IH; [easy|]. intros a v v' H1 H2. apply (H a); now right.
Qed.
Lemma forall2_fun {A B} (R : A -> B -> Prop) : (forall a b b', R a b -> R a b' -> b = b') -> forall l m m', Forall2 R l m -> Forall2 R l m' -> m = m'.
Proof.
  intros F l m m' H. revert m'. induction H as [|a b l m H1 H2 IH]; intros m' H'; inversion H'; subst; [easy|]. f_equal; [now apply (F a)|now apply IH].
Qed.
Lemma simline_fun r a b : SimLine r a -> SimLine r b -> a = b.
Proof. intros (p & H1 & ->) (p' & H2 & ->). now rewrite (padded_fun _ _ _ H1 H2). Qed.

Section Scan.
Variable lower : str -> str.
Variables isupper islower isdigit : str -> bool.
Variable dist : str -> str -> nat.
Notation Distance := (Distance lower isupper islower isdigit dist).
Notation Found := (Found lower isupper islower isdigit dist).
Notation pd := (print_distance lower isupper islower isdigit dist).
Notation Similar := (Similar lower isupper islower isdigit dist).

Lemma found_det l n : Found l n -> forall n', Found l n' -> n = n'.
Proof.
  induction 1 as [|x|x y l ns NE S F IH|x y l ns C F IH]; intros n' H; inversion H; subst; try easy.
  - do 2 f_equal. now apply IH.
  - match goal with X : _ \/ _ |- _ => destruct X; easy end.
  - destruct C; easy.
  - now apply IH.
Qed.
Lemma rows_pair (P : str -> str -> Prop) rows : rows <> [] -> (forall k vs, In (k, vs) rows -> StronglySorted StrLt vs /\ vs <> [] /\ forall v, In v vs <-> P k v) ->
  exists x y, P x y.
Proof.
  intros NE H. destruct rows as [|[k vs] rows]; [easy|]. destruct (H k vs (or_introl eq_refl)) as (_ & NV & X).
  destruct vs as [|v vs]; [easy|]. exists k, v. apply X. now left.
Qed.
Lemma distance_det ids ls st ls' st' : NoDup ids -> Distance ids ls st -> Distance ids ls' st' -> ls = ls' /\ st = st'.
Proof.
  intros N (l1 & l2 & P1 & P2 & H) (m1 & m2 & Q1 & Q2 & H'). rewrite <- (put_det _ _ _ _ N P1 Q1), <- (put_det _ _ _ _ N P2 Q2) in H'. clear Q1 Q2.
  destruct H as [(A & -> & ->)|(rows & lines & NR & (ns1 & ns2 & keys & F1 & F2 & F3 & PK) & RV & RK & LN & -> & ->)],
    H' as [(A' & -> & ->)|(rows' & lines' & NR' & (ns1' & ns2' & keys' & F1' & F2' & F3' & PK') & RV' & RK' & LN' & -> & ->)].
  - easy.
  - apply rows_pair in RV' as (x & y & X); [|easy]. now apply A in X.
  - apply rows_pair in RV as (x & y & X); [|easy]. now apply A' in X.
  - rewrite <- (found_det _ _ F1 _ F1'), <- (found_det _ _ F2 _ F2') in F3'. rewrite <- (firsts_det _ _ _ F3 F3') in PK'.
    destruct F3 as [NK _]. pose proof (put_det _ _ _ _ NK PK PK') as E.
    assert (rows = rows') as <-.
    { apply rows_det; [easy|]. intros k vs vs' X X'. destruct (RV _ _ X) as (S1 & _ & I1), (RV' _ _ X') as (S2 & _ & I2).
      apply strlt_set; [easy|easy|]. intros v. now rewrite I1, I2. }
    now rewrite (forall2_fun SimLine simline_fun _ _ _ LN LN').
Qed.
Theorem distance_iff ids ls st : NoDup ids -> Distance ids ls st <-> pd ids = (ls, st).
Proof.
  intros N. split; [|apply distance_spec]. intros H. destruct (pd ids) as [ls' st'] eqn:E. apply distance_spec in E.
  destruct (distance_det _ _ _ _ _ N H E) as [-> ->]. easy.
Qed.

(* ---- the order of the set ---- *)
Lemma put_ties (R : str -> str -> Prop) ids ids' l : Permutation ids ids' -> (forall a b, R a b -> R b a -> lower a = lower b) ->
  (forall a b, lower a = lower b -> Before ids a b -> Before ids' a b) -> PutInOrder R ids l -> PutInOrder R ids' l.
Proof.
  intros P T B [P1 S]. split; [now rewrite P1|]. eapply ss_impl; [|exact S]. intros a b [H1 H2]. split; [easy|]. intros H3. apply B; auto.
Qed.
Lemma name_tie a b : ByName lower a b -> ByName lower b a -> lower a = lower b.
Proof. apply strle_antisym. Qed.
Lemma len_tie a b : ByLen lower a b -> ByLen lower b a -> lower a = lower b.
Proof. intros [H|[E H]] [H'|[E' H']]; try lia. now apply strle_antisym. Qed.
Theorem distance_ties ids ids' : NoDup ids -> Permutation ids ids' ->
  (forall a b, lower a = lower b -> Before ids a b -> Before ids' a b) -> pd ids = pd ids'.
Proof.
  intros N P B. assert (N' : NoDup ids') by now apply (Permutation_NoDup P). unfold print_distance.
  rewrite (put_det (ByName lower) ids' (sort_by (lt_name lower) ids) (sort_by (lt_name lower) ids') N'
             (put_ties _ _ _ _ P name_tie B (put_name lower ids)) (put_name lower ids')).
  rewrite (put_det (ByLen lower) ids' (sort_by (lt_len lower) ids) (sort_by (lt_len lower) ids') N'
             (put_ties _ _ _ _ P len_tie B (put_len lower ids)) (put_len lower ids')). reflexivity.
Qed.
Lemma distance_sorted ids : NoDup ids -> pd ids = pd (sort_by (lt_name lower) ids).
Proof.
  intros N. apply distance_ties; [easy|symmetry; apply sort_perm|]. intros a b E H.
  destruct (put_name lower ids) as [P S]. set (l := sort_by _ ids) in *.
  pose proof (before_in _ _ _ H) as [HA HB]. apply (Permutation_in _ (Permutation_sym P)) in HA. apply (Permutation_in _ (Permutation_sym P)) in HB.
  destruct (str_eq_dec a b) as [->|NE]; [exfalso; now apply (before_anti ids b b)|].
  destruct (before_total l a b HA HB NE) as [X|X]; [easy|]. exfalso. apply (before_anti ids a b N H).
  destruct X as (l1 & l2 & l3 & X). rewrite X in S. clear -S E. induction l1 as [|c l1 IH]; cbn [List.app] in S; inversion S as [|? ? S' F]; subst; [|now apply IH].
  rewrite Forall_forall in F. destruct (F a) as [H1 H2]; [apply in_or_app; right; now left|]. apply H2. unfold ByName in *. rewrite <- E in H1. now rewrite <- E.
Qed.
Theorem distance_possible ids ls st : NoDup ids ->
  (exists ids', Permutation ids ids' /\ pd ids' = (ls, st)) <->
  (exists l, Permutation ids l /\ StronglySorted (ByName lower) l /\ Distance l ls st).
Proof.
  intros N. split.
  - intros (ids' & P & E). assert (N' : NoDup ids') by now apply (Permutation_NoDup P). exists (sort_by (lt_name lower) ids'). split; [|split].
    + now rewrite sort_perm.
    + eapply ss_impl; [|apply put_name]. now intros a b [H _].
    + apply distance_spec. now rewrite <- distance_sorted.
  - intros (l & P & S & D). exists l. split; [easy|]. apply distance_iff; [|easy]. now apply (Permutation_NoDup P).
Qed.
Lemma sorted_id (lt : str -> str -> bool) l : StronglySorted (le lt) l -> sort_by lt l = l.
Proof.
  induction 1 as [|x l S IH F]; cbn [sort_by]; [easy|]. rewrite IH. destruct l as [|y l]; cbn [sort_insert]; [easy|].
  inversion F as [|? ? H _]; subst. unfold le in H. now rewrite H.
Qed.
Theorem status_possible ids :
  (exists ids', Permutation ids ids' /\ snd (pd ids') = 1) <->
  (exists l a x y b, Permutation l ids /\ (StronglySorted (ByName lower) l \/ StronglySorted (ByLen lower) l) /\
     l = a ++ x :: y :: b /\ x <> [] /\ Similar x y).
Proof.
  split.
  - intros (ids' & P & H). destruct (pd ids') as [ls st] eqn:E. cbn [snd] in H. subst st.
    apply distance_spec in E as (l1 & l2 & P1 & P2 & [(_ & _ & X)|(rows & lines & NR & _ & RV & _)]); [discriminate|].
    apply rows_pair in RV as (x & y & X); [|easy].
    assert (HN : forall l x y, PutInOrder (ByName lower) ids' l -> Next l x y -> Similar x y -> exists l a x y b, Permutation l ids /\
       (StronglySorted (ByName lower) l \/ StronglySorted (ByLen lower) l) /\ l = a ++ x :: y :: b /\ x <> [] /\ Similar x y).
    { intros l u v [Q S] (NE & a & b & ->) SM. exists (a ++ u :: v :: b), a, u, v, b. split; [now rewrite Q, P|]. split; [|easy]. left.
      eapply ss_impl; [|exact S]. now intros ? ? [? _]. }
    assert (HL : forall l x y, PutInOrder (ByLen lower) ids' l -> Next l x y -> Similar x y -> exists l a x y b, Permutation l ids /\
       (StronglySorted (ByName lower) l \/ StronglySorted (ByLen lower) l) /\ l = a ++ x :: y :: b /\ x <> [] /\ Similar x y).
    { intros l u v [Q S] (NE & a & b & ->) SM. exists (a ++ u :: v :: b), a, u, v, b. split; [now rewrite Q, P|]. split; [|easy]. right.
      eapply ss_impl; [|exact S]. now intros ? ? [? _]. }
    destruct X as [[[X|X] SM]|[[X|X] SM]]; eauto.
  - intros (l & a & x & y & b & P & S & -> & NE & SM). exists (a ++ x :: y :: b). split; [now symmetry|].
    destruct (pd (a ++ x :: y :: b)) as [ls st] eqn:E. cbn [snd].
    unfold print_distance in E. apply distance_spec in E as H.
    assert (NX : Next (a ++ x :: y :: b) x y) by (split; [easy|now exists a, b]).
    assert (E1 : StronglySorted (ByName lower) (a ++ x :: y :: b) -> sort_by (lt_name lower) (a ++ x :: y :: b) = a ++ x :: y :: b).
    { intros H0. apply sorted_id. eapply ss_impl; [|exact H0]. intros u v. now apply le_name. }
    assert (E2 : StronglySorted (ByLen lower) (a ++ x :: y :: b) -> sort_by (lt_len lower) (a ++ x :: y :: b) = a ++ x :: y :: b).
    { intros H0. apply sorted_id. eapply ss_impl; [|exact H0]. intros u v. now apply by_len. }
    set (l := a ++ x :: y :: b) in *.
    destruct (scan_list lower isupper islower isdigit dist (scan_list lower isupper islower isdigit dist [] [] (sort_by (lt_name lower) l)) [] (sort_by (lt_len lower) l)) as [|kv s] eqn:ES.
    + exfalso. apply (insim_nil x y). rewrite <- ES, !scan_in, !next_nil. destruct S as [S|S]; [rewrite (E1 S)|rewrite (E2 S)]; tauto.
    + now injection E.
Qed.
End Scan.

(* ---- the command ---- *)
Lemma varline_fun log v a b : VarLine log v a -> VarLine log v b -> a = b.
Proof.
  intros (p & t & n & fl & P & T & NF & F & N & ->) (p' & t' & n' & fl' & P' & T' & NF' & F' & N' & ->).
  rewrite (padded_fun _ _ _ P P'), (numeral_fun _ _ T _ T').
  assert (length fl = length fl') as E by (apply Permutation_length, NoDup_Permutation; [easy|easy|]; intros x; now rewrite F, F').
  rewrite E in N. now rewrite (numeral_fun _ _ N _ N').
Qed.
Lemma listing_det lower ctxs log labels a b : NoDup (map dc_name ctxs) ->
  ListingWith lower ctxs log labels a -> ListingWith lower ctxs log labels b -> a = b.
Proof.
  intros N (cs & vs & ls & C & NV & I & S & F & ->) (cs' & vs' & ls' & C' & NV' & I' & S' & F' & ->).
  rewrite (put_det _ _ _ _ N C C').
  assert (vs = vs') as <-.
  { eapply sorted_unique; [exact S|exact S'|apply NoDup_Permutation; [easy|easy|]; intros x; now rewrite I, I'|].
    intros x y _ _ [H1 H2] [H3 H4]. destruct (H2 H3) as (l1 & w & l2 & E1 & X1), (H4 H1) as (m1 & w' & m2 & E2 & X2).
    assert (G : LVar x w = LVar y w') by (exact (first_det log l1 l2 m1 m2 _ _ E1 (X1 w') E2 (X2 w))). now injection G. }
  now rewrite (forall2_fun _ (varline_fun log) _ _ _ F F').
Qed.
Lemma listing_ctxs lower c c' log labels ls : map dc_name c = map dc_name c' -> ListingWith lower c log labels ls -> ListingWith lower c' log labels ls.
Proof. unfold ListingWith. now intros ->. Qed.
Lemma scan_ctxs U isupper islower dist verbose installed c c' log ls r : map dc_name c = map dc_name c' -> (forall s, all_labels c s <-> all_labels c' s) ->
  Scan U isupper islower dist verbose installed c log ls r -> Scan U isupper islower dist verbose installed c' log ls r.
Proof.
  intros E A (ls1 & ls2 & -> & H1 & H2 & H3 & H4). exists ls1, ls2. split; [easy|]. split; [|split; [easy|split; [|easy]]].
  - intros V. destruct (H1 V) as (labels & N & S & I & W). exists labels. split; [easy|]. split; [easy|]. split; [intros s; now rewrite I, A|].
    now apply (listing_ctxs _ c).
  - intros V. destruct (H3 V) as (ids & st & isdigit & D & N & I & W). exists ids, st, isdigit. split; [easy|]. split; [easy|]. split; [|easy].
    intros x. rewrite I. unfold Identifier. now rewrite E, A.
Qed.
Lemma contexts_same U h d : Inv U h d -> map dc_name (contexts h) = map dc_name (dp_ctxs d) /\
  forall s, all_labels (contexts h) s <-> all_labels (dp_ctxs d) s.
Proof.
  intros I. pose proof (inv_describes U h d I) as D. assert (EN : map dc_name (contexts h) = opened h).
  { unfold contexts. rewrite map_map. cbn [dc_name]. apply map_id. }
  split; [now rewrite EN, (de_names _ _ _ D)|]. intros s. unfold all_labels, ctx_labels. split.
  - intros (c & HC & NE & y & HY & HL). apply in_map_iff in HC as (n & <- & HN). cbn [dc_exts] in HY. rewrite <- (de_names _ _ _ D) in HN.
    apply in_map_iff in HN as (c' & <- & HC'). exists c'. split; [easy|]. split; [easy|]. exists y. now rewrite (de_exts _ _ _ D c' HC').
  - intros (c & HC & NE & y & HY & HL). rewrite (de_exts _ _ _ D c HC) in HY.
    exists (DCtx (dc_name c) (Where [] 0 []) (stored_of h (dc_name c)) (includes_of h (dc_name c)) None [] None).
    split; [|split; [easy|now exists y]]. unfold contexts. apply in_map_iff. exists (dc_name c). split; [easy|].
    rewrite <- (de_names _ _ _ D). now apply in_map.
Qed.
(* An order of sets that has a given order for one of them. *)
Definition order_at (at_ : list str) (o l : list str) : list str := if list_eq_dec str_eq_dec l at_ then o else nodup str_eq_dec l.
Lemma order_at_ok at_ o : NoDup o -> (forall x, In x o <-> In x at_) -> SetOrder (order_at at_ o).
Proof.
  intros N I l. unfold order_at. destruct (list_eq_dec str_eq_dec l at_) as [->|_]; [easy|]. split; [apply NoDup_nodup|]. intros x. apply nodup_In.
Qed.
Lemma order_at_same at_ o : order_at at_ o at_ = o.
Proof. unfold order_at. now destruct (list_eq_dec str_eq_dec at_ at_). Qed.
Lemma any_order l : exists o, NoDup o /\ forall x : str, In x o <-> In x l.
Proof. exists (nodup str_eq_dec l). split; [apply NoDup_nodup|]. intros x. apply nodup_In. Qed.
Lemma opened_nodup h : NoDup (opened h).
Proof.
  unfold opened. assert (G : forall seen, NoDup (opened_after seen h) /\ forall x, In x seen -> ~ In x (opened_after seen h)).
  { induction h as [|e h IH]; intros seen; [split; [constructor|easy]|]. destruct e as [n| | | |]; cbn [opened_after]; try apply IH.
    destruct (smem n seen) eqn:E; [apply IH|]. destruct (IH (n :: seen)) as [N I]. split.
    - constructor; [|easy]. apply I. now left.
    - intros x HX [<-|H]; [apply smem_In in HX; congruence|]. now apply (I x (or_intror HX)). }
  apply G.
Qed.

Section Command.
Variable U : uni.
Variable FT : ftable.
Variable AT : atable.
Hypothesis HU : AsciiOk U.
Variables isupper islower : str -> bool.
Variable dist : str -> str -> nat.
Notation lower := (u_lower U).
Notation IdentSays := (IdentSays U FT AT isupper islower dist).
Notation ident_scan := (ident_scan U FT AT isupper islower dist).

Lemma digits_ext isdigit : Digits U isdigit -> forall s, isdigit s = str_isdigit U s.
Proof.
  intros H s. destruct (isdigit s) eqn:E1, (str_isdigit U s) eqn:E2; try easy; exfalso.
  - apply H, (digits_spec U) in E1. congruence.
  - apply (digits_spec U), H in E2. congruence.
Qed.
Lemma distance_ext f g ids : (forall s, f s = g s) -> print_distance lower isupper islower f dist ids = print_distance lower isupper islower g dist ids.
Proof.
  intros E. assert (IS : forall a b, is_similar lower isupper islower f dist a b = is_similar lower isupper islower g dist a b) by (intros a b; unfold is_similar; now rewrite !E).
  assert (SL : forall l s p, scan_list lower isupper islower f dist s p l = scan_list lower isupper islower g dist s p l).
  { induction l as [|x l IH]; intros s p; cbn [scan_list]; [easy|]. rewrite IH. destruct p; [easy|]. now rewrite IS. }
  unfold print_distance. now rewrite !SL.
Qed.

Theorem ident_complete verbose installed fs name ls r : IdentSays verbose installed fs name ls r ->
  exists fuel labiter iditer, SetOrder labiter /\ SetOrder iditer /\ ident_scan labiter iditer verbose installed fuel fs name = (ls, r).
Proof.
  intros [evs h log ls' r' S P SC]. destruct (stream_eventually _ _ _ _ S) as [k K]. specialize (K k (le_n k)).
  destruct (plan_complete U FT AT HU k fs name evs h log K P) as (d & H & I). destruct (contexts_same U h d I) as [EN EA].
  apply (scan_ctxs _ _ _ _ _ _ _ _ _ _ _ EN EA) in SC. pose proof (parse_ready _ _ _ _ _ _ _ _ H) as R.
  assert (NC : NoDup (map dc_name (dp_ctxs d))) by (rewrite (de_names _ _ _ (inv_describes U h d I)); apply opened_nodup).
  destruct SC as (ls1 & ls2 & -> & H1 & H2 & H3 & H4).
  (* the labels *)
  assert (LB : exists o, NoDup o /\ (forall x, In x o <-> In x (g_labels (dp_glob d))) /\
     (verbose = true -> sort_by (lt_name lower) o = o /\ ListingWith lower (dp_ctxs d) log o ls1)).
  { destruct verbose.
    - destruct (H1 eq_refl) as (labels & N & SS & IL & W). exists labels. split; [easy|]. split; [intros x; now rewrite IL, (labels_all U FT AT d R)|].
      intros _. split; [|easy]. apply sorted_id. eapply ss_impl; [|exact SS]. intros a b. apply le_name.
    - destruct (any_order (g_labels (dp_glob d))) as (o & N & IO). now exists o. }
  destruct LB as (o & NO & IO & W). set (lb := order_at (g_labels (dp_glob d)) o).
  set (cs := sort_by (lt_name lower) (map dc_name (dp_ctxs d))) in *.
  set (lbs := sort_by (lt_name lower) o) in *.
  set (vs := sort_by (fun a b => lt_name lower (fst a) (fst b)) (variables log)) in *.
  assert (IDS : forall x, In x (cs ++ lbs ++ map fst vs) <-> Identifier (dp_ctxs d) log x).
  { intros x. rewrite !in_app_iff. unfold Identifier, cs, lbs, vs.
    rewrite (perm_in _ _ (sort_perm (lt_name lower) (map dc_name (dp_ctxs d)))), (perm_in _ _ (sort_perm (lt_name lower) o)), IO, (labels_all U FT AT d R).
    now rewrite (perm_in _ _ (Permutation_map fst (sort_perm (fun a b => lt_name lower (fst a) (fst b)) (variables log)))), (vo_in _ _ (variables_ok log)). }
  assert (DS : exists oi, NoDup oi /\ (forall x, In x oi <-> In x (cs ++ lbs ++ map fst vs)) /\
     (installed = true -> exists st, print_distance lower isupper islower (str_isdigit U) dist oi = (ls2, st) /\ r' = Ok st)).
  { destruct installed.
    - destruct (H3 eq_refl) as (ids & st & isdigit & D & N & II & DD & ->). exists ids. split; [easy|]. split; [intros x; now rewrite II, IDS|].
      intros _. exists st. split; [|easy]. apply distance_iff in DD; [|easy]. rewrite <- DD. symmetry. apply distance_ext. now apply digits_ext.
    - destruct (any_order (cs ++ lbs ++ map fst vs)) as (oi & N & IOI). now exists oi. }
  destruct DS as (oi & NOI & IOI & DS). set (di := order_at (cs ++ lbs ++ map fst vs) oi).
  exists k, lb, di. split; [now apply order_at_ok|]. split; [now apply order_at_ok|].
  unfold IdentScan.ident_scan. rewrite H. unfold lb. rewrite order_at_same. fold cs lbs vs. unfold di. rewrite order_at_same.
  assert (LS : (if verbose then print_names (L "Contexts encountered:") cs ++ print_names (L "Labels encountered:") lbs ++ print_vars vs else []) = ls1).
  { destruct verbose; [|now rewrite H2]. destruct (W eq_refl) as [EO W']. rewrite EO.
    apply (listing_det lower (dp_ctxs d) log o); [easy|apply listing_with|easy]. }
  rewrite LS. destruct installed.
  - destruct (DS eq_refl) as (st & -> & ->). reflexivity.
  - destruct (H4 eq_refl) as (-> & V1 & V2). rewrite app_nil_r. destruct verbose; [now rewrite V1|now rewrite V2].
Qed.
Theorem ident_sound labiter iditer : SetOrder labiter -> SetOrder iditer -> forall verbose installed fuel fs name ls r,
  ident_scan labiter iditer verbose installed fuel fs name = (ls, r) ->
  IdentSays verbose installed fs name ls r \/
  (ls = [] /\ forall d, snd (parse_dialplan U FT AT fuel fs name) <> Ok d /\ forall n, r <> Ok n).
Proof.
  intros LI SI verbose installed fuel fs name ls r H.
  destruct (scan_spec U FT AT isupper islower dist labiter iditer LI SI _ _ _ _ _ _ _ H) as [(log & d & P & SC)|[-> [(log & e & P & ->)|(log & P & ->)]]].
  - left. destruct (plan_sound U FT AT HU fuel fs name log d P) as (evs & h & E & PS & I). destruct (contexts_same U h d I) as [EN EA].
    apply (Id_intro _ _ _ _ _ _ _ _ _ _ evs h log); [apply stream_iff; split; [easy|now exists fuel]|easy|].
    apply (scan_ctxs _ _ _ _ _ _ (dp_ctxs d)); [easy|intros s; now rewrite EA|easy].
  - right. split; [easy|]. intros d. now rewrite P.
  - right. split; [easy|]. intros d. now rewrite P.
Qed.
Theorem ident_iff verbose installed fs name ls n :
  IdentSays verbose installed fs name ls (Ok n) <->
  exists fuel labiter iditer, SetOrder labiter /\ SetOrder iditer /\ ident_scan labiter iditer verbose installed fuel fs name = (ls, Ok n).
Proof.
  split; [apply ident_complete|]. intros (fuel & lb & di & HL & HI & E). destruct (ident_sound lb di HL HI _ _ _ _ _ _ _ E) as [H|[_ H]]; [easy|].
  exfalso. now apply (proj2 (H dp_init) n).
Qed.
(* Names that differ in more than case: one outcome. *)
Theorem ident_det verbose installed fs name ls r ls' r' :
  (forall evs h log, Spec_Reader.StreamOf fs name evs (Ok tt) -> PlanSays U FT AT evs h log ->
     forall a b, Identifier (contexts h) log a -> Identifier (contexts h) log b -> lower a = lower b -> a = b) ->
  IdentSays verbose installed fs name ls r -> IdentSays verbose installed fs name ls' r' -> ls = ls' /\ r = r'.
Proof.
  intros INJ [evs h log l0 r0 S P SC] [evs' h' log' l1 r1 S' P' SC']. specialize (INJ evs h log S P).
  destruct (stream_det _ _ _ _ _ _ S S') as [<- _].
  destruct (stream_eventually _ _ _ _ S) as [k K]. specialize (K k (le_n k)).
  destruct (plan_complete U FT AT HU k fs name evs h log K P) as (d & H & I).
  destruct (plan_complete U FT AT HU k fs name evs h' log' K P') as (d' & H' & I').
  rewrite H in H'. injection H' as <- <-.
  assert (h = h') as <-.
  { destruct P as (a1 & a2 & P & _). destruct P' as (b1 & b2 & P' & _). destruct (Run_proofs.stream_det U FT AT HU [] evs h a1 P [] [] (Hi_nil U FT AT) h' b1 P') as [<- _]. easy. }
  clear - SC SC' INJ. destruct SC as (u1 & u2 & -> & H1 & H2 & H3 & H4), SC' as (v1 & v2 & -> & G1 & G2 & G3 & G4).
  assert (u1 = v1) as <-.
  { destruct verbose; [|now rewrite H2, G2]. destruct (H1 eq_refl) as (la & N & SS & IL & W), (G1 eq_refl) as (la' & N' & SS' & IL' & W').
    assert (la = la') as <-.
    { eapply sorted_unique; [exact SS|exact SS'|apply NoDup_Permutation; [easy|easy|]; intros x; now rewrite IL, IL'|].
      intros a b HA HB X Y. apply INJ; [right; left; now apply IL|right; left; now apply IL|now apply strle_antisym]. }
    apply (listing_det lower (contexts h) log la); try easy. unfold contexts. rewrite map_map. cbn [dc_name]. rewrite map_id. apply opened_nodup. }
  destruct installed.
  - destruct (H3 eq_refl) as (ids & st & isd & D & N & II & DD & ->), (G3 eq_refl) as (ids' & st' & isd' & D' & N' & II' & DD' & ->).
    apply distance_iff in DD, DD'; [|easy|easy].
    rewrite (distance_ext _ _ ids (digits_ext isd D)) in DD. rewrite (distance_ext _ _ ids' (digits_ext isd' D')) in DD'.
    rewrite (distance_same lower isupper islower (str_isdigit U) dist ids ids') in DD.
    + rewrite DD in DD'. now injection DD' as <- <-.
    + apply NoDup_Permutation; [easy|easy|]. intros x. now rewrite II, II'.
    + intros a b HA HB. apply INJ; now apply II.
  - destruct (H4 eq_refl) as (-> & V1 & V2), (G4 eq_refl) as (-> & W1 & W2). split; [easy|]. destruct verbose; [now rewrite V1, W1|now rewrite V2, W2].
Qed.
End Command.
