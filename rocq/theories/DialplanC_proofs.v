(* Consequences of the rules of Spec_Dialplan.v. *)
From Verif Require Import Base PyStr Defines FileRd Config VSpace Pattern Pattern_proofs Var VarFun VarFun_proofs AppM
  Dialplan Spec_Dialplan Dialplan_proofs.

Section Rules.
Variable U : uni.
Variable FT : ftable.
Variable AT : atable.

(* ---- Histories keep priorities and labels unique ---- *)
Record Sane (h : list hev) : Prop := {
  sa_prio : forall n, NoDup (map (fun y => (canon y, x_prio y)) (stored_of h n));
  sa_label : forall n l1 y l2 z l3 s, stored_of h n = l1 ++ y :: l2 ++ z :: l3 ->
    SameCanon (x_pat y) (x_pat z) -> HasLabel y s -> HasLabel z s -> s = [];
  sa_pos : forall n y, In y (stored_of h n) -> (1 <= x_prio y)%Z;
  sa_acc : forall e q, In e h -> Accepts e q -> (1 <= q)%Z
}.

Lemma sane_other h e : (forall q, ~ Accepts e q) -> Sane h -> Sane (h ++ [e]).
Proof.
  intros N [S1 S2 S3 S4].
  assert (forall n, stored_of (h ++ [e]) n = stored_of h n) as E.
  { intros n. rewrite stored_app. replace (stored_of [e] n) with (@nil ext); [apply app_nil_r|].
    destruct e as [| | |m x [| |y]|]; try easy. now destruct (N (x_prio y)). }
  constructor.
  - intros n. rewrite E. apply S1.
  - intros n. rewrite E. apply S2.
  - intros n. rewrite E. apply S3.
  - intros e' q H. apply in_snoc in H as [H| ->]; [now apply S4|]. now intros ?%N.
Qed.

Lemma effprio_pos h n x p q ms : Sane h -> EffPrio h n x p q ms -> (1 <= q)%Z.
Proof.
  intros S H. inversion H as [e q0 H1 H2 H3|e q0 H1 H2 H3| | |]; subst; try lia;
    apply latest_in in H2 as [H2 _]; pose proof (sa_acc _ S e q0 H2 H3); lia.
Qed.

Lemma last_split {A} (l l1 l3 : list A) (a y z : A) l2 :
  l ++ [a] = l1 ++ y :: l2 ++ z :: l3 ->
  (exists l3', l3 = l3' ++ [a] /\ l = l1 ++ y :: l2 ++ z :: l3') \/ (l3 = [] /\ z = a /\ l = l1 ++ y :: l2).
Proof.
  intros E. destruct l3 as [|b l3 _] using rev_ind.
  - right. replace (l1 ++ y :: l2 ++ [z]) with ((l1 ++ y :: l2) ++ [z]) in E by (now rewrite <- app_assoc).
    now apply app_inj_tail in E as [-> ->].
  - left. exists l3. replace (l1 ++ y :: l2 ++ z :: l3 ++ [b]) with ((l1 ++ y :: l2 ++ z :: l3) ++ [b]) in E.
    + now apply app_inj_tail in E as [-> ->].
    + rewrite <- app_assoc. cbn. now rewrite <- app_assoc.
Qed.

Lemma sane_line h n x f ms : Sane h -> LineRule h n x f ms -> Sane (h ++ [HLine n x f]).
Proof.
  intros S H. inversion H as [H1 H2|p H1 H2 H3|p q H1 H2 H3|p q ms1 y H1 H2 H3 H4 H5|p q ms1 lb ms2 H1 H2 H3 H4]; subst.
  - apply sane_other; [easy|easy].
  - apply sane_other; [easy|easy].
  - apply sane_other; [easy|easy].
  - assert (forall m, stored_of (h ++ [HLine n x (Dropped p (x_prio y) y)]) m = stored_of h m) as E
      by (intros m; rewrite stored_app; apply app_nil_r).
    constructor; [intros m; rewrite E; apply (sa_prio _ S)|intros m; rewrite E; apply (sa_label _ S)|intros m; rewrite E; apply (sa_pos _ S)|].
    intros e q K. apply in_snoc in K as [K| ->]; [now apply (sa_acc _ S)|]. cbn. intros ->. now apply (sa_pos _ S n).
  - set (y := Ext p q lb (i_raw x) (i_where x)) in *.
    pose proof (effprio_pos _ _ _ _ _ _ S H2) as Q1.
    assert (forall m, stored_of (h ++ [HLine n x (Stored y)]) m = stored_of h m ++ if str_eqb n m then [y] else []) as E.
    { intros m. rewrite stored_app. cbn. now destruct str_eqb. }
    constructor.
    + intros m. rewrite E, map_app. destruct (str_eqb_spec n m) as [<-|]; [|cbn; rewrite app_nil_r; apply (sa_prio _ S)].
      apply Permutation_NoDup with (l := (canon y, x_prio y) :: map (fun y => (canon y, x_prio y)) (stored_of h n)).
      { apply Permutation_cons_append. }
      constructor; [|apply (sa_prio _ S)]. intros K. apply in_map_iff in K as (z & [= K1 K2] & K).
      now apply (H3 z K).
    + intros m l1 z1 l2 z2 l3 s. rewrite E. destruct (str_eqb_spec n m) as [<-|]; [|rewrite app_nil_r; apply (sa_label _ S)].
      intros EL SC L1 L2. apply last_split in EL as [(l3' & -> & EL)|(-> & -> & EL)].
      * now apply (sa_label _ S n l1 z1 l2 z2 l3' s).
      * cbn in SC. unfold HasLabel in L2. cbn in L2.
        inversion H4 as [K|s0 K Ks NK|s0 y0 K Ks]; subst.
        -- destruct K as [K|K]; congruence.
        -- exfalso. assert (s0 = s) as -> by congruence. apply (NK z1); [|easy|easy]. rewrite EL.
           apply in_or_app. cbn. auto.
        -- congruence.
    + intros m z. rewrite E. intros Hz. apply in_app_or in Hz as [Hz|Hz]; [now apply (sa_pos _ S m)|].
      destruct str_eqb; [|easy]. now destruct Hz as [<-|[]].
    + intros e k K. apply in_snoc in K as [K| ->]; [now apply (sa_acc _ S)|]. cbn. now intros ->.
Qed.

Lemma history_sane es h l : History U FT AT es h l -> Sane h.
Proof.
  induction 1 as [|es h l e h' l' H IH R].
  - constructor; cbn; try easy; [constructor|]. intros n l1 y l2 z l3 s E. now destruct l1.
  - inversion R; subst; try (rewrite app_nil_r; easy); try (apply sane_other; easy).
    now apply (sane_line _ _ _ _ ms).
Qed.

(* ---- The rules determine the outcome ---- *)
Lemma nodup_key {A B} (f : A -> B) l y z : NoDup (map f l) -> In y l -> In z l -> f y = f z -> y = z.
Proof.
  induction l as [|a l IH]; [easy|]. cbn. intros H Hy Hz E. inversion_clear H as [|? ? N D].
  destruct Hy as [<-|Hy], Hz as [<-|Hz]; auto.
  - destruct N. rewrite E. now apply in_map.
  - destruct N. rewrite <- E. now apply in_map.
Qed.

Lemma in_two {A} (l : list A) (y z : A) : In y l -> In z l ->
  y = z \/ (exists l1 l2 l3, l = l1 ++ y :: l2 ++ z :: l3) \/ (exists l1 l2 l3, l = l1 ++ z :: l2 ++ y :: l3).
Proof.
  intros Hy Hz. apply in_split in Hy as (a & b & ->). apply in_app_or in Hz as [Hz|[->|Hz]].
  - apply in_split in Hz as (a1 & a2 & ->). right. right. exists a1, a2, b. now rewrite <- app_assoc.
  - auto.
  - apply in_split in Hz as (b1 & b2 & ->). right. left. now exists a, b1, b2.
Qed.

Lemma effpat_det h n x p p' : EffPat h n x p -> EffPat h n x p' -> p = p'.
Proof.
  intros [H|(H & y & Hy & ->)] [H'|(H' & z & Hz & ->)]; try congruence.
  now rewrite (last_is_eq _ _ _ Hy Hz).
Qed.
Lemma accepts_det e q q' : Accepts e q -> Accepts e q' -> q = q'.
Proof. destruct e as [| | |m x [| |y]|]; cbn; try easy; congruence. Qed.
Lemma effprio_det h n x p q ms q' ms' : EffPrio h n x p q ms -> EffPrio h n x p q' ms' -> q = q' /\ ms = ms'.
Proof.
  destruct 1 as [e q A1 A2 A3 A4 A5|e q A1 A2 A3 A4|A1|q l0 y0 r0 A1 A2 A3 A4 A5 A6|q A1 A2 A3];
  destruct 1 as [e1 q1 B1 B2 B3 B4 B5|e1 q1 B1 B2 B3 B4|B1|q1 l1 y1 r1 B1 B2 B3 B4 B5 B6|q1 B1 B2 B3];
    try (exfalso; congruence); try (rewrite A1 in B1; injection B1 as B1); try (exfalso; lia); try subst q1;
    try (split; reflexivity).
  - rewrite (latest_uniq _ _ _ _ B2 A2) in B3. now rewrite (accepts_det _ _ _ A3 B3).
  - now destruct B4.
  - now destruct A4.
  - rewrite (latest_uniq _ _ _ _ B2 A2) in B3. now rewrite (accepts_det _ _ _ A3 B3).
  - exfalso. destruct (B3 _ _ _ A3 A4 A5). tauto.
  - exfalso. destruct (A3 _ _ _ B3 B4 B5). tauto.
Qed.
Lemma efflabel_det h n x p lb ms lb' ms' : Sane h ->
  EffLabel h n x p lb ms -> EffLabel h n x p lb' ms' -> lb = lb' /\ ms = ms'.
Proof.
  intros S H H'.
  inversion H as [A|s A1 A2 A3|s y A1 A2 A3 A4 A5]; inversion H' as [B|t B1 B2 B3|t z B1 B2 B3 B4 B5]; subst; auto;
    try (exfalso; destruct A; congruence); try (exfalso; destruct B; congruence);
    assert (s = t) as <- by congruence; auto.
  - exfalso. now apply (A3 z).
  - exfalso. now apply (B3 y).
  - split; [easy|]. assert (SameCanon (x_pat y) (x_pat z)) as SC by (unfold SameCanon in *; congruence).
    destruct (in_two _ _ _ A3 B3) as [->|[(l1 & l2 & l3 & E)|(l1 & l2 & l3 & E)]]; [easy| |].
    + destruct A2. now apply (sa_label _ S n l1 y l2 z l3 s).
    + destruct A2. now apply (sa_label _ S n l1 z l2 y l3 s).
Qed.

Lemma effpat_nonempty h n x p : EffPat h n x p -> i_pat x = None -> stored_of h n <> [].
Proof. intros [H|(H & y & (r & E) & _)] N; [congruence|]. rewrite E. now destruct r. Qed.

Lemma effprio_some h n x p q ms : EffPrio h n x p q ms ->
  (i_prio x = None /\ exists e, In e h /\ Accepted e) \/ (exists q, i_prio x = Some q /\ (1 <= q)%Z).
Proof.
  destruct 1 as [e q A1 A2 A3|e q A1 A2 A3|A1|q l0 y0 r0 A1 A2|q A1 A2].
  - left. split; [easy|]. exists e. now apply latest_in in A2.
  - left. split; [easy|]. exists e. now apply latest_in in A2.
  - right. now exists 1%Z.
  - right. exists q. split; [easy|lia].
  - right. exists q. split; [easy|lia].
Qed.

Lemma linerule_det h n x f ms f' ms' : Sane h ->
  LineRule h n x f ms -> LineRule h n x f' ms' -> f = f' /\ ms = ms'.
Proof.
  intros S H H'.
  destruct H as [A1 A2|p A1 A2 A3|p q A1 A2 A3|p q ms1 y A1 A2 A3 A4 A5|p q ms1 lb ms2 A1 A2 A3 A4];
  destruct H' as [B1 B2|p' B1 B2 B3|p' q' B1 B2 B3|p' q' ms1' y' B1 B2 B3 B4 B5|p' q' ms1' lb' ms2' B1 B2 B3 B4];
    try (now destruct (effpat_nonempty _ _ _ _ A1 B1)); try (now destruct (effpat_nonempty _ _ _ _ B1 A1));
    try (rewrite <- (effpat_det _ _ _ _ _ A1 B1) in *); auto; try (exfalso; congruence).
  all: try (exfalso; apply effprio_some in B2 as [(K & e & K1 & K2)|(k & K & K1)];
            [try congruence; now apply (A3 e)|try congruence; rewrite A2 in K; injection K as ->; lia]).
  all: try (exfalso; apply effprio_some in A2 as [(K & e & K1 & K2)|(k & K & K1)];
            [try congruence; now apply (B3 e)|try congruence; rewrite B2 in K; injection K as ->; lia]).
  - now assert (q = q') as <- by congruence.
  - destruct (effprio_det _ _ _ _ _ _ _ _ A2 B2) as [E1 E2]. subst.
    assert (y = y') as <-; [|auto].
    apply (nodup_key _ _ _ _ (sa_prio _ S n) A3 B3). unfold canon, SameCanon in *. congruence.
  - destruct (effprio_det _ _ _ _ _ _ _ _ A2 B2) as [E1 E2]. subst. exfalso. now apply (B3 y).
  - destruct (effprio_det _ _ _ _ _ _ _ _ A2 B2) as [E1 E2]. subst. exfalso. now apply (A3 y').
  - destruct (effprio_det _ _ _ _ _ _ _ _ A2 B2) as [E1 E2]. subst.
    destruct (efflabel_det _ _ _ _ _ _ _ _ S A4 B4) as [-> ->]. auto.
Qed.

Lemma misplaced_det c w P Q l l' : (P <-> Q) -> misplaced c w P l -> misplaced c w Q l' -> l = l'.
Proof. intros E [[H ->]|[H ->]] [[H' ->]|[H' ->]]; tauto. Qed.

Lemma elemrule_det h e h1 l1 h2 l2 : Sane h ->
  ElemRule U FT AT h e h1 l1 -> ElemRule U FT AT h e h2 l2 -> h1 = h2 /\ l1 = l2.
Proof.
  intros S H H'. destruct e as [b w|c|v].
  - inversion H; inversion H'; subst; auto.
  - inversion H as [|c1 l A1 A2 A3|c1 l A1 A2 A3|c1 ha w hb A1 A2 A3|c1 A1 A2 A3|c1 w A1 A2 A3 A4 A5| | | | |]; subst;
    inversion H' as [|c2 l' B1 B2 B3|c2 l' B1 B2 B3|c2 ha' w' hb' B1 B2 B3|c2 B1 B2 B3|c2 w' B1 B2 B3 B4 B5| | | | |]; subst;
      try (exfalso; congruence); try (exfalso; rewrite A1 in B1; discriminate).
    + split; [easy|]. eapply misplaced_det; [|eauto|eauto]. tauto.
    + split; [easy|]. eapply misplaced_det; [|eauto|eauto]. tauto.
    + exfalso. apply (A2 w'), in_or_app. cbn. auto.
    + exfalso. apply (B2 w), in_or_app. cbn. auto.
    + split; [easy|]. assert (w = w') as ->; [|easy].
      assert (forall ha hb ha' hb' w w', ha ++ HGlob w :: hb = ha' ++ HGlob w' :: hb' ->
        (forall w', ~ In (HGlob w') ha) -> (forall w', ~ In (HGlob w') ha') -> w = w') as K.
      { clear. induction ha as [|a ha IH]; intros hb [|a' ha'] hb' w w' E N N'; cbn in E.
        - now injection E as ->.
        - injection E as <- _. destruct (N' w). cbn. auto.
        - injection E as -> _. destruct (N w'). cbn. auto.
        - injection E as -> E. apply (IH _ _ _ _ _ E); intros w0 K; [apply (N w0)|apply (N' w0)]; cbn; auto. }
      now apply (K ha hb ha' hb').
    + easy.
    + exfalso. now apply (A3 w').
    + exfalso. now apply (B3 w).
    + easy.
  - assert (forall e e', Latest Header h e -> Latest Header h e' -> e = e') as LU by (intros; eapply latest_uniq; eauto).
    inversion H as [| | | | | |v1 A1|v1 e1 A1 A2|v1 n w l A1 A2|v1 n w l i w1 A1 A2|v1 n w l x f ms hint A1 A2 A3 A4]; subst;
    inversion H' as [| | | | | |v2 B1|v2 e2 B1 B2|v2 n' w' l' B1 B2|v2 n' w' l' i' w1' B1 B2|v2 n' w' l' x' f' ms' hint' B1 B2 B3 B4]; subst;
      auto; try (exfalso; match goal with
        | N : forall e, In e h -> ~ Header e, K : Latest Header h ?e |- _ => apply latest_in in K as [K1 K2]; now apply (N e)
        end);
      try (exfalso; match goal with
        | N : forall n w, ?e <> HOpen n w, K : Latest Header h ?e, K' : Latest Header h (HOpen ?n ?w) |- _ =>
          apply (N n w); now apply LU
        end);
      pose proof (LU _ _ A1 B1) as EL; injection EL as -> ->; rewrite A2 in B2; try discriminate.
    + now injection B2 as ->.
    + now injection B2 as -> -> ->.
    + injection B2 as -> ->. destruct (linerule_det _ _ _ _ _ _ _ S A4 B4) as [-> ->]. auto.
Qed.

Lemma history_det es : forall h l h' l', History U FT AT es h l -> History U FT AT es h' l' -> h = h' /\ l = l'.
Proof.
  induction es as [|e es IH] using rev_ind; intros h l h' l' H H'.
  - inversion H as [|es1 ? ? ? ? ? ? ? E]; [|now destruct es1].
    inversion H' as [|es2 ? ? ? ? ? ? ? E']; [|now destruct es2]. auto.
  - remember (es ++ [e]) as es0 eqn:E0. destruct H as [|es1 h1 l1 e1 h1' l1' H1 R1]; [now destruct es|].
    remember (es1 ++ [e1]) as es3 eqn:E3. destruct H' as [|es2 h2 l2 e2 h2' l2' H2 R2]; [now destruct es|].
    assert (es1 ++ [e1] = es ++ [e]) as E by congruence. assert (es2 ++ [e2] = es ++ [e]) as E' by congruence.
    clear E0 E3.
    apply app_inj_tail in E as [-> ->]. apply app_inj_tail in E' as [-> ->].
    destruct (IH _ _ _ _ H1 H2) as [-> ->].
    destruct (elemrule_det _ _ _ _ _ _ (history_sane _ _ _ H1) R1 R2) as [-> ->]. auto.
Qed.

(* ---- Later lines leave what is stored alone ---- *)
Lemma steps_extend es : forall h d l d', Inv U h d -> dp_steps U FT AT d es = (l, Ok d') ->
  exists h', Inv U (h ++ h') d'.
Proof.
  induction es as [|e es IH]; intros h d l d' I H.
  - injection H as <- <-. exists []. now rewrite app_nil_r.
  - cbn in H. apply mbind_ok in H as (l1 & d1 & l2 & H1 & H2 & ->).
    destruct (on_element_rule _ _ _ _ _ _ _ _ I H1) as (h1 & _ & I1).
    destruct (IH _ _ _ _ I1 H2) as (h2 & I2). exists (h1 ++ h2). now rewrite app_assoc.
Qed.

Lemma inv_find h d n : Inv U h d -> In n (opened h) -> exists c, In c (dp_ctxs d) /\ dc_name c = n.
Proof.
  intros I H. rewrite <- (in_names _ _ _ I) in H. apply in_map_iff in H as (c & E & H). now exists c.
Qed.

Lemma stored_kept es1 es2 l1 d1 l2 d2 c :
  dp_steps U FT AT dp_init es1 = (l1, Ok d1) -> dp_steps U FT AT d1 es2 = (l2, Ok d2) -> In c (dp_ctxs d1) ->
  exists c' new new', In c' (dp_ctxs d2) /\ dc_name c' = dc_name c /\
    dc_exts c' = dc_exts c ++ new /\ dc_includes c' = dc_includes c ++ new'.
Proof.
  intros H1 H2 Hc. apply steps_history in H1 as (h & _ & I1).
  destruct (steps_extend _ _ _ _ _ I1 H2) as (h' & I2).
  destruct (inv_find (h ++ h') d2 (dc_name c) I2) as (c' & Hc' & EN).
  { apply opened_in. exists (dc_where c). apply in_or_app. left.
    apply (proj1 (latest_in _ _ _ (ci_where _ _ (in_ctxs _ _ _ I1 c Hc)))). }
  exists c', (stored_of h' (dc_name c)), (includes_of h' (dc_name c)). split; [easy|]. split; [easy|].
  pose proof (in_ctxs _ _ _ I1 c Hc) as C. pose proof (in_ctxs _ _ _ I2 c' Hc') as C'.
  rewrite (ci_exts _ _ C'), (ci_incs _ _ C'), EN, stored_app, includes_app, (ci_exts _ _ C), (ci_incs _ _ C). auto.
Qed.

(* ---- From the events of the reader ---- *)
Lemma merge_app {A} (a b c : list A) : Merge a b c -> forall l, Merge a (l ++ b) (l ++ c).
Proof. intros H l. induction l as [|x l IH]; cbn; [easy|now constructor]. Qed.

Lemma stream_steps evs : forall d l d', dp_stream U FT AT d evs (Ok tt) = (l, Ok d') ->
  exists l', dp_steps U FT AT d (elems evs) = (l', Ok d') /\ Merge (ev_msgs evs) l' l.
Proof.
  induction evs as [|ev evs IH]; intros d l d' H.
  - injection H as <- <-. exists []. split; [easy|constructor].
  - destruct ev as [w s b|m|e]; cbn [dp_stream] in H.
    + now apply IH.
    + apply mbind_ok in H as (l1 & [] & l2 & H1 & H2 & ->). injection H1 as <-.
      apply IH in H2 as (l' & H2 & M). exists l'. split; [easy|]. cbn. now constructor.
    + apply mbind_ok in H as (l1 & d1 & l2 & H1 & H2 & ->). apply IH in H2 as (l' & H2 & M).
      exists (l1 ++ l'). split; [|now apply merge_app]. cbn [elems flat_map app dp_steps]. rewrite H1.
      cbn [mbind]. fold (elems evs). now rewrite H2.
Qed.
Lemma stream_ok evs o : forall d l d', dp_stream U FT AT d evs o = (l, Ok d') -> o = Ok tt.
Proof.
  induction evs as [|ev evs IH]; intros d l d' H.
  - destruct o as [[]| |]; easy.
  - destruct ev as [w s b|m|e]; cbn [dp_stream] in H; [now apply IH in H| |];
      apply mbind_ok in H as (l1 & ? & l2 & H1 & H2 & ->); now apply IH in H2.
Qed.

Lemma complete_rule h d l : Inv U h d -> on_complete d = (l, Ok tt) -> Completion h l.
Proof.
  intros I. unfold on_complete. pose proof (in_gen _ _ _ I) as IG. pose proof (in_globs _ _ _ I) as IB.
  pose proof (in_names _ _ _ I) as IN.
  destruct (dp_ctxs d) as [|c cs] eqn:EC.
  - intros H. cbn in IN. replace l with (@nil lev); [now apply Co_empty|].
    destruct (dp_general d), (dp_globals d); now injection H as <-.
  - cbn in IN. assert (In c (dp_ctxs d)) as Hc by (rewrite EC; cbn; auto).
    pose proof (ci_where _ _ (in_ctxs _ _ _ I c Hc)) as CW.
    intros H.
    assert (exists lg lb, l = lg ++ lb /\
      (lg = [] /\ dp_general d <> None \/ lg = [LMsg (Msg H_DP_GENERAL_MISPLACED (Where (w_file (dc_where c)) 0 []) None [])] /\ dp_general d = None) /\
      (lb = [] /\ dp_globals d <> None \/ lb = [LMsg (Msg H_DP_GLOBALS_MISPLACED (Where (w_file (dc_where c)) 0 []) None [])] /\ dp_globals d = None))
      as (lg & lb & -> & G & B).
    { destruct (dp_general d), (dp_globals d); injection H as <-.
      - exists [], []. split; [easy|]. split; left; easy.
      - eexists [], [_]. split; [reflexivity|]. split; [left; easy|right; easy].
      - eexists [_], []. split; [reflexivity|]. split; [right; easy|left; easy].
      - eexists [_], [_]. split; [reflexivity|]. split; right; easy. }
    apply (Co_some _ (dc_name c) (map dc_name cs) (dc_where c)); [easy|easy| |].
    + destruct G as [[-> G]|[-> G]].
      * left. split; [|easy]. destruct (dp_general d) as [w|]; [now exists w|easy].
      * right. split; [|easy]. rewrite G in IG. intros [w K]. now apply (IG w).
    + destruct B as [[-> B]|[-> B]].
      * left. split; [|easy]. destruct (dp_globals d) as [w|]; [|easy]. destruct IB as (h1 & h2 & -> & _).
        exists w. apply in_or_app. cbn. auto.
      * right. split; [|easy]. rewrite B in IB. intros [w K]. now apply (IB w).
Qed.

Lemma parse_rule fuel fs name l d : parse_dialplan U FT AT fuel fs name = (l, Ok d) ->
  exists evs h l1 l2 l3, vsw_stream (parse_file fuel fs name) = (evs, Ok tt) /\
    History U FT AT (elems evs) h l1 /\ Describes U h d /\
    Merge (ev_msgs evs) l1 l2 /\ Completion h l3 /\ l = l2 ++ l3.
Proof.
  unfold parse_dialplan. destruct (vsw_stream (parse_file fuel fs name)) as [evs o]. intros H.
  apply mbind_ok in H as (l2 & d1 & l3 & H1 & H2 & ->). apply mbind_ok in H2 as (l4 & [] & l5 & H2 & H3 & ->).
  injection H3 as <- <-. rewrite app_nil_r. pose proof (stream_ok _ _ _ _ _ H1) as ->.
  apply stream_steps in H1 as (l1 & H1 & M). apply steps_history in H1 as (h & Hh & I).
  exists evs, h, l1, l2, l4. split; [easy|]. split; [easy|]. split; [now apply inv_describes|].
  split; [easy|]. split; [now apply (complete_rule h d1)|easy].
Qed.
End Rules.
