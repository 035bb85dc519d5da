(* The report about jump destinations (C13) and the text of a line (C46). *)
From Verif Require Import Base PyStr Utf8 Defines FileRd Config Pattern Spec_Pattern Pattern_proofs Var VarFun VarFun_proofs AppM
  VSpace Loader_proofs Dialplan Spec_Dialplan Dialplan_proofs DialplanC_proofs DialplanJ_proofs.

(* ---- C13 ---- *)
Definition printable (j : jump) : Prop := prints (targ (j_ctx j)) /\ prints (targ (j_ext j)) /\ prints (jarg (j_prio j)).

Lemma memit_log c w args l u : mdupe c = false -> memit c w args = (l, Ok u) -> l = [LMsg (Msg c w None args)].
Proof. unfold memit, emit, mw. intros ->. cbn. now intros [= <- _]. Qed.

Section D.
Variable d : dplan.
Hypothesis ND : NoDup (map dc_name (dp_ctxs d)).
Hypothesis MO : Memos (dp_ctxs d).
Hypothesis AL : forall s, all_label d s = true <-> all_labels (dp_ctxs d) s.
Hypothesis CL : forall c s, In c (dp_ctxs d) -> (has_label c s = true <-> ctx_labels c s).

Lemma check_jump_rule k j l : check_jump k d j = (l, Ok tt) -> Report (dp_ctxs d) j l.
Proof.
  unfold check_jump. intros H. destruct (is_str (j_ctx j)) eqn:EC.
  - destruct (j_ctx j) as [n| | | | | | |] eqn:Ej; try easy. clear EC.
    destruct (find_ctx n (dp_ctxs d)) as [c|] eqn:EF.
    + apply find_ctx_in in EF as [Hc En]. subst n. destruct (is_str (j_ext j)) eqn:EE.
      * destruct (j_ext j) as [e| | | | | | |] eqn:Ee; try easy. clear EE.
        apply mbind_ok in H as (l1 & h & l2 & H1 & H2 & ->). unfold mlift in H1. injection H1 as <- H1. destruct h as [x|].
        -- injection H2 as <-. apply (Rp_found _ _ c e x); try easy. now apply (mp_sound (dp_ctxs d) k MO).
        -- apply memit_log in H2; [|easy]. subst l2. cbn [app].
           assert (E : [LMsg (Msg W_DP_GOTO_CONTEXT_NOEXTEN (j_where j) None
                        ([(L "context", targ (TS (dc_name c))); (L "exten", targ (TS e))] ++ [(L "prio", jarg (j_prio j))]))]
                     = [jmsg W_DP_GOTO_CONTEXT_NOEXTEN j (L "prio", jarg (j_prio j))])
             by (unfold jmsg; now rewrite Ej, Ee).
           cbn [app] in E. rewrite E. apply (Rp_missing _ _ c e); try easy. now apply (mp_none (dp_ctxs d) ND k).
      * destruct (j_prio j) as [z|t|ls] eqn:Ep.
        -- assert (l = []) as -> by (destruct (j_ext j); try easy; now injection H as <-).
           apply (Rp_varext_ok _ _ c); try easy. intros s E. rewrite Ep in E. discriminate E.
        -- destruct (is_str t) eqn:Et.
           ++ destruct t as [s| | | | | | |]; try easy.
              destruct (has_label c s) eqn:EL.
              ** assert (l = []) as -> by (destruct (j_ext j); try easy; now injection H as <-).
                 apply (Rp_varext_ok _ _ c); try easy. intros s' [= <-]%(eq_trans (eq_sym Ep)). now apply CL.
              ** assert (l = [jmsg E_DP_GOTO_CONTEXT_NOLABEL j (L "label", AStr s)]) as ->.
                 { unfold jmsg. rewrite Ej. destruct (j_ext j); try easy; now apply memit_log in H. }
                 apply (Rp_varext_bad _ _ c s); try easy. rewrite <- CL by easy. congruence.
           ++ assert (l = []) as -> by (destruct (j_ext j), t; try easy; now injection H as <-).
              apply (Rp_varext_ok _ _ c); try easy. intros s E. rewrite Ep in E. injection E as ->. easy.
        -- assert (l = []) as -> by (destruct (j_ext j); try easy; now injection H as <-).
           apply (Rp_varext_ok _ _ c); try easy. intros s E. rewrite Ep in E. discriminate E.
    + apply memit_log in H; [|easy]. subst l.
      assert (E : [LMsg (Msg E_DP_GOTO_NOCONTEXT (j_where j) None
                   ([(L "context", targ (TS n)); (L "exten", targ (j_ext j))] ++ [(L "prio", jarg (j_prio j))]))]
                = [jmsg E_DP_GOTO_NOCONTEXT j (L "prio", jarg (j_prio j))]) by (unfold jmsg; now rewrite Ej).
      cbn [app] in *. rewrite E. apply (Rp_noctx _ _ n); [easy|]. now apply find_ctx_none.
  - destruct (j_prio j) as [z|t|ls] eqn:Ep.
    + assert (l = []) as -> by (destruct (j_ctx j); try easy; now injection H as <-).
      apply Rp_varctx_ok; [easy|]. intros s E. rewrite Ep in E. discriminate E.
    + destruct (is_str t) eqn:Et.
      * destruct t as [s| | | | | | |]; try easy. destruct (all_label d s) eqn:EL.
        -- assert (l = []) as -> by (destruct (j_ctx j); try easy; now injection H as <-).
           apply Rp_varctx_ok; [easy|]. intros s' [= <-]%(eq_trans (eq_sym Ep)). now apply AL.
        -- assert (l = [jmsg E_DP_GOTO_NOLABEL j (L "label", AStr s)]) as ->.
           { unfold jmsg. destruct (j_ctx j); try easy; now apply memit_log in H. }
           apply (Rp_varctx_bad _ _ s); try easy. rewrite <- AL. congruence.
      * assert (l = []) as -> by (destruct (j_ctx j), t; try easy; now injection H as <-).
        apply Rp_varctx_ok; [easy|]. intros s E. rewrite Ep in E. injection E as ->. easy.
    + assert (l = []) as -> by (destruct (j_ctx j); try easy; now injection H as <-).
      apply Rp_varctx_ok; [easy|]. intros s E. rewrite Ep in E. discriminate E.
Qed.

Lemma walk_rule k js l : walk_jumps k d js = (l, Ok tt) ->
  exists ls, Forall2 (Report (dp_ctxs d)) js ls /\ l = List.concat ls.
Proof.
  revert l. induction js as [|j js IH]; intros l H; cbn in H.
  - injection H as <-. exists []. split; [constructor|easy].
  - apply mbind_ok in H as (l1 & [] & l2 & H1 & H2 & ->). destruct (IH l2 H2) as (ls & F & ->).
    exists (l1 :: ls). split; [constructor; [now apply check_jump_rule in H1|easy]|easy].
Qed.

(* No other outcome is possible for the same destination. *)
Lemma report_det j l l' : Report (dp_ctxs d) j l -> Report (dp_ctxs d) j l' -> l = l'.
Proof.
  assert (forall c c', In c (dp_ctxs d) -> In c' (dp_ctxs d) -> TS (dc_name c) = TS (dc_name c') -> c = c') as U.
  { intros c c' H H' [= E]. now apply (name_inj (dp_ctxs d) ND). }
  intros R R'. destruct R, R'; try easy; try congruence;
  repeat match goal with
  | A : j_ctx j = TS _, B : is_str (j_ctx j) = false |- _ => rewrite A in B; discriminate
  | A : j_ext j = TS _, B : is_str (j_ext j) = false |- _ => rewrite A in B; discriminate
  | A : j_prio j = JTok (TS _), B : j_prio j = JTok (TS _) |- _ => rewrite A in B; injection B as <-
  | A : j_ext j = TS _, B : j_ext j = TS _ |- _ => rewrite A in B; injection B as <-
  | A : j_ctx j = TS (dc_name ?c), B : j_ctx j = TS (dc_name ?c'), HC : In ?c (dp_ctxs d), HC' : In ?c' (dp_ctxs d) |- _ =>
    rewrite A in B; apply (U c c' HC HC') in B; subst c'
  | A : j_ctx j = TS ?n, B : j_ctx j = TS (dc_name ?c), HC : In ?c (dp_ctxs d), F : forall x, In x (dp_ctxs d) -> dc_name x <> ?n |- _ =>
    exfalso; apply (F c HC); rewrite A in B; now injection B
  end; try easy; try (exfalso; eauto; fail);
  try match goal with A : Target _ _ _ _ ?x, B : forall y, ~ Target _ _ _ _ y |- _ => destruct (B x A) end.
Qed.

Lemma memit_ends c w args : mdupe c = false -> (exists u, format_ok (mfields c) args = Ok u) -> exists l, memit c w args = (l, Ok tt).
Proof. intros D [[] F]. unfold memit, emit, mw. rewrite D. cbn. rewrite F. now eexists. Qed.
Lemma fmt3 k a b c : k = L "prio" \/ k = L "label" -> prints a -> prints b -> prints c ->
  exists u, format_ok [(L "context", false); (L "exten", false); (k, false)]
    [(L "context", a); (L "exten", b); (k, c)] = Ok u.
Proof.
  intros K [x A] [y B] [z C]. exists tt. cbn -[L lookup].
  assert (lookup (L "context") [(L "context", a); (L "exten", b); (k, c)] = Some a) as -> by reflexivity.
  rewrite A. cbn -[L lookup].
  assert (lookup (L "exten") [(L "context", a); (L "exten", b); (k, c)] = Some b) as -> by reflexivity.
  rewrite B. cbn -[L lookup].
  assert (lookup k [(L "context", a); (L "exten", b); (k, c)] = Some c) as -> by (destruct K as [->| ->]; reflexivity).
  now rewrite C.
Qed.

Lemma check_jump_ends j : printable j ->
  (forall n e, j_ctx j = TS n -> j_ext j = TS e -> latin1_str e /\ usable (j_prio j)) ->
  (forall c, In c (dp_ctxs d) -> j_ctx j = TS (dc_name c) -> ~ Cyclic (dp_ctxs d) c) ->
  exists l, check_jump (jump_fuel d) d j = (l, Ok tt).
Proof.
  intros (P1 & P2 & P3) HL A. unfold check_jump.
  assert (forall a, prints a -> exists l, memit E_DP_GOTO_NOCONTEXT (j_where j)
    ([(L "context", targ (j_ctx j)); (L "exten", targ (j_ext j))] ++ [(L "prio", a)]) = (l, Ok tt)) as M1.
  { intros a Pa. apply memit_ends; [easy|]. apply fmt3; auto. }
  assert (forall a, prints a -> exists l, memit W_DP_GOTO_CONTEXT_NOEXTEN (j_where j)
    ([(L "context", targ (j_ctx j)); (L "exten", targ (j_ext j))] ++ [(L "prio", a)]) = (l, Ok tt)) as M2.
  { intros a Pa. apply memit_ends; [easy|]. apply fmt3; auto. }
  assert (forall s, exists l, memit E_DP_GOTO_CONTEXT_NOLABEL (j_where j)
    ([(L "context", targ (j_ctx j)); (L "exten", targ (j_ext j))] ++ [(L "label", AStr s)]) = (l, Ok tt)) as M3.
  { intros s. apply memit_ends; [easy|]. apply fmt3; auto. now exists tt. }
  assert (forall s, exists l, memit E_DP_GOTO_NOLABEL (j_where j)
    ([(L "context", targ (j_ctx j)); (L "exten", targ (j_ext j))] ++ [(L "label", AStr s)]) = (l, Ok tt)) as M4.
  { intros s. apply memit_ends; [easy|]. apply fmt3; auto. now exists tt. }
  assert (exists l, @mret unit tt = (l, Ok tt)) as M0 by (now eexists).
  destruct (j_ctx j) as [n| | | | | | |] eqn:Ej;
    try (destruct (j_prio j) as [z|[s| | | | | | |]|ls]; try exact M0; destruct (all_label d s); [exact M0|apply M4]; fail).
  destruct (find_ctx n (dp_ctxs d)) as [c|] eqn:EF; [|now apply M1].
  destruct (j_ext j) as [e| | | | | | |] eqn:Ee;
    try (destruct (j_prio j) as [z|[s| | | | | | |]|ls]; try exact M0; destruct (has_label c s); [exact M0|apply M3]; fail).
  apply find_ctx_in in EF as [Hc <-]. destruct (HL _ e eq_refl eq_refl) as [He Hq].
  pose proof (mp_acyclic (dp_ctxs d) c e (j_prio j) ND Hc (A c Hc eq_refl)) as N1. fold (jump_fuel d) in N1.
  pose proof (fun x => mp_exn (dp_ctxs d) (jump_fuel d) x c e (j_prio j) He Hq) as N2.
  unfold mlift. destruct (match_pattern (jump_fuel d) (dp_ctxs d) c e (j_prio j)) as [[x|]|x|]; cbn [mbind].
  - now eexists.
  - destruct (M2 _ P3) as [l E]. rewrite E. now eexists.
  - now destruct (N2 x).
  - now destruct N1.
Qed.
Lemma walk_ends js : Forall (checkable (dp_ctxs d)) js ->
  exists l, walk_jumps (jump_fuel d) d js = (l, Ok tt).
Proof.
  induction 1 as [|j js (P & HL & A) F [l2 IH]]; cbn; [now eexists|].
  destruct (check_jump_ends j P HL A) as [l1 E]. rewrite E. cbn. rewrite IH. now eexists.
Qed.
End D.

(* ---- C46 ---- *)
Lemma cut1_none c s : cut1 c s = None <-> ~ In c s.
Proof.
  unfold cut1. split.
  - intros H I. apply in_split in I as (a & b & E).
    assert (exists a b, s = a ++ c :: b /\ ~ In c a) as (a' & b' & -> & N).
    { clear - E. revert s E. induction a as [|x a IH]; intros s ->; [now exists [], b|].
      destruct (N.eq_dec x c) as [->|Nx]; [now exists [], (a ++ c :: b)|].
      destruct (IH _ eq_refl) as (a' & b' & E & N). exists (x :: a'), b'. cbn. rewrite E. split; [easy|].
      intros [K|K]; easy. }
    rewrite ssplit_first in H by easy. easy.
  - intros N. assert (ssplit c (Some 1%nat) s = [s]) as ->; [|easy].
    assert (forall m, ssplit c m s = [s]) as K; [|apply K]. clear - N. induction s as [|x s IH]; intros m; cbn; [easy|].
    destruct (x =? c) eqn:E; [apply N.eqb_eq in E; destruct N; now left|]. cbn. rewrite IH; [easy|]. intros I; apply N; now right.
Qed.
Lemma cut1_some c s a b : cut1 c s = Some (a, b) <-> s = a ++ c :: b /\ ~ In c a.
Proof.
  split.
  - intros H. destruct (in_dec N.eq_dec c s) as [I|I]; [|apply cut1_none in I; congruence].
    assert (exists a b, s = a ++ c :: b /\ ~ In c a) as (a' & b' & -> & N).
    { clear - I. induction s as [|x s IH]; [easy|]. destruct (N.eq_dec x c) as [->|Nx]; [now exists [], s|].
      destruct I as [I|I]; [easy|]. destruct (IH I) as (a' & b' & -> & N). exists (x :: a'), b'. split; [easy|].
      intros [K|K]; easy. }
    unfold cut1 in H. rewrite ssplit_first in H by easy. now injection H as -> ->.
  - intros [-> N]. unfold cut1. now rewrite ssplit_first.
Qed.
Lemma ends41 s : endswith [41] s = true <-> exists l, s = l ++ [41] /\ drop_last s = l.
Proof.
  rewrite endswith_app. split; intros (r & H).
  - exists r. split; [easy|]. rewrite H. unfold drop_last. now rewrite removelast_last.
  - destruct H as [-> _]. now exists r.
Qed.

Section Line.
Variable U : uni.
Variable FT : ftable.
Variable AT : atable.

Lemma expect_arrow_rule v l : expect_arrow v = (l, Ok tt) <-> arrow_msgs v l.
Proof.
  unfold expect_arrow, arrow_msgs. destruct (v_arrow v) as [[]|]; split.
  - intros [= <-]. now left.
  - now intros [[_ ->]|[? _]].
  - intros [= <-]. now right.
  - now intros [[? _]|[_ ->]].
  - easy.
  - now intros [[? _]|[? _]].
Qed.

Lemma mbind_intro {A B} (m : M A) (f : A -> M B) l1 a l2 b : m = (l1, Ok a) -> f a = (l2, Ok b) -> mbind m f = (l1 ++ l2, Ok b).
Proof. intros -> H. cbn. now rewrite H. Qed.

Definition body_parts (rest : str) : str * option str * str :=
  let (prio0, app) := match cut1 44 rest with Some r => r | None => (rest, []) end in
  let (prio, label) := match cut1 40 prio0 with Some (a, b) => (a, Some b) | None => (prio0, None) end in
  (prio, label, app).
Lemma body_parts_text rest prio label app : body_parts rest = (prio, label, app) <->
  exists lt, lt = match label with Some b => 40 :: b | None => [] end /\
    ~ In 44 prio /\ ~ In 40 prio /\ ~ In 44 lt /\ (rest = prio ++ lt ++ 44 :: app \/ (rest = prio ++ lt /\ app = [])).
Proof.
  unfold body_parts. split.
  - intros H. destruct (cut1 44 rest) as [[p0 ap]|] eqn:E1.
    + apply cut1_some in E1 as [-> N1]. destruct (cut1 40 p0) as [[a b]|] eqn:E2.
      * apply cut1_some in E2 as [-> N2]. injection H as <- <- <-. exists (40 :: b). rewrite in_app_iff in N1.
        split; [easy|]. split; [tauto|]. split; [easy|]. split; [tauto|]. left. now rewrite <- app_assoc.
      * apply cut1_none in E2. injection H as <- <- <-. exists []. repeat split; auto.
    + apply cut1_none in E1. destruct (cut1 40 rest) as [[a b]|] eqn:E2.
      * apply cut1_some in E2 as [-> N2]. injection H as <- <- <-. exists (40 :: b). rewrite in_app_iff in E1.
        split; [easy|]. split; [tauto|]. split; [easy|]. split; [tauto|]. now right.
      * apply cut1_none in E2. injection H as <- <- <-. exists []. repeat split; auto. right. now rewrite app_nil_r.
  - intros (lt & El & N1 & N2 & N3 & H).
    assert ((match cut1 44 rest with Some r => r | None => (rest, []) end) = (prio ++ lt, app)) as ->.
    { assert (~ In 44 (prio ++ lt)) as N by (rewrite in_app_iff; tauto).
      destruct H as [->|[-> ->]].
      - rewrite app_assoc. now rewrite (proj2 (cut1_some 44 _ (prio ++ lt) app)).
      - now rewrite (proj2 (cut1_none 44 _) N). }
    destruct label as [b|]; subst lt.
    + now rewrite (proj2 (cut1_some 40 _ prio b)).
    + rewrite app_nil_r. now rewrite (proj2 (cut1_none 40 _) N2).
Qed.

Lemma line_text v l x : from_varset U FT AT v = (l, Ok (Some (DExt x))) <->
  exists pat la lb, LineText U v pat (i_prio x) (i_label x) (i_raw x) /\ i_where x = v_where v /\
    pat_of pat (i_pat x) /\ arrow_msgs v la /\ application U FT AT (i_raw x) (v_where v) = (lb, Ok (i_dests x)) /\ l = la ++ lb.
Proof.
  split.
  - intros H. unfold from_varset in H.
    destruct (str_eqb (v_variable v) (L "exten") || str_eqb (v_variable v) (L "same")) eqn:EV.
    + apply mbind_ok in H as (la & [] & l1 & HA & H & ->). apply expect_arrow_rule in HA.
      apply mbind_ok in H as (l2 & [pat rest] & l3 & H1 & H & ->).
      assert (l2 = [] /\ ((v_variable v = L "exten" /\ v_value v = pat ++ 44 :: rest /\ ~ In 44 pat) \/
        (v_variable v = L "same" /\ pat = [] /\ rest = v_value v))) as (-> & HV).
      { destruct (str_eqb (v_variable v) (L "exten")) eqn:EX.
        - destruct (cut1 44 (v_value v)) as [[p r]|] eqn:EC; [|easy]. injection H1 as <- <- <-.
          apply cut1_some in EC. apply str_eqb_eq in EX. split; [easy|]. now left.
        - cbn [orb] in EV. apply str_eqb_eq in EV. injection H1 as <- <- <-. split; [easy|]. now right. }
      assert (exists prio label app, body_parts rest = (prio, label, app)) as (prio & label & app & EB).
      { destruct (body_parts rest) as [[p lb] a]. now exists p, lb, a. }
      pose proof (proj1 (body_parts_text _ _ _ _) EB) as BT.
      unfold body_parts in EB. destruct (match cut1 44 rest with Some r => r | None => (rest, []) end) as [prio0 app0].
      destruct (match cut1 40 prio0 with Some (a, b) => (a, Some b) | None => (prio0, None) end) as [prio1 label1].
      injection EB as -> -> ->.
      apply mbind_ok in H as (l4 & pr & l5 & H2 & H & ->). destruct pr as [q|]; [|easy].
      assert (l4 = [] /\ PrioText U prio q) as (-> & HP).
      { destruct (str_eqb prio (L "n")) eqn:EN.
        - injection H2 as <- <-. apply str_eqb_eq in EN as ->. split; [easy|constructor].
        - apply str_eqb_neq in EN. destruct (sisdigit U prio) eqn:ED.
          + apply mbind_ok in H2 as (l6 & z & l7 & H2 & H3 & ->). unfold mlift in H2. injection H2 as <- H2.
            injection H3 as <- <-. split; [easy|now constructor].
          + destruct (str_eqb prio (L "hint")); apply mbind_ok in H2 as (? & ? & ? & _ & H3 & _); discriminate H3. }
      apply mbind_ok in H as (l6 & lb & l7 & H3 & H & ->). destruct lb as [lb|]; [|easy].
      assert (l6 = [] /\ LabelText (match label with Some b => 40 :: b | None => [] end) lb) as (-> & HL).
      { destruct label as [s|].
        - destruct (endswith [41] s) eqn:EE.
          + injection H3 as <- <-. apply ends41 in EE as (k & -> & ->). split; [easy|constructor].
          + apply mbind_ok in H3 as (? & ? & ? & _ & H3 & _). discriminate H3.
        - injection H3 as <- <-. split; [easy|constructor]. }
      apply mbind_ok in H as (l8 & p & l9 & H4 & H & ->).
      assert (l8 = [] /\ pat_of pat p) as (-> & HPAT).
      { destruct pat as [|ch pat].
        - injection H4 as <- <-. split; [easy|reflexivity].
        - apply mbind_ok in H4 as (l10 & p' & l11 & H4 & H5 & ->). unfold mlift in H4. injection H4 as <- H4.
          injection H5 as <- <-. split; [easy|]. split; [easy|exact H4]. }
      apply mbind_ok in H as (l10 & ds & l11 & H5 & H & ->). injection H as <- <-. cbn [i_prio i_label i_raw i_where i_pat i_dests].
      exists pat, la, l10. cbn [List.app]. rewrite app_nil_r. split.
      { destruct BT as (lt & El & N1 & N2 & N3 & BT). subst lt.
        assert (BodyText U rest q lb app) as BD.
        { exists prio, (match label with Some b => 40 :: b | None => [] end). split; [easy|]. split; [easy|]. split; [easy|]. split; [easy|]. split; [easy|exact BT]. }
        destruct HV as [(V1 & V2 & V3)|(V1 & V2 & V3)].
        - left. split; [easy|]. split; [easy|]. now exists rest.
        - right. subst rest. auto. }
      split; [easy|]. split; [easy|]. split; [easy|]. split; [easy|reflexivity].
    + exfalso. repeat match type of H with context[if ?b then _ else _] => destruct b end;
      repeat (apply mbind_ok in H as (? & ? & ? & _ & H & _)); discriminate H.
  - intros (pat & la & lb & T & EW & HP & HA & HAPP & ->).
    apply expect_arrow_rule in HA. destruct x as [xp xq xl xr xd xw]. cbn [i_prio i_label i_raw i_where i_pat i_dests] in *. subst xw.
    assert (exists rest, BodyText U rest xq xl xr /\ ((v_variable v = L "exten" /\ v_value v = pat ++ 44 :: rest /\ ~ In 44 pat) \/
        (v_variable v = L "same" /\ pat = [] /\ rest = v_value v))) as (rest & BD & HV).
    { destruct T as [(V1 & V2 & rest & V3 & BD)|(V1 & V2 & BD)]; [exists rest|exists (v_value v)]; split; auto. }
    unfold from_varset.
    assert (str_eqb (v_variable v) (L "exten") || str_eqb (v_variable v) (L "same") = true) as ->.
    { destruct HV as [(-> & _)|(-> & _)]; reflexivity. }
    apply (mbind_intro _ _ la tt lb _ HA). change lb with ([] ++ lb).
    apply (mbind_intro _ _ [] (pat, rest) lb).
    { destruct HV as [(-> & -> & N)|(-> & -> & ->)].
      - rewrite (proj2 (cut1_some 44 _ pat rest)); easy.
      - reflexivity. }
    destruct BD as (prio & lt & PT & LT & N1 & N2 & N3 & BT).
    assert (body_parts rest = (prio, match xl with Some k => Some (k ++ [41]) | None => None end, xr)) as EB.
    { apply body_parts_text. exists lt. inversion LT; subst; auto. }
    unfold body_parts in EB. destruct (match cut1 44 rest with Some r => r | None => (rest, []) end) as [prio0 app0].
    destruct (match cut1 40 prio0 with Some (a, b) => (a, Some b) | None => (prio0, None) end) as [prio1 label1].
    injection EB as -> -> ->. change lb with ([] ++ lb). apply (mbind_intro _ _ [] (Some xq) lb).
    { inversion PT as [|s z Ns D I]; subst; [reflexivity|]. rewrite (proj2 (str_eqb_neq prio (L "n")) Ns), D.
      change (@nil lev) with (@nil lev ++ []). apply (mbind_intro _ _ [] z []); [unfold mlift; now rewrite I|reflexivity]. }
    cbn beta iota. change lb with ([] ++ lb). apply (mbind_intro _ _ [] (Some xl) lb).
    { destruct xl as [k|]; [|reflexivity]. rewrite (proj2 (ends41 (k ++ [41]))).
      - unfold drop_last. now rewrite removelast_last.
      - exists k. split; [easy|]. unfold drop_last. now rewrite removelast_last. }
    cbn beta iota. change lb with ([] ++ lb). apply (mbind_intro _ _ [] xp lb).
    { destruct xp as [p|]; cbn in HP; [|now subst pat]. destruct HP as [Np MP]. destruct pat as [|ch pat]; [easy|].
      change (@nil lev) with (@nil lev ++ []). apply (mbind_intro _ _ [] p []); [unfold mlift; now rewrite MP|reflexivity]. }
    rewrite <- (app_nil_r lb). apply (mbind_intro _ _ lb xd []); [exact HAPP|reflexivity].
Qed.
Lemma memit_str c w k b s l (x : unit) : mdupe c = false -> mfields c = [(k, b)] ->
  memit c w [(k, AStr s)] = (l, Ok x) <-> l = [LMsg (Msg c w None [(k, AStr s)])].
Proof.
  intros Hd Hf. unfold memit, mw, emit. rewrite Hd, Hf. cbn [format_ok lookup fst snd].
  rewrite str_eqb_refl. cbn. destruct x. split; [now intros [= <-]|now intros ->].
Qed.

Lemma include_text v l i w : from_varset U FT AT v = (l, Ok (Some (DInc i w))) <->
  v_variable v = L "include" /\ arrow_msgs v l /\ i = v_value v /\ w = v_where v.
Proof.
  split.
  - intros H. unfold from_varset in H.
    destruct (str_eqb (v_variable v) (L "exten") || str_eqb (v_variable v) (L "same")) eqn:EV.
    + exfalso. apply mbind_ok in H as (la & [] & l1 & _ & H & _).
      apply mbind_ok in H as (l2 & [pat rest] & l3 & _ & H & _).
      destruct (match cut1 44 rest with Some r => r | None => (rest, []) end) as [prio0 app0].
      destruct (match cut1 40 prio0 with Some (a, b) => (a, Some b) | None => (prio0, None) end) as [prio1 label1].
      apply mbind_ok in H as (l4 & pr & l5 & _ & H & _). destruct pr as [q|]; [|easy].
      apply mbind_ok in H as (l6 & lb & l7 & _ & H & _). destruct lb as [lb|]; [|easy].
      apply mbind_ok in H as (l8 & p & l9 & _ & H & _). apply mbind_ok in H as (l10 & ds & l11 & _ & H & _). discriminate H.
    + destruct (str_eqb (v_variable v) (L "include")) eqn:EI.
      * apply mbind_ok in H as (la & [] & l1 & HA & H & ->). injection H as <- <- <-.
        apply expect_arrow_rule in HA. apply str_eqb_eq in EI. now rewrite app_nil_r.
      * exfalso. repeat match type of H with context[if ?b then _ else _] => destruct b end;
        repeat (apply mbind_ok in H as (? & ? & ? & _ & H & _)); discriminate H.
  - intros (EV & HA & -> & ->). apply expect_arrow_rule in HA. unfold from_varset. rewrite EV.
    change (str_eqb (L "include") (L "exten") || str_eqb (L "include") (L "same")) with false.
    change (str_eqb (L "include") (L "include")) with true. cbn iota.
    rewrite <- (app_nil_r l). now apply (mbind_intro _ _ l tt []).
Qed.

Lemma body_parts_prio rest prio label app : body_parts rest = (prio, label, app) ->
  ~ In 44 prio /\ ~ In 40 prio /\ exists tail, rest = prio ++ tail /\ (tail = [] \/ exists t, tail = 44 :: t \/ tail = 40 :: t).
Proof.
  intros H. apply body_parts_text in H as (lt & El & N1 & N2 & N3 & H). split; [easy|]. split; [easy|].
  destruct label as [b|]; subst lt; destruct H as [->|[-> _]]; eexists; (split; [reflexivity|]); cbn; eauto.
Qed.
Lemma prio_body_parts rest prio tail : ~ In 44 prio -> ~ In 40 prio -> rest = prio ++ tail ->
  (tail = [] \/ exists t, tail = 44 :: t \/ tail = 40 :: t) -> exists label app, body_parts rest = (prio, label, app).
Proof.
  intros N1 N2 -> [ -> | [ t [ -> | -> ] ] ].
  - exists None, []. apply body_parts_text. exists []. rewrite !app_nil_r. intuition.
  - exists None, t. apply body_parts_text. exists []. intuition.
  - destruct (cut1 44 t) as [[b app]|] eqn:E.
    + apply cut1_some in E as [-> N]. exists (Some b), app. apply body_parts_text. exists (40 :: b).
      split; [easy|]. split; [easy|]. split; [easy|]. split; [intros [?|?]; [easy|tauto]|]. now left.
    + apply cut1_none in E. exists (Some t), []. apply body_parts_text. exists (40 :: t).
      split; [easy|]. split; [easy|]. split; [easy|]. split; [intros [?|?]; [easy|tauto]|]. now right.
Qed.

Lemma no_line v l : from_varset U FT AT v = (l, Ok None) <-> NoLine U v l.
Proof.
  split.
  - intros H. unfold from_varset in H.
    destruct (str_eqb (v_variable v) (L "exten") || str_eqb (v_variable v) (L "same")) eqn:EV.
    + apply mbind_ok in H as (la & [] & l1 & HA & H & ->). apply expect_arrow_rule in HA.
      apply mbind_ok in H as (l2 & [pat rest] & l3 & H1 & H & ->).
      assert (l2 = [] /\ ((v_variable v = L "exten" /\ v_value v = pat ++ 44 :: rest /\ ~ In 44 pat) \/
        (v_variable v = L "same" /\ pat = [] /\ rest = v_value v))) as (-> & HV).
      { destruct (str_eqb (v_variable v) (L "exten")) eqn:EX.
        - destruct (cut1 44 (v_value v)) as [[p r]|] eqn:EC; [|easy]. injection H1 as <- <- <-.
          apply cut1_some in EC. apply str_eqb_eq in EX. split; [easy|]. now left.
        - cbn [orb] in EV. apply str_eqb_eq in EV. injection H1 as <- <- <-. split; [easy|]. now right. }
      assert (exists prio label app, body_parts rest = (prio, label, app)) as (prio & label & app & EB).
      { destruct (body_parts rest) as [[p lb] a]. now exists p, lb, a. }
      pose proof (body_parts_prio _ _ _ _ EB) as (N1 & N2 & tail & BT & TT).
      unfold body_parts in EB. destruct (match cut1 44 rest with Some r => r | None => (rest, []) end) as [prio0 app0].
      destruct (match cut1 40 prio0 with Some (a, b) => (a, Some b) | None => (prio0, None) end) as [prio1 label1].
      injection EB as -> -> ->.
      assert (PrioField v prio) as PF.
      { split; [easy|]. split; [easy|]. exists rest, tail. split; [easy|]. split; [easy|].
        destruct HV as [(V1 & V2 & V3)|(V1 & V2 & V3)]; [left|right; auto]. split; [easy|]. now exists pat. }
      apply mbind_ok in H as (l4 & pr & l5 & H2 & H & ->). destruct pr as [q|].
      { exfalso. apply mbind_ok in H as (l6 & lb & l7 & H3 & H & ->). destruct lb as [lb|].
        - apply mbind_ok in H as (l8 & p & l9 & _ & H & _). apply mbind_ok in H as (l10 & ds & l11 & _ & H & _). discriminate H.
        - destruct label as [s|]; [|easy]. destruct (endswith [41] s); [easy|].
          apply mbind_ok in H3 as (? & ? & ? & H3 & _ & _). discriminate H3. }
      injection H as <-. rewrite app_nil_r. cbn [List.app].
      destruct (str_eqb prio (L "n")) eqn:EN; [easy|]. apply str_eqb_neq in EN.
      destruct (sisdigit U prio) eqn:ED.
      { apply mbind_ok in H2 as (l6 & z & l7 & _ & H3 & _). discriminate H3. }
      destruct (str_eqb prio (L "hint")) eqn:EH; apply mbind_ok in H2 as (l6 & [] & l7 & H2 & H3 & ->); injection H3 as <-; rewrite app_nil_r.
      * apply str_eqb_eq in EH as ->. injection H2 as <-. now apply Nl_hint.
      * apply str_eqb_neq in EH. apply (memit_str _ _ _ true) in H2 as ->; [|reflexivity|reflexivity]. now apply Nl_prio.
    + apply orb_false_iff in EV as [E1 E2].
      destruct (str_eqb (v_variable v) (L "include")) eqn:E3.
      { apply mbind_ok in H as (? & ? & ? & _ & H & _). discriminate H. }
      destruct (str_eqb (v_variable v) (L "switch")) eqn:E4.
      { apply mbind_ok in H as (la & [] & l1 & HA & H & ->). apply expect_arrow_rule in HA. injection H as <-.
        apply str_eqb_eq in E4. now constructor. }
      destruct (str_eqb (v_variable v) (L "ignorepat")) eqn:E5.
      { apply mbind_ok in H as (la & [] & l1 & HA & H & ->). apply expect_arrow_rule in HA. injection H as <-.
        apply str_eqb_eq in E5. now constructor. }
      apply mbind_ok in H as (l1 & [] & l2 & H & H2 & ->). injection H2 as <-. rewrite app_nil_r.
      apply (memit_str _ _ _ true) in H as ->; [|reflexivity|reflexivity]. apply Nl_key.
      apply str_eqb_neq in E1, E2, E3, E4, E5. cbn [In]. intuition.
  - assert (forall prio la lx, PrioField v prio -> arrow_msgs v la -> prio <> L "n" -> sisdigit U prio = false ->
      (if str_eqb prio (L "hint") then do* _ <- memit I_NOTIMPL_HINT (v_where v) []; mret None
       else do* _ <- memit E_DP_PRIO_INVALID (v_where v) [(L "prio", AStr prio)]; mret None) = (lx, Ok (@None (option Z))) ->
      from_varset U FT AT v = (la ++ lx, Ok None)) as K.
    { intros prio la lx (N1 & N2 & rest & tail & EB & TT & HV) HA Nn Dg HM. apply expect_arrow_rule in HA. unfold from_varset.
      assert (str_eqb (v_variable v) (L "exten") || str_eqb (v_variable v) (L "same") = true) as ->.
      { destruct HV as [(-> & _)|(-> & _)]; reflexivity. }
      apply (mbind_intro _ _ la tt lx _ HA). change lx with ([] ++ lx).
      destruct (prio_body_parts rest prio tail N1 N2 EB TT) as (label & app & EP).
      assert (exists pat, (if str_eqb (v_variable v) (L "exten")
                        then match cut1 44 (v_value v) with
                             | Some (p, r) => mret (p, r)
                             | None => mexn ValueError
                             end
                        else mret ([], v_value v)) = ([], Ok (pat, rest))) as [pat HP].
      { destruct HV as [(-> & pat & Np & ->)|(-> & ->)].
        - rewrite (proj2 (cut1_some 44 _ pat rest)) by easy. now exists pat.
        - now exists []. }
      apply (mbind_intro _ _ [] (pat, rest) lx); [exact HP|]. clear HP.
      unfold body_parts in EP. destruct (match cut1 44 rest with Some r => r | None => (rest, []) end) as [prio0 app0].
      destruct (match cut1 40 prio0 with Some (a, b) => (a, Some b) | None => (prio0, None) end) as [prio1 label1].
      injection EP as -> -> ->. rewrite <- (app_nil_r lx). apply (mbind_intro _ _ lx None []); [|reflexivity].
      now rewrite (proj2 (str_eqb_neq prio (L "n")) Nn), Dg. }
    intros [la EV HA|la EV HA|NI|la PF Dg HA|la prio PF Nn Nh Dg HA].
    + apply expect_arrow_rule in HA. unfold from_varset. rewrite EV. cbv beta iota. now apply (mbind_intro _ _ la tt).
    + apply expect_arrow_rule in HA. unfold from_varset. rewrite EV. cbv beta iota. now apply (mbind_intro _ _ la tt).
    + unfold from_varset. cbn [In] in NI.
      rewrite !(proj2 (str_eqb_neq _ _)) by (intros E; apply NI; rewrite E; intuition).
      cbn [orb]. rewrite <- (app_nil_r [LMsg _]). apply (mbind_intro _ _ _ tt []); [|reflexivity].
      eapply memit_str; reflexivity.
    + apply (K (L "hint")); try easy.
    + apply (K prio); try easy. rewrite (proj2 (str_eqb_neq prio (L "hint")) Nh).
      rewrite <- (app_nil_r [LMsg _]). apply (mbind_intro _ _ _ tt []); [|reflexivity]. eapply memit_str; reflexivity.
Qed.
End Line.

(* ---- Facts about every dialplan that was read ---- *)
Lemma inv_memos U h d : Inv U h d -> Memos (dp_ctxs d).
Proof. intros I. apply Forall_forall. intros c Hc. left. apply (in_ctxs _ _ _ I c Hc). Qed.
Lemma inv_labels U h d : Inv U h d ->
  (forall s, all_label d s = true <-> all_labels (dp_ctxs d) s) /\
  (forall c s, In c (dp_ctxs d) -> (has_label c s = true <-> ctx_labels c s)).
Proof.
  intros I. pose proof (inv_describes U h d I) as D.
  assert (forall c s, In c (dp_ctxs d) -> (has_label c s = true <-> ctx_labels c s)) as CL.
  { intros c s Hc. rewrite (de_ctx_labels _ _ _ D c s Hc). unfold ctx_labels. now rewrite (de_exts _ _ _ D c Hc). }
  split; [|exact CL]. intros s. rewrite (de_all_labels _ _ _ D). split.
  - intros (N & n & y & Hy & HL). unfold stored_of in Hy. apply in_flat_map in Hy as (e & He & Hy).
    assert (In n (opened h)) as On.
    { apply (in_lines _ _ _ I e n He). destruct e as [| | |m x [| |z]|]; try easy. cbn. now destruct (str_eqb m n). }
    destruct (inv_find U h d n I On) as (c & Hc & <-). exists c. split; [easy|]. split; [easy|]. exists y. split; [|easy].
    rewrite (de_exts _ _ _ D c Hc). apply in_flat_map. now exists e.
  - intros (c & Hc & N & y & Hy & HL). split; [easy|]. exists (dc_name c), y. split; [|easy]. now rewrite <- (de_exts _ _ _ D c Hc).
Qed.

Section Whole.
Variable U : uni.
Variable FT : ftable.
Variable AT : atable.
Notation Ready := (Ready U FT AT).
Lemma ready_inv d : Ready d -> exists h, Inv U h d.
Proof. intros (es & l & H). apply steps_history in H as (h & _ & I). now exists h. Qed.
Lemma parse_ready fuel fs name l d : parse_dialplan U FT AT fuel fs name = (l, Ok d) -> Ready d.
Proof.
  unfold parse_dialplan. destruct (vsw_stream (parse_file fuel fs name)) as [evs o]. intros H.
  apply mbind_ok in H as (l2 & d1 & l3 & H1 & H2 & ->). apply mbind_ok in H2 as (l4 & [] & l5 & H2 & H3 & ->).
  injection H3 as <- <-. pose proof (stream_ok _ _ _ _ _ _ _ _ H1) as ->.
  apply stream_steps in H1 as (l' & H1 & _). now exists (elems evs), l'.
Qed.

Lemma ready_walk d l : Ready d -> walk_jump_destinations d = (l, Ok tt) ->
  exists ls, Forall2 (Report (dp_ctxs d)) (g_jumps (dp_glob d)) ls /\ l = List.concat ls.
Proof.
  intros R H. destruct (ready_inv d R) as [h I]. destruct (inv_labels U h d I) as [AL CL].
  exact (walk_rule d (inv_nodup U h d I) (inv_memos U h d I) AL CL _ _ _ H).
Qed.
Lemma ready_report_det d j l l' : Ready d -> Report (dp_ctxs d) j l -> Report (dp_ctxs d) j l' -> l = l'.
Proof. intros R. destruct (ready_inv d R) as [h I]. apply report_det. now apply (inv_nodup U h). Qed.
Lemma ready_walk_ends d : Ready d -> Forall (checkable (dp_ctxs d)) (g_jumps (dp_glob d)) ->
  exists l, walk_jump_destinations d = (l, Ok tt).
Proof. intros R F. destruct (ready_inv d R) as [h I]. apply walk_ends; [now apply (inv_nodup U h)|easy]. Qed.

Lemma ready_search d c e q k x : Ready d -> In c (dp_ctxs d) ->
  match_pattern k (dp_ctxs d) c e q = Ok (Some x) -> Target (dp_ctxs d) c e q x.
Proof. intros R Hc. destruct (ready_inv d R) as [h I]. apply mp_sound; [now apply (inv_memos U h)|easy]. Qed.
Lemma ready_search_none d c e q k x : Ready d -> In c (dp_ctxs d) ->
  match_pattern k (dp_ctxs d) c e q = Ok None -> ~ Target (dp_ctxs d) c e q x.
Proof.
  intros R Hc H. destruct (ready_inv d R) as [h I]. revert x. apply (mp_none _ (inv_nodup U h d I) k); auto. now apply (inv_memos U h).
Qed.
Lemma ready_search_first d c e q k x y : Ready d -> In c (dp_ctxs d) -> HitIn c e q y ->
  match_pattern k (dp_ctxs d) c e q = Ok (Some x) -> BestIn c e q x.
Proof. intros R Hc. destruct (ready_inv d R) as [h I]. apply mp_own_first; [now apply (inv_memos U h)|easy]. Qed.
Lemma ready_enough d c e q : Ready d -> In c (dp_ctxs d) ->
  match_pattern (jump_fuel d) (dp_ctxs d) c e q = Hang -> forall k, match_pattern k (dp_ctxs d) c e q = Hang.
Proof. intros R Hc. destruct (ready_inv d R) as [h I]. apply mp_enough; [now apply (inv_nodup U h)|easy]. Qed.
Lemma ready_acyclic d c e q : Ready d -> In c (dp_ctxs d) -> latin1_str e -> usable q -> ~ Cyclic (dp_ctxs d) c ->
  exists r, match_pattern (jump_fuel d) (dp_ctxs d) c e q = Ok r.
Proof.
  intros R Hc He Hq A. destruct (ready_inv d R) as [h I].
  pose proof (mp_acyclic (dp_ctxs d) c e q (inv_nodup U h d I) Hc A) as N1. fold (jump_fuel d) in N1.
  pose proof (fun x => mp_exn (dp_ctxs d) (jump_fuel d) x c e q He Hq) as N2.
  destruct (match_pattern (jump_fuel d) (dp_ctxs d) c e q) as [r|x|]; [now exists r|now destruct (N2 x)|easy].
Qed.
Lemma ready_cyclic d c e q : Ready d -> In c (dp_ctxs d) -> latin1_str e -> usable q ->
  Cyclic (dp_ctxs d) c -> (forall x, ~ Target (dp_ctxs d) c e q x) -> forall k, match_pattern k (dp_ctxs d) c e q = Hang.
Proof.
  intros R Hc He Hq C N k. destruct (ready_inv d R) as [h I].
  pose proof (mp_exn (dp_ctxs d) k) as N2. destruct (match_pattern k (dp_ctxs d) c e q) as [[x|]|x|] eqn:E; [| | |easy]; exfalso.
  - apply (N x). now apply (ready_search d c e q k x R Hc).
  - now apply (mp_cyclic_none (dp_ctxs d) c e q k (inv_nodup U h d I) C).
  - now apply (N2 x c e q He Hq).
Qed.
End Whole.

(* ---- dialplan show ---- *)
Lemma ljust_padded n s : padded n s (ljust n s).
Proof.
  exists (n - length s)%nat. unfold ljust. split; [easy|]. rewrite app_length, repeat_length. split; [lia|].
  destruct (Nat.le_gt_cases n (length s)); [left|right]; lia.
Qed.
Lemma tail_columns lead n a b : columns lead n a b (lead ++ ljust n a ++ tail_col b).
Proof. exists (ljust n a), (ljust 45 b). split; [apply ljust_padded|]. split; [apply ljust_padded|reflexivity]. Qed.
Lemma with_parens_text raw : app_text raw (with_parens raw).
Proof.
  exists (if memb 40 raw then [] else [40]), (if memb 41 raw then [] else [41]). split; [reflexivity|]. split.
  - destruct (memb 40 raw) eqn:E; [left; now apply memb_In in E|right]. split; [|reflexivity]. intros H. apply memb_In in H. congruence.
  - destruct (memb 41 raw) eqn:E; [left; now apply memb_In in E|right]. split; [|reflexivity]. intros H. apply memb_In in H. congruence.
Qed.
Lemma show_label_text x : show_label x = match x_label x with Some (c :: s) => L "[" ++ (c :: s) ++ L "]" | _ => [] end.
Proof. unfold show_label, lab. destruct (x_label x) as [[|c s]|]; reflexivity. Qed.
Lemma show_exts_text l : forall prev last,
  match prev, last with Some y, Some p => SamePat (x_pat y) p | None, None => True | _, _ => False end ->
  ShowExts prev l (show_exts last l).
Proof.
  induction l as [|x l IH]; intros prev last H; [constructor|]. cbn [show_exts].
  destruct last as [p|], prev as [y|]; try easy.
  - destruct (pat_eqb (x_pat x) p) eqn:E.
    + apply same_pat_iff in E. constructor.
      * apply SE_next with y (with_parens (x_raw x)); [easy|unfold SamePat in *; congruence|apply with_parens_text|].
        rewrite <- show_label_text. apply tail_columns.
      * now apply IH.
    + apply same_pat_false in E. constructor.
      * apply SE_first with (with_parens (x_raw x)); [|apply with_parens_text|apply tail_columns].
        intros z [= <-] K. apply E. unfold SamePat in *. congruence.
      * now apply IH.
  - constructor.
    + apply SE_first with (with_parens (x_raw x)); [easy|apply with_parens_text|apply tail_columns].
    + now apply IH.
Qed.
Lemma show_ctx_text repr c : MemoOk c -> ShowCtx repr c (show_ctx repr c).
Proof.
  intros M. exists (fst (by_pattern c)), (show_exts None (fst (by_pattern c))),
    (map (fun i => L "  " ++ ljust 17 (L "Include =>") ++ tail_col (L "'" ++ fst i ++ L "'")) (dc_includes c)).
  split; [now apply by_pattern_listing|]. split; [now apply show_exts_text|]. split; [|reflexivity].
  induction (dc_includes c) as [|i l IH]; cbn [map]; constructor; [apply tail_columns|easy].
Qed.
Lemma show_text repr rv d : Memos (dp_ctxs d) -> exists blocks,
  Forall2 (ShowCtx repr) (if rv : bool then rev (dp_ctxs d) else dp_ctxs d) blocks /\
  dialplan_show repr rv d = join [10] (List.concat blocks).
Proof.
  intros M. exists (map (show_ctx repr) (if rv then rev (dp_ctxs d) else dp_ctxs d)). split.
  - assert (forall l, (forall c, In c l -> MemoOk c) -> Forall2 (ShowCtx repr) l (map (show_ctx repr) l)) as K.
    { induction l as [|c l IH]; intros H; cbn; constructor; [apply show_ctx_text, H; cbn; auto|]. apply IH. intros; apply H; cbn; auto. }
    apply K. unfold Memos in M. rewrite Forall_forall in M. intros c Hc. apply M. destruct rv; [now apply in_rev in Hc|easy].
  - unfold dialplan_show. now rewrite flat_map_concat_map.
Qed.
