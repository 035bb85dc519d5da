(* The whole run of dialplan-check (C59). *)
From Verif Require Import Loader_proofs Base Utf8 PyStr Defines FileRd Config VSpace Pattern Spec_Pattern Var VarFun VarFun_proofs AppM Dialplan Spec_Var Spec_VarFun Spec_App Spec_Args Spec_Crash Spec_Subst Spec_Line
  Line_proofs Spec_Dialplan Dialplan_proofs DialplanC_proofs DialplanJ_proofs DialplanK_proofs DialplanL_proofs Spec_Search Search_proofs
  FuncOdbc Spec_FuncOdbc FuncOdbc_proofs Check Spec_Check Spec_Log Check_proofs Spec_Run.

Section Tables.
Variable U : uni.
Variable FT : ftable.
Variable AT : atable.
Hypothesis HU : AsciiOk U.

(* ---- lines ---- *)
Lemma gives_iff v l r : from_varset U FT AT v = (l, Ok r) <-> LineGives U FT AT v l r.
Proof.
  split.
  - intros H. destruct r as [[x|i w]|].
    + apply line_text in H as (pat & la & lb & HT & Hw & HP & HA & HL & ->). destruct x as [p q lb' raw ds w]. cbn [i_prio i_label i_raw i_where i_pat i_dests] in *. subst w.
      apply line_iff in HL; [|easy]. econstructor; eauto.
    + apply include_text in H as (HV & HA & -> & ->). now constructor.
    + apply no_line in H. now constructor.
  - intros [l0 H|l0 HV HA|pat q lb text p ds l1 l2 HT HA HP HL].
    + now apply no_line.
    + now apply include_text.
    + apply line_text. exists pat, l1, l2. cbn [i_prio i_label i_raw i_where i_pat i_dests]. repeat split; auto. now apply line_iff.
Qed.

Lemma elem_iff h e h' l : ElemRule U FT AT h e h' l <-> ElemSays U FT AT h e h' l.
Proof.
  split.
  - intros H. destruct e as [b w|c|v]; [now apply Es_header|now apply Es_header|].
    inversion H as [| | | | | |v0 NH|v0 e LH NO|v0 n0 w0 l0 LH FV|v0 n0 w0 l0 i w1 LH FV|v0 n0 w0 l0 x f ms hint LH FV HH LR]; subst.
    + now apply Es_outside.
    + now apply (Es_plain _ _ _ _ _ e).
    + apply (Es_nothing _ _ _ _ _ n0 w0); [easy|]. now apply gives_iff.
    + apply (Es_include _ _ _ _ _ n0 w0); [easy|]. now apply gives_iff.
    + rewrite map_app. apply (Es_line _ _ _ _ _ n0 w0); [easy|now apply gives_iff| |easy].
      unfold hints. destruct (i_pat x) as [p|]; [|easy]. destruct (is_canonical p); [now left|now right].
  - intros H. destruct H as [e0 h1 l1 _ R|v NH|v e0 LH NO|v n w l0 LH LG|v n w l0 i w' LH LG|v n w x f ms l1 l2 LH LG HH LR].
    + easy.
    + now apply ER_outside.
    + now apply (ER_plain _ _ _ _ _ e0).
    + apply (ER_nothing _ _ _ _ _ n w); [easy|]. now apply gives_iff.
    + apply (ER_include _ _ _ _ _ n w); [easy|]. now apply gives_iff.
    + assert (K : exists hint, hint = match i_pat x with
           | Some p => if is_canonical p then []
                       else [pmsg H_PAT_NON_CANONICAL x None [(L "pat", AStr (praw p)); (L "expected", AStr (canonical (pv p)))]]
           | None => [] end /\ l2 = map LMsg hint).
      { eexists. split; [reflexivity|]. unfold hints in HH. destruct (i_pat x) as [p|]; [|easy].
        destruct HH as [[-> ->]|[-> ->]]; reflexivity. }
      destruct K as (hint & E & ->). rewrite <- map_app. apply (ER_line _ _ _ _ _ n w l1 x f ms hint); try easy. now apply gives_iff.
Qed.

(* ---- the stream ---- *)
Lemma stream_grows h evs h' l : StreamSays U FT AT h evs h' l -> exists r, h' = h ++ r.
Proof.
  induction 1 as [h|h w d k evs h' l _ IH|h m evs h' l _ IH|h e evs h1 h' l1 l2 _ _ [r ->]]; auto.
  - exists []. now rewrite app_nil_r.
  - exists (h1 ++ r). now rewrite app_assoc.
Qed.
Lemma stream_sound evs : forall d h l d', Inv U h d -> dp_stream U FT AT d evs (Ok tt) = (l, Ok d') ->
  exists h', StreamSays U FT AT h evs h' l /\ Inv U h' d'.
Proof.
  induction evs as [|[w dd k|m|e] evs IH]; intros d h l d' I H; cbn [dp_stream] in H.
  - injection H as <- <-. exists h. split; [constructor|easy].
  - destruct (IH _ _ _ _ I H) as (h' & S & I'). exists h'. split; [now constructor|easy].
  - apply mbind_ok in H as (l1 & [] & l2 & E & H & ->). injection E as <-. destruct (IH _ _ _ _ I H) as (h' & S & I').
    exists h'. split; [now constructor|easy].
  - apply mbind_ok in H as (l1 & d1 & l2 & E & H & ->). destruct (on_element_rule _ _ _ _ _ _ _ _ I E) as (h1 & R & I1).
    destruct (IH _ _ _ _ I1 H) as (h' & S & I'). exists h'. split; [|easy]. econstructor; [apply elem_iff, R|exact S].
Qed.
Lemma stream_complete h evs h' l : StreamSays U FT AT h evs h' l -> (exists js, JumpsOf U h' js) ->
  forall d es l0, Inv U h d -> History U FT AT es h l0 -> exists d', dp_stream U FT AT d evs (Ok tt) = (l, Ok d').
Proof.
  induction 1 as [h|h w dd k evs h' l _ IH|h m evs h' l _ IH|h e evs h1 h' l1 l2 HE HS IH]; intros HJ d es l0 I HH; cbn [dp_stream].
  - now exists d.
  - eapply IH; eauto.
  - destruct (IH HJ d es l0 I HH) as [d' E]. rewrite E. now exists d'.
  - apply elem_iff in HE. assert (J : Jumps U (h ++ h1)).
    { apply stream_grows in HS as [r ->]. now apply (jumps_prefix U (h ++ h1) r). }
    destruct (on_element_complete U FT AT h d e h1 l1 I (history_sane U FT AT es h l0 HH) HE J) as (l' & d1 & E).
    destruct (on_element_rule _ _ _ _ _ _ _ _ I E) as (h1' & R & I1).
    assert (HH1 : History U FT AT (es ++ [e]) (h ++ h1) (l0 ++ l1)) by now constructor.
    assert (HH2 : History U FT AT (es ++ [e]) (h ++ h1') (l0 ++ l')) by now constructor.
    destruct (history_det U FT AT _ _ _ _ _ HH1 HH2) as [E1 E2]. apply app_inv_head in E1, E2. subst h1' l'.
    destruct (IH HJ d1 _ _ I1 HH1) as [d' E']. rewrite E. cbn [mbind]. rewrite E'. now exists d'.
Qed.
Lemma stream_det h evs h1 l1 : StreamSays U FT AT h evs h1 l1 -> forall es l0, History U FT AT es h l0 -> forall h2 l2,
  StreamSays U FT AT h evs h2 l2 -> h1 = h2 /\ l1 = l2.
Proof.
  induction 1 as [h|h w dd k evs h' l _ IH|h m evs h' l _ IH|h e evs g1 h' l1 l2 HE HS IH]; intros es l0 HH h2 l3 H2; inversion H2; subst.
  - easy.
  - eapply IH; eauto.
  - match goal with H : StreamSays _ _ _ _ evs _ _ |- _ => destruct (IH _ _ HH _ _ H) as [-> ->] end. easy.
  - match goal with H : ElemSays _ _ _ h e ?g ?m |- _ => rename H into HE2; rename g into g2; rename m into m2 end.
    apply elem_iff in HE, HE2.
    assert (HH1 : History U FT AT (es ++ [e]) (h ++ g1) (l0 ++ l1)) by now constructor.
    assert (HH2 : History U FT AT (es ++ [e]) (h ++ g2) (l0 ++ m2)) by now constructor.
    destruct (history_det U FT AT _ _ _ _ _ HH1 HH2) as [E1 E2]. apply app_inv_head in E1, E2. subst g2 m2.
    match goal with H : StreamSays _ _ _ _ evs _ _ |- _ => destruct (IH _ _ HH1 _ _ H) as [-> ->] end. easy.
Qed.
End Tables.

(* ---- extensions that cannot be encoded ---- *)
Lemma not_latin1 e : ~ latin1_str e -> exists x, latin1_encode (no_dash e) = Exn x.
Proof.
  intros H. induction e as [|c e IH]; [destruct H; constructor|]. unfold no_dash in *. cbn [filter].
  assert (K : ~ latin1_str e -> exists x, latin1_encode (filter (fun c0 => negb (c0 =? 45)) e) = Exn x) by exact IH.
  destruct (c =? 45) eqn:E; cbn [negb].
  - apply IH. intros F. apply H. constructor; [|easy]. apply N.eqb_eq in E. lia.
  - cbn [latin1_encode]. destruct (c <? 256) eqn:EL; [|now eexists]. destruct IH as [x ->]; [|now exists x].
    intros F. apply H. constructor; [|easy]. now apply N.ltb_lt.
Qed.
Lemma no_match e v : ~ latin1_str e -> exists x, matches_extension v e = Exn x.
Proof. intros H. destruct (not_latin1 e H) as [x E]. exists x. unfold matches_extension. now rewrite E. Qed.

Section Search.
Variable ctxs : list dctx.
Hypothesis ND : NoDup (map dc_name ctxs).
Hypothesis MO : Memos ctxs.
Notation mp := match_pattern.

Lemma own_odd c e q r : ~ latin1_str e -> In c ctxs -> own_hit c (fst (sorted_patterns c)) e q = Ok r -> r = None /\ dc_exts c = [].
Proof.
  intros He Hc H. destruct (sorted_pats c (proj1 (Forall_forall _ _) MO c Hc)) as [P1 P2 P3].
  destruct (fst (sorted_patterns c)) as [|p ps].
  - cbn [own_hit] in H. split; [now injection H as <-|]. destruct (dc_exts c) as [|x l]; [easy|].
    destruct (P3 x) as (p & [] & _). now left.
  - cbn [own_hit] in H. destruct (no_match e (pv p) He) as [x E]. rewrite E in H. discriminate H.
Qed.
Lemma own_empty c e q : In c ctxs -> dc_exts c = [] -> own_hit c (fst (sorted_patterns c)) e q = Ok None.
Proof.
  intros Hc H. destruct (sorted_pats c (proj1 (Forall_forall _ _) MO c Hc)) as [P1 P2 P3].
  destruct (fst (sorted_patterns c)) as [|p ps]; [easy|]. destruct (P2 p) as (x & I & _); [now left|]. rewrite H in I. easy.
Qed.
Lemma odd_ends k : forall c e q r, ~ latin1_str e -> In c ctxs -> mp k ctxs c e q = Ok r ->
  r = None /\ forall c', Reach ctxs c c' -> dc_exts c' = [].
Proof.
  induction k as [|k IH]; [easy|]. intros c e q r He Hc H. rewrite mp_S in H.
  destruct (own_hit c (fst (sorted_patterns c)) e q) as [o| |] eqn:EO; cbn [bind] in H; try easy.
  apply own_odd in EO as [-> EX]; [|easy|easy].
  destruct (sub ctxs (fun c' => mp k ctxs c' e q) (dc_includes c)) as [[y|]| |] eqn:ES; cbn [bind] in H; try easy.
  - apply sub_split in ES as (l1 & w & r' & c1 & _ & H1 & E1 & _); [|easy]. apply IH in E1 as [E1 _]; [discriminate E1|easy|easy].
  - assert (RE : forall c', Reach ctxs c c' -> dc_exts c' = []).
    { intros c' R. inversion R as [|? c1 ? [H1 [w I]] R1]; subst; [easy|].
      assert (E1 : mp k ctxs c1 e q = Ok None) by (apply (sub_none _ _ _ (dc_name c1) w c1 ES I); now apply (find_iff ctxs ND)).
      now apply (IH c1 e q None He H1 E1). }
    split; [|easy]. destruct q as [z|t|ls]; [|now injection H as <-|now injection H as <-].
    destruct (str_eqb e (L "i")); [now injection H as <-|]. destruct r as [x|]; [|easy].
    apply (mp_sound ctxs k MO) in H as (c' & R & T); [|easy].
    destruct T as [(I & _)|(_ & _ & I & _)]; rewrite (RE c' R) in I; easy.
Qed.
Lemma empty_fine k : forall c e q x, In c ctxs -> (forall c', Reach ctxs c c' -> dc_exts c' = []) -> mp k ctxs c e q <> Exn x.
Proof.
  induction k as [|k IH]; [easy|]. intros c e q x Hc RE. rewrite mp_S, own_empty; [|easy|apply RE; constructor]. cbn [bind].
  assert (K : forall l, (forall n w, In (n, w) l -> In (n, w) (dc_includes c)) -> sub ctxs (fun c' => mp k ctxs c' e q) l <> Exn x).
  { induction l as [|[n w] l IHl]; intros HI; cbn [sub]; [easy|].
    assert (K1 : sub ctxs (fun c' => mp k ctxs c' e q) l <> Exn x) by (apply IHl; intros; apply HI; now right).
    destruct (find_ctx n ctxs) as [c'|] eqn:EF; [|easy]. apply (find_iff ctxs ND) in EF as [Hc' <-].
    assert (K2 : mp k ctxs c' e q <> Exn x).
    { apply IH; [easy|]. intros c2 R. apply RE. apply (Reach_step _ _ c'); [|easy]. split; [easy|]. exists w. apply HI. now left. }
    destruct (mp k ctxs c' e q) as [[]| |]; cbn [bind]; easy. }
  specialize (K (dc_includes c) (fun _ _ I => I)).
  destruct (sub ctxs (fun c' => mp k ctxs c' e q) (dc_includes c)) as [[]| |]; cbn [bind]; try easy.
  destruct q; try easy. destruct (str_eqb e (L "i")); [easy|]. now apply IH.
Qed.
Lemma latin1_dec e : {latin1_str e} + {~ latin1_str e}.
Proof. apply Forall_dec. intros c. destruct (c <? 256) eqn:E; [left; now apply N.ltb_lt|right; now rewrite <- N.ltb_lt, E]. Qed.
Lemma ends_iff c e q : In c ctxs -> (exists r, mp (S (2 * length ctxs)) ctxs c e q = Ok r) <-> SearchEnds ctxs c e q.
Proof.
  intros Hc. unfold SearchEnds. destruct (latin1_dec e) as [He|He].
  - destruct (returns_iff ctxs ND MO c e q He Hc) as [A B]. rewrite <- B, A. split; [now left|]. intros [[_ H]|[H _]]; easy.
  - split.
    + intros [r H]. right. split; [easy|]. pose proof (odd_ends _ c e q r He Hc H) as [-> RE]. split; [|easy].
      intros C. now apply (mp_cyclic_none ctxs c e q _ ND C) in H.
    + intros [[H _]|(_ & A & RE)]; [easy|]. pose proof (mp_acyclic ctxs c e q ND Hc A) as N1.
      pose proof (fun x => empty_fine (S (2 * length ctxs)) c e q x Hc RE) as N2.
      destruct (mp (S (2 * length ctxs)) ctxs c e q) as [r|x|]; [now exists r|now destruct (N2 x)|easy].
Qed.
End Search.

(* ---- one jump ---- *)
Lemma fmt3_inv k a b c : k = L "prio" \/ k = L "label" ->
  (exists u, format_ok [(L "context", false); (L "exten", false); (k, false)]
    [(L "context", a); (L "exten", b); (k, c)] = Ok u) -> prints a /\ prints b /\ prints c.
Proof.
  intros K [u H]. cbn -[L lookup] in H.
  assert (E1 : lookup (L "context") [(L "context", a); (L "exten", b); (k, c)] = Some a) by reflexivity.
  assert (E2 : lookup (L "exten") [(L "context", a); (L "exten", b); (k, c)] = Some b) by reflexivity.
  assert (E3 : lookup k [(L "context", a); (L "exten", b); (k, c)] = Some c) by (destruct K as [->| ->]; reflexivity).
  rewrite E1, E2, E3 in H. unfold prints.
  destruct (arg_ok false a) as [ua| |]; try discriminate H. cbn [bind] in H.
  destruct (arg_ok false b) as [ub| |]; try discriminate H. cbn [bind] in H.
  destruct (arg_ok false c) as [uc| |]; try discriminate H.
  split; [now exists ua|split; [now exists ub|now exists uc]].
Qed.
Definition jcls (c : mcls) (k : str) : Prop :=
  mdupe c = false /\ mfields c = [(L "context", false); (L "exten", false); (k, false)] /\ (k = L "prio" \/ k = L "label").
Lemma jmemit c k j a : jcls c k ->
  ((exists l, memit c (j_where j) ([(L "context", targ (j_ctx j)); (L "exten", targ (j_ext j))] ++ [(k, a)]) = (l, Ok tt)) <-> Printed [jmsg c j (k, a)]).
Proof.
  intros (D & F & K). split.
  - intros [l H]. unfold memit, emit, mw in H. rewrite D in H. cbn [List.app] in H.
    assert (G : exists u, format_ok (mfields c) [(L "context", targ (j_ctx j)); (L "exten", targ (j_ext j)); (k, a)] = Ok u).
    { exists tt. apply (f_equal snd) in H. exact H. }
    rewrite F in G. apply fmt3_inv in G as (A & B & C); [|easy].
    intros m k' a' [E|[]] I. injection E as <-. cbn [m_args] in I. destruct I as [I|[I|[I|[]]]]; injection I as <- <-; easy.
  - intros P. apply memit_ends; [easy|]. rewrite F. apply fmt3; [easy| | |]; eapply P; try (now left); cbn [m_args]; cbn; auto.
Qed.
Section Jump.
Variable d : dplan.
Hypothesis ND : NoDup (map dc_name (dp_ctxs d)).
Hypothesis MO : Memos (dp_ctxs d).
Hypothesis AL : forall s, all_label d s = true <-> all_labels (dp_ctxs d) s.
Hypothesis CL : forall c s, In c (dp_ctxs d) -> (has_label c s = true <-> ctx_labels c s).

Lemma quiet : Printed [].
Proof. intros m k a []. Qed.
Lemma jump_iff j l : check_jump (jump_fuel d) d j = (l, Ok tt) <-> JumpSays (dp_ctxs d) j l.
Proof.
  assert (J1 : jcls E_DP_GOTO_NOCONTEXT (L "prio")) by (repeat split; now left).
  assert (J2 : jcls W_DP_GOTO_CONTEXT_NOEXTEN (L "prio")) by (repeat split; now left).
  assert (J3 : jcls E_DP_GOTO_NOLABEL (L "label")) by (repeat split; now right).
  assert (J4 : jcls E_DP_GOTO_CONTEXT_NOLABEL (L "label")) by (repeat split; now right).
  pose proof (fun l => check_jump_rule d ND MO AL CL (jump_fuel d) j l) as RU.
  pose proof (report_det d ND j) as RD.
  assert (MSG : forall c k a, jcls c k -> Report (dp_ctxs d) j [jmsg c j (k, a)] ->
     forall l, memit c (j_where j) ([(L "context", targ (j_ctx j)); (L "exten", targ (j_ext j))] ++ [(k, a)]) = (l, Ok tt) <->
       Report (dp_ctxs d) j l /\ Printed l).
  { intros c k a J R l'. split.
    - intros H. assert (l' = [jmsg c j (k, a)]) as -> by (apply memit_log in H; [now rewrite H|apply J]). split; [easy|]. apply jmemit; [easy|]. now exists [jmsg c j (k, a)].
    - intros [R' P]. pose proof (RD _ _ R R') as <-. apply jmemit in P as [l2 H]; [|easy].
      assert (l2 = [jmsg c j (k, a)]) as -> by (apply memit_log in H; [now rewrite H|apply J]). exact H. }
  assert (QUIET : Report (dp_ctxs d) j [] -> forall l, @mret unit tt = (l, Ok tt) <-> Report (dp_ctxs d) j l /\ Printed l).
  { intros R l'. split; [intros H; injection H as <-; split; [easy|apply quiet]|]. intros [R' _]. now rewrite <- (RD _ _ R R'). }
  unfold JumpSays. rewrite <- (and_assoc (Report (dp_ctxs d) j l)).
  destruct (is_str (j_ctx j)) eqn:EC.
  - assert (exists n, j_ctx j = TS n) as [n Ej] by (destruct (j_ctx j) as [n| | | | | | |]; try discriminate EC; now exists n). clear EC.
    destruct (find_ctx n (dp_ctxs d)) as [c|] eqn:EF.
    + apply (find_iff _ ND) in EF as [Hc <-].
      assert (FC : find_ctx (dc_name c) (dp_ctxs d) = Some c) by now apply (find_iff _ ND).
      destruct (is_str (j_ext j)) eqn:EE.
      * assert (exists e, j_ext j = TS e) as [e Ee] by (destruct (j_ext j) as [e| | | | | | |]; try discriminate EE; now exists e). clear EE.
        assert (SE : (forall c0 e0, In c0 (dp_ctxs d) -> j_ctx j = TS (dc_name c0) -> j_ext j = TS e0 -> SearchEnds (dp_ctxs d) c0 e0 (j_prio j)) <->
          exists r, match_pattern (jump_fuel d) (dp_ctxs d) c e (j_prio j) = Ok r).
        { unfold jump_fuel. rewrite (ends_iff _ ND MO) by easy. split; [intros H; now apply H|]. intros H c0 e0 Hc0 E1 E2.
          rewrite Ej in E1. injection E1 as E1. rewrite Ee in E2. injection E2 as <-. now rewrite (same_name _ ND c c0 Hc Hc0 (eq_sym E1)). }
        rewrite SE. unfold check_jump. cbv zeta. rewrite Ej, FC, Ee at 1.
        destruct (match_pattern (jump_fuel d) (dp_ctxs d) c e (j_prio j)) as [[x|]|x|] eqn:EM; cbn [mbind mlift].
        -- assert (R : Report (dp_ctxs d) j []) by (apply (Rp_found _ _ c e x); try easy; now apply (mp_sound (dp_ctxs d) (jump_fuel d) MO)).
           rewrite <- (QUIET R l). split; [intros H; injection H as <-; split; [easy|now eexists]|]. intros [H _]. now injection H as <-.
        -- assert (R : Report (dp_ctxs d) j [jmsg W_DP_GOTO_CONTEXT_NOEXTEN j (L "prio", jarg (j_prio j))]) by (apply (Rp_missing _ _ c e); try easy; now apply (mp_none (dp_ctxs d) ND (jump_fuel d))).
           rewrite <- (MSG _ _ _ J2 R l), Ej, Ee. split; [|intros [H _]].
           ++ intros H. split; [|now eexists]. destruct (memit W_DP_GOTO_CONTEXT_NOEXTEN _ _) as [lx rx]. cbn in H |- *. exact H.
           ++ destruct (memit W_DP_GOTO_CONTEXT_NOEXTEN _ _) as [lx rx]. cbn in H |- *. exact H.
        -- split; [easy|]. intros [_ [r H]]. discriminate H.
        -- split; [easy|]. intros [_ [r H]]. discriminate H.
      * assert (SE : forall c0 e0, In c0 (dp_ctxs d) -> j_ctx j = TS (dc_name c0) -> j_ext j = TS e0 -> SearchEnds (dp_ctxs d) c0 e0 (j_prio j))
          by (intros c0 e0 _ _ E; rewrite E in EE; discriminate EE).
        assert (X : check_jump (jump_fuel d) d j = match j_prio j with
           | JTok (TS s) => if has_label c s then mret tt else memit E_DP_GOTO_CONTEXT_NOLABEL (j_where j) ([(L "context", targ (j_ctx j)); (L "exten", targ (j_ext j))] ++ [(L "label", AStr s)])
           | _ => mret tt end).
        { unfold check_jump. cbv zeta. rewrite Ej at 1. rewrite FC. destruct (j_ext j); try discriminate EE; rewrite Ej; reflexivity. }
        rewrite X. clear X.
        assert (OK : (forall s, j_prio j = JTok (TS s) -> ctx_labels c s) -> Report (dp_ctxs d) j []) by (intros H; now apply (Rp_varext_ok _ _ c)).
        assert (GOAL : forall m : M unit, (forall l, m = (l, Ok tt) <-> Report (dp_ctxs d) j l /\ Printed l) ->
           (m = (l, Ok tt) <-> (Report (dp_ctxs d) j l /\ Printed l) /\ (forall c0 e0, In c0 (dp_ctxs d) -> j_ctx j = TS (dc_name c0) -> j_ext j = TS e0 -> SearchEnds (dp_ctxs d) c0 e0 (j_prio j)))).
        { intros m H. rewrite (H l). tauto. }
        apply GOAL. clear GOAL SE. intros l'. destruct (j_prio j) as [z|[s| | | | | | |]|ls] eqn:Ep; try (apply QUIET, OK; intros s' E; discriminate E).
        destruct (has_label c s) eqn:EL.
        -- apply QUIET, OK. intros s' [= <-]. now apply CL.
        -- apply MSG; [easy|]. apply (Rp_varext_bad _ _ c s); try easy. rewrite <- CL by easy. congruence.
    + assert (SE : forall c0 e0, In c0 (dp_ctxs d) -> j_ctx j = TS (dc_name c0) -> j_ext j = TS e0 -> SearchEnds (dp_ctxs d) c0 e0 (j_prio j)).
      { intros c0 e0 H E _. rewrite Ej in E. injection E as ->. pose proof (proj1 (find_ctx_none _ _) EF c0 H) as N. now destruct N. }
      assert (X : check_jump (jump_fuel d) d j = memit E_DP_GOTO_NOCONTEXT (j_where j) ([(L "context", targ (j_ctx j)); (L "exten", targ (j_ext j))] ++ [(L "prio", jarg (j_prio j))])).
      { unfold check_jump. cbv zeta. rewrite Ej at 1. now rewrite EF. }
      rewrite X, (MSG _ _ _ J1).
      * tauto.
      * apply (Rp_noctx _ _ n); [easy|]. now apply find_ctx_none.
  - assert (SE : forall c0 e0, In c0 (dp_ctxs d) -> j_ctx j = TS (dc_name c0) -> j_ext j = TS e0 -> SearchEnds (dp_ctxs d) c0 e0 (j_prio j))
      by (intros c0 e0 _ E _; rewrite E in EC; discriminate EC).
    assert (X : check_jump (jump_fuel d) d j = match j_prio j with
       | JTok (TS s) => if all_label d s then mret tt else memit E_DP_GOTO_NOLABEL (j_where j) ([(L "context", targ (j_ctx j)); (L "exten", targ (j_ext j))] ++ [(L "label", AStr s)])
       | _ => mret tt end).
    { unfold check_jump. cbv zeta. destruct (j_ctx j); try discriminate EC; reflexivity. }
    rewrite X. clear X.
    assert (OK : (forall s, j_prio j = JTok (TS s) -> all_labels (dp_ctxs d) s) -> Report (dp_ctxs d) j []) by (intros H; now apply Rp_varctx_ok).
    assert (GOAL : forall m : M unit, (forall l, m = (l, Ok tt) <-> Report (dp_ctxs d) j l /\ Printed l) ->
       (m = (l, Ok tt) <-> (Report (dp_ctxs d) j l /\ Printed l) /\ (forall c0 e0, In c0 (dp_ctxs d) -> j_ctx j = TS (dc_name c0) -> j_ext j = TS e0 -> SearchEnds (dp_ctxs d) c0 e0 (j_prio j)))).
    { intros m H. rewrite (H l). tauto. }
    apply GOAL. clear GOAL SE. intros l'. destruct (j_prio j) as [z|[s| | | | | | |]|ls] eqn:Ep; try (apply QUIET, OK; intros s' E; discriminate E).
    destruct (all_label d s) eqn:EL.
    + apply QUIET, OK. intros s' [= <-]. now apply AL.
    + apply MSG; [easy|]. apply (Rp_varctx_bad _ _ s); try easy. rewrite <- AL. congruence.
Qed.
Lemma walk_iff js : forall l, walk_jumps (jump_fuel d) d js = (l, Ok tt) <-> exists ls, Forall2 (JumpSays (dp_ctxs d)) js ls /\ l = List.concat ls.
Proof.
  induction js as [|j js IH]; intros l; cbn [walk_jumps].
  - split.
    + intros H. injection H as <-. now exists [].
    + intros (ls & F & ->). inversion F; subst. reflexivity.
  - split.
    + intros H. apply mbind_ok in H as (l1 & [] & l2 & H1 & H2 & ->). apply IH in H2 as (ls & F & ->). apply jump_iff in H1.
      exists (l1 :: ls). split; [now constructor|easy].
    + intros (ls & F & ->). inversion F as [|? l1 ? ls' H1 H2]; subst. apply jump_iff in H1. rewrite H1. cbn [mbind].
      rewrite (proj2 (IH (List.concat ls'))) by now exists ls'. reflexivity.
Qed.
End Jump.

(* ---- the jumps of a history are determined ---- *)
Lemma jump_ext_det p o t t' : JumpExt p o t -> JumpExt p o t' -> t = t'.
Proof.
  intros H H'. inversion H as [o1 s N E|s N|t1 s r T S E F|t1 s T S E F]; subst; inversion H' as [o2 s' N' E'|s' N'|t2 s' r' T' S' E' F'|t2 s' T' S' E' F']; subst; try easy; try congruence; try match goal with
  | N : isnothing (Some ?t), T : truthy ?t = true |- _ => specialize (N t eq_refl); congruence
  | N : isnothing (Some (TS ?s)), T : ?s <> [] |- _ => specialize (N (TS s) eq_refl); now destruct s
  end; rewrite E in E'; injection E' as <-; congruence.
Qed.
Lemma jump_of_det U n p w d j j' : JumpOf U n p w d j -> JumpOf U n p w d j' -> j = j'.
Proof.
  intros (C & E & P & W) (C' & E' & P' & W'). destruct j as [a b q v], j' as [a' b' q' v']. cbn [j_ctx j_ext j_prio j_where] in *. subst v v'.
  apply (jump_ext_det _ _ _ _ E) in E'. subst b'. f_equal.
  - destruct C as [[N ->]|[T C]], C' as [[N' ->]|[T' C']]; try easy; try congruence.
    + specialize (N a' C'). congruence.
    + specialize (N' a C). congruence.
  - unfold JumpPrio in P, P'. destruct (d_prio d) as [[s| | | | | | |]|l]; try congruence.
    destruct P as [(D & z & Ez & ->)|(D & ->)], P' as [(D' & z' & Ez' & ->)|(D' & ->)]; congruence.
Qed.
Lemma forall2_det {A B} (R : A -> B -> Prop) : (forall a b b', R a b -> R a b' -> b = b') -> forall l m m', Forall2 R l m -> Forall2 R l m' -> m = m'.
Proof.
  intros D l m m' H. revert m'. induction H as [|a b l m H F IH]; intros m' H'; inversion H'; subst; [easy|]. f_equal; [now apply (D a)|now apply IH].
Qed.
Lemma jumps_det U h js js' : JumpsOf U h js -> JumpsOf U h js' -> js = js'.
Proof.
  intros (jss & F & ->) (jss' & F' & ->). f_equal. revert F F'. apply forall2_det. intros [[n x] y] s s'. apply forall2_det. intros d j j'. apply jump_of_det.
Qed.

(* ---- only names, extensions and includes of the contexts matter ---- *)
Definition SameC (c c' : dctx) : Prop := dc_name c = dc_name c' /\ dc_exts c = dc_exts c' /\ dc_includes c = dc_includes c'.
Definition Within_ (A B : list dctx) : Prop := forall c, In c A -> exists c', In c' B /\ SameC c c'.
Definition View (A B : list dctx) : Prop := NoDup (map dc_name A) /\ NoDup (map dc_name B) /\ Within_ A B /\ Within_ B A.
Lemma same_sym c c' : SameC c c' -> SameC c' c.
Proof. intros (A & B & C). now repeat split. Qed.
Lemma view_sym A B : View A B -> View B A.
Proof. intros (H1 & H2 & H3 & H4). now repeat split. Qed.
Lemma view_one A B c c' d : View A B -> In c' B -> In d B -> SameC c c' -> SameC c d -> c' = d.
Proof. intros (_ & N & _) Hc Hd (E & _) (E' & _). apply (same_name B N); [easy|easy|congruence]. Qed.
Lemma incl_view A B c c' c1 : View A B -> SameC c c' -> Incl A c c1 -> exists c1', In c1' B /\ SameC c1 c1' /\ Incl B c' c1'.
Proof.
  intros (_ & _ & W & _) S [H [w I]]. destruct (W c1 H) as (c1' & H' & S1). exists c1'. split; [easy|]. split; [easy|].
  split; [easy|]. exists w. destruct S as (_ & _ & <-). destruct S1 as (<- & _). easy.
Qed.
Lemma reach_view A B c c1 : View A B -> Reach A c c1 -> forall c', In c' B -> SameC c c' -> exists c1', In c1' B /\ SameC c1 c1' /\ Reach B c' c1'.
Proof.
  intros V. induction 1 as [c|c c1 c2 I R IH]; intros c' Hc' S.
  - exists c'. split; [easy|]. split; [easy|constructor].
  - destruct (incl_view A B c c' c1 V S I) as (c1' & H1 & S1 & I1). destruct (IH c1' H1 S1) as (c2' & H2 & S2 & R2).
    exists c2'. split; [easy|]. split; [easy|]. now apply (Reach_step _ _ c1').
Qed.
Lemma cyclic_view A B c c' : View A B -> In c' B -> SameC c c' -> Cyclic A c -> Cyclic B c'.
Proof.
  intros V Hc' S (c1 & c2 & R1 & I & R2). destruct (reach_view A B c c1 V R1 c' Hc' S) as (c1' & H1 & S1 & R1').
  destruct (incl_view A B c1 c1' c2 V S1 I) as (c2' & H2 & S2 & I'). destruct (reach_view A B c2 c1 V R2 c2' H2 S2) as (c1b & H3 & S3 & R2').
  rewrite (view_one A B c1 c1b c1' V H3 H1 S3 S1) in R2'. now exists c1', c2'.
Qed.
Lemma hit_view c c' e q x : SameC c c' -> HitIn c e q x -> HitIn c' e q x.
Proof. unfold HitIn. intros (_ & <- & _). easy. Qed.
Lemma target_view A B c c' e q x : View A B -> In c' B -> SameC c c' -> Target A c e q x -> Target B c' e q x.
Proof.
  intros V Hc' S (c1 & R & T). destruct (reach_view A B c c1 V R c' Hc' S) as (c1' & H1 & S1 & R1'). exists c1'. split; [easy|].
  destruct T as [T|(Z & N & T)]; [left|right; split; [easy|]; split; [easy|]]; now apply (hit_view c1).
Qed.
Lemma fruitless_view A B (l : list (str * loc)) e q : View A B ->
  (forall n u c1, In (n, u) l -> In c1 A -> dc_name c1 = n -> ~ Cyclic A c1 /\ forall y, ~ Target A c1 e q y) ->
  forall n u c1, In (n, u) l -> In c1 B -> dc_name c1 = n -> ~ Cyclic B c1 /\ forall y, ~ Target B c1 e q y.
Proof.
  intros V H n u c1 I H1 E. pose proof (view_sym _ _ V) as V'. destruct V as (_ & _ & _ & W). destruct (W c1 H1) as (c & Hc & S).
  destruct (H n u c I Hc) as [N1 N2]; [destruct S as (<- & _); easy|]. split.
  - intros C. apply N1. now apply (cyclic_view B A c1).
  - intros y T. apply (N2 y). now apply (target_view B A c1).
Qed.
Lemma finds_view A B e q c : View A B -> Finds A e q c -> forall c', In c' B -> SameC c c' -> Finds B e q c'.
Proof.
  intros V. pose proof (view_sym _ _ V) as V'. induction 1 as [c x H|c l w r c1 x EI H1 HN NC T|c l w r c1 EI H1 HN F IH]; intros c' Hc' S.
  - apply (Fi_own _ _ _ _ x). now apply (hit_view c).
  - pose proof V as (_ & _ & W & _). destruct (W c1 H1) as (c1' & H1' & S1). apply (Fi_below _ _ _ _ l w r c1' x).
    + destruct S as (_ & _ & <-). destruct S1 as (<- & _). easy.
    + easy.
    + now apply (fruitless_view A B l e q).
    + intros C. apply NC. apply (cyclic_view B A c1'); [easy|easy|now apply same_sym|easy].
    + now apply (target_view A B c1).
  - pose proof V as (_ & _ & W & _). destruct (W c1 H1) as (c1' & H1' & S1). apply (Fi_cycle _ _ _ _ l w r c1').
    + destruct S as (_ & _ & <-). destruct S1 as (<- & _). easy.
    + easy.
    + now apply (fruitless_view A B l e q).
    + now apply IH.
Qed.
Lemma touches_view A B c c' e : View A B -> In c' B -> SameC c c' -> Touches A c e -> Touches B c' e.
Proof.
  intros V Hc' S (c1 & x & R & H & M). destruct (reach_view A B c c1 V R c' Hc' S) as (c1' & H1 & S1 & R1). exists c1', x.
  split; [easy|]. destruct S1 as (_ & <- & _). easy.
Qed.
Lemma ends_view A B c c' e q : View A B -> In c A -> In c' B -> SameC c c' -> SearchEnds A c e q -> SearchEnds B c' e q.
Proof.
  intros V Hc Hc' S. pose proof (view_sym _ _ V) as V'. pose proof (same_sym _ _ S) as S'.
  assert (NC : ~ Cyclic A c -> ~ Cyclic B c') by (intros N C; apply N; now apply (cyclic_view B A c')).
  intros [[He R]|(He & N & RE)]; [left|right]; (split; [easy|]).
  - unfold Returns in *. destruct q as [z|t|ls].
    + destruct R as [N|F]; [left; auto|right; now apply (finds_view A B _ _ c)].
    + destruct R as [N|F]; [left; auto|right; now apply (finds_view A B _ _ c)].
    + destruct R as [N T]. split; [auto|]. intros T'. apply T. now apply (touches_view B A c').
  - split; [auto|]. intros c1 R. destruct (reach_view B A c' c1 V' R c Hc S') as (c2 & H2 & S2 & R2). destruct S2 as (_ & -> & _). now apply RE.
Qed.
Lemma all_labels_view A B s : View A B -> all_labels A s -> all_labels B s.
Proof.
  intros (_ & _ & W & _) (c & H & N & y & I & HL). destruct (W c H) as (c' & H' & S). exists c'. split; [easy|]. split; [easy|].
  exists y. destruct S as (_ & <- & _). easy.
Qed.
Lemma ctx_labels_view c c' s : SameC c c' -> ctx_labels c s -> ctx_labels c' s.
Proof. unfold ctx_labels. intros (_ & <- & _). easy. Qed.
Lemma report_view A B j l : View A B -> Report A j l -> Report B j l.
Proof.
  intros V R. pose proof (view_sym _ _ V) as V'. pose proof V as (_ & _ & W & W'). destruct R as [C H|s C P N|n C N|c Hc C E H|c s Hc C E P N|c e x Hc C E T|c e Hc C E T].
  - apply Rp_varctx_ok; [easy|]. intros s Es. apply (all_labels_view A B s V). now apply H.
  - apply Rp_varctx_bad; [easy|easy|]. intros K. apply N. now apply (all_labels_view B A).
  - apply (Rp_noctx _ _ n); [easy|]. intros c' H' E. destruct (W' c' H') as (c & H & S). apply (N c H). destruct S as (<- & _). easy.
  - destruct (W c Hc) as (c' & H' & S). pose proof S as (E1 & _). rewrite E1 in C. apply (Rp_varext_ok _ _ c'); [easy|easy|easy|].
    intros s Es. apply (ctx_labels_view c c' s S). now apply H.
  - destruct (W c Hc) as (c' & H' & S). pose proof S as (E1 & _). rewrite E1 in C. apply (Rp_varext_bad _ _ c' s); try easy.
    intros K. apply N. apply (ctx_labels_view c' c s (same_sym _ _ S) K).
  - destruct (W c Hc) as (c' & H' & S). pose proof S as (E1 & _). rewrite E1 in C. apply (Rp_found _ _ c' e x); try easy. now apply (target_view A B c).
  - destruct (W c Hc) as (c' & H' & S). pose proof S as (E1 & _). rewrite E1 in C. apply (Rp_missing _ _ c' e); try easy.
    intros x T'. apply (T x). apply (target_view B A c'); [easy|easy|now apply same_sym|easy].
Qed.
Lemma says_view A B j l : View A B -> JumpSays A j l -> JumpSays B j l.
Proof.
  intros V (R & P & E). split; [now apply (report_view A B)|]. split; [easy|]. intros c' e H' C X.
  pose proof V as (_ & _ & _ & W'). destruct (W' c' H') as (c & Hc & S). pose proof (same_sym _ _ S) as S'.
  apply (ends_view A B c c'); try easy. apply E; try easy. destruct S as (<- & _). easy.
Qed.
Lemma contexts_view U h d : Inv U h d -> View (dp_ctxs d) (contexts h).
Proof.
  intros I. pose proof (inv_describes U h d I) as D.
  assert (N : map dc_name (contexts h) = opened h) by (unfold contexts; rewrite map_map; apply map_id).
  split; [|split; [|split]].
  - apply (inv_nodup U h d I).
  - rewrite N, <- (de_names _ _ _ D). apply (inv_nodup U h d I).
  - intros c Hc. exists (DCtx (dc_name c) (Where [] 0 []) (stored_of h (dc_name c)) (includes_of h (dc_name c)) None [] None).
    split; [|split; [easy|split; [apply (de_exts _ _ _ D c Hc)|apply (de_incs _ _ _ D c Hc)]]].
    unfold contexts. apply in_map_iff. exists (dc_name c). split; [easy|]. rewrite <- (de_names _ _ _ D). now apply in_map.
  - intros c Hc. unfold contexts in Hc. apply in_map_iff in Hc as (n & <- & Hn). rewrite <- (de_names _ _ _ D) in Hn.
    apply in_map_iff in Hn as (c & <- & Hc). exists c. split; [easy|].
    split; [easy|]. cbn [dc_exts dc_includes]. split; [now rewrite (de_exts _ _ _ D c Hc)|now rewrite (de_incs _ _ _ D c Hc)].
Qed.
Lemma walk_says U h d l : Inv U h d -> walk_jump_destinations d = (l, Ok tt) <-> WalkSays U h l.
Proof.
  intros I. pose proof (inv_describes U h d I) as D. pose proof (contexts_view U h d I) as V. pose proof (view_sym _ _ V) as V'.
  destruct (inv_labels U h d I) as [AL CL].
  unfold walk_jump_destinations. rewrite (walk_iff d (inv_nodup U h d I) (inv_memos U h d I) AL CL). unfold WalkSays. split.
  - intros (ls & F & ->). exists (g_jumps (dp_glob d)), ls. split; [apply (de_jumps _ _ _ D)|]. split; [|easy].
    clear - F V. induction F; constructor; [|easy]. now apply (says_view (dp_ctxs d)).
  - intros (js & ls & J & F & ->). rewrite (jumps_det U h _ _ (de_jumps _ _ _ D) J). exists ls. split; [|easy].
    clear - F V'. induction F; constructor; [|easy]. now apply (says_view (contexts h)).
Qed.

(* ---- the end of the file ---- *)
Lemma completion_det h l l' : Completion h l -> Completion h l' -> l = l'.
Proof.
  intros [E|n r w lg lb E Lw G B] [E'|n' r' w' lg' lb' E' Lw' G' B']; try easy; try congruence.
  rewrite E in E'. injection E' as <- <-. pose proof (latest_uniq _ _ _ _ Lw Lw') as K. injection K as <-.
  f_equal; eapply misplaced_det; try eassumption; reflexivity.
Qed.
Lemma complete_ends d : exists l, on_complete d = (l, Ok tt).
Proof.
  unfold on_complete. destruct (dp_general d), (dp_globals d), (dp_ctxs d); cbn [is_some mbind mret]; eexists; reflexivity.
Qed.
Lemma complete_iff U h d l : Inv U h d -> on_complete d = (l, Ok tt) <-> Completion h l.
Proof.
  intros I. split; [now apply (complete_rule U)|]. intros H. destruct (complete_ends d) as [l' E].
  now rewrite (completion_det h l l' H (complete_rule U h d l' I E)).
Qed.

Section Whole.
Variable U : uni.
Variable FT : ftable.
Variable AT : atable.
Hypothesis HU : AsciiOk U.

Lemma plan_iff fuel fs name l d h : Inv U h d ->
  forall evs, vsw_stream (parse_file fuel fs name) = (evs, Ok tt) -> dp_stream U FT AT dp_init evs (Ok tt) = (l, Ok d) ->
  exists l2, parse_dialplan U FT AT fuel fs name = (l ++ l2, Ok d) /\ Completion h l2.
Proof.
  intros I evs E H. destruct (complete_ends d) as [l2 C]. exists l2. unfold parse_dialplan. rewrite E, H. cbn [mbind]. rewrite C. cbn. rewrite app_nil_r.
  split; [easy|]. now apply (complete_rule U h d).
Qed.
Lemma plan_sound fuel fs name l d : parse_dialplan U FT AT fuel fs name = (l, Ok d) ->
  exists evs h, vsw_stream (parse_file fuel fs name) = (evs, Ok tt) /\ PlanSays U FT AT evs h l /\ Inv U h d.
Proof.
  intros H. unfold parse_dialplan in H. destruct (vsw_stream (parse_file fuel fs name)) as [evs o].
  apply mbind_ok in H as (l1 & d1 & l2 & H1 & H2 & ->). apply mbind_ok in H2 as (l3 & [] & l4 & H2 & H3 & ->).
  injection H3 as <- <-. pose proof (stream_ok _ _ _ _ _ _ _ _ H1) as ->. rewrite app_nil_r.
  apply stream_sound with (h := []) in H1 as (h & S & I); [|easy|apply inv_init]. exists evs, h. split; [easy|]. split; [|easy].
  exists l1, l3. split; [easy|]. split; [|split; [|easy]].
  - exists (g_jumps (dp_glob d1)). apply (de_jumps _ _ _ (inv_describes U h d1 I)).
  - now apply (complete_rule U h d1).
Qed.
Lemma plan_complete fuel fs name evs h l : vsw_stream (parse_file fuel fs name) = (evs, Ok tt) -> PlanSays U FT AT evs h l ->
  exists d, parse_dialplan U FT AT fuel fs name = (l, Ok d) /\ Inv U h d.
Proof.
  intros E (l1 & l2 & S & J & C & ->).
  destruct (stream_complete U FT AT HU [] evs h l1 S J dp_init [] [] (inv_init U) (Hi_nil U FT AT)) as [d H]. exists d.
  destruct (stream_sound U FT AT HU evs dp_init [] l1 d (inv_init U) H) as (h' & S' & I).
  destruct (stream_det U FT AT HU [] evs h l1 S [] [] (Hi_nil U FT AT) h' l1 S') as [<- _]. split; [|easy].
  unfold parse_dialplan. rewrite E, H. cbn [mbind]. apply (complete_iff U h d l2 I) in C. rewrite C. cbn. now rewrite app_nil_r.
Qed.
End Whole.

(* ---- func_odbc.conf ---- *)
Lemma steps_cat es e l1 st1 l st : fo_steps [] es = (l1, Ok st1) -> fo_element st1 e = (l, Ok st) -> fo_steps [] (es ++ [e]) = (l1 ++ l, Ok st).
Proof.
  generalize (@nil ofunc). revert l1 st1. induction es as [|x es IH]; intros l1 st1 s H1 H2; cbn [fo_steps List.app] in *.
  - injection H1 as <- <-. rewrite H2. cbn. now rewrite app_nil_r.
  - apply wbind_ok in H1 as (la & sa & lb & Ha & Hb & ->). rewrite Ha. cbn [wbind]. rewrite (IH lb st1 sa Hb H2). cbn. now rewrite app_assoc.
Qed.
Lemma steps_uncat es e l1 st1 l st : fo_steps [] es = (l1, Ok st1) -> fo_steps [] (es ++ [e]) = (l1 ++ l, Ok st) -> fo_element st1 e = (l, Ok st).
Proof.
  generalize (@nil ofunc). revert l1 st1. induction es as [|x es IH]; intros l1 st1 s H1 H2; cbn [fo_steps List.app] in *.
  - injection H1 as <- <-. destruct (fo_element s e) as [la [sa|x|]]; cbn in H2; try discriminate H2. rewrite app_nil_r in H2. exact H2.
  - apply wbind_ok in H1 as (la & sa & lb & Ha & Hb & ->). rewrite Ha in H2. cbn [wbind] in H2. apply (IH lb st1 sa Hb).
    destruct (fo_steps sa (es ++ [e])) as [lc [sc|x'|]]; try discriminate H2. injection H2 as H2 ->. rewrite <- app_assoc in H2. apply app_inv_head in H2. now rewrite H2.
Qed.
Lemma odbc_sound evs : forall es l0 st l st', fo_steps [] es = (l0, Ok st) -> fo_stream st evs (Ok tt) = (l, Ok st') ->
  OdbcStream es evs l /\ exists l1, fo_steps [] (es ++ elems evs) = (l1, Ok st').
Proof.
  induction evs as [|[w dd k|m|e] evs IH]; intros es l0 st l st' H0 H; cbn [fo_stream elems flat_map List.app] in *.
  - injection H as <- <-. split; [constructor|]. exists l0. now rewrite app_nil_r.
  - destruct (IH _ _ _ _ _ H0 H) as [S R]. split; [now constructor|easy].
  - apply wbind_ok in H as (l1 & [] & l2 & E & H & ->). injection E as <-. destruct (IH _ _ _ _ _ H0 H) as [S R]. split; [now constructor|easy].
  - apply wbind_ok in H as (l1 & s1 & l2 & E & H & ->). pose proof (steps_cat _ _ _ _ _ _ H0 E) as H1.
    destruct (IH _ _ _ _ _ H1 H) as [S [l3 R]]. split.
    + apply (Od_elem _ _ _ (rev st) (rev s1) l0 l1 l2); [now apply steps_iff|now apply steps_iff|easy].
    + exists l3. change (flat_map _ evs) with (elems evs). now rewrite <- app_assoc in R.
Qed.
Lemma odbc_complete es evs l : OdbcStream es evs l -> forall l0 st, fo_steps [] es = (l0, Ok st) ->
  exists st', fo_stream st evs (Ok tt) = (l, Ok st').
Proof.
  induction 1 as [es|es w dd k evs l _ IH|es m evs l _ IH|es e evs os os' l l1 l2 R1 R2 _ IH]; intros l0 st H0; cbn [fo_stream].
  - now exists st.
  - eapply IH; eauto.
  - destruct (IH l0 st H0) as [st' E]. rewrite E. now exists st'.
  - pose proof (proj1 (steps_iff es l0 st) H0) as R0. destruct (FileRule_fun _ _ _ _ _ R0 R1) as [<- ->].
    rewrite <- (rev_involutive os') in R2. apply steps_iff in R2. pose proof (steps_uncat _ _ _ _ _ _ H0 R2) as E.
    destruct (IH _ _ R2) as [st' E']. rewrite E. cbn [wbind]. rewrite E'. now exists st'.
Qed.
Lemma load_iff fuel fs f l fns : load_func_odbc fuel fs f = (l, Ok fns) <-> OdbcSays fuel fs (Some f) fns l.
Proof.
  unfold load_func_odbc. split.
  - destruct (vsw_stream (parse_file fuel fs f)) as [evs o] eqn:E. intros H. apply wbind_ok in H as (l1 & st & l2 & H1 & H2 & ->).
    destruct (fo_stream_ok evs o [] l1 st H1) as [-> _].
    destruct (odbc_sound evs [] [] [] l1 st eq_refl H1) as [S [l3 R]]. cbn [List.app] in R. apply steps_iff in R.
    apply (Oy_file _ _ _ evs (rev st) fns l3 l1 l2); try easy. apply finish_iff; [|easy]. now apply (FileRule_good _ _ _ R).
  - intros H. inversion H as [|? evs os ? l0 l1 l2 E R S G]; subst. rewrite E. destruct (odbc_complete _ _ _ S [] [] eq_refl) as [st' H1]. rewrite H1. cbn [wbind].
    destruct (odbc_sound evs [] [] [] l1 st' eq_refl H1) as [_ [l3 R']]. cbn [List.app] in R'. apply steps_iff in R'.
    destruct (FileRule_fun _ _ _ _ _ R R') as [-> _]. apply finish_iff in G; [|now apply (FileRule_good _ _ _ R)]. now rewrite G.
Qed.
Lemma mw_ok {A} (m : W A) l a : mw m = (l, Ok a) <-> exists l', m = (l', Ok a) /\ l = map LMsg l'.
Proof.
  unfold mw. destruct m as [l' r]. cbn [fst snd]. split.
  - intros H. injection H as <- ->. now exists l'.
  - intros (l2 & H & ->). injection H as <- <-. easy.
Qed.
Lemma load_odbc_iff there fuel fs arg name l fns : load_odbc there fuel fs arg name = (l, Ok fns) <->
  exists f l', OdbcFile there name arg f /\ OdbcSays fuel fs f fns l' /\ l = map LMsg l'.
Proof.
  assert (NONE : @mret (list finfo) [] = (l, Ok fns) <-> exists l', OdbcSays fuel fs None fns l' /\ l = map LMsg l').
  { split; [intros H; injection H as <- <-; exists []; split; [constructor|easy]|]. intros (l' & H & ->). now inversion H; subst. }
  assert (SOME : forall f, mw (load_func_odbc fuel fs f) = (l, Ok fns) <-> exists l', OdbcSays fuel fs (Some f) fns l' /\ l = map LMsg l').
  { intros f. rewrite mw_ok. split; intros (l' & H & ->); exists l'; (split; [now apply load_iff|easy]). }
  unfold load_odbc. destruct arg as [[|c n]|].
  - rewrite NONE. split; [intros (l' & H); exists None, l'; split; [constructor|easy]|].
    intros (f & l' & F & H). exists l'. now inversion F; subst.
  - rewrite SOME. split; [intros (l' & H); exists (Some (c :: n)), l'; split; [constructor|easy]|].
    intros (f & l' & F & H). exists l'. now inversion F; subst.
  - destruct (there (path_join (dirname name) (L "func_odbc.conf"))) eqn:ET.
    + rewrite SOME. split; [intros (l' & H); eexists; exists l'; split; [now apply (Of_beside _ _ _ eq_refl)|easy]|].
      intros (f & l' & F & H). exists l'. inversion F as [| |p E T|T]; subst; [easy|congruence].
    + rewrite NONE. split; [intros (l' & H); exists None, l'; split; [now apply Of_none|easy]|].
      intros (f & l' & F & H). exists l'. inversion F as [| |p E T|T]; subst; [congruence|easy].
Qed.

(* ---- dialplan-check ---- *)
Theorem check_iff U FT AT there fuel fs arg name l : AsciiOk U ->
  check_run U FT AT there fuel fs arg name = (l, Ok tt) <-> CheckSays U FT AT there fuel fs arg name l.
Proof.
  intros HU. unfold check_run, show_run. split.
  - intros H. apply mbind_ok in H as (l1 & d & l3 & H & H3 & ->). apply mbind_ok in H as (l0 & fns & l2 & H1 & H2 & ->).
    apply load_odbc_iff in H1 as (f & l' & F & O & ->). apply plan_sound in H2 as (evs & h & E & P & I); [|easy].
    apply (walk_says U h d l3 I) in H3. rewrite <- app_assoc. now apply (Ck_intro _ _ _ _ _ _ _ _ f fns evs h).
  - intros H. destruct H as [f fns evs h l1 l2 l3 F O E P Wk].
    assert (H1 : load_odbc there fuel fs arg name = (map LMsg l1, Ok fns)) by (apply load_odbc_iff; now exists f, l1).
    rewrite H1. cbn [mbind]. destruct (plan_complete U (register_all U fns FT) AT HU fuel fs name evs h l2 E P) as (d & H2 & I).
    rewrite H2. cbn. apply (walk_says U h d l3 I) in Wk. rewrite Wk. now rewrite app_assoc.
Qed.
Theorem check_det U FT AT there fuel fs arg name l l' : AsciiOk U ->
  CheckSays U FT AT there fuel fs arg name l -> CheckSays U FT AT there fuel fs arg name l' -> l = l'.
Proof. intros HU H H'. apply check_iff in H, H'; [|easy|easy]. congruence. Qed.

(* ---- messages ---- *)
Definition ChosenIn (before : list lev) (ch : option str) : Prop :=
  match ch with
  | Some s => Spec_App.Accepted s /\ Reference before s /\ exists w, In (LBg s w) before
  | None => forall s w, In (LBg s w) before -> ~ Spec_App.Accepted s
  end.
Lemma reference_unique l r r' : Reference l r -> Reference l r' -> r = r'.
Proof. destruct (Reference_ex l) as (x & _ & H). intros A B. now rewrite (H r A), (H r' B). Qed.
Lemma reference_more l e r : Reference l r -> (exists s w, In (LBg s w) l /\ Spec_App.Accepted s) -> Reference (l ++ e) r.
Proof.
  intros [l1 s w l2 -> A N|N] (s' & w' & I & A').
  - apply (Rf_first _ l1 s w (l2 ++ e)); [now rewrite <- app_assoc|easy|easy].
  - now destruct (N s' w' I).
Qed.
Lemma chosen_use before ch s w : ChosenIn before ch ->
  let '(ch', ms) := bg_use ch s w in ChosenIn (before ++ [LBg s w]) ch' /\
  exists ref, Reference (before ++ [LBg s w]) ref /\
    ms = (if str_eqb ref s then [] else [Msg W_APP_BAD_CASE w None [(L "app", AStr s); (L "proper", AStr ref)]]).
Proof.
  intros H. unfold bg_use. destruct ch as [c|]; cbn [ChosenIn] in H.
  - destruct H as (A & R & w0 & I). assert (R' : Reference (before ++ [LBg s w]) c) by (apply reference_more; [easy|now exists c, w0]).
    split; [|now exists c]. split; [easy|]. split; [easy|]. exists w0. apply in_or_app. now left.
  - destruct (smem s bg_spellings) eqn:E.
    + apply accepted_iff in E. assert (R' : Reference (before ++ [LBg s w]) s) by (apply (Rf_first _ before s w []); auto).
      split; [|now exists s]. split; [easy|]. split; [easy|]. exists w. apply in_or_app. right. now left.
    + assert (NA : ~ Spec_App.Accepted s) by (rewrite <- accepted_iff; congruence).
      assert (K : forall s0 w0, In (LBg s0 w0) (before ++ [LBg s w]) -> ~ Spec_App.Accepted s0).
      { intros s0 w0 I. apply in_app_or in I as [I|[I|[]]]; [now apply (H s0 w0)|]. now injection I as <- <-. }
      split; [easy|]. exists (L "Background"). split; [now apply Rf_none|easy].
Qed.
Lemma chosen_other before ch e : (forall s w, e <> LBg s w) -> ChosenIn before ch -> ChosenIn (before ++ [e]) ch.
Proof.
  intros N H. destruct ch as [c|]; cbn [ChosenIn] in *.
  - destruct H as (A & R & w0 & I). split; [easy|]. split; [apply reference_more; [easy|now exists c, w0]|]. exists w0. apply in_or_app. now left.
  - intros s w I. apply in_app_or in I as [I|[I|[]]]; [now apply (H s w)|]. now apply N in I.
Qed.
Lemma messages_run l : forall before ch, ChosenIn before ch -> Messages before l (run_msgs ch l).
Proof.
  unfold run_msgs. induction l as [|e l IH]; intros before ch H; cbn [resolve_bg]; [constructor|].
  destruct e as [m|v w|k|k|s w].
  - specialize (IH (before ++ [LMsg m]) ch ltac:(apply chosen_other; [discriminate|exact H])). destruct (resolve_bg ch l). cbn [snd log_msgs flat_map List.app] in *. now constructor.
  - specialize (IH (before ++ [LVar v w]) ch ltac:(apply chosen_other; [discriminate|exact H])). destruct (resolve_bg ch l). cbn [snd log_msgs flat_map List.app] in *. now apply Me_other.
  - specialize (IH (before ++ [LFunc k]) ch ltac:(apply chosen_other; [discriminate|exact H])). destruct (resolve_bg ch l). cbn [snd log_msgs flat_map List.app] in *. now apply Me_other.
  - specialize (IH (before ++ [LApp k]) ch ltac:(apply chosen_other; [discriminate|exact H])). destruct (resolve_bg ch l). cbn [snd log_msgs flat_map List.app] in *. now apply Me_other.
  - pose proof (chosen_use before ch s w H) as K. destruct (bg_use ch s w) as [ch' ms]. destruct K as (H' & ref & R & ->).
    specialize (IH _ _ H'). destruct (resolve_bg ch' l) as [c' r']. cbn [snd] in *. destruct (str_eqb ref s) eqn:E.
    + apply str_eqb_eq in E. subst ref. cbn [map List.app]. now apply Me_good.
    + cbn [map List.app log_msgs flat_map]. apply Me_bad; [easy| |easy]. intros ->. now rewrite str_eqb_refl in E.
Qed.
Lemma messages_det before l ms ms' : Messages before l ms -> Messages before l ms' -> ms = ms'.
Proof.
  intros H. revert ms'. induction H as [before|before m l ms _ IH|before e l ms N1 N2 _ IH|before s w l ms R _ IH|before s w ref l ms R N _ IH]; intros ms' H';
  inversion H' as [|m1 l1 ms1 K1|e1 l1 ms1 A1 A2 K1|s1 w1 l1 ms1 R1 K1|s1 w1 ref1 l1 ms1 R1 A1 K1]; subst; try easy; try (f_equal; now apply IH); try (now apply IH);
  try (exfalso; eapply N1; reflexivity); try (exfalso; eapply N2; reflexivity); try (exfalso; eapply A1; reflexivity); try (exfalso; eapply A2; reflexivity).
  - destruct A1. now apply (reference_unique _ _ _ R1 R).
  - destruct N. now apply (reference_unique _ _ _ R R1).
  - rewrite (reference_unique _ _ _ R1 R). f_equal. now apply IH.
Qed.
Lemma messages_iff l ms : Messages [] l ms <-> run_msgs None l = ms.
Proof.
  assert (K : Messages [] l (run_msgs None l)) by (apply messages_run; intros s w []).
  split; [intros H; now apply (messages_det [] l)|intros <-; exact K].
Qed.

(* ---- the process ---- *)
Lemma shown_iff env ms ps : Formatted ms -> Shown env ms ps <-> printed env ms = ps.
Proof.
  intros F. unfold printed. split.
  - induction 1 as [|m ms ps S _ IH|m ms ps S _ IH]; [easy| |]; cbn [filter]; rewrite (F m) by now left.
    + apply muted_iff in S. rewrite S. cbn [negb]. apply IH. intros x I. apply F. now right.
    + destruct (muted env (m_cls m)) eqn:E; [now apply muted_iff in E|]. cbn [negb]. f_equal. apply IH. intros x I. apply F. now right.
  - intros <-. induction ms as [|m ms IH]; [constructor|]. cbn [filter]. rewrite (F m) by now left.
    assert (K : Formatted ms) by (intros x I; apply F; now right). destruct (muted env (m_cls m)) eqn:E; cbn [negb].
    + apply Sw_mute; [now apply muted_iff|now apply IH].
    + apply Sw_show; [rewrite <- muted_iff; congruence|now apply IH].
Qed.
Theorem process_iff U FT AT there fuel fs env arg name p : AsciiOk U -> p = dialplan_check U FT AT there fuel fs env arg name ->
  forall n, p_end p = Ok n <-> exists l, CheckSays U FT AT there fuel fs arg name l /\ Messages [] l (p_raised p) /\ Shown env (p_raised p) (p_printed p) /\
    (p_printed p = [] /\ n = 0 \/ p_printed p <> [] /\ n = 1).
Proof.
  intros HU -> n. unfold dialplan_check, process_of. cbn [p_end p_raised p_printed].
  pose proof (all_formatted U FT AT there fuel fs arg name None) as F.
  pose proof (fun l => check_iff U FT AT there fuel fs arg name l HU) as CI.
  destruct (check_run U FT AT there fuel fs arg name) as [l [[]|x|]]; cbn [fst snd bind] in *.
  - specialize (F eq_refl). change (Formatted (run_msgs None l)) in F. rewrite status_iff by easy. split.
    + intros H. injection H as <-. exists l. split; [now apply CI|]. split; [now apply messages_iff|]. split; [now apply shown_iff|].
      destruct (printed env (run_msgs None l)); [now left|now right].
    + intros (l' & _ & _ & _ & K). destruct K as [[-> ->]|[K ->]]; [easy|]. now destruct (printed env (run_msgs None l)).
  - split; [easy|]. intros (l' & H & _). apply CI in H. discriminate H.
  - split; [easy|]. intros (l' & H & _). apply CI in H. discriminate H.
Qed.
