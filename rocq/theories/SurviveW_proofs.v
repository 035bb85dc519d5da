(* Which files the linter survives (C23). *)
From Verif Require Import Base Utf8 PyStr Defines FileRd VSpace Spec_VSpace VSpace_proofs Var VarFun AppM Spec_Var Spec_VarFun Spec_App Spec_Args Spec_Crash Var_proofs VarFun_proofs Crash_proofs CrashA_proofs
  Pattern Spec_Pattern Config Dialplan Spec_Dialplan Dialplan_proofs DialplanC_proofs DialplanL_proofs DialplanJ_proofs DialplanK_proofs Spec_Search Search_proofs Spec_Survive
  Survive_proofs SurviveJ_proofs SurviveE_proofs Spec_Survive FuncOdbc Check.

(* ---- jumps can be printed and looked up ---- *)
Definition GoodJump (j : jump) : Prop :=
  printable j /\ forall e, j_ext j = TS e -> latin1_str e.

Lemma pr_prints t : Pr t -> prints (targ t).
Proof. intros [s E]. unfold prints. destruct t; cbn [targ arg_ok]; eauto; rewrite E; cbn [bind]; eauto. Qed.
Lemma land_small x : N.land x 0xff < 0x100.
Proof. change 0xff with (N.ones 8). rewrite N.land_ones. apply N.mod_upper_bound. discriminate. Qed.
Lemma example_latin1 p e : example p = Ok e -> latin1_str e.
Proof.
  unfold example, latin1_str. destruct (ptype p =? NOT_A_PATTERN).
  - destruct (forallb _ _); [|easy]. intros [= <-]. apply Forall_map, Forall_forall. intros v _. apply land_small.
  - destruct (ptype p =? IS_A_PATTERN); [|easy]. intros [= <-]. apply Forall_concat, Forall_map, Forall_forall. intros v _.
    unfold example_piece. destruct (fst v =? 98304); [repeat constructor|]. destruct (fst v =? 163840); [repeat constructor|].
    destruct (fst v =? 196608); [constructor|]. constructor; [apply land_small|constructor].
Qed.
Lemma slice_latin1 v a b : latin1_str v -> latin1_str (pyslice v a b).
Proof.
  unfold latin1_str, pyslice. cbv zeta. set (n := Z.to_nat _). set (m := Z.to_nat (clamp _ _)). intros H.
  rewrite <- (firstn_skipn m v) in H. apply Forall_app in H as [_ H]. rewrite <- (firstn_skipn n (skipn m v)) in H.
  now apply Forall_app in H as [H _].
Qed.
Lemma format_latin1 ex t : latin1_str ex -> forall s, Forall FmtE (Var_proofs.elems t) -> tformat (exten_env ex) t = Ok s -> latin1_str s.
Proof.
  intros HE.
  assert (BN : forall n v, (let! k := tformat (exten_env ex) n in match exten_env ex k with Some v => Ok v | None => Exn KeyError end) = Ok v -> latin1_str v).
  { intros n v E. destruct (tformat (exten_env ex) n) as [k| |]; cbn [bind] in E; try discriminate E. unfold exten_env in E.
    destruct (str_eqb k (L "EXTEN")); [|discriminate E]. now injection E as <-. }
  induction t using tok_ind2; intros r HF E; cbn [tformat] in E; try (eapply BN; exact E).
  - injection E as <-. rewrite elems_str, Forall_map in HF. eapply Forall_impl; [|exact HF]. intros c Hc. cbn in Hc. lia.
  - rewrite Var_proofs.elems_list in HF. revert r E HF. induction H as [|x l Hx Hl IH]; intros r E HF; [injection E as <-; constructor|].
    cbn [flat_map] in HF. apply Forall_app in HF as [H1 H2].
    destruct (tformat (exten_env ex) x) as [a| |] eqn:Ea; cbn [bind] in E; try discriminate E.
    match type of E with (let! b := ?m in _) = _ => destruct m as [b| |] eqn:Eb; cbn [bind] in E; try discriminate E end.
    injection E as <-. apply Forall_app. split; [now apply Hx|now apply IH].
  - match type of E with (let! v := ?m in _) = _ => destruct m as [v| |] eqn:Ev; cbn [bind] in E; try discriminate E end.
    apply BN in Ev. match type of E with match ?x with _ => _ end = _ => destruct x as [z|] end.
    + destruct (slice_endpos _ z); cbn [bind] in E; try discriminate E. injection E as <-. now apply slice_latin1.
    + injection E as <-. now apply slice_latin1.
  - destruct (tformat (exten_env ex) t) as [a| |]; cbn [bind] in E; try discriminate E. rewrite env_func in E. discriminate E.
  - destruct (tformat (exten_env ex) t) as [a| |]; cbn [bind] in E; try discriminate E. rewrite env_func in E. discriminate E.
Qed.

Section Tables.
Variable U : uni.
Variable FT : ftable.
Variable AT : atable.
Hypothesis HU : AsciiOk U.
Hypothesis HUF : lookup (L "unknown") FT <> None.
Hypothesis HUA : lookup (L "unknown") AT <> None.

Lemma jump_good name p w d j : DestIn FmtE d -> mk_jump U name p w d = Ok j -> GoodJump j.
Proof.
  intros (Hc & He & Hq) H. unfold mk_jump in H.
  match type of H with (let! e := ?m in _) = _ => destruct m as [e| |] eqn:EE; cbn [bind] in H; try discriminate H end.
  match type of H with (let! q := ?m in _) = _ => destruct m as [q| |] eqn:EQ; cbn [bind] in H; try discriminate H end.
  injection H as <-. unfold GoodJump, printable. cbn [j_ctx j_ext j_prio].
  assert (PE : Pr e /\ forall s, e = TS s -> latin1_str s).
  { assert (X : forall ex, example (pv p) = Ok ex -> Pr (TS ex) /\ forall s, TS ex = TS s -> latin1_str s).
    { intros ex Ex. split; [now exists ex|]. intros s [= <-]. now apply (example_latin1 (pv p)). }
    destruct (d_ext d) as [t|] eqn:Ed; [destruct (truthy t) eqn:ET|].
    - specialize (He t eq_refl). destruct t as [s| | | | | | |]; [injection EE as <-; split; [now exists s|]; intros s' [= <-];
        rewrite elems_str, Forall_map in He; eapply Forall_impl; [|exact He]; intros c Hc'; cbn in Hc'; lia|..];
      destruct (example (pv p)) as [ex| |] eqn:Ex; cbn [bind] in EE; try discriminate EE;
      match type of EE with match ?m with _ => _ end = _ => destruct m as [s|[]|] eqn:EF; try discriminate EE end; injection EE as <-;
      try (split; [now exists s|intros s' [= <-]; eapply format_latin1; [apply (example_latin1 (pv p)), Ex|exact He|exact EF]]);
      (split; [now apply pr_elems|intros s' K; discriminate K]).
    - destruct (example (pv p)) as [ex| |] eqn:Ex; cbn [bind] in EE; try discriminate EE. injection EE as <-. now apply X.
    - destruct (example (pv p)) as [ex| |] eqn:Ex; cbn [bind] in EE; try discriminate EE. injection EE as <-. now apply X. }
  split; [split; [|split]|apply PE].
  - apply pr_prints. destruct (d_ctx d) as [t|] eqn:Ed; [|now exists name]. destruct (truthy t); [|now exists name]. apply pr_elems. now apply Hc.
  - apply pr_prints, PE.
  - destruct (d_prio d) as [t|l]; [|injection EQ as <-; cbn; now exists tt].
    specialize (Hq t eq_refl). assert (K : prints (targ t)) by (now apply pr_prints, pr_elems).
    destruct t as [s| | | | | | |]; try (injection EQ as <-; exact K).
    destruct (sisdigit U s); [|injection EQ as <-; exact K]. destruct (int_of U s); cbn [bind] in EQ; try discriminate EQ. injection EQ as <-. now exists tt.
Qed.
Lemma jumps_good name p w ds : forall js, Forall (DestIn FmtE) ds -> mk_jumps U name p w ds = Ok js -> Forall GoodJump js.
Proof.
  induction ds as [|d ds IH]; intros js HF H; cbn [mk_jumps] in H; [injection H as <-; constructor|].
  destruct (mk_jump U name p w d) as [j| |] eqn:EJ; cbn [bind] in H; try discriminate H.
  destruct (mk_jumps U name p w ds) as [js'| |] eqn:EK; cbn [bind] in H; try discriminate H. injection H as <-.
  inversion HF; subst. constructor; [now apply (jump_good name p w d)|now apply IH].
Qed.
Definition Jok (d : dplan) : Prop := Forall GoodJump (g_jumps (dp_glob d)).
Lemma add_good g c x l g' c' : Forall (DestIn FmtE) (i_dests x) -> Forall GoodJump (g_jumps g) ->
  ctx_add U g c x = (l, Ok (g', c')) -> Forall GoodJump (g_jumps g').
Proof.
  intros HD HJ H. unfold ctx_add in H. apply mbind_ok in H as (l1 & r & l2 & _ & H & _).
  destruct r as [[p q]|]; [|now injection H as _ <- _].
  apply mbind_ok in H as (l3 & o & l4 & _ & H & _). destruct o as [[[label pc] labels]|]; [|now injection H as _ <- _].
  apply mbind_ok in H as (l5 & js & l6 & EJ & H & _). injection H as _ <- _. cbn [g_jumps]. apply Forall_app. split; [easy|].
  unfold mlift in EJ. injection EJ as _ EJ. eapply jumps_good; eauto.
Qed.
Lemma elem_good es d e l d' h : Inv U h d -> St es d -> SafeElem U FT AT es e -> Jok d -> on_element U FT AT d e = (l, Ok d') -> Jok d'.
Proof.
  intros I HS HE HJ H. unfold on_element in H. unfold Jok in *. destruct e as [b w|c|v].
  - now injection H as _ <-.
  - destruct (on_context d c) as [l1 [x|x|]] eqn:E; try easy. injection H as <- <-. revert E. unfold on_context.
    destruct (str_eqb (c_name c) (L "general")).
    { unfold add_general. destruct (dp_general d); intros H; apply mbind_ok in H as (? & ? & ? & _ & H & _); [easy|]. now injection H as _ <-. }
    destruct (str_eqb (c_name c) (L "globals")).
    { unfold add_globals. destruct (dp_globals d); intros H; apply mbind_ok in H as (? & ? & ? & _ & H & _); now injection H as _ <-. }
    intros H. apply mbind_ok in H as (? & ? & ? & _ & H & _). destruct (find_ctx (c_name c) (dp_ctxs d)) as [old|].
    + apply mbind_ok in H as (? & ? & ? & _ & H & _). now injection H as _ <-.
    + now injection H as _ <-.
  - destruct (on_varset U FT AT d v) as [l1 [x|x|]] eqn:E; try easy. injection H as <- <-. revert E. unfold on_varset.
    pose proof (st_cur _ _ HS) as SC. destruct (dp_cur d) as [| |n] eqn:EC.
    + intros H. apply mbind_ok in H as (? & ? & ? & _ & H & _). now injection H as _ <-.
    + intros H. now injection H as _ <-.
    + intros H. apply mbind_ok in H as (l2 & o & ? & EV & H & _). destruct o as [dv|]; [|now injection H as _ <-].
      destruct (find_ctx n (dp_ctxs d)) as [c|]; [|easy]. destruct dv as [y|i w]; [|now injection H as _ <-].
      apply mbind_ok in H as (? & [] & ? & _ & H & _). apply mbind_ok in H as (? & [g c'] & ? & EA & H & _). injection H as _ <-. cbn [dp_glob].
      eapply add_good; [|exact HJ|exact EA]. destruct SC as (c0 & HW & NP & _).
      inversion HE as [| | | | |? N|? c1 HW' HP'|? c1 HW' _ HA HL]; subst.
      * now apply within_in, N in HW.
      * rewrite (within_fun _ _ _ HW HW') in NP. contradiction.
      * eapply safe_dests; eauto.
Qed.
Lemma safe_good es : Safe U FT AT es -> forall l d, dp_steps U FT AT dp_init es = (l, Ok d) -> Jok d.
Proof.
  induction es as [|e es IH] using rev_ind; intros H l d E.
  - injection E as _ <-. constructor.
  - apply safe_snoc in H as [H1 H2]. destruct (safe_steps U FT AT HU HUF HUA es H1) as (l0 & d0 & h & E0 & I & HS).
    rewrite steps_snoc, E0 in E. cbn [mbind] in E. destruct (on_element U FT AT d0 e) as [l1 [d1| |]] eqn:E1; try discriminate E.
    injection E as _ <-. eapply elem_good; eauto.
Qed.

(* ---- the walk ---- *)
Lemma jump_exact d j : Ready U FT AT d -> GoodJump j ->
  (fine (check_jump (jump_fuel d) d j) <-> JumpReturns (dp_ctxs d) j).
Proof.
  intros R [(P1 & P2 & P3) HL]. destruct (ready_inv U FT AT d R) as [h I]. pose proof (inv_nodup U h d I) as ND.
  assert (M : forall c k a, mdupe c = false -> mfields c = [(L "context", false); (L "exten", false); (k, false)] -> k = L "prio" \/ k = L "label" -> prints a ->
     fine (memit c (j_where j) ([(L "context", targ (j_ctx j)); (L "exten", targ (j_ext j))] ++ [(k, a)]))).
  { intros c k a Hd Hf Hk Pa. destruct (memit_ends c (j_where j) ([(L "context", targ (j_ctx j)); (L "exten", targ (j_ext j))] ++ [(k, a)]) Hd) as [l E].
    - rewrite Hf. apply fmt3; auto.
    - rewrite E. exists l, tt. reflexivity. }
  assert (PS : forall s, prints (AStr s)) by (intros s; now exists tt).
  destruct (is_str (j_ctx j)) eqn:EC.
  - unfold check_jump. destruct (j_ctx j) as [n| | | | | | |] eqn:Ej; try discriminate EC. clear EC.
    destruct (find_ctx n (dp_ctxs d)) as [c|] eqn:EF.
    + apply find_ctx_in in EF as [Hc <-].
      assert (ONE : forall c' : dctx, In c' (dp_ctxs d) -> TS (dc_name c) = TS (dc_name c') -> c' = c).
      { intros c' Hc' [= E]. now apply (same_name (dp_ctxs d) ND). }
      destruct (is_str (j_ext j)) eqn:EE.
      * destruct (j_ext j) as [e| | | | | | |] eqn:Ee; try discriminate EE. clear EE. specialize (HL e eq_refl).
        pose proof (ready_returns U FT AT d c e (j_prio j) R Hc HL) as RR.
        assert (JR : JumpReturns (dp_ctxs d) j <-> Returns (dp_ctxs d) c e (j_prio j)).
        { unfold JumpReturns. rewrite Ej, Ee. split; [intros H; now apply H|]. intros H c' e' Hc' E1 [= <-]. now rewrite (ONE c' Hc' E1). }
        rewrite JR, <- RR. split.
        -- intros F. apply fine_bind_inv in F as (l & r & F & _). unfold mlift in F. injection F as _ F. now exists r.
        -- intros [r E]. rewrite E. apply fine_bind; [now apply (fine_lift _ r)|]. intros l o Eo. destruct o; [apply fine_ret|].
           apply M; auto.
      * assert (JR : JumpReturns (dp_ctxs d) j) by (intros c' e' _ _ E; rewrite E in EE; discriminate EE).
        split; [easy|]. intros _.
        assert (K : fine match j_prio j with JTok (TS s) => if has_label c s then mret tt else memit E_DP_GOTO_CONTEXT_NOLABEL (j_where j) ([(L "context", targ (TS (dc_name c))); (L "exten", targ (j_ext j))] ++ [(L "label", AStr s)]) | _ => mret tt end).
        { destruct (j_prio j) as [z|[s| | | | | | |]|ls]; try apply fine_ret. destruct (has_label c s); [apply fine_ret|]. apply M; auto. }
        destruct (j_ext j); try discriminate EE; exact K.
    + rewrite find_ctx_none in EF. split; [intros _ c e Hc E; rewrite Ej in E; injection E as ->; now destruct (EF c)|]. intros _. apply M; auto.
  - split; [intros _ c e _ E; rewrite E in EC; discriminate EC|]. intros _. unfold check_jump.
    assert (K : fine match j_prio j with JTok (TS s) => if all_label d s then mret tt else memit E_DP_GOTO_NOLABEL (j_where j) ([(L "context", targ (j_ctx j)); (L "exten", targ (j_ext j))] ++ [(L "label", AStr s)]) | _ => mret tt end).
    { destruct (j_prio j) as [z|[s| | | | | | |]|ls]; try apply fine_ret. destruct (all_label d s); [apply fine_ret|]. apply M; auto. }
    destruct (j_ctx j); try discriminate EC; exact K.
Qed.
Lemma walk_exact d : Ready U FT AT d -> Jok d ->
  (fine (walk_jump_destinations d) <-> Forall (JumpReturns (dp_ctxs d)) (g_jumps (dp_glob d))).
Proof.
  intros R. unfold Jok, walk_jump_destinations. induction (g_jumps (dp_glob d)) as [|j js IH]; intros HJ; cbn [walk_jumps].
  - split; [constructor|intros _; apply fine_ret].
  - inversion HJ; subst. rewrite Forall_cons_iff, <- (jump_exact d j), <- IH by easy. split.
    + intros F. apply fine_bind_inv in F as (l & [] & F1 & F2). split; [now exists l, tt|easy].
    + intros [F1 F2]. apply fine_bind; [easy|]. now intros.
Qed.

(* ---- the stream of elements ---- *)
Lemma stream_fine evs : forall d, fine (dp_stream U FT AT d evs (Ok tt)) <-> fine (dp_steps U FT AT d (Spec_Dialplan.elems evs)).
Proof.
  induction evs as [|ev evs IH]; intros d; cbn [dp_stream Spec_Dialplan.elems flat_map]; [split; intros _; apply fine_ret|].
  destruct ev as [w t b|m|e]; cbn [List.app].
  - apply IH.
  - rewrite <- IH. split.
    + intros F. now apply fine_bind_inv in F as (l & [] & _ & F).
    + intros F. apply fine_bind; [now exists [LMsg m], tt|]. now intros.
  - cbn [dp_steps]. split.
    + intros F. apply fine_bind_inv in F as (l & d' & F1 & F2). apply fine_bind; [now exists l, d'|]. intros l2 d2 E. rewrite F1 in E. injection E as _ <-. now apply IH.
    + intros F. apply fine_bind_inv in F as (l & d' & F1 & F2). apply fine_bind; [now exists l, d'|]. intros l2 d2 E. rewrite F1 in E. injection E as _ <-. now apply IH.
Qed.

(* ---- empty lines do not matter ---- *)
Definition keep (e : Config.elem) : bool := negb (is_blank e).
Lemma keep_in c es : In (ECtx c) (filter keep es) <-> In (ECtx c) es.
Proof. rewrite filter_In. cbn. tauto. Qed.
Lemma within_snoc es e c : Within (es ++ [e]) c <-> e = ECtx c \/ ((forall c', e <> ECtx c') /\ Within es c).
Proof.
  split.
  - intros (a & b & E & N). destruct b as [|y b _] using rev_ind.
    + apply app_inj_tail in E as [_ ->]. now left.
    + right. rewrite app_comm_cons, app_assoc in E. apply app_inj_tail in E as [-> ->]. split; [intros c' ->; apply (N c'); apply in_snoc; now right|].
      exists a, b. split; [easy|]. intros c' H. apply (N c'). apply in_snoc. now left.
  - intros [->|[N H]]; [apply within_last|now apply within_other].
Qed.
Lemma within_keep es c : Within (filter keep es) c <-> Within es c.
Proof.
  induction es as [|e es IH] using rev_ind; [reflexivity|]. rewrite filter_app. cbn [filter]. destruct e as [b w|c0|v]; cbn [keep is_blank negb].
  - rewrite app_nil_r, within_snoc, IH. split; [intros H; right; easy|]. intros [H|[_ H]]; easy.
  - rewrite !within_snoc, IH. reflexivity.
  - rewrite !within_snoc, IH. reflexivity.
Qed.
Lemma seen_keep es n : Seen (filter keep es) n <-> Seen es n.
Proof. unfold Seen. split; intros (c & H & E); exists c; (split; [|easy]); now apply keep_in. Qed.
Lemma safe_elem_keep es e : SafeElem U FT AT (filter keep es) e <-> SafeElem U FT AT es e.
Proof.
  split; intros H; destruct H as [b w|c E N|c E|c NP N|c NP E1 E2|v N|v c HW HP|v c HW NP HA HL].
  - apply Se_empty.
  - apply Se_general; [easy|]. now rewrite <- seen_keep.
  - now apply Se_globals.
  - apply Se_first; [easy|]. now rewrite <- seen_keep.
  - now apply Se_again.
  - apply Se_outside. intros c H. apply (N c). now apply keep_in.
  - apply (Se_plain _ _ _ _ v c); [now apply within_keep|easy].
  - apply (Se_line _ _ _ _ v c); try easy. now apply within_keep.
  - apply Se_empty.
  - apply Se_general; [easy|]. now rewrite seen_keep.
  - now apply Se_globals.
  - apply Se_first; [easy|]. now rewrite seen_keep.
  - now apply Se_again.
  - apply Se_outside. intros c H. apply (N c). now apply keep_in.
  - apply (Se_plain _ _ _ _ v c); [now apply within_keep|easy].
  - apply (Se_line _ _ _ _ v c); try easy. now apply within_keep.
Qed.
Lemma safe_keep es : Safe U FT AT (filter keep es) <-> Safe U FT AT es.
Proof.
  induction es as [|e es IH] using rev_ind; [reflexivity|]. rewrite filter_app. cbn [filter]. rewrite safe_snoc. destruct (keep e) eqn:K.
  - now rewrite safe_snoc, IH, safe_elem_keep.
  - rewrite app_nil_r, IH. split; [|easy]. intros H. split; [easy|]. destruct e; try discriminate K. apply Se_empty.
Qed.
Notation Usual := (Usual U FT AT).
Lemma usual_snoc es e : Usual (es ++ [e]) <-> Usual es /\ ~ OddElem U FT AT es e.
Proof.
  unfold Usual. split.
  - intros H. split; [|now apply (H es e [])]. intros a x b E. apply (H a x (b ++ [e])). now rewrite E, <- app_assoc.
  - intros [H1 H2] a x b E. destruct b as [|y b] using rev_ind; [apply app_inj_tail in E as [-> ->]; easy|].
    rewrite app_comm_cons, app_assoc in E. apply app_inj_tail in E as [E _]. eapply H1; eauto.
Qed.
Lemma usual_keep es : Usual (filter keep es) <-> Usual es.
Proof.
  induction es as [|e es IH] using rev_ind; [reflexivity|]. rewrite filter_app. cbn [filter]. rewrite usual_snoc. 
  assert (O : OddElem U FT AT (filter keep es) e <-> OddElem U FT AT es e).
  { split; intros (v & c & -> & HW & H); exists v, c; (split; [easy|]); (split; [now apply within_keep|easy]). }
  destruct (keep e) eqn:K.
  - now rewrite usual_snoc, IH, O.
  - rewrite app_nil_r, IH. split; [|easy]. intros H. split; [easy|]. destruct e; try discriminate K. now intros (v & c & E & _).
Qed.
Lemma keep_elems evs : filter keep (Spec_Dialplan.elems evs) = Spec_Dialplan.elems (filter essential evs).
Proof.
  induction evs as [|ev evs IH]; [easy|]. unfold Spec_Dialplan.elems in *. cbn [flat_map]. rewrite filter_app, IH.
  destruct ev as [w t b|m|e]; cbn [filter essential]; [easy|destruct (negb (is_wsv m)); easy|]. unfold keep. now destruct (is_blank e).
Qed.

(* ---- the file ---- *)
Lemma complete_fine d : fine (on_complete d).
Proof.
  unfold on_complete. destruct (dp_ctxs d) as [|c cs].
  - destruct (dp_general d), (dp_globals d); eexists _, _; reflexivity.
  - destruct (dp_general d), (dp_globals d); eexists _, _; reflexivity.
Qed.
Lemma parse_fine fuel fs name : fine (parse_dialplan U FT AT fuel fs name) <->
  exists evs, vsw_stream (parse_file fuel fs name) = (evs, Ok tt) /\ fine (dp_steps U FT AT dp_init (Spec_Dialplan.elems evs)).
Proof.
  unfold parse_dialplan. destruct (vsw_stream (parse_file fuel fs name)) as [evs o]. split.
  - intros F. apply fine_bind_inv in F as (l & d & F & _). pose proof (stream_ok _ _ _ _ _ _ _ _ F) as ->. exists evs. split; [easy|].
    apply stream_fine. now exists l, d.
  - intros (evs' & [= <- ->] & F). apply stream_fine in F. apply fine_bind; [easy|]. intros l d _. apply fine_bind; [apply complete_fine|].
    intros; apply fine_ret.
Qed.
Lemma file_safe fuel fs name evs : parse_file fuel fs name = (evs, Ok tt) -> Safe U FT AT (Spec_Dialplan.elems evs) ->
  exists l d, parse_dialplan U FT AT fuel fs name = (l, Ok d) /\ Jok d.
Proof.
  intros E HS. pose proof (ess_stream (parse_file fuel fs name)) as [K1 K2]. destruct (vsw_stream (parse_file fuel fs name)) as [evs' o] eqn:EV.
  rewrite E in K1, K2. cbn [fst snd] in K1, K2. subst o.
  assert (HS' : Safe U FT AT (Spec_Dialplan.elems evs')) by (apply safe_keep; now rewrite keep_elems, K1, <- keep_elems, safe_keep).
  destruct (safe_steps U FT AT HU HUF HUA _ HS') as (l & d & h & ES & _).
  assert (F : fine (parse_dialplan U FT AT fuel fs name)) by (apply parse_fine; exists evs'; rewrite EV; split; [easy|now exists l, d]).
  destruct F as (l1 & d1 & F). exists l1, d1. split; [easy|]. unfold parse_dialplan in F. rewrite EV in F.
  apply mbind_ok in F as (l2 & d2 & l3 & F1 & F2 & _). apply mbind_ok in F2 as (l4 & [] & l5 & _ & F2 & _). injection F2 as _ <-.
  apply stream_steps in F1 as (l' & F1 & _). now apply (safe_good (Spec_Dialplan.elems evs') HS' l').
Qed.
Lemma file_fails fuel fs name evs : parse_file fuel fs name = (evs, Ok tt) -> Usual (Spec_Dialplan.elems evs) -> ~ Safe U FT AT (Spec_Dialplan.elems evs) ->
  ~ fine (parse_dialplan U FT AT fuel fs name).
Proof.
  intros E HO HN F. apply parse_fine in F as (evs' & EV & F). pose proof (ess_stream (evs, Ok tt)) as [K1 K2]. rewrite <- E, EV in K1. cbn [fst] in K1. rewrite E in K1. cbn [fst] in K1.
  assert (HO' : Usual (Spec_Dialplan.elems evs')) by (apply usual_keep; now rewrite keep_elems, K1, <- keep_elems, usual_keep).
  destruct (elems_cases U FT AT HU HUF HUA _ HO') as [HS|(a & e & b & EE & HS & HF)].
  - apply HN, safe_keep. rewrite keep_elems, <- K1, <- keep_elems. now apply safe_keep.
  - destruct (fails_steps U FT AT HU HUF HUA a e b HS HF) as (l & r & ES & Hr). rewrite <- EE in ES. destruct F as (l' & d & F). rewrite ES in F.
    injection F as _ ->. destruct Hr; discriminate.
Qed.
Lemma file_unread fuel fs name : snd (parse_file fuel fs name) <> Ok tt -> ~ fine (parse_dialplan U FT AT fuel fs name).
Proof.
  intros N F. apply parse_fine in F as (evs' & EV & _). pose proof (ess_stream (parse_file fuel fs name)) as [_ K]. rewrite EV in K. cbn in K. now rewrite <- K in N.
Qed.
End Tables.

(* ---- the process ---- *)
Lemma process_fine {A} env (m : M A) : (exists n, p_end (process_of env m) = Ok n) <-> fine m.
Proof.
  unfold process_of. destruct m as [l [a|e|]]; cbn [p_end fst snd bind].
  - split; [intros _; now exists l, a|intros _; eauto].
  - split; [intros [n H]; discriminate H|intros (l' & a & H); discriminate H].
  - split; [intros [n H]; discriminate H|intros (l' & a & H); discriminate H].
Qed.
Lemma register_unknown U fns FT : lookup (L "unknown") FT <> None -> lookup (L "unknown") (register_all U fns FT) <> None.
Proof.
  unfold register_all. revert FT. induction fns as [|f fns IH]; intros FT H; cbn [fold_left]; [easy|]. apply IH. cbn [lookup].
  destruct (str_eqb (L "unknown") (u_lower U (VarFun.f_name f))); [discriminate|easy].
Qed.
