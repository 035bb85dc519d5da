(* C69: the VoIPGRID reader (C67) under what is said of a dialplan (C68), without fuel. *)
From Verif Require Import Base PyStr Defines FileRd Config VSpace VarFun AppM Dialplan Spec_VarFun Spec_Dialplan FuncOdbc Spec_FuncOdbc Check Spec_Check Spec_Run
  Run_proofs Spec_Whole Whole_proofs Vg VgRead VgPlan VgCheck VgWhole Spec_VgCheck Spec_VgWhole.
From Verif Require Spec_Reader Spec_VgRead VgRead_proofs VgCheck_proofs Spaced_proofs Log_proofs.
Import Spec_VgRead.

Lemma loop_more fs n : forall stk ff prev evs o, vg_loop n fs stk ff prev = (evs, o) -> o <> Hang -> vg_loop (S n) fs stk ff prev = (evs, o).
Proof.
  induction n as [|n IH]; intros stk ff prev evs o E NH; [injection E as _ <-; easy|].
  destruct stk as [|[name no [|b bs]] stk].
  - exact E.
  - change (vg_loop (S n) fs stk ff prev = (evs, o)). apply IH; [exact E|easy].
  - rewrite VgRead_proofs.loop_step in E |- *. cbv zeta in *. destruct (vg_raw ff (Where name (no + 1) b) b) as [ms [[ff' s]|e|]]; try exact E.
    destruct (VgRead_proofs.step fs prev (Where name (no + 1) b) s) as [ev [[prev' fr]|e|]]; try exact E.
    destruct (vg_loop n fs (fr ++ Frame name (no + 1) bs :: stk) ff' prev') as [l2 o2] eqn:E2. cbn [fst snd] in E. injection E as <- <-.
    now rewrite (IH _ _ _ _ _ E2 NH).
Qed.
Lemma parse_more fs name n evs o : vg_parse_file n fs name = (evs, o) -> o <> Hang -> forall m, (n <= m)%nat -> vg_parse_file m fs name = (evs, o).
Proof.
  intros E NH m H. induction H as [|m H IH]; [exact E|]. unfold vg_parse_file in *. destruct (open_frame fs name); try exact IH. now apply loop_more.
Qed.
Lemma reads_eventually fs name text evs o : VgReads fs name text evs o -> o <> Hang /\ Eventually (fun fuel => vg_parse_file fuel fs name = (evs, o)).
Proof.
  intros H. destruct (proj1 (VgRead_proofs.vg_reads_iff fs name evs o) (ex_intro _ text H)) as (NH & k & E). split; [easy|]. exists k. intros fuel. now apply parse_more.
Qed.
Theorem vg_hangs fs name : (forall fuel, snd (vg_parse_file fuel fs name) = Hang) <-> forall text evs o, ~ VgReads fs name text evs o.
Proof.
  split.
  - intros H text evs o R. apply reads_eventually in R as (NH & k & K). specialize (H k). rewrite (K k) in H by lia. now apply NH.
  - intros H fuel. destruct (vg_parse_file fuel fs name) as [evs o] eqn:E. cbn [snd].
    assert (X : o <> Hang -> False).
    { intros NH. destruct (proj2 (VgRead_proofs.vg_reads_iff fs name evs o) (conj NH (ex_intro _ fuel E))) as [text R]. exact (H _ _ _ R). }
    destruct o; [exfalso; apply X; discriminate|exfalso; apply X; discriminate|reflexivity].
Qed.

Lemma vg_stream_eventually fs name evs o : VgStream fs name evs o -> Eventually (fun fuel => vsw_stream (vg_parse_file fuel fs name) = (evs, o)).
Proof.
  intros [text es out st g R S A|text es out st e R S]; apply reads_eventually in R as (_ & k & K); exists k; intros fuel H; rewrite (K fuel H).
  - apply Spaced_proofs.vsw_ok. now exists out, st, g.
  - apply Spaced_proofs.vsw_fails. now exists st.
Qed.
Lemma vg_stream_iff fs name evs o : VgStream fs name evs o <-> o <> Hang /\ exists fuel, vsw_stream (vg_parse_file fuel fs name) = (evs, o).
Proof.
  split.
  - intros H. split; [now destruct H|]. destruct (vg_stream_eventually _ _ _ _ H) as [k K]. exists k. now apply K.
  - intros (N & fuel & E). pose proof (vsw_outcome (vg_parse_file fuel fs name)) as O. rewrite E in O. cbn [snd] in O.
    destruct (vg_parse_file fuel fs name) as [es o'] eqn:P. cbn [snd] in O. subst o'.
    destruct (proj2 (VgRead_proofs.vg_reads_iff fs name es o)) as [text R]; [split; [easy|now exists fuel]|].
    destruct o as [[]|e|]; [| |easy].
    + apply Spaced_proofs.vsw_ok in E as (o & st & g & S & A & ->). now apply (Vs_ok fs name text es o st g).
    + apply Spaced_proofs.vsw_fails in E as (st & S). now apply (Vs_fails fs name text es evs st e).
Qed.
Lemma vg_stream_det fs name evs o evs' o' : VgStream fs name evs o -> VgStream fs name evs' o' -> evs = evs' /\ o = o'.
Proof.
  intros H H'. destruct (vg_stream_eventually _ _ _ _ H) as [k K]. destruct (vg_stream_eventually _ _ _ _ H') as [k' K'].
  specialize (K (k + k')%nat ltac:(lia)). specialize (K' (k + k')%nat ltac:(lia)). rewrite K in K'. now injection K' as <- <-.
Qed.

Lemma vg_odbc_eventually fs f fns l : VgWholeOdbc fs f fns l -> Eventually (fun fuel => VgOdbcSays fuel fs f fns l).
Proof.
  intros [|n evs os fs' l0 l1 l2 S F O R]; [exists O; constructor|].
  destruct (vg_stream_eventually _ _ _ _ S) as [k K]. exists k. intros fuel H. now apply (Vo_file fuel fs n evs os fs' l0 l1 l2 (K fuel H)).
Qed.
Lemma vg_odbc_whole fuel fs f fns l : VgOdbcSays fuel fs f fns l -> VgWholeOdbc fs f fns l.
Proof.
  intros [|n evs os fs' l0 l1 l2 E F O R]; [constructor|]. apply (Vw_file fs n evs os fs' l0 l1 l2); try easy. apply vg_stream_iff. split; [easy|now exists fuel].
Qed.
Lemma vg_check_eventually U FT AT there fs arg name l : VgWholeSays U FT AT there fs arg name l -> Eventually (fun fuel => VgCheckSays U FT AT there fuel fs arg name l).
Proof.
  intros [f fns evs fr h l1 l2 l3 F O E P Wk]. destruct (vg_odbc_eventually _ _ _ _ O) as [k1 K1]. destruct (vg_stream_eventually _ _ _ _ E) as [k2 K2].
  exists (k1 + k2)%nat. intros fuel H. apply (Vk_intro _ _ _ _ _ _ _ _ f fns evs fr h); try easy; [apply K1; lia|apply K2; lia].
Qed.
Lemma vg_check_whole U FT AT there fuel fs arg name l : VgCheckSays U FT AT there fuel fs arg name l -> VgWholeSays U FT AT there fs arg name l.
Proof.
  intros [f fns evs fr h l1 l2 l3 F O E P Wk]. apply (Vw_intro _ _ _ _ _ _ _ f fns evs fr h); try easy; [now apply (vg_odbc_whole fuel)|].
  apply vg_stream_iff. split; [easy|now exists fuel].
Qed.
Lemma vg_whole_det U FT AT there fs arg name l l' : AsciiOk U -> VgWholeSays U FT AT there fs arg name l -> VgWholeSays U FT AT there fs arg name l' -> l = l'.
Proof.
  intros HU H H'. destruct (vg_check_eventually _ _ _ _ _ _ _ _ H) as [k K]. destruct (vg_check_eventually _ _ _ _ _ _ _ _ H') as [k' K'].
  apply (VgCheck_proofs.vg_check_det U FT AT there (k + k') fs arg name); [easy|apply K; lia|apply K'; lia].
Qed.
Lemma vg_whole_iff U FT AT there fs arg name l : AsciiOk U ->
  VgWholeSays U FT AT there fs arg name l <-> exists fuel, vg_check_run U FT AT there fuel fs arg name = (l, Ok tt).
Proof.
  intros HU. split.
  - intros H. destruct (vg_check_eventually _ _ _ _ _ _ _ _ H) as [k K]. exists k. apply VgCheck_proofs.vg_check_iff; [easy|]. now apply K.
  - intros [fuel H]. apply VgCheck_proofs.vg_check_iff in H; [|easy]. now apply (vg_check_whole _ _ _ _ fuel).
Qed.

(* ---- processes ---- *)
Theorem vg_whole_process U FT AT there fs env arg name ms ps n : AsciiOk U ->
  (exists fuel, vg_dialplan_check U FT AT there fuel fs env arg name = Process ms ps (Ok n)) <->
  exists l, VgWholeSays U FT AT there fs arg name l /\ Ends ms ps n env l.
Proof.
  intros HU. unfold vg_dialplan_check. split.
  - intros [fuel H]. pose proof (VgCheck_proofs.vg_formatted U FT AT there fuel fs arg name None) as F.
    pose proof (fun l => VgCheck_proofs.vg_check_iff U FT AT there fuel fs arg name l HU) as CI.
    destruct (vg_check_run U FT AT there fuel fs arg name) as [l [[]|x|]]; [|discriminate H..].
    apply (process_ends env l ms ps n tt) in H; [|exact (F eq_refl)]. exists l. split; [|easy]. apply (vg_check_whole _ _ _ _ fuel). now apply CI.
  - intros (l & H & K). apply vg_whole_iff in H as [fuel H]; [|easy]. exists fuel. pose proof (VgCheck_proofs.vg_formatted U FT AT there fuel fs arg name None) as F.
    rewrite H in *. apply process_ends; [exact (F eq_refl)|easy].
Qed.
Lemma vg_odbc_formatted fuel fs name : (exists a, snd (mw (vg_load_func_odbc fuel fs name)) = Ok a) -> Check_proofs.Formatted (run_msgs None (fst (mw (vg_load_func_odbc fuel fs name)))).
Proof.
  intros [a E]. pose proof (proj2 (VgCheck_proofs.vg_p2_all uni_ascii [] [] fuel fs name)) as F. unfold Log_proofs.inv, Check_proofs.P2 in F. rewrite E in F. specialize (F (or_introl eq_refl)).
  rewrite Forall_forall in F. intros m. apply (Check_proofs.run_msgs_ok (fun m => format_ok (mfields (m_cls m)) (m_args m) = Ok tt)); [|reflexivity]. intros m' H. exact (F _ H).
Qed.
Theorem vg_whole_odbc fs env name ms ps n : (exists fuel, vg_odbc_check fuel fs env name = Process ms ps (Ok n)) <->
  exists fns l, VgWholeOdbc fs (Some name) fns l /\ Ends ms ps n env (map LMsg l).
Proof.
  unfold vg_odbc_check. split.
  - intros [fuel H]. pose proof (vg_odbc_formatted fuel fs name) as F. destruct (vg_load_func_odbc fuel fs name) as [l [fns|x|]] eqn:E; [|discriminate H..].
    change (mw (l, Ok fns)) with (map LMsg l, Ok fns) in *. apply process_ends in H; [|apply F; now exists fns].
    exists fns, l. split; [|easy]. apply (vg_odbc_whole fuel). now apply VgCheck_proofs.vg_load_iff.
  - intros (fns & l & H & K). destruct (vg_odbc_eventually _ _ _ _ H) as [k E]. specialize (E k (le_n k)). apply VgCheck_proofs.vg_load_iff in E.
    exists k. pose proof (vg_odbc_formatted k fs name) as F. rewrite E in *. change (mw (l, Ok fns)) with (map LMsg l, Ok fns) in *.
    apply process_ends; [apply F; now exists fns|easy].
Qed.
