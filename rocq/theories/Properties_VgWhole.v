(* Final theorems about vg dialplan-check and vg func_odbc-check from the bytes of the files to the text: C69. *)
From Verif Require Import Base PyStr Defines FileRd Config Var VarFun AppM Dialplan Spec_VarFun FuncOdbc Check Check_proofs Spec_Check Spec_Run Run_proofs
  Spec_Whole Whole_proofs Tables Report Spec_Report Report_proofs VSpace VgRead VgCheck VgWhole Spec_VgCheck Spec_VgRead Spec_VgWhole VgCheck_proofs VgWhole_proofs.
From Verif Require VgRead_proofs Properties_VgCheck FlatT_proofs FlatV_proofs.

(* The stream that the commands get: the lines of C67 with the messages about empty lines. *)
Theorem C69_stream : forall fs name evs o,
  VgStream fs name evs o <-> o <> Hang /\ exists fuel, vsw_stream (vg_parse_file fuel fs name) = (evs, o).
Proof. exact vg_stream_iff. Qed.
Print Assumptions C69_stream.
Theorem C69_stream_determined : forall fs name evs o evs' o', VgStream fs name evs o -> VgStream fs name evs' o' -> evs = evs' /\ o = o'.
Proof. exact vg_stream_det. Qed.
Print Assumptions C69_stream_determined.
Theorem C69_hangs : forall fs name, (forall fuel, snd (vg_parse_file fuel fs name) = Hang) <-> forall text evs o, ~ VgReads fs name text evs o.
Proof. exact vg_hangs. Qed.
Print Assumptions C69_hangs.

(* vg dialplan-check *)
Theorem C69_check : forall U FT AT there fs arg name l, AsciiOk U ->
  VgWholeSays U FT AT there fs arg name l <-> exists fuel, vg_check_run U FT AT there fuel fs arg name = (l, Ok tt).
Proof. exact vg_whole_iff. Qed.
Print Assumptions C69_check.
Theorem C69_determined : forall U FT AT there fs arg name l l', AsciiOk U ->
  VgWholeSays U FT AT there fs arg name l -> VgWholeSays U FT AT there fs arg name l' -> l = l'.
Proof. exact vg_whole_det. Qed.
Print Assumptions C69_determined.
Theorem C69_process : forall U FT AT there fs env arg name ms ps n, AsciiOk U ->
  (exists fuel, vg_dialplan_check U FT AT there fuel fs env arg name = Process ms ps (Ok n)) <->
  exists l, VgWholeSays U FT AT there fs arg name l /\ Ends ms ps n env l.
Proof. exact vg_whole_process. Qed.
Print Assumptions C69_process.
(* vg func_odbc-check *)
Theorem C69_odbc_process : forall fs env name ms ps n,
  (exists fuel, vg_odbc_check fuel fs env name = Process ms ps (Ok n)) <->
  exists fns l, VgWholeOdbc fs (Some name) fns l /\ Ends ms ps n env (map LMsg l).
Proof. exact vg_whole_odbc. Qed.
Print Assumptions C69_odbc_process.

(* Everything on stderr. *)
Lemma vg_ended U FT AT there fuel fs env arg name ms ps n :
  vg_dialplan_check U FT AT there fuel fs env arg name = Process ms ps (Ok n) -> Formatted ms /\ printed env ms = ps.
Proof.
  unfold vg_dialplan_check, process_of. destruct (snd (vg_check_run U FT AT there fuel fs arg name)) as [[]| |] eqn:E; cbn [bind]; try discriminate.
  intros [= <- <- _]. split; [|easy]. exact (vg_formatted U FT AT there fuel fs arg name None E).
Qed.
Lemma vg_odbc_ended fuel fs env name ms ps n : vg_odbc_check fuel fs env name = Process ms ps (Ok n) -> Formatted ms /\ printed env ms = ps.
Proof.
  unfold vg_odbc_check, process_of. destruct (snd (mw (vg_load_func_odbc fuel fs name))) as [a| |] eqn:E; cbn [bind]; try discriminate.
  intros [= <- <- _]. split; [|easy]. apply vg_odbc_formatted. now exists a.
Qed.
Theorem C69_text : forall printable U FT AT there fs env arg name ms ps n t, AsciiOk U ->
  (exists fuel addr k, vg_dialplan_check U FT AT there fuel fs env arg name = Process ms ps (Ok n) /\ report printable addr env 0 ms = (t, Ok k)) <->
  exists l, VgWholeSays U FT AT there fs arg name l /\ Ends ms ps n env l /\ Lines printable ps t.
Proof.
  intros pr U FT AT there fs env arg name ms ps n t HU. split.
  - intros (fuel & a & k & E & R). destruct (vg_ended _ _ _ _ _ _ _ _ _ _ _ _ E) as [_ P].
    apply report_sound in R. rewrite P in R. destruct (proj1 (vg_whole_process U FT AT there fs env arg name ms ps n HU) (ex_intro _ fuel E)) as (l & W & N).
    now exists l.
  - intros (l & W & N & HL). destruct (proj2 (vg_whole_process U FT AT there fs env arg name ms ps n HU) (ex_intro _ l (conj W N))) as [fuel E].
    destruct (vg_ended _ _ _ _ _ _ _ _ _ _ _ _ E) as [F P]. rewrite <- P in HL. apply (report_from pr env ms t F) in HL as (a & k & R). now exists fuel, a, k.
Qed.
Print Assumptions C69_text.
Theorem C69_odbc_text : forall printable fs env name ms ps n t,
  (exists fuel addr k, vg_odbc_check fuel fs env name = Process ms ps (Ok n) /\ report printable addr env 0 ms = (t, Ok k)) <->
  exists fns l, VgWholeOdbc fs (Some name) fns l /\ Ends ms ps n env (map LMsg l) /\ Lines printable ps t.
Proof.
  intros pr fs env name ms ps n t. split.
  - intros (fuel & a & k & E & R). destruct (vg_odbc_ended _ _ _ _ _ _ _ E) as [_ P].
    apply report_sound in R. rewrite P in R. destruct (proj1 (vg_whole_odbc fs env name ms ps n) (ex_intro _ fuel E)) as (fns & l & W & N). now exists fns, l.
  - intros (fns & l & W & N & HL). destruct (proj2 (vg_whole_odbc fs env name ms ps n)) as [fuel E]; [now exists fns, l|].
    destruct (vg_odbc_ended _ _ _ _ _ _ _ E) as [F P]. rewrite <- P in HL. apply (report_from pr env ms t F) in HL as (a & k & R). now exists fuel, a, k.
Qed.
Print Assumptions C69_odbc_text.

(* One line of text for every message that is printed, whatever the files hold, as
   long as the names given on the command line have no line end in them. *)
Theorem C69_one_line : forall printable U FT AT there fuel fs env arg name t, ~ In 10 name -> (forall a, arg = Some a -> ~ In 10 a) ->
  let ps := p_printed (vg_dialplan_check U FT AT there fuel fs env arg name) in
  Lines printable ps t ->
  exists ls, Forall2 (fun m l => Line printable m (l ++ [10]) /\ ~ In 10 l) ps ls /\ t = flat_map (fun l => l ++ [10]) ls /\
    count_occ N.eq_dec t 10 = length ps.
Proof.
  intros pr U FT AT there fuel fs env arg name t N A ps H. destruct (FlatV_proofs.vg_check_lines pr U FT AT there fuel fs env arg name t N A H) as (ls & F & ->).
  exists ls. split; [exact F|]. split; [easy|]. exact (FlatT_proofs.ends_count _ _ _ F).
Qed.
Print Assumptions C69_one_line.
Theorem C69_odbc_one_line : forall printable fuel fs env name t, ~ In 10 name ->
  let ps := p_printed (vg_odbc_check fuel fs env name) in
  Lines printable ps t ->
  exists ls, Forall2 (fun m l => Line printable m (l ++ [10]) /\ ~ In 10 l) ps ls /\ t = flat_map (fun l => l ++ [10]) ls /\
    count_occ N.eq_dec t 10 = length ps.
Proof.
  intros pr fuel fs env name t N ps H. destruct (FlatV_proofs.vg_odbc_lines pr fuel fs env name t N H) as (ls & F & ->).
  exists ls. split; [exact F|]. split; [easy|]. exact (FlatT_proofs.ends_count _ _ _ F).
Qed.
Print Assumptions C69_odbc_one_line.

(* ---- examples ---- *)
(* A query over two lines next to a dialplan of two files, of which the second ends
   without a line end; a comment with a line end of the other kind. *)
Definition vw_lines (l : list str) : bytes := flat_map (fun s => s ++ [10]) l.
Definition vw_fs : fsys := fs_of
  [(L "d/func_odbc.conf", vw_lines [L "[Q]"; L "prefix=W"; L "readsql=SELECT a;b"; L "  FROM t WHERE c='${SQL_ESC(${ARG1})}' ;query"]);
   (L "d/x.conf", vw_lines [L "[general]"; L "[globals]"; []; L "[a]"; L "exten => 1,1,NoOp(${W_Q(1)})"; L "#include ""y.conf"""; L "exten => 1,n,Goto(b,2,1)"] ++ L ";" ++ [13; 10]);
   (L "d/y.conf", vw_lines [[]; L "[b]"] ++ L "exten => 1,1,NoOp()")].
Definition vw_there (p : str) : bool := match vw_fs p with Ok _ => true | _ => false end.
Definition vw_text (l : list str) : str := flat_map (fun s => s ++ [10]) l.
Definition vw_said : str := vw_text
  [L "d/func_odbc.conf:3 W_WSH_COMMENT: missing whitespace around comment semicolon";
   L "d/y.conf:1 W_WSV_BOF: unexpected vertical space at beginning of file";
   L "d/y.conf:3 W_FILE_UNIX_NOLF: unexpected line without LF in UNIX file format";
   L "d/x.conf:8 W_FILE_UNIX_CRLF: unexpected CRLF in UNIX file format";
   L "d/x.conf:7 W_DP_GOTO_CONTEXT_NOEXTEN: possibly non-existent extension/pattern for goto to b, 2, 1"].
Example C69_example : exists l ms ps, VgWholeSays uni_ascii funcs_v13 apps_v13 vw_there vw_fs None (L "d/x.conf") l /\ Ends ms ps 1 None l /\
  Lines (fun _ => true) ps vw_said.
Proof.
  assert (X : exists ms ps, (exists fuel addr k, vg_dialplan_check uni_ascii funcs_v13 apps_v13 vw_there fuel vw_fs None None (L "d/x.conf") = Process ms ps (Ok 1) /\
     report (fun _ => true) addr None 0 ms = (vw_said, Ok k))).
  { eexists. eexists. exists 100%nat, (fun _ => 0), 0%nat. split; vm_compute; reflexivity. }
  destruct X as (ms & ps & X). apply C69_text in X as (l & A & B & C); [|exact Properties_VgCheck.uni_ascii_ok]. now exists l, ms, ps.
Qed.
Example C69_example_odbc : exists fns l ms ps, VgWholeOdbc vw_fs (Some (L "d/func_odbc.conf")) fns l /\ Ends ms ps 1 None (map LMsg l) /\
  Lines (fun _ => true) ps (vw_text [L "d/func_odbc.conf:3 W_WSH_COMMENT: missing whitespace around comment semicolon"]).
Proof.
  assert (X : exists ms ps, (exists fuel addr k, vg_odbc_check fuel vw_fs None (L "d/func_odbc.conf") = Process ms ps (Ok 1) /\
     report (fun _ => true) addr None 0 ms = (vw_text [L "d/func_odbc.conf:3 W_WSH_COMMENT: missing whitespace around comment semicolon"], Ok k))).
  { eexists. eexists. exists 100%nat, (fun _ => 0), 0%nat. split; vm_compute; reflexivity. }
  destruct X as (ms & ps & X). apply C69_odbc_text in X as (fns & l & A & B & C). now exists fns, l, ms, ps.
Qed.
(* A file that includes itself is read without end. *)
Definition vw_self : fsys := fs_of [(L "a", vw_lines [L "[x]"; L "#include ""a"""])].
Lemma vw_endless : forall n rest ff, ff = ff_init \/ ff = FFst [FFent (L "a") (Some false) (Some true) (Where (L "a") 2 (L "#include ""a""" ++ [10]))] (Some false) ->
  snd (vg_loop n vw_self (Frame (L "a") 0 [L "[x]" ++ [10]; L "#include ""a""" ++ [10]] :: rest) ff None) = Hang.
Proof.
  intros n. induction n as [n IH] using (well_founded_induction Wf_nat.lt_wf). intros rest ff F. destruct n as [|[|m]]; [easy| |];
    rewrite VgRead_proofs.loop_step; cbv zeta.
  - assert (E : exists ms ff', vg_raw ff (Where (L "a") (0 + 1) (L "[x]" ++ [10])) (L "[x]" ++ [10]) = (ms, Ok (ff', L "[x]"))).
    { destruct F as [-> | ->]; eexists; eexists; vm_compute; reflexivity. }
    destruct E as (ms & ff' & ->). vm_compute. reflexivity.
  - assert (E : exists ms, vg_raw ff (Where (L "a") (0 + 1) (L "[x]" ++ [10])) (L "[x]" ++ [10]) =
      (ms, Ok (FFst [FFent (L "a") (Some false) (Some true) (Where (L "a") 1 (L "[x]" ++ [10]))] (Some false), L "[x]"))).
    { destruct F as [-> | ->]; eexists; vm_compute; reflexivity. }
    destruct E as (ms & ->). replace (VgRead_proofs.step vw_self None (Where (L "a") (0 + 1) (L "[x]" ++ [10])) (L "[x]"))
      with (@nil event, Ok (Some (Where (L "a") 1 (L "[x]" ++ [10]), L "[x]", @nil N), @nil frame)) by (vm_compute; reflexivity).
    cbn [snd List.app]. rewrite VgRead_proofs.loop_step. cbv zeta.
    match goal with |- context [vg_raw ?a ?b ?c] => destruct (vg_raw a b c) as [ms2 r] eqn:E2; vm_compute in E2; injection E2 as <- <- end.
    match goal with |- context [VgRead_proofs.step ?a ?b ?c ?d] => destruct (VgRead_proofs.step a b c d) as [ev r] eqn:E3; vm_compute in E3; injection E3 as <- <- end.
    cbn [snd List.app]. apply (IH m ltac:(lia)). now right.
Qed.
Example C69_example_hangs : forall text evs o, ~ VgReads vw_self (L "a") text evs o.
Proof.
  apply C69_hangs. intros fuel. change (vg_parse_file fuel vw_self (L "a")) with (vg_loop fuel vw_self [Frame (L "a") 0 (lines_of (vw_lines [L "[x]"; L "#include ""a"""]))] ff_init None).
  change (lines_of (vw_lines [L "[x]"; L "#include ""a"""])) with [L "[x]" ++ [10]; L "#include ""a""" ++ [10]]. apply vw_endless. now left.
Qed.
(* A query of three lines with a carriage return inside is one value, and still each message
   is one line; a name with a line end breaks a line in two. *)
Definition vw_cr : fsys := fs_of [(L "q", vw_lines [L "[Q]"; L "readsql=SELECT a,"; L "  b" ++ [13] ++ L ","; L " c FROM t;x"; L "bad" ++ [13] ++ L "line"]);
  (L "x" ++ [10] ++ L "y", vw_lines [L "bad"])].
Example C69_example_one_line :
  ~ In 10 (L "q") /\ length (p_printed (vg_odbc_check 100 vw_cr None (L "q"))) = 2%nat /\
  (exists t, Lines (fun _ => true) (p_printed (vg_odbc_check 100 vw_cr None (L "q"))) t /\ count_occ N.eq_dec t 10 = 2%nat) /\
  length (p_printed (vg_odbc_check 100 vw_cr None (L "x" ++ [10] ++ L "y"))) = 1%nat /\
  exists t, Lines (fun _ => true) (p_printed (vg_odbc_check 100 vw_cr None (L "x" ++ [10] ++ L "y"))) t /\ count_occ N.eq_dec t 10 = 2%nat.
Proof.
  assert (X : forall name, exists t, Lines (fun _ => true) (p_printed (vg_odbc_check 100 vw_cr None name)) t /\
    t = fst (report (fun _ => true) (fun _ => 0) None 0 (p_raised (vg_odbc_check 100 vw_cr None name))) \/
    exists e, snd (report (fun _ => true) (fun _ => 0) None 0 (p_raised (vg_odbc_check 100 vw_cr None name))) = e /\ match e with Ok _ => False | _ => True end).
  { intros name. destruct (report (fun _ => true) (fun _ => 0) None 0 (p_raised (vg_odbc_check 100 vw_cr None name))) as [t [k|e|]] eqn:R;
      exists t; [left|right; now eexists|right; now eexists]. split; [|easy]. exact (report_sound _ _ _ _ _ _ _ R). }
  split; [now intros [E|[]]|]. split; [vm_compute; reflexivity|]. split; [|split; [vm_compute; reflexivity|]].
  - destruct (X (L "q")) as (t & [[H E]|(e & E & F)]); [|vm_compute in E; now subst e]. exists t. split; [exact H|]. rewrite E. vm_compute. reflexivity.
  - destruct (X (L "x" ++ [10] ++ L "y")) as (t & [[H E]|(e & E & F)]); [|vm_compute in E; now subst e]. exists t. split; [exact H|]. rewrite E. vm_compute. reflexivity.
Qed.
