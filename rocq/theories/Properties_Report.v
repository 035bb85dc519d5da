(* C61: the text that is printed about the messages. *)
From Verif Require Import Base PyStr Defines FileRd Config Var VarFun AppM Dialplan Spec_VarFun FuncOdbc Check Check_proofs Spec_Check Spec_Annotate Spec_Run Run_proofs
  Spec_Whole Whole_proofs Tables Properties_Crash Report Spec_Report Report_proofs FlatT_proofs Spec_Templates Templates_proofs.
From Verif Require Properties_Run.

(* A text in quotes. *)
Theorem C61_quote : forall printable s t, Quoted printable s t <-> t = pyrepr printable s.
Proof. exact quoted_iff. Qed.
Print Assumptions C61_quote.
(* Nothing but printable characters, so no line ends; and no two texts look alike. *)
Theorem C61_quote_plain : forall printable s t, Quoted printable s t -> Forall (Plain printable) t.
Proof. exact quoted_plain. Qed.
Print Assumptions C61_quote_plain.
Theorem C61_quote_means : forall printable s t, Forall (fun c => c < 1114112) s -> Quoted printable s t ->
  Means t s /\ forall s', Means t s' -> s' = s.
Proof.
  intros p s t H Q. pose proof (quoted_means p s t H Q) as M. split; [exact M|]. intros s' M'. eapply means_fun; eassumption.
Qed.
Print Assumptions C61_quote_means.

(* The words of any message, made from its template.  There are any exactly if
   the formatting does not fail, as the model of the messages has it. *)
Theorem C61_words : forall printable m t, Words printable m t <-> exists addr k k', words printable addr k m = Ok (t, k').
Proof. exact words_iff. Qed.
Print Assumptions C61_words.
Theorem C61_formats : forall printable m, (exists t, Words printable m t) <-> format_ok (mfields (m_cls m)) (m_args m) = Ok tt.
Proof. exact words_some. Qed.
Print Assumptions C61_formats.

(* Everything on stderr, for runs that end with an exit status; [addr] are the
   addresses at which Python happens to have put its objects. *)
Lemma ended_formatted U FT AT there fuel fs env arg name ms ps n :
  dialplan_check U FT AT there fuel fs env arg name = Process ms ps (Ok n) -> Formatted ms /\ printed env ms = ps.
Proof.
  unfold dialplan_check, process_of. destruct (snd (check_run U FT AT there fuel fs arg name)) as [[]| |] eqn:E; cbn [bind]; try discriminate.
  intros [= <- <- _]. split; [|easy]. exact (all_formatted U FT AT there fuel fs arg name None E).
Qed.
Theorem C61_check : forall printable U FT AT there fs env arg name ms ps n t, AsciiOk U ->
  (exists fuel addr k, dialplan_check U FT AT there fuel fs env arg name = Process ms ps (Ok n) /\ report printable addr env 0 ms = (t, Ok k)) <->
  exists l, WholeSays U FT AT there fs arg name l /\ Ends ms ps n env l /\ Lines printable ps t.
Proof.
  intros pr U FT AT there fs env arg name ms ps n t HU. split.
  - intros (fuel & a & k & E & R). destruct (ended_formatted _ _ _ _ _ _ _ _ _ _ _ _ E) as [_ P].
    apply report_sound in R. rewrite P in R. destruct (proj1 (whole_process U FT AT there fs env arg name ms ps n HU) (ex_intro _ fuel E)) as (l & W & N).
    now exists l.
  - intros (l & W & N & HL). destruct (proj2 (whole_process U FT AT there fs env arg name ms ps n HU) (ex_intro _ l (conj W N))) as [fuel E].
    destruct (ended_formatted _ _ _ _ _ _ _ _ _ _ _ _ E) as [F P]. rewrite <- P in HL. apply (report_from pr env ms t F) in HL as (a & k & R). now exists fuel, a, k.
Qed.
Print Assumptions C61_check.
(* Whatever the addresses, there is such a text. *)
Theorem C61_check_total : forall printable addr U FT AT there fuel fs env arg name ms ps n,
  dialplan_check U FT AT there fuel fs env arg name = Process ms ps (Ok n) -> exists t k, report printable addr env 0 ms = (t, Ok k).
Proof. intros pr a U FT AT there fuel fs env arg name ms ps n E. apply report_total. now destruct (ended_formatted _ _ _ _ _ _ _ _ _ _ _ _ E). Qed.
Print Assumptions C61_check_total.
Lemma ended_odbc fuel fs env name ms ps n : odbc_check fuel fs env name = Process ms ps (Ok n) -> Formatted ms /\ printed env ms = ps.
Proof.
  unfold odbc_check, process_of. destruct (snd (mw (load_func_odbc fuel fs name))) as [a| |] eqn:E; cbn [bind]; try discriminate.
  intros [= <- <- _]. split; [|easy]. apply odbc_formatted. now exists a.
Qed.
Theorem C61_odbc_check : forall printable fs env name ms ps n t,
  (exists fuel addr k, odbc_check fuel fs env name = Process ms ps (Ok n) /\ report printable addr env 0 ms = (t, Ok k)) <->
  exists fns l, WholeOdbc fs (Some name) fns l /\ Ends ms ps n env (map LMsg l) /\ Lines printable ps t.
Proof.
  intros pr fs env name ms ps n t. split.
  - intros (fuel & a & k & E & R). destruct (ended_odbc _ _ _ _ _ _ _ E) as [_ P].
    apply report_sound in R. rewrite P in R. destruct (proj1 (whole_odbc fs env name ms ps n) (ex_intro _ fuel E)) as (fns & l & W & N). now exists fns, l.
  - intros (fns & l & W & N & HL). destruct (proj2 (whole_odbc fs env name ms ps n)) as [fuel E]; [now exists fns, l|].
    destruct (ended_odbc _ _ _ _ _ _ _ E) as [F P]. rewrite <- P in HL. apply (report_from pr env ms t F) in HL as (a & k & R). now exists fuel, a, k.
Qed.
Print Assumptions C61_odbc_check.

(* What can be told from a line, if no name of a file has a space in it: the
   file, the line, the kind of message, and its words. *)
Theorem C61_tells : forall printable m m' t, ~ In 32 (w_file (m_where m)) -> ~ In 32 (w_file (m_where m')) ->
  Line printable m t -> Line printable m' t ->
  w_file (m_where m) = w_file (m_where m') /\ w_line (m_where m) = w_line (m_where m') /\ m_cls m = m_cls m' /\
  exists b, Words printable m b /\ Words printable m' b.
Proof.
  intros pr m m' t N N' H H'. destruct (line_tells pr m m' t N N' H H') as (A & B & C & D). split; [easy|]. split; [easy|]. split; [now apply mname_inj|easy].
Qed.
Print Assumptions C61_tells.

(* The text is determined by the files, unless an object is shown by its address. *)
Theorem C61_steady : forall printable ms t t', (forall m, In m ms -> ~ Addressed m) -> Lines printable ms t -> Lines printable ms t' -> t = t'.
Proof. intros pr ms t t' N H. now apply lines_det. Qed.
Print Assumptions C61_steady.
Definition pipes : fsys := fs_of [(L "x", L "[general]" ++ [10] ++ L "[globals]" ++ [10; 10] ++ L "[a]" ++ [10] ++ L "exten => 1,1,Goto(${q}|1)" ++ [10])].
Definition run_pipes := dialplan_check uni_ascii funcs_v13 apps_v13 (fun _ => false) 100 pipes None None (L "x").
Definition pipes_text (addr : str) : str := flat_map (fun l => l ++ [10])
  [L "x:5 E_APP_ARG_PIPEDELIM: the application delimiter is now the comma, not the pipe; see app 'Goto' and data <asterisklint.variable.Var object at 0x" ++ addr ++ L ">";
   L "x:5 W_DP_GOTO_CONTEXT_NOEXTEN: possibly non-existent extension/pattern for goto to a, 1, ${q}|1"].
Theorem C61_steady_refuted : p_end run_pipes = Ok 1 /\
  Lines (fun _ => true) (p_printed run_pipes) (pipes_text (L "beef")) /\ Lines (fun _ => true) (p_printed run_pipes) (pipes_text (L "f00d")).
Proof.
  split; [vm_compute; reflexivity|].
  assert (X : forall a t, fst (report (fun _ => true) a None 0 (p_raised run_pipes)) = t -> (exists k, snd (report (fun _ => true) a None 0 (p_raised run_pipes)) = Ok k) ->
    Lines (fun _ => true) (p_printed run_pipes) t).
  { intros a t E [k K]. apply (report_sound (fun _ => true) a None (p_raised run_pipes) 0 t k). rewrite <- E, <- K. now destruct (report _ _ _ _ _). }
  split; [apply (X (fun _ => 0xbeef))|apply (X (fun _ => 0xf00d))]; try (vm_compute; reflexivity); exists 1%nat; vm_compute; reflexivity.
Qed.
Print Assumptions C61_steady_refuted.

(* One line for every message, whatever is in the files: no value brings a
   line end with it, quoted or not.  The names given to the command are the
   only other source. *)
Theorem C61_one_line : forall printable U FT AT there fuel fs env arg name t, ~ In 10 name -> (forall a, arg = Some a -> ~ In 10 a) ->
  let ps := p_printed (dialplan_check U FT AT there fuel fs env arg name) in
  Lines printable ps t ->
  exists ls, Forall2 (fun m l => Line printable m (l ++ [10]) /\ ~ In 10 l) ps ls /\ t = flat_map (fun l => l ++ [10]) ls /\
    count_occ N.eq_dec t 10 = length ps.
Proof.
  intros pr U FT AT there fuel fs env arg name t N A ps H. destruct (check_lines pr U FT AT there fuel fs env arg name t N A H) as (ls & F & ->).
  exists ls. split; [exact F|]. split; [easy|]. exact (ends_count _ _ _ F).
Qed.
Print Assumptions C61_one_line.
Theorem C61_odbc_one_line : forall printable fuel fs env name t, ~ In 10 name ->
  let ps := p_printed (odbc_check fuel fs env name) in
  Lines printable ps t ->
  exists ls, Forall2 (fun m l => Line printable m (l ++ [10]) /\ ~ In 10 l) ps ls /\ t = flat_map (fun l => l ++ [10]) ls /\
    count_occ N.eq_dec t 10 = length ps.
Proof.
  intros pr fuel fs env name t N ps H. destruct (odbc_lines pr fuel fs env name t N H) as (ls & F & ->).
  exists ls. split; [exact F|]. split; [easy|]. exact (ends_count _ _ _ F).
Qed.
Print Assumptions C61_odbc_one_line.

(* The words of every class are those written in the sources, for all classes
   there are. *)
Theorem C61_written : (forall c w, In (mname c, w) written <-> w = mtemplate c) /\ (forall n w, In (n, w) written -> exists c, n = mname c).
Proof. exact written_iff. Qed.
Print Assumptions C61_written.

(* ---- examples ---- *)
Definition letters (c : N) : bool := 160 <? c.
(* e with acute is printable, a no-break space is not *)
Example C61_example_quote :
  Quoted letters (L "it's" ++ [233; 160; 8364; 0x1f600; 9; 92]) ([34] ++ L "it's" ++ [233] ++ L "\xa0" ++ [8364; 0x1f600] ++ L "\t\\" ++ [34]) /\
  Quoted (fun _ => false) [39; 34; 8364; 0x1f600] (L "'\'" ++ [34] ++ L "\u20ac\U0001f600'").
Proof. split; apply C61_quote; vm_compute; reflexivity. Qed.
Definition shown (addr : nat -> N) (p : process) : str := fst (report letters addr None 0 (p_raised p)).
Definition lines (ls : list str) : str := flat_map (fun l => l ++ [10]) ls.
(* the run of the examples of C59 *)
Definition sq (s : str) : str := [39] ++ s ++ [39].
Definition text59 : str := lines
  [L "d/func_odbc.conf:4 E_ODBC_NOSQL: a readsql and/or writesql (and insertsql) statement is required";
   L "d/x.conf:5 W_APP_BAD_CASE: app 'BACKGROUND' does not have the proper Case 'Background'";
   L "d/x.conf:7 W_APP_BAD_CASE: app 'Background' does not have the proper Case 'BackGround'";
   L "d/x.conf:8 W_DP_GOTO_CONTEXT_NOEXTEN: possibly non-existent extension/pattern for goto to b, " ++ [8364] ++ L ", 1"].
Example C61_example_run : exists ms ps l, WholeSays uni_ascii funcs_v13 apps_v13 Properties_Run.there (Properties_Run.plan []) None (L "d/x.conf") l /\
  Ends ms ps 1 None l /\ Lines letters ps text59.
Proof.
  assert (X : exists ms ps, exists fuel addr k, dialplan_check uni_ascii funcs_v13 apps_v13 Properties_Run.there fuel (Properties_Run.plan []) None None (L "d/x.conf") = Process ms ps (Ok 1)
    /\ report letters addr None 0 ms = (text59, Ok k)).
  { eexists. eexists. exists 100%nat, (fun _ => 0), 0%nat. split; vm_compute; reflexivity. }
  destruct X as (ms & ps & X). apply C61_check in X as (l & A & B & C); [|exact ascii_ok]. now exists ms, ps, l.
Qed.
(* A line; and a text that would make a line of its own stays within its quotes. *)
Example C61_example_line :
  Line letters (Msg W_WSH_BOL (Where (L "a") 1 []) None []) (L "a:1 W_WSH_BOL: unexpected leading whitespace" ++ [10]) /\
  ~ In 32 (L "a") /\
  Quoted letters (L "a" ++ [10] ++ L "b:1 W_WSH_BOL: unexpected leading whitespace") (L "'a\nb:1 W_WSH_BOL: unexpected leading whitespace'").
Proof.
  split; [|split; [now intros [H|[]]|apply C61_quote; vm_compute; reflexivity]].
  apply line_iff. exists (L "unexpected leading whitespace"). split; [|vm_compute; reflexivity]. apply words_iff. exists (fun _ => 0), O, O. vm_compute. reflexivity.
Qed.
(* Without a name of one line there are more lines than messages; with one,
   the carriage return that is printed stays in its line. *)
Definition odd (name : str) : fsys := fs_of [(name, L "[general]" ++ [10] ++ L "[globals]" ++ [10; 10] ++ L "[a]" ++ [10] ++ L "exten => 1,1,Set(x" ++ [13] ++ L "y)" ++ [10])].
Definition run_odd name := dialplan_check uni_ascii funcs_v13 apps_v13 (fun _ => false) 100 (odd name) None (Some []) name.
Example C61_example_one_line : exists t, Lines letters (p_printed (run_odd (L "x"))) t /\ In 13 t /\
  count_occ N.eq_dec t 10 = 1%nat /\ length (p_printed (run_odd (L "x"))) = 1%nat.
Proof.
  exists (fst (report letters (fun _ => 0) None 0 (p_raised (run_odd (L "x"))))). split.
  - apply (report_sound letters (fun _ => 0) None (p_raised (run_odd (L "x"))) 0 _ 0). vm_compute. reflexivity.
  - vm_compute. split; [tauto|]. now split.
Qed.
Example C61_example_names : exists t, Lines letters (p_printed (run_odd (L "x" ++ [10] ++ L "y"))) t /\
  count_occ N.eq_dec t 10 = 2%nat /\ length (p_printed (run_odd (L "x" ++ [10] ++ L "y"))) = 1%nat.
Proof.
  exists (fst (report letters (fun _ => 0) None 0 (p_raised (run_odd (L "x" ++ [10] ++ L "y"))))). split.
  - apply (report_sound letters (fun _ => 0) None (p_raised (run_odd (L "x" ++ [10] ++ L "y"))) 0 _ 0). vm_compute. reflexivity.
  - vm_compute. now split.
Qed.
