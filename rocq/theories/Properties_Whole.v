(* C60: from the bytes of the files to what is said, and to the exit status. *)
From Verif Require Import Base PyStr Defines FileRd Config VSpace VarFun AppM Dialplan Spec_VarFun Check Spec_Check Spec_Run Spec_Whole Whole_proofs Tables Properties_Crash.
From Verif Require Import Spec_Reader Reader_proofs Spaced_proofs.
From Verif Require Properties_Run.

(* The parser with the files it includes ends, one way or the other, exactly if
   there is an outcome by the rules.  No file system and no file is excepted. *)
Theorem C60_reader : forall fs name evs o,
  ReaderSays fs name evs o <-> o <> Hang /\ exists k, forall fuel, (k <= fuel)%nat -> parse_file fuel fs name = (evs, o).
Proof.
  intros fs name evs o. split; [apply reader_complete|]. intros (N & k & K). apply reader_iff. split; [easy|]. exists k. now apply K.
Qed.
Print Assumptions C60_reader.
Theorem C60_reader_hangs : forall fs name, (forall fuel, snd (parse_file fuel fs name) = Hang) <-> forall evs o, ~ ReaderSays fs name evs o.
Proof.
  intros fs name. split.
  - intros H evs o R. apply reader_iff in R as (N & fuel & E). specialize (H fuel). rewrite E in H. easy.
  - intros H fuel. destruct (parse_file fuel fs name) as [evs [[]|e|]] eqn:E; [| |easy]; exfalso; eapply H; apply reader_iff; (split; [|exists fuel; exact E]); discriminate.
Qed.
Print Assumptions C60_reader_hangs.

(* The vertical white space checker, on any sequence of elements. *)
Theorem C60_space : forall evs out, vsw_stream (evs, Ok tt) = (out, Ok tt) <->
  exists o st g, SpacedAll [] evs o st /\ AllEnd st g /\ out = o ++ g.
Proof. exact vsw_ok. Qed.
Print Assumptions C60_space.
Theorem C60_space_fails : forall evs e out, vsw_stream (evs, Exn e) = (out, Exn e) <-> exists st, SpacedAll [] evs out st.
Proof. exact vsw_fails. Qed.
Print Assumptions C60_space_fails.

(* Both together: the stream that the commands get. *)
Theorem C60_stream : forall fs name evs o,
  StreamOf fs name evs o <-> o <> Hang /\ exists fuel, vsw_stream (parse_file fuel fs name) = (evs, o).
Proof. exact stream_iff. Qed.
Print Assumptions C60_stream.
Theorem C60_stream_determined : forall fs name evs o evs' o', StreamOf fs name evs o -> StreamOf fs name evs' o' -> evs = evs' /\ o = o'.
Proof. exact stream_det. Qed.
Print Assumptions C60_stream_determined.

(* dialplan-check *)
Theorem C60_check : forall U FT AT there fs arg name l, AsciiOk U ->
  WholeSays U FT AT there fs arg name l <-> exists fuel, check_run U FT AT there fuel fs arg name = (l, Ok tt).
Proof. exact whole_iff. Qed.
Print Assumptions C60_check.
Theorem C60_determined : forall U FT AT there fs arg name l l', AsciiOk U ->
  WholeSays U FT AT there fs arg name l -> WholeSays U FT AT there fs arg name l' -> l = l'.
Proof. exact whole_det. Qed.
Print Assumptions C60_determined.
Theorem C60_process : forall U FT AT there fs env arg name ms ps n, AsciiOk U ->
  (exists fuel, dialplan_check U FT AT there fuel fs env arg name = Process ms ps (Ok n)) <->
  exists l, WholeSays U FT AT there fs arg name l /\ Ends ms ps n env l.
Proof. exact whole_process. Qed.
Print Assumptions C60_process.
(* func_odbc-check *)
Theorem C60_odbc_process : forall fs env name ms ps n,
  (exists fuel, odbc_check fuel fs env name = Process ms ps (Ok n)) <->
  exists fns l, WholeOdbc fs (Some name) fns l /\ Ends ms ps n env (map LMsg l).
Proof. exact whole_odbc. Qed.
Print Assumptions C60_odbc_process.

(* ---- examples ---- *)
Definition crlf : bytes := [13; 10].
(* a includes b twice, which includes c; b is a DOS file that ends in a line end,
   c has no line end; the messages about both come with the next line of a *)
Definition fs2 : fsys := fs_of
  [(L "a", L "[x]" ++ [10] ++ L "#include b" ++ [10; 10] ++ L "k=v" ++ [10] ++ L "#include b" ++ [10]);
   (L "b", L ";" ++ crlf ++ L "#include c" ++ crlf); (L "c", L "#tryinclude d")].
Definition short (e : event) : str * str * N :=
  match e with
  | EvLine w d _ => (L "line", w_file w, w_line w)
  | EvMsg m => (mname (m_cls m), w_file (m_where m), w_line (m_where m))
  | EvElem x => (L "elem", w_file (e_where x), w_line (e_where x))
  end.
Example C60_example : exists evs, ReaderSays fs2 (L "a") evs (Ok tt) /\
  map short (filter (fun e => match e with EvElem _ => false | _ => true end) evs) =
   [(L "line", L "a", 1); (L "line", L "a", 2); (L "line", L "b", 1); (L "line", L "b", 2); (L "line", L "c", 1);
    (L "W_FILE_DOS_EOFCRLF", L "b", 2); (L "line", L "a", 3); (L "line", L "a", 4); (L "line", L "a", 5);
    (L "line", L "b", 1); (L "line", L "b", 2); (L "line", L "c", 1); (L "W_FILE_DOS_EOFCRLF", L "b", 2)].
Proof.
  exists (fst (parse_file 50 fs2 (L "a"))). split; [|vm_compute; reflexivity]. apply reader_iff. split; [discriminate|]. exists 50%nat. vm_compute. reflexivity.
Qed.
(* a line that is in neither encoding: what was read before is given *)
Definition fs3 : fsys := fs_of [(L "a", L "[x]" ++ [10] ++ L "#include b" ++ [10]); (L "b", [32; 10; 0x81])].
Example C60_example_fails : exists evs, StreamOf fs3 (L "a") evs (Exn UnicodeDecodeError) /\
  map short evs = [(L "line", L "a", 1); (L "elem", L "a", 1); (L "line", L "a", 2); (L "W_WSH_EOL", L "b", 1); (L "line", L "b", 1); (L "E_FILE_UTF8_BAD", L "b", 2)].
Proof.
  exists (fst (vsw_stream (parse_file 50 fs3 (L "a")))). split; [|vm_compute; reflexivity]. apply stream_iff. split; [discriminate|]. exists 50%nat. vm_compute. reflexivity.
Qed.
(* the first element comes from the included file: it stays open under the file
   that includes it, and the empty line at its end goes unreported *)
Definition fs4 (again : bytes) : fsys := fs_of
  [(L "a", L "#include b" ++ [10] ++ L "[x]" ++ [10] ++ again ++ [10; 10]); (L "b", L "k=v" ++ [10; 10])].
Example C60_example_space :
  (exists evs, StreamOf (fs4 []) (L "a") evs (Ok tt) /\ map short (filter (fun e => match e with EvMsg _ => true | _ => false end) evs) =
     [(L "W_WSV_EOF", L "a", 4)]) /\
  (exists evs, StreamOf (fs4 (L "#include b")) (L "a") evs (Ok tt) /\ map short (filter (fun e => match e with EvMsg _ => true | _ => false end) evs) =
     [(L "W_WSV_EOF", L "a", 4)]).
Proof.
  split; [exists (fst (vsw_stream (parse_file 50 (fs4 []) (L "a"))))|exists (fst (vsw_stream (parse_file 50 (fs4 (L "#include b")) (L "a"))))];
  (split; [apply stream_iff; split; [discriminate|]; exists 50%nat; vm_compute; reflexivity|vm_compute; reflexivity]).
Qed.
(* the dialplan of the examples of C59, without bounds *)
Example C60_example_run : exists l ms ps, WholeSays uni_ascii funcs_v13 apps_v13 Properties_Run.there (Properties_Run.plan []) None (L "d/x.conf") l /\
  Ends ms ps 1 None l /\ length ps = 4%nat.
Proof.
  assert (X : exists ms ps, (exists fuel, dialplan_check uni_ascii funcs_v13 apps_v13 Properties_Run.there fuel (Properties_Run.plan []) None None (L "d/x.conf") = Process ms ps (Ok 1))
    /\ length ps = 4%nat).
  { eexists. eexists. split; [exists 100%nat; vm_compute; reflexivity|vm_compute; reflexivity]. }
  destruct X as (ms & ps & X & N). apply C60_process in X as (l & A & B); [|exact ascii_ok]. now exists l, ms, ps.
Qed.
