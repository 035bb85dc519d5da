(* C70: what vg dialplan-show and vg modules-show print, from the bytes of the files. *)
From Verif Require Import Base PyStr Defines FileRd Config VarFun AppM Spec_VarFun Dialplan Check Report Show Spec_Show Show_proofs Spec_Dialplan Spec_Run Whole_proofs Tables
  VSpace VgRead VgCheck VgShow Spec_VgPlan Spec_VgCheck Spec_VgWhole Spec_VgShow VgWhole_proofs VgShow_proofs VgShowL_proofs.
From Verif Require Properties_VgCheck Properties_Show VgCheck_proofs.

(* Every outcome with an output is one by the rules, and the other way round. *)
Theorem C70_show : forall printable U FT AT fs reverse name text status, AsciiOk U ->
  VgShowSays printable U FT AT fs reverse name text status <->
  exists fuel, vg_show_command U FT AT printable fuel fs reverse name = Ok (text, status).
Proof. exact vg_show_iff. Qed.
Print Assumptions C70_show.
Theorem C70_show_determined : forall printable U FT AT fs reverse name text status text' status', AsciiOk U ->
  VgShowSays printable U FT AT fs reverse name text status -> VgShowSays printable U FT AT fs reverse name text' status' ->
  text = text' /\ status = status'.
Proof. exact vg_show_det. Qed.
Print Assumptions C70_show_determined.

(* The sections that are shown: each name once, where it is opened for the last
   time, whatever names are taken for the wiped sections. *)
Theorem C70_headings : forall U FT AT fs name evs fr h l, AsciiOk U ->
  VgStream fs name evs (Ok tt) -> VgPlanSays U FT AT evs fr h l ->
  filter (stays fr) (opened h) = last_names (ordinary (heads (elems evs))).
Proof. exact vg_headings. Qed.
Print Assumptions C70_headings.
(* The lines: two for a section, one for an extension or an include.  None is
   broken in two. *)
Theorem C70_lines : forall printable U FT AT fs reverse name evs fr h l text, AsciiOk U -> ~ In 10 name ->
  VgStream fs name evs (Ok tt) -> VgPlanSays U FT AT evs fr h l -> VgPrintout printable reverse fr h text ->
  exists lines, Ended lines text /\ Forall (fun s => ~ In 10 s) lines /\
    length lines = Nat.max 1 (fold_right Nat.add 0%nat
      (map (fun n => 2 + length (stored_of h n) + length (includes_of h n))%nat (last_names (ordinary (heads (elems evs)))))).
Proof. exact vg_printout_lines. Qed.
Print Assumptions C70_lines.
(* --reverse turns the order of the sections, and nothing else. *)
Theorem C70_reverse : forall printable fr h text, VgPrintout printable false fr h text -> filter (stays fr) (opened h) <> [] ->
  exists ts, length ts = length (filter (stays fr) (opened h)) /\ text = List.concat ts /\ VgPrintout printable true fr h (List.concat (rev ts)).
Proof. exact vg_printout_reverse. Qed.
Print Assumptions C70_reverse.
(* It is dialplan-show where the readers give the same and no header is repeated. *)
Theorem C70_same : forall printable U FT AT fuel fuel' fs reverse name,
  vsw_stream (vg_parse_file fuel fs name) = vsw_stream (parse_file fuel' fs name) ->
  NoDup (heads (elems (fst (vsw_stream (parse_file fuel' fs name))))) ->
  vg_show_command U FT AT printable fuel fs reverse name = show_command U FT AT printable fuel' fs reverse name.
Proof. exact vg_show_same. Qed.
Print Assumptions C70_same.

Theorem C70_modules : forall U FT AT there fs arg name text status, AsciiOk U -> KeepsBar U -> Properties_Show.Tabled FT AT ->
  VgModulesSays U FT AT there fs arg name text status <->
  exists fuel, vg_modules_command U FT AT fuel fs there arg name = Ok (text, status).
Proof.
  intros U FT AT there fs arg name text status HU KB ((a & A1 & A2) & (f & F1 & F2)). exact (vg_modules_iff U FT AT a f HU KB A1 A2 F1 F2 there fs arg name text status).
Qed.
Print Assumptions C70_modules.
Theorem C70_modules_determined : forall U FT AT there fs arg name text status text' status', AsciiOk U -> KeepsBar U -> Properties_Show.Tabled FT AT ->
  VgModulesSays U FT AT there fs arg name text status -> VgModulesSays U FT AT there fs arg name text' status' ->
  text = text' /\ status = status'.
Proof.
  intros U FT AT there fs arg name text status t' s' HU KB ((a & A1 & A2) & (f & F1 & F2)). exact (vg_modules_det U FT AT a f HU KB A1 A2 F1 F2 there fs arg name text status t' s').
Qed.
Print Assumptions C70_modules_determined.

(* ---- examples ---- *)
(* The section [a] comes again in the second file and moves to the end; the
   application is written over two lines. *)
Definition vs_fs : fsys := fs_of
  [(L "x", L "[a]" ++ [10] ++ L "exten => 1,1,Gone()" ++ [10] ++ L "include => b" ++ [10] ++ L "[b]" ++ [10] ++ L "exten => _1X,1,NoOp(a" ++ [10] ++ L "  b)" ++ [10] ++ L "include => a" ++ [10] ++ L "#include ""y""" ++ [10]);
   (L "y", L "[a]" ++ [10] ++ L "exten => 11,7,Foo(${BAR(x)})" ++ [10])].
Definition vs_text (l : list str) : str := flat_map (fun s => s ++ [10]) l.
Definition vs_b : list str :=
  [L "[ Context 'b' created by 'pbx_config' ]";
   L "  '_1X' =>          1. NoOp(a  b)                                 [pbx_config]";
   L "  Include =>        'a'                                           [pbx_config]";
   []].
Definition vs_a : list str :=
  [L "[ Context 'a' created by 'pbx_config' ]";
   L "  '11' =>           7. Foo(${BAR(x)})                             [pbx_config]";
   []].
Example C70_example_show : VgShowSays (fun _ => true) uni_ascii funcs_v13 apps_v13 vs_fs false (L "x") (vs_text (vs_b ++ vs_a)) 0 /\
  VgShowSays (fun _ => true) uni_ascii funcs_v13 apps_v13 vs_fs true (L "x") (vs_text (vs_a ++ vs_b)) 0.
Proof. split; (apply C70_show; [exact Properties_VgCheck.uni_ascii_ok|]; exists 100%nat; vm_compute; reflexivity). Qed.
(* Gone is reported, though it is only in the section that is wiped. *)
Example C70_example_modules : VgModulesSays uni_ascii funcs_v13 apps_v13 (fun _ => false) vs_fs None (L "x")
  (vs_text
    [L "; Application providing modules used:"; L ";   <builtin>             NoOp()"; L ";";
     L "; Function providing modules used:"; L ";"; L "; modules.conf"; [];
     L "; WARNING: The following unknown applications were seen:"; L ";   Foo, Gone"; L ";";
     L "; WARNING: The following unknown functions were seen:"; L ";   BAR"; L ";"]) 1.
Proof.
  apply C70_modules; [exact Properties_VgCheck.uni_ascii_ok|exact Properties_Show.C62_example_lower|exact Properties_Show.C62_example_tables|].
  exists 100%nat. vm_compute. reflexivity.
Qed.
(* The hypotheses of C70_headings, C70_lines and C70_reverse. *)
Example C70_example_lines : ~ In 10 (L "x") /\ exists evs fr h l, VgStream vs_fs (L "x") evs (Ok tt) /\ VgPlanSays uni_ascii funcs_v13 apps_v13 evs fr h l /\
  VgPrintout (fun _ => true) false fr h (vs_text (vs_b ++ vs_a)) /\ filter (stays fr) (opened h) = [L "b"; L "a"].
Proof.
  split; [now intros [E|[]]|]. pose proof (proj1 C70_example_show) as H. remember (vs_text (vs_b ++ vs_a)) as t eqn:T. destruct H as [evs fr h l t S P O].
  exists evs, fr, h, l. split; [easy|]. split; [easy|]. split; [easy|].
  rewrite (C70_headings _ _ _ _ _ _ _ _ _ Properties_VgCheck.uni_ascii_ok S P).
  destruct (vg_stream_eventually _ _ _ _ S) as [k K]. assert (E : VgStream vs_fs (L "x") (fst (vsw_stream (vg_parse_file 100 vs_fs (L "x")))) (Ok tt)).
  { apply vg_stream_iff. split; [easy|]. exists 100%nat. vm_compute. reflexivity. }
  destruct (vg_stream_det _ _ _ _ _ _ S E) as [-> _]. vm_compute. reflexivity.
Qed.
(* The hypotheses of C70_same: a file without line continuations and repeated headers. *)
Definition vs_same : fsys := fs_of [(L "x", L "[general]" ++ [10] ++ L "[globals]" ++ [10] ++ L "[a]" ++ [10] ++ L "exten => 1,1,NoOp() ; hi" ++ [10])].
Example C70_example_same : vsw_stream (vg_parse_file 100 vs_same (L "x")) = vsw_stream (parse_file 100 vs_same (L "x")) /\
  NoDup (heads (elems (fst (vsw_stream (parse_file 100 vs_same (L "x")))))).
Proof.
  split; [vm_compute; reflexivity|]. replace (heads _) with [L "general"; L "globals"; L "a"] by (vm_compute; reflexivity).
  repeat constructor; cbn [In]; intros H; repeat destruct H as [H|H]; try discriminate H; try exact H.
Qed.
