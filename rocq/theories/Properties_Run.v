(* C59: everything said in a run of dialplan-check, and when a run ends. *)
From Verif Require Import Base PyStr Defines FileRd Config VSpace Pattern Var VarFun AppM Dialplan Spec_Var Spec_VarFun Spec_Args Spec_App Spec_Line Spec_Dialplan Dialplan_proofs
  Spec_Search FuncOdbc Spec_FuncOdbc Check Spec_Check Spec_Log Spec_Run Run_proofs Tables Tok_proofs Properties_Crash.

(* A line of a context. *)
Theorem C59_line : forall U FT AT v l r, AsciiOk U -> from_varset U FT AT v = (l, Ok r) <-> LineGives U FT AT v l r.
Proof. intros U FT AT v l r HU. now apply gives_iff. Qed.
Print Assumptions C59_line.

(* The dialplan: it is read without failure exactly if the rules apply. *)
Theorem C59_dialplan : forall U FT AT fuel fs name l, AsciiOk U ->
  (exists d, parse_dialplan U FT AT fuel fs name = (l, Ok d)) <->
  (exists evs h, vsw_stream (parse_file fuel fs name) = (evs, Ok tt) /\ PlanSays U FT AT evs h l).
Proof.
  intros U FT AT fuel fs name l HU. split.
  - intros [d H]. apply plan_sound in H as (evs & h & E & P & _); [|easy]. now exists evs, h.
  - intros (evs & h & E & P). destruct (plan_complete U FT AT HU fuel fs name evs h l E P) as (d & H & _). now exists d.
Qed.
Print Assumptions C59_dialplan.

(* The walk through the jumps of what was read. *)
Theorem C59_walk : forall U FT AT fuel fs name l d evs h l', AsciiOk U ->
  parse_dialplan U FT AT fuel fs name = (l, Ok d) -> vsw_stream (parse_file fuel fs name) = (evs, Ok tt) -> PlanSays U FT AT evs h l ->
  (walk_jump_destinations d = (l', Ok tt) <-> WalkSays U h l').
Proof.
  intros U FT AT fuel fs name l d evs h l' HU H E P. destruct (plan_complete U FT AT HU fuel fs name evs h l E P) as (d' & H' & I).
  rewrite H in H'. injection H' as <-. now apply walk_says.
Qed.
Print Assumptions C59_walk.

(* func_odbc.conf, in the order things are said. *)
Theorem C59_func_odbc : forall fuel fs f l fns, load_func_odbc fuel fs f = (l, Ok fns) <-> OdbcSays fuel fs (Some f) fns l.
Proof. exact load_iff. Qed.
Print Assumptions C59_func_odbc.

(* The whole run. *)
Theorem C59_check : forall U FT AT there fuel fs arg name l, AsciiOk U ->
  check_run U FT AT there fuel fs arg name = (l, Ok tt) <-> CheckSays U FT AT there fuel fs arg name l.
Proof. intros U FT AT there fuel fs arg name l HU. now apply check_iff. Qed.
Print Assumptions C59_check.
Theorem C59_determined : forall U FT AT there fuel fs arg name l l', AsciiOk U ->
  CheckSays U FT AT there fuel fs arg name l -> CheckSays U FT AT there fuel fs arg name l' -> l = l'.
Proof. intros U FT AT there fuel fs arg name l l' HU. now apply check_det. Qed.
Print Assumptions C59_determined.

(* The spelling of Background, with the spelling that is proposed (C34). *)
Theorem C34_messages : forall l ms, Messages [] l ms <-> run_msgs None l = ms.
Proof. exact messages_iff. Qed.
Print Assumptions C34_messages.

(* The process: it has an exit status exactly if the rules apply, and then its
   messages, its output and the status are theirs.  No file is excepted. *)
Theorem C59_process : forall U FT AT there fuel fs env arg name p, AsciiOk U -> p = dialplan_check U FT AT there fuel fs env arg name ->
  forall n, p_end p = Ok n <->
    exists l, CheckSays U FT AT there fuel fs arg name l /\ Messages [] l (p_raised p) /\ Shown env (p_raised p) (p_printed p) /\
      (p_printed p = [] /\ n = 0 \/ p_printed p <> [] /\ n = 1).
Proof. intros U FT AT there fuel fs env arg name p HU E. now apply (process_iff U FT AT there fuel fs env arg name p). Qed.
Print Assumptions C59_process.
Theorem C23_exact : forall U FT AT there fuel fs env arg name, AsciiOk U ->
  (exists n, p_end (dialplan_check U FT AT there fuel fs env arg name) = Ok n) <-> exists l, CheckSays U FT AT there fuel fs arg name l.
Proof.
  intros U FT AT there fuel fs env arg name HU. split.
  - intros [n H]. apply (C59_process U FT AT there fuel fs env arg name _ HU eq_refl) in H as (l & H & _). now exists l.
  - intros [l H]. apply C59_check in H; [|easy]. unfold dialplan_check, process_of. cbn [p_end]. rewrite H. cbn. now eexists.
Qed.
Print Assumptions C23_exact.

(* ---- examples ---- *)
Definition file (ls : list bytes) : bytes := flat_map (fun l => l ++ [10]) ls.
Definition euro : bytes := [0xe2; 0x82; 0xac].
Definition plan (b : list bytes) : fsys := fun n =>
  if str_eqb n (L "d/x.conf") then
    Ok (file ([L "[general]"; L "[globals]"; L ""; L "[a]"; L "exten => 1,1,BACKGROUND(${ODBC_GET(k)})";
               L " same => n,BackGround(x)"; L "same => n,Background(y)";
               L "same => n(l),Goto(b,"++ euro ++ L ",1)"; L "include => b"; L ""; L "[b]"] ++ b))
  else if str_eqb n (L "d/func_odbc.conf") then Ok (file [L "[GET]"; L "dsn=x"; L "readsql=SELECT 1"; L "[PUT]"; L "dsn=x"])
  else Exn OSError.
Definition there (n : str) : bool := str_eqb n (L "d/func_odbc.conf").
Definition proc (b : list bytes) := dialplan_check uni_ascii funcs_v13 apps_v13 there 100 (plan b) None None (L "d/x.conf").
Definition names (ms : list msg) := map (fun m => (mname (m_cls m), w_line (m_where m))) ms.
(* The extension cannot be encoded, but there is nothing to hold it against;
   with an extension in its context the run fails. *)
Example C59_example : p_end (proc []) = Ok 1 /\
  names (p_raised (proc [])) = [(L "E_ODBC_NOSQL", 4); (L "W_APP_BAD_CASE", 5); (L "W_APP_BAD_CASE", 7); (L "W_DP_GOTO_CONTEXT_NOEXTEN", 8)] /\
  exists l, CheckSays uni_ascii funcs_v13 apps_v13 there 100 (plan []) None (L "d/x.conf") l.
Proof.
  split; [vm_compute; reflexivity|]. split; [vm_compute; reflexivity|].
  apply (C23_exact uni_ascii funcs_v13 apps_v13 there 100 (plan []) None None (L "d/x.conf") ascii_ok). exists 1. vm_compute. reflexivity.
Qed.
Example C59_example_fails : p_end (proc [L "exten => 5,1,NoOp"]) = Exn UnicodeEncodeError /\
  forall l, ~ CheckSays uni_ascii funcs_v13 apps_v13 there 100 (plan [L "exten => 5,1,NoOp"]) None (L "d/x.conf") l.
Proof.
  assert (p_end (proc [L "exten => 5,1,NoOp"]) = Exn UnicodeEncodeError) as H by (vm_compute; reflexivity). split; [exact H|].
  intros l K. assert (exists n, p_end (proc [L "exten => 5,1,NoOp"]) = Ok n) as [n E]; [|rewrite H in E; discriminate E].
  apply (C23_exact uni_ascii funcs_v13 apps_v13 there 100 (plan [L "exten => 5,1,NoOp"]) None None (L "d/x.conf") ascii_ok). now exists l.
Qed.
(* The first spelling is held against the default, the third against the second. *)
Example C34_example_messages :
  map m_args (filter (fun m => str_eqb (mname (m_cls m)) (L "W_APP_BAD_CASE")) (p_raised (proc []))) =
    [[(L "app", AStr (L "BACKGROUND")); (L "proper", AStr (L "Background"))];
     [(L "app", AStr (L "Background")); (L "proper", AStr (L "BackGround"))]].
Proof. vm_compute. reflexivity. Qed.
(* A line, its rule and what it gives. *)
Definition v0 : varset := Varset (L "exten") (L "_1X.,n(a),Goto(s,${b},1)") (Some false) false (Where (L "x") 3 []).
Example C59_example_line : LineGives uni_ascii funcs_v13 apps_v13 v0
    (fst (from_varset uni_ascii funcs_v13 apps_v13 v0))
    (match snd (from_varset uni_ascii funcs_v13 apps_v13 v0) with Ok r => r | _ => None end) /\
  length (fst (from_varset uni_ascii funcs_v13 apps_v13 v0)) = 3%nat.
Proof. split; [|vm_compute; reflexivity]. apply C59_line; [exact ascii_ok|]. vm_compute. reflexivity. Qed.
