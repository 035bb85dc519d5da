(* Final theorems about whole runs: C22, C43, C44, C48. *)
From Coq Require Import Permutation Sorted.
From Verif Require Import Base Utf8 PyStr Defines FileRd Config VarFun AppM Dialplan FuncOdbc Tables Commands Check
  Spec_Log Spec_Check Check_proofs Web_proofs.

(* ---- C22 ---- *)
(* Every ALINT_IGNORE: a class is muted iff an item is its name, or ends with an
   underscore and its name starts with it. *)
Theorem C22_muted : forall env c, muted env c = true <-> Silenced env c.
Proof. exact muted_iff. Qed.
Print Assumptions C22_muted.
(* Every run of dialplan-check.  A message that cannot be formatted only occurs
   in a run that does not end. *)
Theorem C22_dialplan_check : forall U FT AT exists_ fuel fs env arg name,
  let p := dialplan_check U FT AT exists_ fuel fs env arg name in
  (forall m, In m (p_printed p) <->
     In m (p_raised p) /\ format_ok (mfields (m_cls m)) (m_args m) = Ok tt /\ ~ Silenced env (m_cls m)) /\
  (forall n, p_end p = Ok n ->
     (forall m, In m (p_raised p) -> format_ok (mfields (m_cls m)) (m_args m) = Ok tt) /\
     ((n = 1 /\ p_printed p <> []) \/ (n = 0 /\ p_printed p = []))).
Proof.
  intros U FT AT ex fuel fs env arg name. destruct (process_exact env (check_run U FT AT ex fuel fs arg name)) as (K1 & K2 & _).
  - intros [[] E]. intros m H. eapply all_formatted; eassumption.
  - split; assumption.
Qed.
Print Assumptions C22_dialplan_check.
Theorem C22_func_odbc_check : forall fuel fs env name,
  let p := odbc_check fuel fs env name in
  (forall m, In m (p_printed p) <->
     In m (p_raised p) /\ format_ok (mfields (m_cls m)) (m_args m) = Ok tt /\ ~ Silenced env (m_cls m)) /\
  (forall n, p_end p = Ok n ->
     (forall m, In m (p_raised p) -> format_ok (mfields (m_cls m)) (m_args m) = Ok tt) /\
     ((n = 1 /\ p_printed p <> []) \/ (n = 0 /\ p_printed p = []))).
Proof.
  intros fuel fs env name. destruct (process_exact env (mw (load_func_odbc fuel fs name))) as (K1 & K2 & _).
  - apply odbc_formatted.
  - split; assumption.
Qed.
Print Assumptions C22_func_odbc_check.
(* Muting changes neither what is raised nor whether the run ends. *)
Theorem C22_raised_unchanged : forall U FT AT exists_ fuel fs env env' arg name,
  let p := dialplan_check U FT AT exists_ fuel fs env arg name in
  let q := dialplan_check U FT AT exists_ fuel fs env' arg name in
  p_raised p = p_raised q /\ (forall e, p_end p = Exn e <-> p_end q = Exn e) /\ (p_end p = Hang <-> p_end q = Hang) /\
  (exists ks, p_printed p = filter ks (p_raised p)).
Proof.
  intros. subst p q. unfold dialplan_check, process_of. cbn [p_raised p_end p_printed]. split; [easy|].
  split; [|split]; [destruct (snd _); cbn; intuition congruence..|]. eexists. reflexivity.
Qed.
Print Assumptions C22_raised_unchanged.

(* The files of the examples. *)
Definition lines (l : list str) : str := flat_map (fun x => x ++ [10]) l.
Definition with_text (t : str) : fsys := fun name => if str_eqb name (L "/e.conf") then Ok t else Exn OSError.
Definition ck (env : option str) (l : list str) :=
  dialplan_check uni_ascii funcs_v13 apps_v13 (fun _ => false) 100 (with_text (lines l)) env None (L "/e.conf").
Definition classes (ms : list msg) := map (fun m => (mname (m_cls m), w_line (m_where m))) ms.
Definition ck_lines := [L "[globals]"; L "[a]"; L "exten => 1,1,Nope(a)"; L " same => n,Goto(b,1,1)"; L "exten => 1,2,Hangup("].
Example C22_all_printed :
  classes (p_printed (ck None ck_lines)) =
    [(L "H_DP_GLOBALS_MISPLACED", 1); (L "E_APP_MISSING", 3); (L "W_APP_BALANCE", 5); (L "E_DP_PRIO_DUPE", 5);
     (L "H_DP_GENERAL_MISPLACED", 0); (L "E_DP_GOTO_NOCONTEXT", 4)] /\
  p_end (ck None ck_lines) = Ok 1.
Proof. vm_compute. now split. Qed.
Example C22_some_printed :
  classes (p_printed (ck (Some (L ",W_,H_DP_,E_APP_MISSING,E_DP,E_DP_PRIO_DUP")) ck_lines)) =
    [(L "E_DP_PRIO_DUPE", 5); (L "E_DP_GOTO_NOCONTEXT", 4)] /\
  p_end (ck (Some (L ",W_,H_DP_,E_APP_MISSING,E_DP")) ck_lines) = Ok 1.
Proof. vm_compute. now split. Qed.
Example C22_none_printed :
  p_printed (ck (Some (L "W_,H_,E_")) ck_lines) = [] /\ p_end (ck (Some (L "W_,H_,E_")) ck_lines) = Ok 0 /\
  length (p_raised (ck (Some (L "W_,H_,E_")) ck_lines)) = 6%nat.
Proof. vm_compute. repeat split. Qed.
Example C22_silenced : Silenced (Some (L "X,E_DP_,W")) E_DP_PRIO_DUPE /\ ~ Silenced (Some (L "X,E_DP_,W")) W_APP_BALANCE.
Proof. rewrite <- !muted_iff. vm_compute. split; [easy|discriminate]. Qed.
Definition odbc_text : str := lines [L "[A]"; L "dsn=x"; L "dsn=y"; L "readsql=SELECT ${ARG1};"].
Example C22_odbc :
  classes (p_printed (odbc_check 100 (with_text odbc_text) (Some (L "E_CONF_KEY_DUPE")) (L "/e.conf"))) <>
  classes (p_raised (odbc_check 100 (with_text odbc_text) (Some (L "E_CONF_KEY_DUPE")) (L "/e.conf"))) /\
  p_end (odbc_check 100 (with_text odbc_text) (Some (L "E_CONF_KEY_DUPE")) (L "/e.conf")) = Ok 1 /\
  p_end (odbc_check 100 (with_text odbc_text) (Some (L "E_CONF_KEY_DUPE,W_WSH_")) (L "/e.conf")) = Ok 0.
Proof. vm_compute. repeat split. discriminate. Qed.

(* ---- C44 ---- *)
(* Every place that raises a message, but two, gives every placeholder. *)
Theorem C44_sites_partial : forall c names, In (c, names) raise_sites -> ~ bad_site c ->
  forall f, In f (map fst (mfields c)) -> In f names.
Proof. exact site_supplied. Qed.
Print Assumptions C44_sites_partial.
(* So does every message of every run of dialplan-check, however Background is
   spelled; formatting it does not raise KeyError.  (AttributeError is raised
   inside the argument, by a substitution that cannot be printed.) *)
Theorem C44_messages_partial : forall U FT AT exists_ fuel fs arg name chosen m,
  In m (run_msgs chosen (fst (check_run U FT AT exists_ fuel fs arg name))) -> ~ bad_site (m_cls m) ->
  Supplied m /\
  (format_ok (mfields (m_cls m)) (m_args m) = Ok tt \/ format_ok (mfields (m_cls m)) (m_args m) = Exn AttributeError).
Proof. exact all_supplied. Qed.
Print Assumptions C44_messages_partial.
(* Every message of a run that ends can be formatted. *)
Theorem C44_formatted_partial : forall U FT AT exists_ fuel fs arg name chosen,
  snd (check_run U FT AT exists_ fuel fs arg name) = Ok tt ->
  forall m, In m (run_msgs chosen (fst (check_run U FT AT exists_ fuel fs arg name))) ->
  format_ok (mfields (m_cls m)) (m_args m) = Ok tt.
Proof. exact all_formatted. Qed.
Print Assumptions C44_formatted_partial.
(* The two sites: a label without closing parenthesis, a computed name of a
   function. *)
Definition bad_label := [L "[general]"; L "[globals]"; L "[a]"; L "exten => 1,1(x,NoOp()"].
Definition dynamic_func := [L "[general]"; L "[globals]"; L "[a]"; L "exten => 1,1,NoOp(${${x}(y)})"].
Theorem C44_all_supplied_refuted : forall l, l = bad_label \/ l = dynamic_func ->
  exists m, p_raised (ck None l) = [m] /\ bad_site (m_cls m) /\ ~ Supplied m /\
    format_ok (mfields (m_cls m)) (m_args m) = Exn KeyError /\ p_end (ck None l) = Exn ProgrammingError.
Proof.
  intros l [->| ->].
  - remember (p_raised (ck None bad_label)) as r eqn:E. vm_compute in E. eexists. split; [exact E|]. subst r. split; [now left|]. split.
    + intros H. specialize (H (L "label")). vm_compute in H. destruct H; now left.
    + split; vm_compute; reflexivity.
  - remember (p_raised (ck None dynamic_func)) as r eqn:E. vm_compute in E. eexists. split; [exact E|]. subst r. split; [now right|]. split.
    + intros H. specialize (H (L "data")). vm_compute in H. destruct H as [H|[]]; [now left|discriminate].
    + split; vm_compute; reflexivity.
Qed.
Print Assumptions C44_all_supplied_refuted.
Example C44_example : length (p_raised (ck None ck_lines)) = 6%nat /\ snd (check_run uni_ascii funcs_v13 apps_v13 (fun _ => false) 100 (with_text (lines ck_lines)) None (L "/e.conf")) = Ok tt /\
  forallb (fun m => match m_args m with [] => false | _ => true end) (p_raised (ck None ck_lines)) = false /\
  existsb (fun m => match m_args m with [_; _; _] => true | _ => false end) (p_raised (ck None ck_lines)) = true.
Proof. vm_compute. repeat split. Qed.

(* ---- C48 ---- *)
(* Every message of every run points to a line of a file that was read: its
   number and its text are those of the file.  Two messages are about the whole
   file. *)
Theorem C48_dialplan : forall U FT AT exists_ fuel fs arg name chosen m,
  In m (run_msgs chosen (fst (check_run U FT AT exists_ fuel fs arg name))) -> Placed fs m.
Proof. exact all_placed. Qed.
Print Assumptions C48_dialplan.
Theorem C48_func_odbc : forall fuel fs name m,
  In m (run_msgs None (fst (mw (load_func_odbc fuel fs name)))) -> Placed fs m.
Proof. exact odbc_placed. Qed.
Print Assumptions C48_func_odbc.
Example C48_example : exists m q, In m (p_raised (ck None ck_lines)) /\ m_cls m = E_DP_PRIO_DUPE /\ m_prev m = Some q /\
  w_text (m_where m) = lines [L "exten => 1,2,Hangup("] /\ w_line (m_where m) = 5 /\
  w_text q = lines [L " same => n,Goto(b,1,1)"] /\ w_line q = 4.
Proof.
  remember (p_raised (ck None ck_lines)) as r eqn:E. vm_compute in E. subst r. do 2 eexists. split; [do 3 right; left; reflexivity|].
  vm_compute. repeat split.
Qed.

(* ---- C43 ---- *)
Section Requests.
Variable U : uni.
Variable FT : ftable.
Variable AT : atable.
Variable fuel : nat.
Let post := web_post U FT AT fuel.
Let run := web_run U FT AT fuel.

(* A history of requests of which none raised, and no spelling of Background
   decided by it or no Background in the request: the response is that of a
   fresh server. *)
Definition isolated_statement := forall h text,
  (forall t data, In t h -> utf8_encode t = Ok data -> snd (run data) = Ok tt) ->
  ((forall t data, In t h -> utf8_encode t = Ok data -> NoSpelling (fst (run data))) \/
   (forall data, utf8_encode text = Ok data -> NoBackground (fst (run data)))) ->
  snd (post (web_history U FT AT fuel web_start h) text) = snd (post web_start text).
(* The response of a request that did not raise, to a server without left over
   messages, is exactly what was raised, ordered by line and class; nothing is
   left over. *)
Definition response_statement := forall bg text data, utf8_encode text = Ok data -> snd (run data) = Ok tt ->
  ws_raised (fst (post (WState [] bg) text)) = [] /\
  exists is, snd (post (WState [] bg) text) = Ok is /\ Reports (run_msgs bg (fst (run data))) is.
End Requests.
Theorem C43_isolated_partial : forall U FT AT fuel, isolated_statement U FT AT fuel.
Proof.
  intros U FT AT fuel h text HE H. apply isolated; [|exact H]. apply Forall_forall. intros t HI data E. eapply HE; eassumption.
Qed.
Print Assumptions C43_isolated_partial.
Theorem C43_response_partial : forall U FT AT fuel, response_statement U FT AT fuel.
Proof. intros U FT AT fuel bg text data E R. destruct (post_fresh U FT AT fuel bg text data E R) as [K1 K2]. split; [now rewrite K1|exact K2]. Qed.
Print Assumptions C43_response_partial.

Definition dp (l : list str) : str := lines (L "[general]" :: L "[globals]" :: L "[a]" :: l).
Definition web := web_post uni_ascii funcs_v13 apps_v13 100.
Definition after := web_history uni_ascii funcs_v13 apps_v13 100 web_start.
(* A request that raised leaves its messages to the next one. *)
Theorem C43_leak_refuted : exists t1 t2 is, snd (web web_start t1) = Exn ProgrammingError /\
  snd (web web_start t2) = Ok [] /\ snd (web (after [t1]) t2) = Ok is /\ is <> [].
Proof.
  exists (dp [L "exten => 1,1,Nope()"; L "exten => foo"]), (dp [L "exten => 1,1,NoOp"]),
    [Issue 4 (L "E_APP_MISSING") [(L "app", AStr (L "Nope"))]].
  split; [vm_compute; reflexivity|]. split; [vm_compute; reflexivity|]. split; [vm_compute; reflexivity|discriminate].
Qed.
Print Assumptions C43_leak_refuted.
(* It can make the next one fail. *)
Theorem C43_poison_refuted : exists t1 t2, snd (web web_start t1) = Exn ProgrammingError /\
  snd (web web_start t2) = Ok [] /\ snd (web (after [t1]) t2) = Exn KeyError /\ snd (web (after [t1; t2]) t2) = Ok [].
Proof. exists (dp [L "exten => 1,1(x,NoOp"]), (dp [L "exten => 1,1,NoOp"]). vm_compute. repeat split. Qed.
Print Assumptions C43_poison_refuted.
(* The first spelling of Background decides for all later requests. *)
Theorem C43_background_refuted : exists t1 t2 is, snd (web web_start t1) = Ok [] /\
  snd (web web_start t2) = Ok [] /\ snd (web (after [t1]) t2) = Ok is /\ is <> [].
Proof.
  exists (dp [L "exten => 1,1,Background(x)"]), (dp [L "exten => 1,1,BackGround(x)"]),
    [Issue 4 (L "W_APP_BAD_CASE") [(L "app", AStr (L "BackGround")); (L "proper", AStr (L "Background"))]].
  split; [vm_compute; reflexivity|]. split; [vm_compute; reflexivity|]. split; [vm_compute; reflexivity|discriminate].
Qed.
Print Assumptions C43_background_refuted.
Example C43_example : exists is, snd (web (after [dp [L "exten => 1,1,Nope()"]; dp [L "exten => 1,1,Background(x)"]]) (lines ck_lines)) = Ok is /\
  snd (web web_start (lines ck_lines)) = Ok is /\
  map (fun i => (is_line i, is_class i)) is =
    [(0, L "H_DP_GENERAL_MISPLACED"); (1, L "H_DP_GLOBALS_MISPLACED"); (3, L "E_APP_MISSING"); (4, L "E_DP_GOTO_NOCONTEXT");
     (5, L "E_DP_PRIO_DUPE"); (5, L "W_APP_BALANCE")].
Proof. eexists. split; [vm_compute; reflexivity|]. vm_compute. split; reflexivity. Qed.
