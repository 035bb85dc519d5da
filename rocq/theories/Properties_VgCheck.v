(* Final theorems about vg dialplan-check: C68. *)
From Verif Require Import Base PyStr Utf8 Defines FileRd Config VSpace Pattern Var VarFun AppM Tables Dialplan Spec_Dialplan Spec_Log
  Spec_VarFun FuncOdbc Spec_FuncOdbc Check Spec_Check Spec_Run Run_proofs VarFun_proofs VgRead VgPlan Spec_VgPlan VgCheck Spec_VgCheck VgPlan_proofs VgCheck_proofs.

(* Everything that is said in a run that ends well: the rules of C59 for the
   lines that the VoIPGRID reader gives (C67), with the sections that come again
   put aside under other names. *)
Theorem C68_check : forall U FT AT there fuel fs arg name l, AsciiOk U ->
  vg_check_run U FT AT there fuel fs arg name = (l, Ok tt) <-> VgCheckSays U FT AT there fuel fs arg name l.
Proof. exact vg_check_iff. Qed.
Print Assumptions C68_check.
Theorem C68_determined : forall U FT AT there fuel fs arg name l l', AsciiOk U ->
  VgCheckSays U FT AT there fuel fs arg name l -> VgCheckSays U FT AT there fuel fs arg name l' -> l = l'.
Proof. exact vg_check_det. Qed.
Print Assumptions C68_determined.
(* There always are other names. *)
Theorem C68_names : forall evs, exists evs' fr, Renamed evs evs' fr /\ New (elems evs) fr.
Proof.
  intros evs. destruct (new_names (elems evs)) as (es' & fr & A & N). destruct (renamed_exists evs es' fr A) as (evs' & R & _). now exists evs', fr.
Qed.
Print Assumptions C68_names.

(* The process. *)
Theorem C68_process : forall U FT AT there fuel fs env arg name p, AsciiOk U -> p = vg_dialplan_check U FT AT there fuel fs env arg name ->
  forall n, p_end p = Ok n <->
    exists l, VgCheckSays U FT AT there fuel fs arg name l /\ Messages [] l (p_raised p) /\ Shown env (p_raised p) (p_printed p) /\
      (p_printed p = [] /\ n = 0 \/ p_printed p <> [] /\ n = 1).
Proof. exact vg_process_iff. Qed.
Print Assumptions C68_process.

(* Whatever happens, messages are at lines of the files. *)
Theorem C68_placed : forall U FT AT there fuel fs arg name chosen m,
  In m (run_msgs chosen (fst (vg_check_run U FT AT there fuel fs arg name))) -> Placed fs m.
Proof. exact vg_placed. Qed.
Print Assumptions C68_placed.

(* Nothing changes for files that are read alike and have no repeated headers. *)
Theorem C68_same : forall U FT AT there fuel fuel' fs arg name,
  (forall f, f = name \/ OdbcFile there name arg (Some f) -> vsw_stream (vg_parse_file fuel fs f) = vsw_stream (parse_file fuel' fs f)) ->
  NoDup (heads (elems (fst (vsw_stream (parse_file fuel' fs name))))) ->
  vg_check_run U FT AT there fuel fs arg name = check_run U FT AT there fuel' fs arg name.
Proof. exact vg_same. Qed.
Print Assumptions C68_same.

(* ---- Examples ---- *)
Lemma uni_ascii_ok : AsciiOk uni_ascii.
Proof.
  intros c Hc. cbn. unfold ascii_digit.
  split; [|intros d]; destruct (48 <=? c) eqn:E1, (c <=? 57) eqn:E2; cbn;
    rewrite ?N.leb_le, ?N.leb_gt in *; split; try congruence; try lia; try (intros [= <-]); try lia;
    try (intros [? ->]); try easy; try lia.
Qed.
Definition vc_bytes (l : list str) : bytes := flat_map (fun s => s ++ [10]) l.
Definition vc_fs (l : list str) : fsys := fs_of [(L "/e.conf", vc_bytes l)].
Definition vc_run (l : list str) : M unit := vg_check_run uni_ascii funcs_v13 apps_v13 (fun _ => false) 100 (vc_fs l) (Some []) (L "/e.conf").
Definition vc_msgs (m : M unit) : list (mcls * N) := map (fun m => (m_cls m, w_line (m_where m))) (run_msgs None (fst m)).
Definition vc_before : list str := [L "[general]"; L "[globals]"; []].
Definition vc_gone : list str := [L "[a]"; L "exten => 1,1(x),NoOp(x)"; L "exten => 1,n,Goto(${C},1,x)"; L "exten => 1,n,Goto(2,1)"; []].
Definition vc_after : list str :=
  [L "[b]"; L "exten => 2,1,NoOp(a)"; L " ;1"; L "exten => 2,n,Goto(a,1,x)"; []; L "[a]"; L "exten => 1,1,NoOp(x)"].

(* Goto(2,1) of the first [a] is held against the second one, and so is the jump of
   [b] to the label x.  The jump of line 6 is not reported. *)
Definition vc_log : list lev := Eval vm_compute in fst (vc_run (vc_before ++ vc_gone ++ vc_after)).
Lemma vc_ran : vc_run (vc_before ++ vc_gone ++ vc_after) = (vc_log, Ok tt).
Proof. vm_compute. reflexivity. Qed.
Example C68_example : VgCheckSays uni_ascii funcs_v13 apps_v13 (fun _ => false) 100 (vc_fs (vc_before ++ vc_gone ++ vc_after)) (Some []) (L "/e.conf") vc_log /\
  vc_msgs (vc_log, Ok tt) = [(W_DP_GOTO_CONTEXT_NOEXTEN, 7); (W_DP_GOTO_CONTEXT_NOEXTEN, 12)] /\
  p_end (vg_dialplan_check uni_ascii funcs_v13 apps_v13 (fun _ => false) 100 (vc_fs (vc_before ++ vc_gone ++ vc_after)) None (Some []) (L "/e.conf")) = Ok 1.
Proof. split; [apply C68_check; [exact uni_ascii_ok|exact vc_ran]|]. split; vm_compute; reflexivity. Qed.
(* Two sections of one name: an ordinary check puts them together. *)
Definition vc_two : list str := vc_before ++ [L "[a]"; L "exten => 1,1,NoOp(x)"; []; L "[a]"; L "exten => 1,1,NoOp(y)"].
Definition vc_same : list str := vc_before ++ [L "[a]"; L "exten => 1,1,NoOp(x)"; L "exten => 1,n,Goto(3,1)"; []; L "[b]"; L "exten => 1,1,NoOp(y)"].
Example C68_example_same : 
  (forall f, f = L "/e.conf" \/ OdbcFile (fun _ => false) (L "/e.conf") (Some []) (Some f) ->
     vsw_stream (vg_parse_file 100 (vc_fs vc_same) f) = vsw_stream (parse_file 50 (vc_fs vc_same) f)) /\
  NoDup (heads (elems (fst (vsw_stream (parse_file 50 (vc_fs vc_same) (L "/e.conf")))))) /\
  vc_msgs (vc_run vc_same) = [(W_DP_GOTO_CONTEXT_NOEXTEN, 6)].
Proof.
  split; [|split].
  - intros f [->|H]; [vm_compute; reflexivity|]. inversion H.
  - vm_compute. repeat constructor; cbn; intros H; decompose [or] H; (discriminate || contradiction).
  - vm_compute. reflexivity.
Qed.

(* Refuted: the command ends as dialplan-check does. *)
Theorem C68_as_check_refuted : ~ (forall U FT AT there fuel fs env arg name n n', AsciiOk U ->
  p_end (vg_dialplan_check U FT AT there fuel fs env arg name) = Ok n -> p_end (dialplan_check U FT AT there fuel fs env arg name) = Ok n' -> n = n').
Proof.
  intros H. specialize (H uni_ascii funcs_v13 apps_v13 (fun _ => false) 100%nat (vc_fs vc_two) None (Some []) (L "/e.conf") 0 1 uni_ascii_ok).
  assert (0 = 1) as K; [|discriminate K]. apply H; vm_compute; reflexivity.
Qed.
Print Assumptions C68_as_check_refuted.

(* Refuted: a section that comes again later might as well not be there.  The jumps
   in it are still looked at. *)
Theorem C68_gone_refuted : ~ (forall U FT AT there fuel fs before name head gone after, AsciiOk U ->
  head = L "[a]" -> In head after -> (forall s, In s gone -> ~ startswith [91] s = true) ->
  map m_cls (run_msgs None (fst (vg_check_run U FT AT there fuel (fs (before ++ head :: gone ++ after)) (Some []) name))) =
  map m_cls (run_msgs None (fst (vg_check_run U FT AT there fuel (fs (before ++ after)) (Some []) name)))).
Proof.
  intros H. specialize (H uni_ascii funcs_v13 apps_v13 (fun _ => false) 100%nat vc_fs vc_before (L "/e.conf") (L "[a]") (tl vc_gone) vc_after uni_ascii_ok eq_refl).
  assert (In (L "[a]") vc_after) as K by (vm_compute; tauto). specialize (H K).
  assert (forall s, In s (tl vc_gone) -> ~ startswith [91] s = true) as K2.
  { cbn [vc_gone tl In]. intros s E. decompose [or] E; try contradiction; subst s; vm_compute; discriminate. }
  specialize (H K2). vm_compute in H. discriminate H.
Qed.
Print Assumptions C68_gone_refuted.

(* Refuted: a jump to a label, in a context that is in a variable, is reported if
   no section that is left has the label. *)
Theorem C68_label_refuted : ~ (forall U FT AT fuel fs name l d j s, AsciiOk U -> vg_parse_dialplan U FT AT fuel fs name = (l, Ok d) ->
  In j (g_jumps (dp_glob d)) -> is_str (j_ctx j) = false -> j_prio j = JTok (TS s) ->
  (forall c y, In c (dp_ctxs d) -> In y (dc_exts c) -> ~ HasLabel y s) -> check_jump (jump_fuel d) d j <> ([], Ok tt)).
Proof.
  intros H. destruct (vg_parse_dialplan uni_ascii funcs_v13 apps_v13 100 (vc_fs (vc_before ++ vc_gone ++ vc_after)) (L "/e.conf")) as [l [d|e|]] eqn:E;
    pose proof E as E0; vm_compute in E; try discriminate E. injection E as <- <-.
  eapply (H _ _ _ _ _ _ _ _ _ (L "x") uni_ascii_ok E0).
  - vm_compute. left. reflexivity.
  - reflexivity.
  - reflexivity.
  - vm_compute. intros c y Hc Hy. decompose [or] Hc; try contradiction; subst c; cbn in Hy; decompose [or] Hy; try contradiction; subst y; discriminate.
  - vm_compute. reflexivity.
Qed.
Print Assumptions C68_label_refuted.
(* A second [globals] ends the command, where dialplan-check tells it. *)
Definition vc_globals : list str := vc_before ++ [L "[a]"; L "exten => 1,1,NoOp(x)"; []; L "[globals]"].
Example C68_example_globals : snd (vc_run vc_globals) = Exn ProgrammingError /\
  vc_msgs (check_run uni_ascii funcs_v13 apps_v13 (fun _ => false) 100 (vc_fs vc_globals) (Some []) (L "/e.conf")) = [(E_DP_GLOBALS_DUPE, 7)].
Proof. split; vm_compute; reflexivity. Qed.
