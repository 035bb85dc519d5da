(* C63: the web service, from the requests before and the bytes of the upload to
   the words of the response. *)
From Coq Require Import Permutation Sorted.
From Verif Require Import Base Utf8 PyStr Defines FileRd Config VarFun AppM Dialplan Spec_VarFun Check Report Tables
  Spec_File Spec_Commands Spec_App Spec_Check Spec_Report Spec_Run Spec_Whole Run_proofs Whole_proofs Steady_proofs Service_proofs Properties_Crash.
From Verif Require Import Web Spec_Web.

(* ---- requests ---- *)
(* Which file is read, for all requests. *)
Theorem C63_upload : forall r data, Uploads r data <-> refused r = None /\ uploaded (rq_media r) = Ok data.
Proof. exact uploads_iff. Qed.
Print Assumptions C63_upload.
Theorem C63_only : forall data, OnlyFile data (web_fs data).
Proof.
  intros data. split; [reflexivity|]. intros n H. unfold web_fs. destruct (str_eqb_spec n web_name); [contradiction|reflexivity].
Qed.
Print Assumptions C63_only.

(* ---- what is left to the next request ---- *)
(* The server after the requests: nothing else is kept than the rules say. *)
Theorem C63_left : forall U FT AT printable h before left, AsciiOk U -> Left U FT AT h before left ->
  exists k, forall fuel, (k <= fuel)%nat ->
    ws_raised (after U FT AT printable fuel h) = fold_left raised_add left [] /\ Spelling before (ws_bg (after U FT AT printable fuel h)).
Proof. intros U FT AT printable h before left HU. exact (left_holds U FT AT printable HU h before left). Qed.
Print Assumptions C63_left.
Theorem C63_left_determined : forall U FT AT h b l b' l', AsciiOk U -> Left U FT AT h b l -> Left U FT AT h b' l' -> b = b' /\ l = l'.
Proof. intros U FT AT h b l b' l' HU H H'. exact (left_det U FT AT (fun _ => true) HU h b l H b' l' H'). Qed.
Print Assumptions C63_left_determined.

(* ---- the response ---- *)
Theorem C63_answer : forall U FT AT printable h before left r es, AsciiOk U -> Left U FT AT h before left ->
  Answers U FT AT printable h r es <->
  exists k, forall fuel, (k <= fuel)%nat -> exists addr, snd (serve U FT AT printable fuel addr (after U FT AT printable fuel h) r) = Answer es.
Proof. intros U FT AT printable h before left r es HU. exact (answer_iff U FT AT printable HU h before left r es). Qed.
Print Assumptions C63_answer.
(* There is one exactly if the run came to its end and what was left has words. *)
Theorem C63_answered : forall U FT AT printable h before left r, AsciiOk U -> Left U FT AT h before left ->
  (exists es, Answers U FT AT printable h r es) <->
  (exists l, Run U FT AT r l true) /\ forall m, In m left -> exists t, Words printable m t.
Proof. intros U FT AT printable h before left r HU. exact (answered_iff U FT AT printable HU h before left r). Qed.
Print Assumptions C63_answered.
(* It is that of a new server exactly if nothing was left. *)
Theorem C63_isolated : forall U FT AT printable h before left r l, AsciiOk U -> Left U FT AT h before left ->
  Run U FT AT r l true -> NoBackground l ->
  (forall es, Answers U FT AT printable h r es <-> Answers U FT AT printable [] r es) <-> left = [].
Proof. intros U FT AT printable h before left r l HU. exact (isolated_iff U FT AT printable HU h before left r l). Qed.
Print Assumptions C63_isolated.

(* ---- refused ---- *)
Lemma served U FT AT printable fuel addr st r s : refused r = None -> snd (serve U FT AT printable fuel addr st r) = Refused s -> s = 400.
Proof.
  intros H. unfold serve. rewrite H. destruct (uploaded (rq_media r)) as [data|e|]; try discriminate. cbn zeta. destruct (resolve_bg _ _) as [bg l].
  destruct (snd (web_run U FT AT fuel data)) as [[]|[]|]; cbn [snd]; try discriminate; try (now intros [= <-]). destruct (entries _ _ _ _); discriminate.
Qed.
Theorem C63_large : forall U FT AT printable fuel addr st r,
  snd (serve U FT AT printable fuel addr st r) = Refused 413 <-> rq_threads r = false /\ exists n, rq_length r = Some n /\ 65536 < n.
Proof.
  intros U FT AT printable fuel addr st r. split.
  - intros H. destruct (refused r) as [s|] eqn:R; [|apply served in H; [discriminate|easy]]. unfold serve in H. rewrite R in H. injection H as ->.
    unfold refused in R. destruct (rq_threads r); [discriminate|]. split; [easy|]. destruct (rq_length r) as [n|]; [|discriminate]. exists n. split; [easy|].
    destruct (N.ltb_spec 65536 n); [easy|discriminate].
  - intros (T & n & E & H). unfold serve, refused. rewrite T, E. apply N.ltb_lt in H. now rewrite H.
Qed.
Print Assumptions C63_large.
Theorem C63_refused : forall U FT AT printable st r, AsciiOk U ->
  (exists k, forall fuel addr, (k <= fuel)%nat -> snd (serve U FT AT printable fuel addr st r) = Refused 400) <->
  rq_threads r = true \/ exists data l, Uploads r data /\ AsksElsewhere U FT AT data l.
Proof.
  intros U FT AT printable st r HU. split.
  - intros [k K]. specialize (K k (fun _ => 0) (le_n k)). destruct (refused r) as [s|] eqn:R.
    + left. unfold serve in K. rewrite R in K. injection K as ->. unfold refused in R. destruct (rq_threads r); [easy|]. destruct (rq_length r) as [n|]; [|discriminate].
      destruct (65536 <? n); discriminate.
    + right. destruct (uploaded (rq_media r)) as [data|e|] eqn:E; [|unfold serve in K; rewrite R, E in K; discriminate K..]. assert (D : Uploads r data) by now apply uploads_iff.
      destruct (web_run U FT AT k data) as [l o] eqn:W. exists data, l. split; [easy|]. apply (refused_iff U FT AT HU). exists k.
      rewrite (serve_run U FT AT printable (fun _ => 0) k st r data l o D W) in K. cbn [snd] in K. rewrite W. f_equal.
      destruct o as [[]|[]|]; cbn [Web_end] in K; try discriminate K; [|easy]. destruct (entries _ _ _ _); discriminate K.
  - intros [T|(data & l & D & A)].
    + exists 0%nat. intros fuel addr _. unfold serve, refused. now rewrite T.
    + apply (refused_iff U FT AT HU) in A as [k W]. exists k. intros fuel addr H.
      pose proof (web_at U FT AT printable data k l _ W ltac:(discriminate) fuel H) as W'. now rewrite (serve_run U FT AT printable addr fuel st r data l _ D W').
Qed.
Print Assumptions C63_refused.
(* An upload that includes anything is not answered with issues, after no
   requests: not even one that includes itself. *)
Theorem C63_includes : forall U FT AT printable h before left r data es, AsciiOk U -> Left U FT AT h before left ->
  Uploads r data -> Includes data -> ~ Answers U FT AT printable h r es.
Proof.
  intros U FT AT printable h before left r data es HU HL D I A. assert (R : exists l, Run U FT AT r l true).
  { apply (answered_iff U FT AT printable HU h before left r HL). now exists es. }
  destruct R as [l R]. inversion R as [|data' l' D' W|]; subst. rewrite <- (uploads_det r data data' D D') in W. now apply (not_ended U FT AT HU data l I) in W.
Qed.
Print Assumptions C63_includes.

(* However a run ends, it is the same with more steps allowed. *)
Theorem C63_steady : forall U FT AT there fs arg name l o n m, check_run U FT AT there n fs arg name = (l, o) -> o <> Hang ->
  check_run U FT AT there (n + m) fs arg name = (l, o).
Proof. intros U FT AT there fs arg name l o n m H N. rewrite (check_steady U FT AT there fs n m arg name); rewrite H; easy. Qed.
Print Assumptions C63_steady.

(* ---- examples ---- *)
Definition upload (text : str) : request :=
  Request false (Some 100) (JDict [(L "x", JOther); (L "files", JDict [(L "extensions.conf", JStr text)])]).
Definition dp (l : list str) : str := List.concat (map (fun x => x ++ [10]) (L "[general]" :: L "[globals]" :: L "[a]" :: l)).
Definition served_with (h : list request) (r : request) : answer :=
  snd (serve uni_ascii funcs_v13 apps_v13 (fun _ => true) 100 (fun _ => 0) (after uni_ascii funcs_v13 apps_v13 (fun _ => true) 100 h) r).
Example C63_example_clean : served_with [] (upload (dp [L "exten => 1,1,NoOp"])) = Answer [].
Proof. vm_compute. reflexivity. Qed.
Definition wrong := upload (dp [L "exten => 1,1,Nope()"; L "exten => 1,2,Goto(b,1,1)"]).
Definition no_app := Entry 4 (L "E_APP_MISSING") (L "app 'Nope' does not exist, dialplan will halt here!").
Example C63_example_words : served_with [] wrong = Answer [no_app; Entry 5 (L "E_DP_GOTO_NOCONTEXT") (L "context not found for goto to b, 1, 1")].
Proof. vm_compute. reflexivity. Qed.
(* A request that failed: its message comes with the next response, once. *)
Definition failing := upload (dp [L "exten => 1,1,Nope()"; L "exten => foo"]).
Definition clean := upload (dp [L "exten => 1,1,NoOp"]).
Example C63_example_leak : served_with [] failing = Failed ProgrammingError /\ served_with [failing] clean = Answer [no_app]
  /\ served_with [failing; clean] clean = Answer [].
Proof. vm_compute. repeat split. Qed.
(* One whose message has no words: the next one fails. *)
Definition poison := upload (dp [L "exten => 1,1(x,NoOp"]).
Example C63_example_poison : served_with [poison] clean = Failed KeyError /\ served_with [poison; clean] clean = Answer [].
Proof. vm_compute. repeat split. Qed.
Example C63_example_refused : served_with [] (upload (dp [L "#include ""x.conf"""])) = Refused 400
  /\ served_with [] (Request true None (rq_media clean)) = Refused 400
  /\ served_with [] (Request false (Some 65537) (rq_media clean)) = Refused 413
  /\ served_with [] (Request false (Some 65536) (rq_media clean)) = Answer []
  /\ served_with [] (Request false None (JList [])) = Failed TypeError
  /\ served_with [] (Request false None (JDict [(L "file", JOther)])) = Failed KeyError.
Proof. vm_compute. repeat split. Qed.
(* One that includes itself is read for ever. *)
Example C63_example_itself : served_with [] (upload (L "#include ""extensions.conf""")) = Unanswered.
Proof. vm_compute. reflexivity. Qed.
(* The hypotheses of the theorems above, met by rules. *)
Lemma clean_run : exists l, Run uni_ascii funcs_v13 apps_v13 clean l true /\ NoBackground l.
Proof.
  eexists. split.
  - apply (run_iff uni_ascii funcs_v13 apps_v13 ascii_ok). right. eexists _, 100%nat, (Ok tt). split; [apply uploads_iff; split; [reflexivity|vm_compute; reflexivity]|].
    split; [vm_compute; reflexivity|]. now left.
  - intros s w H. repeat (destruct H as [H|H]; [discriminate H|]). destruct H.
Qed.
Example C63_example_left : exists before m, Left uni_ascii funcs_v13 apps_v13 [failing] before [m] /\ m_cls m = E_APP_MISSING.
Proof.
  destruct (web_run uni_ascii funcs_v13 apps_v13 100 (dp [L "exten => 1,1,Nope()"; L "exten => foo"])) as [l o] eqn:E.
  assert (M : exists m, run_msgs None l = [m] /\ m_cls m = E_APP_MISSING /\ o = Exn ProgrammingError).
  { vm_compute in E. injection E as <- <-. eexists. split; [vm_compute; reflexivity|]. now split. }
  destruct M as (m & M & C & ->). exists l, m. split; [|exact C].
  apply (Lf_raised uni_ascii funcs_v13 apps_v13 [] failing [] [] l [m]); [constructor| |].
  - apply (Rn_raised uni_ascii funcs_v13 apps_v13 failing (dp [L "exten => 1,1,Nope()"; L "exten => foo"]) l ProgrammingError 100); [|exact E].
    apply uploads_iff. split; [reflexivity|vm_compute; reflexivity].
  - rewrite <- M. apply messages_run. intros s w [].
Qed.
Example C63_example_isolated : exists r l, Run uni_ascii funcs_v13 apps_v13 r l true /\
  ~ (forall es, Answers uni_ascii funcs_v13 apps_v13 (fun _ => true) [failing] r es <-> Answers uni_ascii funcs_v13 apps_v13 (fun _ => true) [] r es).
Proof.
  destruct clean_run as (l & R & N), C63_example_left as (before & m & H & _). exists clean, l. split; [exact R|]. intros K.
  apply (C63_isolated _ _ _ _ _ _ _ _ l ascii_ok H R N) in K. discriminate K.
Qed.
