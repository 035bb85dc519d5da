(* Final theorems about what the linter survives, from lines to the whole
   process: C23. *)
From Verif Require Import Base Utf8 PyStr Defines FileRd Pattern Var VarFun AppM Tables FuncOdbc Check Spec_Var Spec_VarFun
  Spec_App Spec_Args Spec_Crash Var_proofs App_proofs AppT_proofs Tok_proofs Crash_proofs CrashV_proofs CrashA_proofs Properties_Crash
  Config Dialplan Spec_Dialplan Dialplan_proofs DialplanK_proofs Spec_Pattern Spec_Search Spec_Survive Survive_proofs SurviveJ_proofs SurviveE_proofs SurviveW_proofs.

(* A line of a context. *)
Theorem C23_line : forall U FT AT v, AsciiOk U -> HasUnknown FT -> HasUnknown AT -> AsciiS (v_value v) ->
  (SafeLine U FT AT v -> exists l r, from_varset U FT AT v = (l, Ok r)) /\
  (LineFails U FT AT v -> forall l r, from_varset U FT AT v <> (l, Ok r)) /\
  (~ OddLine U FT AT v -> SafeLine U FT AT v \/ LineFails U FT AT v).
Proof.
  intros U FT AT v HU HF HA Hv. destruct (line_exact U FT AT HU HF HA v Hv) as (H1 & H2 & H3). split; [exact H1|]. split; [|exact H3].
  intros H l r E. apply (H2 H). now exists l, r.
Qed.
Print Assumptions C23_line.

(* All elements of a file in turn. *)
Theorem C23_elements : forall U FT AT es, AsciiOk U -> HasUnknown FT -> HasUnknown AT ->
  (Safe U FT AT es -> exists l d, dp_steps U FT AT dp_init es = (l, Ok d)) /\
  (forall e rest, Safe U FT AT es -> ElemFails U FT AT es e -> exists l,
     dp_steps U FT AT dp_init (es ++ e :: rest) = (l, Exn ProgrammingError) \/ dp_steps U FT AT dp_init (es ++ e :: rest) = (l, Hang)) /\
  (Usual U FT AT es -> Safe U FT AT es \/ exists a e b, es = a ++ e :: b /\ Safe U FT AT a /\ ElemFails U FT AT a e).
Proof.
  intros U FT AT es HU HF HA. split; [|split].
  - intros H. destruct (safe_steps U FT AT HU HF HA es H) as (l & d & h & E & _). now exists l, d.
  - intros e rest H HE. destruct (fails_steps U FT AT HU HF HA es e rest H HE) as (l & r & E & [-> | ->]); exists l; auto.
  - apply (elems_cases U FT AT HU HF HA es).
Qed.
Print Assumptions C23_elements.

(* A file with its includes.  C16 and C17 say which elements and when it is
   read to its end. *)
Theorem C23_file : forall U FT AT fuel fs name, AsciiOk U -> HasUnknown FT -> HasUnknown AT ->
  (forall evs, parse_file fuel fs name = (evs, Ok tt) -> Safe U FT AT (elems evs) ->
     exists l d, parse_dialplan U FT AT fuel fs name = (l, Ok d)) /\
  (forall evs, parse_file fuel fs name = (evs, Ok tt) -> Usual U FT AT (elems evs) -> ~ Safe U FT AT (elems evs) ->
     forall l d, parse_dialplan U FT AT fuel fs name <> (l, Ok d)) /\
  (snd (parse_file fuel fs name) <> Ok tt -> forall l d, parse_dialplan U FT AT fuel fs name <> (l, Ok d)).
Proof.
  intros U FT AT fuel fs name HU HF HA. split; [|split].
  - intros evs E HS. destruct (file_safe U FT AT HU HF HA fuel fs name evs E HS) as (l & d & E' & _). now exists l, d.
  - intros evs E HO HN l d K. apply (file_fails U FT AT HU HF HA fuel fs name evs E HO HN). now exists l, d.
  - intros N l d K. apply (file_unread U FT AT fuel fs name N). now exists l, d.
Qed.
Print Assumptions C23_file.

(* The walk through the destinations of such a file. *)
Theorem C23_walk : forall U FT AT fuel fs name evs l d, AsciiOk U -> HasUnknown FT -> HasUnknown AT ->
  parse_file fuel fs name = (evs, Ok tt) -> Safe U FT AT (elems evs) -> parse_dialplan U FT AT fuel fs name = (l, Ok d) ->
  ((exists l', walk_jump_destinations d = (l', Ok tt)) <-> Forall (JumpReturns (dp_ctxs d)) (g_jumps (dp_glob d))).
Proof.
  intros U FT AT fuel fs name evs l d HU HF HA E HS EP. destruct (file_safe U FT AT HU HF HA fuel fs name evs E HS) as (l1 & d1 & E1 & J).
  rewrite EP in E1. assert (d = d1) as -> by congruence. rewrite <- (walk_exact U FT AT d1 (parse_ready _ _ _ _ _ _ _ _ EP) J). split.
  - intros [l' H]. now exists l', tt.
  - intros (l' & [] & H). now exists l'.
Qed.
Print Assumptions C23_walk.

(* The process: once the functions of func_odbc.conf are loaded, there is an
   exit status exactly if the file is read, safe, and every search returns. *)
Theorem C23_check : forall U FT AT exists_ fuel fs env arg name l0 fns,
  AsciiOk U -> HasUnknown FT -> HasUnknown AT -> load_odbc exists_ fuel fs arg name = (l0, Ok fns) ->
  let FT' := register_all U fns FT in
  let ends := exists n, p_end (dialplan_check U FT AT exists_ fuel fs env arg name) = Ok n in
  (forall evs, parse_file fuel fs name = (evs, Ok tt) -> Safe U FT' AT (elems evs) ->
     exists l d, parse_dialplan U FT' AT fuel fs name = (l, Ok d) /\
       (ends <-> Forall (JumpReturns (dp_ctxs d)) (g_jumps (dp_glob d)))) /\
  (forall evs, parse_file fuel fs name = (evs, Ok tt) -> Usual U FT' AT (elems evs) -> ~ Safe U FT' AT (elems evs) -> ~ ends) /\
  (snd (parse_file fuel fs name) <> Ok tt -> ~ ends).
Proof.
  intros U FT AT exists_ fuel fs env arg name l0 fns HU HF HA EL. cbv zeta.
  pose proof (register_unknown U fns FT HF) as HF'.
  pose proof (process_fine env (check_run U FT AT exists_ fuel fs arg name)) as PF. fold (dialplan_check U FT AT exists_ fuel fs env arg name) in PF.
  assert (FI : fine (check_run U FT AT exists_ fuel fs arg name) -> fine (parse_dialplan U (register_all U fns FT) AT fuel fs name)).
  { unfold check_run, show_run. intros F. apply fine_bind_inv in F as (l & d & F & _). rewrite EL in F. cbn [mbind] in F.
    destruct (parse_dialplan U (register_all U fns FT) AT fuel fs name) as [l1 [d1| |]]; try discriminate F. now exists l1, d1. }
  split; [|split].
  - intros evs E HS. destruct (file_safe U _ AT HU HF' HA fuel fs name evs E HS) as (l & d & EP & J). exists l, d. split; [easy|].
    rewrite PF, <- (walk_exact U _ AT d (parse_ready _ _ _ _ _ _ _ _ EP) J). 
    assert (SR : show_run U FT AT exists_ fuel fs arg name = (l0 ++ l, Ok d)).
    { unfold show_run. rewrite EL. cbn [mbind]. rewrite EP. reflexivity. }
    unfold check_run. split.
    + intros F. apply fine_bind_inv in F as (l2 & d2 & F1 & F2). assert (d2 = d) as -> by congruence. exact F2.
    + intros F. apply fine_bind; [now exists (l0 ++ l), d|]. intros l2 d2 E2. assert (d2 = d) as -> by congruence. exact F.
  - intros evs E HO HN F. exact (file_fails U _ AT HU HF' HA fuel fs name evs E HO HN (FI (proj1 PF F))).
  - intros N F. exact (file_unread U _ AT fuel fs name N (FI (proj1 PF F))).
Qed.
Print Assumptions C23_check.

Definition ex_fs : fsys := conf [] [L "[general]"; L "[globals]"; L "[a]"; L "include => b"; L "exten => _1X!,1(lab),Goto(b,${x},1)";
  L "same => n,Goto(b,2,1)"; L ""; L "[b]"; L "include => a"; L "exten => 2,1,Goto(b,${x},1)"].
Definition ex_evs : list event := Eval vm_compute in fst (parse_file 100 ex_fs (L "x")).
Lemma plain_goto data : AsciiS data -> has_sub data = false -> (length (separate_args (SlTok (TS data)) 44 false) <= 3)%nat ->
  SafeApp u0 funcs_v13 apps_v13 (L "Goto" ++ 40 :: data ++ [41]).
Proof.
  intros HA HS HL. destruct (lookup (L "goto") apps_v13) as [a|] eqn:E; [|vm_compute in E; discriminate E].
  assert (a_kind a = AGoto) as K by (revert E; vm_compute; now intros [= <-]).
  apply (Sa_call _ _ _ _ (L "Goto") data a (map Ch data)).
  - eapply (called (L "Goto") data); [no_in|reflexivity|reflexivity|reflexivity].
  - left. exact E.
  - apply Do_reads, Rd_text. now apply no_opens.
  - congruence.
  - congruence.
  - rewrite K. intros H. inversion H as [args HS' HL'| | | |]; subst.
    rewrite (Separated_fun _ _ _ _ HS' (separated data 44 comma_ok)), map_length in HL'. lia.
Qed.
Lemma digits_ok s : s <> [] -> forallb (fun c => (48 <=? c) && (c <=? 57)) s = true -> PrioOk s.
Proof. intros N H. right. split; [easy|]. apply Forall_forall. intros c I. rewrite forallb_forall in H. apply H in I. lia. Qed.
Ltac lineof pat prio lt app :=
  first [exists (prio ++ lt ++ 44 :: app); split; [first [apply Bo_exten; [reflexivity|reflexivity|no_in]|apply Bo_same; reflexivity]|];
   split; [no_in|split; [no_in|split; [no_in|split; [first [left; reflexivity|right; eexists; reflexivity]|left; reflexivity]]]]].
Definition goto_b : str := L "Goto(b,${x},1)".

(* An ordinary file with two contexts that include one another. *)
Lemma line_goto_b v : v_arrow v <> None -> v_variable v = L "exten" -> v_value v = L "_1X!,1(lab),Goto(b,${x},1)" ->
  SafeLine u0 funcs_v13 apps_v13 v.
Proof.
  intros HA HV HX. apply (Sl_line _ _ _ _ (L "_1X!") (L "1") (L "(lab)") goto_b (Some (L "lab"))); [easy| | | | |].
  - exists (L "1(lab)," ++ goto_b). split; [apply Bo_exten; [exact HV|exact HX|no_in]|].
    split; [no_in|split; [no_in|split; [no_in|split; [right; eexists; reflexivity|left; reflexivity]]]].
  - now apply digits_ok.
  - apply (LT_some (L "lab")).
  - intros p [= <-]. repeat constructor; discriminate.
  - apply C23_example_safe.
Qed.
Lemma line_goto_2 v : v_arrow v <> None -> v_variable v = L "same" -> v_value v = L "n,Goto(b,2,1)" ->
  SafeLine u0 funcs_v13 apps_v13 v.
Proof.
  intros HA HV HX. apply (Sl_line _ _ _ _ [] (L "n") [] (L "Goto(b,2,1)") None); [easy| | | | |].
  - exists (L "n,Goto(b,2,1)"). split; [now apply Bo_same|].
    split; [no_in|split; [no_in|split; [no_in|split; [now left|left; reflexivity]]]].
  - now left.
  - apply LT_none.
  - intros p. discriminate.
  - apply (plain_goto (L "b,2,1")); [now apply ascii|reflexivity|vm_compute; lia].
Qed.
Lemma line_goto_b2 v : v_arrow v <> None -> v_variable v = L "exten" -> v_value v = L "2,1,Goto(b,${x},1)" ->
  SafeLine u0 funcs_v13 apps_v13 v.
Proof.
  intros HA HV HX. apply (Sl_line _ _ _ _ (L "2") (L "1") [] goto_b None); [easy| | | | |].
  - exists (L "1," ++ goto_b). split; [apply Bo_exten; [exact HV|exact HX|no_in]|].
    split; [no_in|split; [no_in|split; [no_in|split; [now left|left; reflexivity]]]].
  - now apply digits_ok.
  - apply LT_none.
  - intros p. discriminate.
  - apply C23_example_safe.
Qed.
Lemma safe_nth U FT AT es : (forall k e, nth_error es k = Some e -> SafeElem U FT AT (firstn k es) e) -> Safe U FT AT es.
Proof.
  intros H a e b ->. specialize (H (length a) e). rewrite nth_error_app2, PeanoNat.Nat.sub_diag in H by lia.
  rewrite firstn_app, PeanoNat.Nat.sub_diag, firstn_all, app_nil_r in H. now apply H.
Qed.
Ltac last_ctx n := exists (firstn n (elems ex_evs)); eexists; split; [reflexivity|];
  intros ? I; cbn in I; repeat (destruct I as [I|I]; [discriminate I|]); exact I.
Ltac not_plain := intros [E|E]; discriminate E.
Lemma ex_safe : Safe u0 funcs_v13 apps_v13 (elems ex_evs).
Proof.
  apply safe_nth. intros k e. destruct k as [|[|[|[|[|[|[|[|[|[|k]]]]]]]]]].
  - intros [= <-]. apply Se_general; [reflexivity|]. intros (? & [] & _).
  - intros [= <-]. now apply Se_globals.
  - intros [= <-]. apply Se_first; [not_plain|]. intros (? & I & E). destruct I as [[= <-]|[[= <-]|[]]]; discriminate E.
  - intros [= <-]. eapply Se_line; [last_ctx 2%nat|not_plain|now apply ascii|]. apply Sl_other; [discriminate|now left].
  - intros [= <-]. eapply Se_line; [last_ctx 2%nat|not_plain|now apply ascii|]. now apply line_goto_b.
  - intros [= <-]. eapply Se_line; [last_ctx 2%nat|not_plain|now apply ascii|]. now apply line_goto_2.
  - intros [= <-]. apply Se_empty.
  - intros [= <-]. apply Se_again; [not_plain|reflexivity|reflexivity].
  - intros [= <-]. eapply Se_line; [last_ctx 7%nat|not_plain|now apply ascii|]. apply Sl_other; [discriminate|now left].
  - intros [= <-]. eapply Se_line; [last_ctx 7%nat|not_plain|now apply ascii|]. now apply line_goto_b2.
  - destruct k; discriminate.
Qed.
Definition ex_d : dplan := Eval vm_compute in
  match parse_dialplan u0 funcs_v13 apps_v13 100 ex_fs (L "x") with (_, Ok d) => d | _ => dp_init end.
Example C23_example_file : parse_file 100 ex_fs (L "x") = (ex_evs, Ok tt) /\ Safe u0 funcs_v13 apps_v13 (elems ex_evs) /\
  snd (parse_dialplan u0 funcs_v13 apps_v13 100 ex_fs (L "x")) = Ok ex_d.
Proof. split; [vm_compute; reflexivity|]. split; [exact ex_safe|vm_compute; reflexivity]. Qed.
(* The contexts include one another, but what is looked for is found first. *)
Example C23_example_walk : Forall (JumpReturns (dp_ctxs ex_d)) (g_jumps (dp_glob ex_d)) /\ length (g_jumps (dp_glob ex_d)) = 3%nat /\
  (exists c, In c (dp_ctxs ex_d) /\ Cyclic (dp_ctxs ex_d) c) /\ snd (walk_jump_destinations ex_d) = Ok tt.
Proof.
  split; [|split; [reflexivity|split; [|vm_compute; reflexivity]]].
  - repeat apply Forall_cons; try apply Forall_nil; intros c e I E1 E2; try discriminate E2.
    destruct I as [<-|[<-|[]]]; [discriminate E1|]. injection E2 as <-. right. 
    eapply Fi_own. split; [now left|]. split; vm_compute; reflexivity.
  - exists (nth 1 (dp_ctxs ex_d) (new_ctx [] (Where [] 0 []))). split; [right; now left|].
    exists (nth 1 (dp_ctxs ex_d) (new_ctx [] (Where [] 0 []))), (nth 0 (dp_ctxs ex_d) (new_ctx [] (Where [] 0 []))).
    split; [constructor|]. split; [split; [now left|eexists; now left]|].
    econstructor; [|constructor]. split; [right; now left|eexists; now left].
Qed.

(* One more line breaks it. *)
Definition bad_line : varset := Varset (L "exten") (L "3,1,Goto(a,b,1,2)") (Some true) false (Where (L "x") 11 (L "exten => 3,1,Goto(a,b,1,2)")).
Example C23_example_bad : LineFails u0 funcs_v13 apps_v13 bad_line /\ ElemFails u0 funcs_v13 apps_v13 (elems ex_evs) (EVar bad_line) /\
  snd (dp_steps u0 funcs_v13 apps_v13 dp_init (elems ex_evs ++ [EVar bad_line])) = Hang.
Proof.
  assert (LineFails u0 funcs_v13 apps_v13 bad_line) as H.
  { apply (Lf_app _ _ _ _ (L "3") (L "1") [] (L "Goto(a,b,1,2)")); [|now apply digits_ok|apply C23_example_fails].
    exists (L "1,Goto(a,b,1,2)"). split; [apply Bo_exten; [reflexivity|reflexivity|no_in]|].
    split; [no_in|split; [no_in|split; [no_in|split; [now left|left; reflexivity]]]]. }
  split; [exact H|]. split; [|vm_compute; reflexivity].
  eapply Ef_line; [last_ctx 7%nat|not_plain|now apply ascii|exact H].
Qed.
(* The processes. *)
Example C23_example_check : ended ex_fs = Ok 0 /\ load_odbc (fun _ => false) 100 ex_fs None (L "x") = ([], Ok []).
Proof. split; vm_compute; reflexivity. Qed.
