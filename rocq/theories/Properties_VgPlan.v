(* Final theorems about the VoIPGRID aggregators: C55. *)
From Verif Require Import Base PyStr Utf8 Defines FileRd Config VSpace Pattern Var VarFun AppM Tables Aggregator
  Dialplan Spec_Dialplan Dialplan_proofs VgPlan Spec_VgPlan VgPlan_proofs.

(* A run is described by the rules of the ordinary parser, for the same lines
   under headers that are all different. *)
Theorem C55_history : forall U FT AT es es' fr l d, Aside es es' fr -> New es fr ->
  vg_steps U FT AT dp_init es = (l, Ok d) -> exists h, History U FT AT es' h l /\ VgDescribes U fr h d.
Proof. intros U FT AT es es' fr l d A N H. exact (vg_history U FT AT es es' fr l d A N (ok_once U FT AT es l d H) H). Qed.
Print Assumptions C55_history.

(* There are such headers for every file. *)
Theorem C55_new_names : forall es, exists es' fr, Aside es es' fr /\ New es fr.
Proof. exact new_names. Qed.
Print Assumptions C55_new_names.

(* Nothing else makes the run fail ... *)
Theorem C55_suffices : forall U FT AT es es' fr h l, Aside es es' fr -> New es fr -> Once es ->
  History U FT AT es' h l -> (exists js, JumpsOf U h js) -> exists d, vg_steps U FT AT dp_init es = (l, Ok d).
Proof. exact vg_suffices. Qed.
Print Assumptions C55_suffices.

(* ... except a second [general] or [globals]. *)
Theorem C55_twice : forall U FT AT pre c post l d, vg_steps U FT AT dp_init pre = (l, Ok d) ->
  Special (c_name c) -> In (c_name c) (heads pre) ->
  vg_steps U FT AT dp_init (pre ++ ECtx c :: post) = (l, Exn ProgrammingError).
Proof. exact twice. Qed.
Print Assumptions C55_twice.
Theorem C55_once : forall U FT AT es l d, vg_steps U FT AT dp_init es = (l, Ok d) -> Once es.
Proof. exact ok_once. Qed.
Print Assumptions C55_once.

(* One context per name, in the order of the last headers. *)
Theorem C55_names : forall U FT AT es l d, vg_steps U FT AT dp_init es = (l, Ok d) ->
  map dc_name (dp_ctxs d) = last_names (ordinary (heads es)).
Proof. exact names_order. Qed.
Print Assumptions C55_names.

(* Nothing changes for files without repeated headers. *)
Theorem C55_all_different : forall U FT AT es, NoDup (heads es) ->
  vg_steps U FT AT dp_init es = dp_steps U FT AT dp_init es.
Proof. exact all_different. Qed.
Print Assumptions C55_all_different.

(* The parser for plain configuration files never wipes anything. *)
Theorem C55_config_same : forall es, vg_ag_run es = ag_run es.
Proof. exact ag_run_same. Qed.
Print Assumptions C55_config_same.

(* ---- Examples ---- *)
Definition vlines (l : list str) : bytes := flat_map (fun s => s ++ [10]) l.
Definition es_of (l : list str) : list elem :=
  elems (fst (vsw_stream (parse_file 100 (fs_of [(L "/e.conf", vlines l)]) (L "/e.conf")))).
Definition vg_es : list elem := Eval vm_compute in es_of
  [L "[general]"; L "[globals]";
   L "[a]"; L "exten => 1,1(x),NoOp(x)"; L "exten => 1,n,Goto(2,1)"; L "include => b";
   L "[b]"; L "exten => 2,1,NoOp"; L "exten => 2,n,NoOp";
   L "[a](!)"; L "exten => 1,n,Goto(x)"].
(* the first [a] under another name *)
Fixpoint rename1 (es : list elem) : list elem :=
  match es with
  | [] => []
  | ECtx c :: r => if str_eqb (c_name c) (L "a") then ECtx (Ctx (L "old") (c_templates c) (c_comment c) (c_where c)) :: r
                   else ECtx c :: rename1 r
  | e :: r => e :: rename1 r
  end.
Definition vg_es' : list elem := Eval vm_compute in rename1 vg_es.
Definition vg_fr : list (str * str) := [(L "old", L "a")].
Definition vg_run : M dplan := Eval vm_compute in vg_steps uni_ascii funcs_v13 apps_v13 dp_init vg_es.
Definition vg_d : dplan := Eval vm_compute in match snd vg_run with Ok d => d | _ => dp_init end.
Lemma vg_ran : vg_steps uni_ascii funcs_v13 apps_v13 dp_init vg_es = (fst vg_run, Ok vg_d).
Proof. vm_compute. reflexivity. Qed.

Example C55_example : Aside vg_es vg_es' vg_fr /\ New vg_es vg_fr /\ Once vg_es /\
  map (fun c => (dc_name c, map (fun x => (praw (x_pat x), x_prio x)) (dc_exts c), dc_includes c)) (dp_ctxs vg_d) =
    [(L "b", [(L "2", 1%Z); (L "2", 2%Z)], []); (L "a", [(L "1", 3%Z)], [])] /\
  map (fun j => (j_ctx j, j_ext j, j_prio j)) (g_jumps (dp_glob vg_d)) =
    [(TS (L "a"), TS (L "2"), JInt 1); (TS (L "a"), TS (L "1"), JTok (TS (L "x")))].
Proof.
  split; [|split; [|split; [exact (C55_once _ _ _ _ _ _ vg_ran)|split; vm_compute; reflexivity]]].
  - unfold vg_es, vg_es', vg_fr. repeat first
      [ apply As_nil
      | apply As_other; [discriminate|]
      | apply As_kept; [left; left; reflexivity|]
      | apply As_kept; [left; right; reflexivity|]
      | apply As_kept; [right; intros H; vm_compute in H; decompose [or] H; (discriminate || contradiction)|]
      | eapply (As_wiped (Ctx (L "a") _ _ _) (L "old"));
          [intros [H|H]; vm_compute in H; discriminate|apply smem_In; vm_compute; reflexivity|] ].
  - split; [repeat constructor; easy|]. intros n [<-|[]]. split; [intros [H|H]; vm_compute in H; discriminate|].
    intros H. vm_compute in H. decompose [or] H; (discriminate || contradiction).
Qed.

(* Refuted: a wiped context leaves no trace.  The label x is still known, though
   no extension has it; so a jump to it in a context that is in a variable is not
   reported (C68_label_refuted).  The priority 3 is
   that after the last one of [b]. *)
Theorem C55_no_trace_refuted : ~ (forall U FT AT es l d s, vg_steps U FT AT dp_init es = (l, Ok d) ->
  all_label d s = true -> exists c y, In c (dp_ctxs d) /\ In y (dc_exts c) /\ HasLabel y s).
Proof.
  intros H. destruct (H _ _ _ _ _ _ (L "x") vg_ran eq_refl) as (c & y & Hc & Hy & HL). vm_compute in Hc.
  decompose [or] Hc; [| |contradiction]; subst c; vm_compute in Hy; decompose [or] Hy; try contradiction; subst y;
    vm_compute in HL; discriminate.
Qed.
Print Assumptions C55_no_trace_refuted.

(* Refuted: the last section of a name wins in plain configuration files. *)
Theorem C55_config_last_refuted : ~ (forall es l cs, vg_ag_run es = (l, Ok cs) -> NoDup (map (fun s => c_name (fst s)) cs)).
Proof.
  intros H. specialize (H vg_es). destruct (vg_ag_run vg_es) as [l [cs|e|]] eqn:E; vm_compute in E; try discriminate.
  injection E as <- <-. specialize (H _ _ eq_refl). vm_compute in H.
  repeat match goal with K : NoDup (_ :: _) |- _ => inversion_clear K end. cbn [In] in *. tauto.
Qed.
Print Assumptions C55_config_last_refuted.
Example C55_example_twice : snd (vg_steps uni_ascii funcs_v13 apps_v13 dp_init (vg_es ++ vg_es)) = Exn ProgrammingError.
Proof. vm_compute. reflexivity. Qed.
