(* Final theorems about the vertical whitespace checker: C14, C15. *)
From Verif Require Import Base PyStr Defines FileRd Config VSpace Spec_VSpace
  VSpace_proofs VSpaceMsg_proofs VSpaceTree_proofs.

(* ---- C14 ---- *)

(* Lines, contexts, variables and messages of the layers below pass unchanged
   and in order, with the same outcome. *)
Theorem C14_config_unchanged : forall evs outcome,
  filter essential (fst (vsw_stream (evs, outcome))) = filter essential evs /\
  snd (vsw_stream (evs, outcome)) = outcome.
Proof. intros evs o. exact (ess_stream (evs, o)). Qed.
Print Assumptions C14_config_unchanged.

(* Empty lines are neither invented nor repeated. *)
Theorem C14_blanks_not_invented : forall evs outcome, exists dropped,
  Permutation (filter blank_event evs)
    (filter blank_event (fst (vsw_stream (evs, outcome))) ++ dropped).
Proof. intros evs o. exact (blanks_stream (evs, o)). Qed.
Print Assumptions C14_blanks_not_invented.

Definition wa (n : N) : loc := Where (L "a.conf") n [].
Definition wb (n : N) : loc := Where (L "b.conf") n [].
Definition ctx_at (w : loc) : elem := ECtx (Ctx (L "c") [] false w).
Definition var_at (w : loc) : elem := EVar (Varset (L "k") (L "v") (Some false) false w).
Definition sp (w : loc) : elem := EEmpty false w.

Example C14_example :
  let evs := [EvElem (sp (wa 1)); EvMsg (msg0 W_WSH_EOL (wa 2)); EvElem (ctx_at (wa 2));
              EvElem (var_at (wb 1)); EvElem (sp (wb 2)); EvElem (sp (wb 3)); EvElem (var_at (wa 4))] in
  vsw_stream (evs, Ok tt) =
    ([EvMsg (msg0 W_WSH_EOL (wa 2)); EvMsg (msg0 W_WSV_BOF (wa 1)); EvElem (sp (wa 1)); EvElem (ctx_at (wa 2));
      EvElem (var_at (wb 1)); EvElem (sp (wb 2)); EvElem (sp (wb 3)); EvMsg (msg0 W_WSV_EOF (wb 3));
      EvElem (var_at (wa 4))], Ok tt).
Proof. reflexivity. Qed.

(* ---- C15 ---- *)

(* The messages about each file of an include tree are those of the
   specification, and no other file gets any.  Missing for the full claim: see
   the refutations below. *)
Theorem C15_file_msgs_partial : forall t evs, vwf t -> NoDup (vnames t) -> elems_of evs = vflat t ->
  (forall m, In (EvMsg m) evs -> is_wsv m = false) ->
  (forall f es rep, Node true false t f es rep ->
     FileMsgs true 0 es rep (wsv_of f (fst (vsw_stream (evs, Ok tt))))) /\
  (forall f, ~ In f (vnames t) -> wsv_of f (fst (vsw_stream (evs, Ok tt))) = []).
Proof. exact stream_msgs. Qed.
Print Assumptions C15_file_msgs_partial.

(* The specification determines the messages. *)
Theorem C15_spec_function : forall bof n es rep ms ms',
  FileMsgs bof n es rep ms -> FileMsgs bof n es rep ms' -> ms = ms'.
Proof. exact FileMsgs_fun. Qed.
Print Assumptions C15_spec_function.

(* a.conf: blank, context, include b.conf, four blanks, variable *)
Definition tree1 : vtree :=
  VT (L "a.conf") (VElem (sp (wa 1)) (VElem (ctx_at (wa 2))
    (VSub (VT (L "b.conf") (VElem (var_at (wb 1)) (VElem (sp (wb 2)) VNil)))
    (VElem (sp (wa 4)) (VElem (sp (wa 5)) (VElem (var_at (wa 6)) VNil)))))).
Example C15_example_hyps : vwf tree1 /\ NoDup (vnames tree1)
  /\ Node true false tree1 (L "a.conf")
       [sp (wa 1); ctx_at (wa 2); sp (wa 4); sp (wa 5); var_at (wa 6)] true
  /\ Node true false tree1 (L "b.conf") [var_at (wb 1); sp (wb 2)] true.
Proof.
  split; [repeat split; eauto|]. split; [|split].
  - repeat constructor; cbn; intuition discriminate.
  - apply Node_here.
  - apply Node_sub, NodeI_elem, NodeI_elem, NodeI_in. apply Node_here.
Qed.
Example C15_example_msgs :
  let out := fst (vsw_stream (map EvElem (vflat tree1), Ok tt)) in
  wsv_of (L "a.conf") out = [msg0 W_WSV_BOF (wa 1); msg0 H_WSV_VARSET_BETWEEN (wa 5)] /\
  wsv_of (L "b.conf") out = [msg0 W_WSV_EOF (wb 2)].
Proof. split; reflexivity. Qed.

(* Refuted: every file of a configuration, alone.  The specification with the
   end of file always reported fails for three kinds of layouts. *)
Definition own (f : str) (evs : list event) : list elem :=
  filter (fun e => str_eqb (w_file (e_where e)) f) (elems_of evs).
Definition file_exact (files : list (str * bytes)) (root f : str) : Prop :=
  let evs := fst (parse_file 100 (fs_of files) root) in
  FileMsgs true 0 (own f evs) true (wsv_of f (fst (vsw_stream (evs, Ok tt)))).

Lemma runs1 b : Runs [b] [(fst b, [b])].
Proof.
  apply (Runs_cons (fst b) [b] [] []); try easy.
  - now constructor.
  - constructor.
Qed.
Lemma fm_ctx0 es rep ms c : FileMsgs false 0 es rep ms -> FileMsgs true 0 (ECtx c :: es) rep ms.
Proof.
  intros H. apply (FM_ctx true 0 [] c es rep [] ms); [now left|apply (GM_mid _ _ _ _ []); [constructor|easy]|exact H].
Qed.
Lemma fm_var0 n es rep ms v : FileMsgs false (n + 1) es rep ms -> FileMsgs false n (EVar v :: es) rep ms.
Proof.
  intros H. apply (FM_var false n [] v es rep [] ms); [|exact H]. apply (GM_mid _ _ _ _ []); [constructor|easy].
Qed.
Lemma fm_end n b : fst b = false -> FileMsgs false n (empties [b]) true [msg0 W_WSV_EOF (snd b)].
Proof.
  intros E. apply FM_tail. apply (TM_blank true [b] [] b []). cbn. rewrite <- E. apply runs1.
Qed.
Lemma fm_nil n rep : FileMsgs false n [] rep [].
Proof.
  apply (FM_tail false n [] rep []). apply (TM_comment rep [] []); [constructor|].
  intros gs' g E. destruct gs'; discriminate.
Qed.

(* a root file that begins with an include: the end of the included file is missed *)
Definition files_a : list (str * bytes) :=
  [(L "a", L "#include b" ++ [10] ++ L "[x]" ++ [10] ++ L "k=v" ++ [10]);
   (L "b", L "[y]" ++ [10] ++ L "k=v" ++ [10; 10])].
(* two includes in a row at the end: only the last one is checked *)
Definition files_b : list (str * bytes) :=
  [(L "a", L "[x]" ++ [10] ++ L "#include b" ++ [10] ++ L "#include c" ++ [10]);
   (L "b", L "[y]" ++ [10] ++ L "k=v" ++ [10; 10]);
   (L "c", L "[z]" ++ [10] ++ L "k=v" ++ [10])].
(* a file included twice by a root file that begins with the include: messages
   about the begin and end of the root file in its middle *)
Definition files_c : list (str * bytes) :=
  [(L "a", L "#include b" ++ [10] ++ L "[x]" ++ [10; 10] ++ L "#include b" ++ [10; 10] ++ L "k=v" ++ [10]);
   (L "b", L "[y]" ++ [10] ++ L "k=v" ++ [10])].

Theorem C15_every_file_exact_refuted :
  ~ (forall files root f, snd (parse_file 100 (fs_of files) root) = Ok tt -> file_exact files root f).
Proof.
  intros H. specialize (H files_a (L "a") (L "b") eq_refl). unfold file_exact in H.
  vm_compute in H.
  assert (X := fm_ctx0 _ _ _ (Ctx [121] [] false {| w_file := [98]; w_line := 1; w_text := [91; 121; 93; 10] |})
    (fm_var0 0 _ _ _ (Varset [107] [118] (Some false) false {| w_file := [98]; w_line := 2; w_text := [107; 61; 118; 10] |})
    (fm_end 1 (false, {| w_file := [98]; w_line := 3; w_text := [10] |}) eq_refl))).
  pose proof (FileMsgs_fun _ _ _ _ _ _ X H). discriminate.
Qed.
Print Assumptions C15_every_file_exact_refuted.

Theorem C15_adjacent_includes_refuted : ~ file_exact files_b (L "a") (L "b").
Proof.
  intros H. unfold file_exact in H. vm_compute in H.
  assert (X := fm_ctx0 _ _ _ (Ctx [121] [] false {| w_file := [98]; w_line := 1; w_text := [91; 121; 93; 10] |})
    (fm_var0 0 _ _ _ (Varset [107] [118] (Some false) false {| w_file := [98]; w_line := 2; w_text := [107; 61; 118; 10] |})
    (fm_end 1 (false, {| w_file := [98]; w_line := 3; w_text := [10] |}) eq_refl))).
  pose proof (FileMsgs_fun _ _ _ _ _ _ X H). discriminate.
Qed.
Print Assumptions C15_adjacent_includes_refuted.

Theorem C15_included_twice_refuted : ~ file_exact files_c (L "a") (L "a") /\
  wsv_of (L "a") (fst (vsw_stream (parse_file 100 (fs_of files_c) (L "a"))))
  = [msg0 W_WSV_EOF (Where (L "a") 3 [10]); msg0 W_WSV_BOF (Where (L "a") 5 [10])].
Proof.
  split; [|reflexivity]. intros H. unfold file_exact in H. vm_compute in H.
  set (b1 := (false, {| w_file := [97]; w_line := 3; w_text := [10] |}) : bline).
  set (b2 := (false, {| w_file := [97]; w_line := 5; w_text := [10] |}) : bline).
  assert (X := fm_ctx0 _ _ _ (Ctx [120] [] false {| w_file := [97]; w_line := 2; w_text := [91; 120; 93; 10] |})
    (FM_var false 0 [b1; b2] (Varset [107] [118] (Some false) false {| w_file := [97]; w_line := 6; w_text := [107; 61; 118; 10] |})
      [] true [msg0 H_WSV_VARSET_BETWEEN (snd b2)] []
      (GM_mid false H_WSV_VARSET_BETWEEN 1 [b1; b2] [(false, [b1; b2])]
        (Runs_cons false [b1; b2] [] [] ltac:(easy) ltac:(now repeat constructor) Runs_nil ltac:(easy)) ltac:(easy))
      (fm_nil 1 true))).
  pose proof (FileMsgs_fun _ _ _ _ _ _ X H). discriminate.
Qed.
Print Assumptions C15_included_twice_refuted.
