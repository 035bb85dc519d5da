(* C71: what vg ident-scan and vg func_odbc-annotate print, from the bytes of the files. *)
From Verif Require Import Base PyStr Defines FileRd Config VSpace VarFun AppM Spec_VarFun Dialplan FuncOdbc Annotate Commands IdentScan Spec_Dialplan Spec_Run Spec_Annotate Spec_Ident
  Spec_IdentRun IdentRun_proofs Whole_proofs Tables VgRead VgCheck VgIdent Spec_VgPlan Spec_VgCheck Spec_VgWhole Spec_VgIdent VgWhole_proofs VgIdent_proofs VgShowL_proofs
  Properties_Crash Properties_Commands Properties_Ident.
From Verif Require Properties_IdentRun Properties_Annotate VgCheck_proofs.

(* The outcomes by the rules are the outcomes that there are for some order of
   the sets. *)
Theorem C71_scan : forall U FT AT, AsciiOk U -> forall isupper islower dist verbose installed fs name ls n,
  VgIdentSays U FT AT isupper islower dist verbose installed fs name ls (Ok n) <->
  exists fuel labiter iditer, SetOrder labiter /\ SetOrder iditer /\
    vg_ident_scan U FT AT isupper islower dist labiter iditer verbose installed fuel fs name = (ls, Ok n).
Proof. exact vg_ident_iff. Qed.
Print Assumptions C71_scan.
Theorem C71_happens : forall U FT AT, AsciiOk U -> forall isupper islower dist verbose installed fs name ls r,
  VgIdentSays U FT AT isupper islower dist verbose installed fs name ls r ->
  exists fuel labiter iditer, SetOrder labiter /\ SetOrder iditer /\
    vg_ident_scan U FT AT isupper islower dist labiter iditer verbose installed fuel fs name = (ls, r).
Proof. exact vg_ident_complete. Qed.
Print Assumptions C71_happens.
(* Nothing is printed if the files cannot be read to their end. *)
Theorem C71_only : forall U FT AT, AsciiOk U -> forall isupper islower dist labiter iditer, SetOrder labiter -> SetOrder iditer ->
  forall verbose installed fuel fs name ls r,
  vg_ident_scan U FT AT isupper islower dist labiter iditer verbose installed fuel fs name = (ls, r) ->
  VgIdentSays U FT AT isupper islower dist verbose installed fs name ls r \/
  (ls = [] /\ forall d, snd (vg_parse_dialplan U FT AT fuel fs name) <> Ok d /\ forall n, r <> Ok n).
Proof. exact vg_ident_sound. Qed.
Print Assumptions C71_only.
(* One outcome, if names differ in more than case. *)
Theorem C71_determined : forall U FT AT, AsciiOk U -> forall isupper islower dist verbose installed fs name ls r ls' r',
  (forall evs fr h log, VgStream fs name evs (Ok tt) -> VgPlanSays U FT AT evs fr h log ->
     forall a b, VgIdentifier (kept_contexts fr h) (all_labels (contexts h)) log a -> VgIdentifier (kept_contexts fr h) (all_labels (contexts h)) log b ->
     u_lower U a = u_lower U b -> a = b) ->
  VgIdentSays U FT AT isupper islower dist verbose installed fs name ls r ->
  VgIdentSays U FT AT isupper islower dist verbose installed fs name ls' r' -> ls = ls' /\ r = r'.
Proof. exact vg_ident_det. Qed.
Print Assumptions C71_determined.
(* The contexts: each name once, where it is opened for the last time, whatever
   names are taken for the wiped sections. *)
Theorem C71_contexts : forall U FT AT fs name evs fr h log, AsciiOk U ->
  VgStream fs name evs (Ok tt) -> VgPlanSays U FT AT evs fr h log ->
  map dc_name (kept_contexts fr h) = last_names (ordinary (heads (elems evs))).
Proof. intros U FT AT fs name evs fr h log HU S P. rewrite kept_names. exact (vg_headings U FT AT fs name evs fr h log HU S P). Qed.
Print Assumptions C71_contexts.
(* It is ident-scan where the readers give the same and no header is repeated. *)
Theorem C71_same : forall U FT AT isupper islower dist labiter iditer verbose installed fuel fuel' fs name,
  vsw_stream (vg_parse_file fuel fs name) = vsw_stream (parse_file fuel' fs name) ->
  NoDup (heads (elems (fst (vsw_stream (parse_file fuel' fs name))))) ->
  vg_ident_scan U FT AT isupper islower dist labiter iditer verbose installed fuel fs name =
  ident_scan U FT AT isupper islower dist labiter iditer verbose installed fuel' fs name.
Proof. exact vg_ident_same. Qed.
Print Assumptions C71_same.

(* func_odbc-annotate, with every sqlparse or without it.  What was printed before
   an exception stays. *)
Theorem C71_annotate : forall installed fmt parse fs name ls r,
  VgAnnotates installed fmt parse fs name ls r <->
  r <> Hang /\ exists fuel, vg_annotate installed fmt parse fuel fs name = (ls, r).
Proof. exact vg_annotate_iff. Qed.
Print Assumptions C71_annotate.
Theorem C71_annotate_determined : forall installed fmt parse fs name ls r ls' r',
  VgAnnotates installed fmt parse fs name ls r -> VgAnnotates installed fmt parse fs name ls' r' -> ls = ls' /\ r = r'.
Proof. exact vg_annotate_det. Qed.
Print Assumptions C71_annotate_determined.
(* Sections that come again are not wiped here: only the reader differs. *)
Theorem C71_annotate_same : forall installed fmt parse fuel fuel' fs name,
  vsw_stream (vg_parse_file fuel fs name) = vsw_stream (parse_file fuel' fs name) ->
  vg_annotate installed fmt parse fuel fs name = annotate installed fmt parse fuel' fs name.
Proof. exact vg_annotate_same. Qed.
Print Assumptions C71_annotate_same.

(* ---- examples ---- *)
Notation VgIdSays := (VgIdentSays uni_ascii funcs_v13 apps_v13 a_isupper a_islower levenshtein).
Notation vg_id := (vg_ident_scan uni_ascii funcs_v13 apps_v13 a_isupper a_islower levenshtein).
(* [foo] comes again: it is listed once, and the label start and the variable
   counter of the wiped section are still there. *)
Definition vi_fs : fsys := fs_of [(L "/e.conf", flat_map (fun s => s ++ [10])
  [L "[foo]"; L "exten => 1,1(start),NoOp(${counter}"; L " ${counter})"; L "[bar]"; L "exten => 1,1,NoOp(${counters})"; L "[foo]"; L "exten => 2,1(done),NoOp()"])].
Definition vi_ls : list str :=
  [L "Contexts encountered:"; L "  bar"; L "  foo"; [];
   L "Labels encountered:"; L "  done"; L "  start"; [];
   L "Variables encountered:";
   L "  counter                           [2 times in 1 files]";
   L "  counters                          [1 times in 1 files]"; [];
   L "Identifiers with similar names include:";
   L "  counter                           [similar to: counters]";
   L "  counters                          [similar to: counter]"; []].
Example C71_example : VgIdSays true true vi_fs (L "/e.conf") vi_ls (Ok 1).
Proof.
  apply C71_scan; [exact ascii_ok|]. exists 200%nat, id_iter, id_iter. split; [exact C54_iter|]. split; [exact C54_iter|]. vm_compute. reflexivity.
Qed.
Example C71_example_absent : VgIdSays false false vi_fs (L "/e.conf") [] (Exn ImportError).
Proof.
  destruct (C71_only uni_ascii funcs_v13 apps_v13 ascii_ok a_isupper a_islower levenshtein id_iter id_iter C54_iter C54_iter
    false false 200 vi_fs (L "/e.conf") [] (Exn ImportError)) as [H|[_ H]]; [vm_compute; reflexivity|exact H|].
  exfalso. assert (B : match snd (vg_parse_dialplan uni_ascii funcs_v13 apps_v13 200 vi_fs (L "/e.conf")) with Ok _ => true | _ => false end = true) by (vm_compute; reflexivity).
  destruct (snd (vg_parse_dialplan uni_ascii funcs_v13 apps_v13 200 vi_fs (L "/e.conf"))) as [d|e|]; [|discriminate B..].
  exact (proj1 (H d) eq_refl).
Qed.
Example C71_example_differ : forall evs fr h log, VgStream vi_fs (L "/e.conf") evs (Ok tt) -> VgPlanSays uni_ascii funcs_v13 apps_v13 evs fr h log ->
  forall a b, VgIdentifier (kept_contexts fr h) (all_labels (contexts h)) log a -> VgIdentifier (kept_contexts fr h) (all_labels (contexts h)) log b ->
  u_lower uni_ascii a = u_lower uni_ascii b -> a = b.
Proof.
  intros evs fr h log S P.
  assert (X : match vg_parse_dialplan uni_ascii funcs_v13 apps_v13 200 vi_fs (L "/e.conf") with
    | (l, Ok d) => (map dc_name (dp_ctxs d), g_labels (dp_glob d), flat_map (fun e => match e with LVar v _ => [v] | _ => [] end) l)
    | _ => ([], [], []) end = ([L "bar"; L "foo"], [L "done"; L "start"], [L "counter"; L "counter"; L "counters"])) by (vm_compute; reflexivity).
  destruct (vg_parse_dialplan uni_ascii funcs_v13 apps_v13 200 vi_fs (L "/e.conf")) as [l0 [d0|e|]] eqn:E0; [|discriminate X..].
  destruct (VgCheck_proofs.vg_plan_sound _ _ _ ascii_ok _ _ _ _ _ E0) as (evs0 & fr0 & h0 & V0 & P0 & I0).
  assert (S0 : VgStream vi_fs (L "/e.conf") evs0 (Ok tt)) by (apply vg_stream_iff; split; [discriminate|exists 200%nat; exact V0]).
  destruct (vg_stream_det _ _ _ _ _ _ S S0) as [-> _].
  destruct (VgCheck_proofs.vg_plan_complete _ _ _ ascii_ok _ _ _ _ _ _ _ V0 P) as (d & E & I). destruct (follows_same _ _ _ _ I) as [EN EA].
  rewrite E0 in E. injection E as -> ->. clear S S0 P P0 V0 E0 I0 I. apply pair_equal_spec in X as [X X3]. apply pair_equal_spec in X as [X1 X2].
  assert (ID : forall x, VgIdentifier (kept_contexts fr h) (all_labels (contexts h)) log x -> In x ([L "bar"; L "foo"] ++ [L "done"; L "start"] ++ [L "counter"; L "counter"; L "counters"])).
  { intros x HX. unfold VgIdentifier in HX. rewrite EN, EA, X1, X2 in HX. rewrite !in_app_iff. destruct HX as [HX|[HX|(w & HW)]]; [now left|right; now left|right; right].
    rewrite <- X3. apply in_flat_map. exists (LVar x w). split; [exact HW|now left]. }
  clear - ID. intros a b HA HB. apply ID in HA, HB. cbn [In List.app] in HA, HB. repeat destruct HA as [<-|HA]; try easy; repeat destruct HB as [<-|HB]; try easy.
Qed.
Example C71_example_one : forall ls r, VgIdSays true true vi_fs (L "/e.conf") ls r -> ls = vi_ls /\ r = Ok 1.
Proof. intros ls r H. apply (C71_determined _ _ _ ascii_ok _ _ _ _ _ _ _ _ _ _ _ C71_example_differ H C71_example). Qed.
(* A file on which it is ident-scan. *)
Example C71_example_alike : vg_id id_iter id_iter true true 200 id_fs2 (L "/e.conf") = id_scan id_iter id_iter true true 200 id_fs2 (L "/e.conf") /\
  snd (vg_id id_iter id_iter true true 200 id_fs2 (L "/e.conf")) = Ok 1.
Proof.
  split; [apply C71_same; [vm_compute; reflexivity|]|vm_compute; reflexivity].
  replace (heads _) with [L "foo"] by (vm_compute; reflexivity). repeat constructor; easy.
Qed.
(* A query over two lines with a semicolon in parentheses; the section comes
   again and is shown again. *)
Definition vi_odbc : fsys := fs_of [(L "f", flat_map (fun s => s ++ [10])
  [L "[FOO]"; L "writesql=UPDATE x"; L " (a;b)"; L "[FOO]"; L "prefix=MY"; L "insertsql=INSERT"])].
Example C71_example_annotate : VgAnnotates true (fun s => s) (fun _ => [[TkOther]]) vi_odbc (L "f")
  (Preamble ++ [L "-- ODBC_FOO"; L "-- ."; L "-- FUNCTION TYPE: write"; L "UPDATE x (a;b);"; [];
   L "-- MY_FOO"; L "-- ."; L "-- FUNCTION TYPE: insert"; L "INSERT;"; []]) (Ok tt) /\
  VgAnnotates false (fun s => s) (fun _ => []) vi_odbc (L "f")
  (Preamble ++ [L "-- ODBC_FOO"; L "-- ."; L "-- FUNCTION TYPE: write"]) (Exn ImportError) /\
  VgAnnotates true (fun s => s) (fun _ => []) vi_odbc (L "g") [] (Exn OSError).
Proof. repeat split; (apply C71_annotate; split; [discriminate|]; exists 50%nat; vm_compute; reflexivity). Qed.
Example C71_example_same : vsw_stream (vg_parse_file 50 (fs_of [(L "f", Properties_Annotate.ann_text)]) (L "f")) <> ([], Ok tt) /\
  vg_annotate true (fun s => s) Properties_Annotate.ann_parse 50 (fs_of [(L "f", L "[FOO]" ++ [10] ++ L "readsql=SELECT 1" ++ [10])]) (L "f") =
  annotate true (fun s => s) Properties_Annotate.ann_parse 50 (fs_of [(L "f", L "[FOO]" ++ [10] ++ L "readsql=SELECT 1" ++ [10])]) (L "f").
Proof. split; [vm_compute; discriminate|]. apply C71_annotate_same. vm_compute. reflexivity. Qed.
