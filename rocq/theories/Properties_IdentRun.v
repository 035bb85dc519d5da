(* C65: what ident-scan prints, from the bytes of the files. *)
From Verif Require Import Base PyStr Defines FileRd Config VarFun AppM Spec_VarFun Dialplan Commands IdentScan Spec_Dialplan Spec_Run Spec_Ident
  Spec_IdentRun IdentRun_proofs Run_proofs Whole_proofs Tables Properties_Crash Properties_Commands Properties_Ident.
From Verif Require Spec_Reader.

(* The outcomes by the rules are the outcomes that there are for some order of
   the sets. *)
Theorem C65_scan : forall U FT AT, AsciiOk U -> forall isupper islower dist verbose installed fs name ls n,
  IdentSays U FT AT isupper islower dist verbose installed fs name ls (Ok n) <->
  exists fuel labiter iditer, SetOrder labiter /\ SetOrder iditer /\
    ident_scan U FT AT isupper islower dist labiter iditer verbose installed fuel fs name = (ls, Ok n).
Proof. exact ident_iff. Qed.
Print Assumptions C65_scan.
(* The outcomes without a status also: ImportError if the names are neither to be
   listed nor to be compared, ... *)
Theorem C65_happens : forall U FT AT, AsciiOk U -> forall isupper islower dist verbose installed fs name ls r,
  IdentSays U FT AT isupper islower dist verbose installed fs name ls r ->
  exists fuel labiter iditer, SetOrder labiter /\ SetOrder iditer /\
    ident_scan U FT AT isupper islower dist labiter iditer verbose installed fuel fs name = (ls, r).
Proof. exact ident_complete. Qed.
Print Assumptions C65_happens.
(* ... or what stopped the reading of the files, with nothing printed. *)
Theorem C65_only : forall U FT AT, AsciiOk U -> forall isupper islower dist labiter iditer, SetOrder labiter -> SetOrder iditer ->
  forall verbose installed fuel fs name ls r,
  ident_scan U FT AT isupper islower dist labiter iditer verbose installed fuel fs name = (ls, r) ->
  IdentSays U FT AT isupper islower dist verbose installed fs name ls r \/
  (ls = [] /\ forall d, snd (parse_dialplan U FT AT fuel fs name) <> Ok d /\ forall n, r <> Ok n).
Proof. exact ident_sound. Qed.
Print Assumptions C65_only.
(* One outcome, if names differ in more than case. *)
Theorem C65_determined : forall U FT AT, AsciiOk U -> forall isupper islower dist verbose installed fs name ls r ls' r',
  (forall evs h log, Spec_Reader.StreamOf fs name evs (Ok tt) -> PlanSays U FT AT evs h log ->
     forall a b, Identifier (contexts h) log a -> Identifier (contexts h) log b -> u_lower U a = u_lower U b -> a = b) ->
  IdentSays U FT AT isupper islower dist verbose installed fs name ls r ->
  IdentSays U FT AT isupper islower dist verbose installed fs name ls' r' -> ls = ls' /\ r = r'.
Proof. exact ident_det. Qed.
Print Assumptions C65_determined.

(* ---- examples ---- *)
Notation IdSays := (IdentSays uni_ascii funcs_v13 apps_v13 a_isupper a_islower levenshtein).
Definition id_ls : list str := Eval vm_compute in fst (id_scan id_iter id_iter true true 200 id_fs (L "/e.conf")).
Example C65_example : IdSays true true id_fs (L "/e.conf") id_ls (Ok 1).
Proof.
  apply C65_scan; [exact ascii_ok|]. exists 200%nat, id_iter, id_iter. split; [exact C54_iter|]. split; [exact C54_iter|]. vm_compute. reflexivity.
Qed.
Example C65_example_absent : IdSays false false id_fs (L "/e.conf") [] (Exn ImportError).
Proof.
  destruct (C65_only uni_ascii funcs_v13 apps_v13 ascii_ok a_isupper a_islower levenshtein id_iter id_iter C54_iter C54_iter
    false false 200 id_fs (L "/e.conf") [] (Exn ImportError)) as [H|[_ H]]; [vm_compute; reflexivity|exact H|].
  exfalso. destruct (snd (parse_dialplan uni_ascii funcs_v13 apps_v13 200 id_fs (L "/e.conf"))) as [d|e|] eqn:E; [|vm_compute in E; discriminate E..].
  now apply (proj1 (H d)).
Qed.
(* Two outcomes for one file: the labels ARG1 and arg1 in either order. *)
Definition id_fs3 : fsys := fs_of [(L "/e.conf", flat_map (fun s => s ++ [10])
  [L "[x]"; L "exten => 1,1(ARG1),NoOp()"; L " same => n(arg1),NoOp(${ARG2})"])].
Definition id_rev (l : list str) : list str := rev (nodup str_eq_dec l).
Example C65_example_rev : SetOrder id_rev.
Proof. intros l. split; [apply NoDup_rev, NoDup_nodup|]. intros x. unfold id_rev. now rewrite <- in_rev, nodup_In. Qed.
Example C65_example_two : IdSays false true id_fs3 (L "/e.conf") [] (Ok 0) /\
  IdSays false true id_fs3 (L "/e.conf")
   [L "Identifiers with similar names include:";
    L "  arg1                              [similar to: ARG2]";
    L "  ARG2                              [similar to: arg1]"; []] (Ok 1).
Proof.
  split; (apply C65_scan; [exact ascii_ok|]).
  - exists 200%nat, id_iter, id_iter. split; [exact C54_iter|]. split; [exact C54_iter|]. vm_compute. reflexivity.
  - exists 200%nat, id_iter, id_rev. split; [exact C54_iter|]. split; [exact C65_example_rev|]. vm_compute. reflexivity.
Qed.
(* A file with names that differ in more than case. *)
Example C65_example_differ : forall evs h log, Spec_Reader.StreamOf id_fs2 (L "/e.conf") evs (Ok tt) -> PlanSays uni_ascii funcs_v13 apps_v13 evs h log ->
  forall a b, Identifier (contexts h) log a -> Identifier (contexts h) log b -> u_lower uni_ascii a = u_lower uni_ascii b -> a = b.
Proof.
  intros evs h log S P.
  destruct (parse_dialplan uni_ascii funcs_v13 apps_v13 200 id_fs2 (L "/e.conf")) as [l0 [d0|e|]] eqn:E0;
    [|exfalso; apply (f_equal snd) in E0; vm_compute in E0; discriminate E0..].
  destruct (plan_sound _ _ _ ascii_ok _ _ _ _ _ E0) as (evs0 & h0 & V0 & P0 & I0).
  assert (S0 : Spec_Reader.StreamOf id_fs2 (L "/e.conf") evs0 (Ok tt)) by (apply stream_iff; split; [easy|now exists 200%nat]).
  destruct (Whole_proofs.stream_det _ _ _ _ _ _ S S0) as [-> _].
  destruct (plan_complete _ _ _ ascii_ok _ _ _ _ _ _ V0 P) as (d & E & I). destruct (contexts_same _ _ _ I) as [EN EA].
  assert (E1 : d = match snd (parse_dialplan uni_ascii funcs_v13 apps_v13 200 id_fs2 (L "/e.conf")) with Ok d => d | _ => dp_init end) by now rewrite E.
  assert (E2 : log = fst (parse_dialplan uni_ascii funcs_v13 apps_v13 200 id_fs2 (L "/e.conf"))) by now rewrite E.
  assert (ID : forall x, Identifier (contexts h) log x -> In x [L "foo"; L "start"; L "counter"; L "counters"]).
  { intros x HX. unfold Identifier in HX. rewrite EN, EA in HX. clear - E1 E2 HX. vm_compute in E1, E2. subst d log. destruct HX as [[<-|[]]|[(c & [<-|[]] & NE & y & [<-|[]] & HL)|(w & HW)]].
    - now left.
    - unfold HasLabel in HL. cbn [x_label] in HL. injection HL as <-. right. now left.
    - unfold Mention in HW. cbn [In] in HW. repeat (destruct HW as [HW|HW]; [try discriminate HW; injection HW as <- <-; solve [right; right; now left | right; right; right; now left]|]). elim HW. }
  intros a b HA HB. apply ID in HA, HB. cbn [In] in HA, HB. repeat destruct HA as [<-|HA]; try easy; repeat destruct HB as [<-|HB]; try easy.
Qed.
Example C65_example_one : forall ls r, IdSays false true id_fs2 (L "/e.conf") ls r ->
  ls = [L "Identifiers with similar names include:";
        L "  counter                           [similar to: counters]";
        L "  counters                          [similar to: counter]"; []] /\ r = Ok 1.
Proof.
  intros ls r H. apply (C65_determined _ _ _ ascii_ok _ _ _ _ _ _ _ _ _ _ _ C65_example_differ H).
  apply C65_scan; [exact ascii_ok|]. exists 200%nat, id_iter, id_iter. split; [exact C54_iter|]. split; [exact C54_iter|]. vm_compute. reflexivity.
Qed.
