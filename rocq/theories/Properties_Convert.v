(* Final theorems about contrib/convert_dp_104_to_1100.py: C56. *)
From Verif Require Import Base PyStr Utf8 Defines Var VarFun AppM Tables Spec_Var Spec_App Spec_Args Var_proofs
  Mutator Spec_Mutator Convert Spec_Convert App_proofs Tok_proofs AppT_proofs Convert_proofs.

(* What is reported is old-style data, and that is what is converted. *)
Theorem C56_reported : forall name data w l x, if_args name data w = (l, Ok x) -> (Complains l <-> OldStyle (elems data)).
Proof. exact complains_iff. Qed.
Print Assumptions C56_reported.
Theorem C56_issue : forall app data, issue_of app data <> None <-> OldStyle (elems data).
Proof. exact issue_iff. Qed.
Print Assumptions C56_issue.

(* The first occurrence of the text of the data is replaced by the text of the
   new form; if there is none nothing is written. *)
Theorem C56_line : forall data i dl' old new ob nb line,
  issue_of (L "ExecIf") data = Some i -> NewForm (elems data) dl' -> Text (elems data) old -> Text dl' new ->
  utf8_encode old = Ok ob -> utf8_encode new = Ok nb ->
  (exists line', cv_issue i line = ([line'], Ok tt) /\ Rewritten ob nb line line') \/
  ((forall a b, line <> a ++ ob ++ b) /\ cv_issue i line = ([], Exn AssertionError)).
Proof. exact line_rewritten. Qed.
Print Assumptions C56_line.
Theorem C56_one_piece : forall i line out r, cv_issue i line = (out, r) ->
  (exists b, out = [b] /\ r = Ok tt) \/ (out = [] /\ r <> Ok tt).
Proof. exact one_piece. Qed.
Print Assumptions C56_one_piece.

(* Data of the new form is not reported again. *)
Theorem C56_fixed : forall name dl data' w l x, NewForm dl (elems data') -> if_args name data' w = (l, Ok x) -> ~ Complains l.
Proof. exact fixed. Qed.
Print Assumptions C56_fixed.

(* Other applications with such data (GotoIf, GosubIf, GotoIfTime, ExecIfTime) end the run. *)
Theorem C56_other_apps : forall i line, ii_app i <> L "ExecIf" -> cv_issue i line = ([], Exn NotImplementedError).
Proof. exact other_app. Qed.
Print Assumptions C56_other_apps.

(* ---- Examples ---- *)
Definition cv_data : tok := TList [TVar (TS (L "x")); TS (L ",Set,a=b,(c,d)")].
Definition cv_i : if_issue := Eval vm_compute in
  match issue_of (L "ExecIf") cv_data with Some i => i | None => IfIssue [] (TS []) (TS []) [] end.
Definition cv_new : tok := TList [TVar (TS (L "x")); TS (L "?Set(a=b,(c,d))")].
Example C56_example : issue_of (L "ExecIf") cv_data = Some cv_i /\ NewForm (elems cv_data) (elems cv_new) /\
  Text (elems cv_data) (L "${x},Set,a=b,(c,d)") /\ Text (elems cv_new) (L "${x}?Set(a=b,(c,d))") /\
  cv_issue cv_i (L "exten => 1,n,ExecIf(${x},Set,a=b,(c,d)) ; x") = ([L "exten => 1,n,ExecIf(${x}?Set(a=b,(c,d))) ; x"], Ok tt) /\
  cv_issue cv_i (L "exten => 1,n,ExecIf(${x}, Set,a=b,(c,d))") = ([], Exn AssertionError) /\
  (exists l x, if_args (L "ExecIf") cv_data (Where [] 0 []) = (l, Ok x) /\ Complains l) /\
  (exists l x, if_args (L "ExecIf") cv_new (Where [] 0 []) = (l, Ok x)).
Proof.
  split; [vm_compute; reflexivity|]. split.
  { exists [Va (TVar (TS (L "x")))], (map Ch (L "Set")), [map Ch (L "a=b"); map Ch (L "(c,d)")]. split; [|vm_compute; reflexivity].
    replace [[Va (TVar (TS (L "x")))]; map Ch (L "Set"); map Ch (L "a=b"); map Ch (L "(c,d)")]
      with (map elems (separate_args (SlTok cv_data) 44 false)) by (vm_compute; reflexivity).
    apply separate_Separated, delim_ok. cbn. auto. }
  split; [apply text_iff; vm_compute; reflexivity|]. split; [apply text_iff; vm_compute; reflexivity|].
  split; [vm_compute; reflexivity|]. split; [vm_compute; reflexivity|]. split.
  - eexists. eexists. split; [vm_compute; reflexivity|]. eexists. split; [left; reflexivity|reflexivity].
  - eexists. eexists. vm_compute. reflexivity.
Qed.

(* Refuted: the data that is replaced is that of the application.  Here it is
   the extension and its priority. *)
Definition cv_bad : tok := TS (L "1,2").
Theorem C56_place_refuted : ~ (forall data i dl' old new ob nb pre post line',
  issue_of (L "ExecIf") data = Some i -> NewForm (elems data) dl' -> Text (elems data) old -> Text dl' new ->
  utf8_encode old = Ok ob -> utf8_encode new = Ok nb ->
  cv_issue i (pre ++ L "ExecIf(" ++ ob ++ L ")" ++ post) = ([line'], Ok tt) ->
  line' = pre ++ L "ExecIf(" ++ nb ++ L ")" ++ post).
Proof.
  intros H. specialize (H cv_bad (IfIssue (L "ExecIf") cv_bad (TS (L "1")) [TS (L "2")]) (map Ch (L "1?2()")) (L "1,2") (L "1?2()")
    (L "1,2") (L "1?2()") (L "exten => 1,2,") [] (L "exten => 1?2(),ExecIf(1,2)")).
  assert (L "exten => 1?2(),ExecIf(1,2)" = L "exten => 1,2," ++ L "ExecIf(" ++ L "1?2()" ++ L ")" ++ []) as E.
  { apply H; try (vm_compute; reflexivity).
    - exists (map Ch (L "1")), (map Ch (L "2")), []. split; [|vm_compute; reflexivity].
      replace [map Ch (L "1"); map Ch (L "2")] with (map elems (separate_args (SlTok cv_bad) 44 false)) by (vm_compute; reflexivity).
      apply separate_Separated, delim_ok. cbn. auto.
    - apply text_iff. vm_compute. reflexivity.
    - apply text_iff. vm_compute. reflexivity. }
  vm_compute in E. discriminate.
Qed.
Print Assumptions C56_place_refuted.
