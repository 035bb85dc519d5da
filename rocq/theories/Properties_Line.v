(* C58: everything said about and recorded of the line of an application,
   nested applications included, and its jump destinations. *)
From Verif Require Import Base PyStr Defines Var VarFun AppM Spec_Var Spec_VarFun Spec_App Spec_Args Spec_Crash Spec_Subst Spec_Line
  Line_proofs Tables Tok_proofs Properties_App Properties_Var.

(* A line is read without failure exactly if the rules apply to it; log and
   destinations are exactly those of the rules. *)
Theorem C58_line : forall U FT AT w s l ds, AsciiOk U ->
  application U FT AT s w = (l, Ok ds) <-> LineSays U FT AT w s l ds.
Proof. intros U FT AT w s l ds HU. now apply line_iff. Qed.
Print Assumptions C58_line.

Theorem C58_determined : forall U FT AT w s l ds l' ds', AsciiOk U ->
  LineSays U FT AT w s l ds -> LineSays U FT AT w s l' ds' -> l = l' /\ ds = ds'.
Proof. intros U FT AT w s l ds l' ds' HU. now apply line_determined. Qed.
Print Assumptions C58_determined.

(* The call itself, for data as the reader of texts makes it (C57). *)
Theorem C58_call : forall U FT w nested a data dl l ds, a_kind a <> AExecIf -> Canon data dl ->
  app_call U FT nested a data w = (l, Ok ds) <-> CallSays U FT w a data dl l ds.
Proof. exact call_says_canon. Qed.
Print Assumptions C58_call.

(* ---- examples ---- *)
Definition A (s : string) := application uni_ascii funcs_v13 apps_v13 (L s) at0.
Example C58_example_nested :
  A "execif(${x}?Set(a=${y}):Goto(s,1))" =
    ([LApp (L "execif")] ++ say W_APP_BAD_CASE at0 [(L "app", AStr (L "execif")); (L "proper", AStr (L "ExecIf"))] ++
     [LVar (L "x") at0; LVar (L "y") at0; LApp (L "set"); LVar (L "y") at0; LApp (L "goto")], Ok []).
Proof. vm_compute. reflexivity. Qed.
Example C58_example_old :
  A "GotoIf(${x},a,${y}b)" =
    ([LApp (L "gotoif"); LVar (L "x") at0; LVar (L "y") at0] ++
     say E_APP_ARG_IFSTYLE at0 [(L "app", AStr (L "GotoIf"));
       (L "data", targ (TList [TVar (TS (L "x")); TS (L ",a,"); TVar (TS (L "y")); TS (L "b")]));
       (L "cond", targ (TVar (TS (L "x")))); (L "args", larg [TS (L "a"); TList [TVar (TS (L "y")); TS (L "b")]])],
     Ok [Dest None None (SlTok (TList [TS (L "a"); TList [TVar (TS (L "y")); TS (L "b")]]))]).
Proof. vm_compute. reflexivity. Qed.
Example C58_example_gosub :
  A "Gosub(a,b,1,x(${c},2))" =
    ([LApp (L "gosub"); LVar (L "c") at0] ++ say E_APP_ARG_MANY at0 [(L "app", AStr (L "Gosub")); (L "max_args", zn 3)],
     Ok [Dest (Some (TS (L "a"))) (Some (TS (L "b"))) (SlTok (TS (L "1,x")))]).
Proof. vm_compute. reflexivity. Qed.
(* '${}' cannot be printed: no rule applies *)
Example C58_example_fails : snd (A "GotoIf(${},a,b)") = Exn AttributeError /\ snd (A "ExecIf(1?${x}(a))") = Exn AttributeError /\
  forall l ds, ~ LineSays uni_ascii funcs_v13 apps_v13 at0 (L "GotoIf(${},a,b)") l ds.
Proof.
  split; [vm_compute; reflexivity|]. split; [vm_compute; reflexivity|]. intros l ds H.
  apply C58_line in H; [|exact ascii_ok]. change (application _ _ _ _ _) with (A "GotoIf(${},a,b)") in H.
  assert (snd (A "GotoIf(${},a,b)") = Ok ds) as H' by (now rewrite H). vm_compute in H'. discriminate.
Qed.
Example C58_example_says : exists l, LineSays uni_ascii funcs_v13 apps_v13 at0 (L "GosubIf($[${x}]?s,1(a,b):)") l
  [Dest None (Some (TS (L "s"))) (SlTok (TS (L "1")))].
Proof. eexists. apply C58_line; [exact ascii_ok|]. vm_compute. reflexivity. Qed.
