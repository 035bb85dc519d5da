(* C49: what is said about the arguments of applications, and the exact
   destinations of Gosub and GosubIf (C26).  All are about runs that do not
   end in an exception (C23) or hang (C26); [l] below is everything said. *)
From Verif Require Import Base PyStr Defines Var VarFun AppM Spec_Var Spec_App Spec_Args Var_proofs VarFun_proofs
  Balance_proofs Round_proofs App_proofs Tok_proofs AppT_proofs Args_proofs Tables Properties_App.

(* ---- C26: Gosub and GosubIf ---- *)

Theorem C26_gosub_exact : forall U FT nested a data w dl l ds, a_kind a = AGosub -> Flat data dl ->
  app_call U FT nested a data w = (l, Ok ds) ->
  exists args d l1 l2 l3, Separated 44 dl args /\ ds = [d] /\
    CountReport (a_name a) w (Some 1%nat) (Some 3%nat) args l1 /\ PipeReport (a_name a) w data args l2 /\
    GosubDest (a_name a) w true args d l3 /\ l = l1 ++ l2 ++ l3.
Proof. intros U FT nested a data w dl l ds Hk Hf. rewrite (Flat_fun _ _ Hf). now apply gosub_messages. Qed.
Print Assumptions C26_gosub_exact.

Theorem C26_gosubif_exact : forall U FT nested a data w dl l ds bs, a_kind a = AGosubIf -> Flat data dl ->
  app_call U FT nested a data w = (l, Ok ds) -> Branches dl bs ->
  exists l1 l2, CondReport (a_name a) w data dl l1 /\ l = l1 ++ l2 /\
    Logs (fun b d lg => exists args, Args 44 b args /\ GosubDest (a_name a) w false args d lg) bs ds l2.
Proof. intros U FT nested a data w dl l ds bs Hk Hf. rewrite (Flat_fun _ _ Hf). now apply gosubif_messages. Qed.
Print Assumptions C26_gosubif_exact.

(* A value is determined by its characters and variables, if built as the
   parser does: what [GosubDest] says of a destination is exact. *)
Theorem C26_canon_unique : forall t t' l, Canon t l -> Canon t' l -> t = t'.
Proof. exact Canon_fun. Qed.
Print Assumptions C26_canon_unique.

Example C26_example_gosub :
  application uni_ascii funcs_v13 apps_v13 (L "Gosub(sub,${EXTEN},1(a,b))") at0 =
    ([LApp (L "gosub"); LVar (L "EXTEN") at0],
     Ok [Dest (Some (TS (L "sub"))) (Some (TVar (TS (L "EXTEN")))) (SlTok (TS (L "1")))]) /\
  application uni_ascii funcs_v13 apps_v13 (L "GosubIf($[1]?sub,s,1(a)x:b,s,2)") at0 =
    ([LApp (L "gosubif")] ++ say W_APP_BALANCE at0 [(L "data", AStr (L "1(a)x"))],
     Ok [Dest (Some (TS (L "sub"))) (Some (TS (L "s"))) (SlTok (TS (L "1")));
         Dest (Some (TS (L "b"))) (Some (TS (L "s"))) (SlTok (TS (L "2")))]).
Proof. split; vm_compute; reflexivity. Qed.

(* ---- C49 ---- *)

Theorem C49_args : forall U FT nested a data w dl l ds ks mn, a_kind a = AArgs ks mn -> Flat data dl ->
  app_call U FT nested a data w = (l, Ok ds) ->
  ds = [] /\ exists args l1 l2 l3, Separated 44 dl args /\
    CountReport (a_name a) w mn (Some (length ks)) args l1 /\ OptReports (a_name a) w 1 ks args l2 /\
    PipeReport (a_name a) w data args l3 /\ l = l1 ++ l2 ++ l3.
Proof. intros U FT nested a data w dl l ds ks mn Hk Hf. rewrite (Flat_fun _ _ Hf). now apply args_messages. Qed.
Print Assumptions C49_args.

Theorem C49_goto : forall U FT nested a data w dl l ds, a_kind a = AGoto -> Flat data dl ->
  app_call U FT nested a data w = (l, Ok ds) ->
  exists args l1 l2, Separated 44 dl args /\
    CountReport (a_name a) w (Some 1%nat) (Some 3%nat) args l1 /\ PipeReport (a_name a) w data args l2 /\ l = l1 ++ l2.
Proof. intros U FT nested a data w dl l ds Hk Hf. rewrite (Flat_fun _ _ Hf). now apply goto_messages. Qed.
Print Assumptions C49_goto.

Theorem C49_ifstyle : forall U FT nested a data w dl l ds, a_kind a = AIfStyle -> Flat data dl ->
  app_call U FT nested a data w = (l, Ok ds) -> ds = [] /\ exists c, IfReport (a_name a) w data dl c l.
Proof. intros U FT nested a data w dl l ds Hk Hf. rewrite (Flat_fun _ _ Hf). now apply ifstyle_messages. Qed.
Print Assumptions C49_ifstyle.

Theorem C49_gotoif : forall U FT nested a data w dl l ds, a_kind a = AGotoIf -> Flat data dl ->
  app_call U FT nested a data w = (l, Ok ds) -> CondReport (a_name a) w data dl l.
Proof. intros U FT nested a data w dl l ds Hk Hf. rewrite (Flat_fun _ _ Hf). now apply gotoif_messages. Qed.
Print Assumptions C49_gotoif.

(* ExecIf: the branches are applications in turn. *)
Theorem C49_execif : forall U FT nested a data w dl l ds, a_kind a = AExecIf -> Flat data dl ->
  app_call U FT nested a data w = (l, Ok ds) ->
  exists l1 l2, ds = [] /\ CondReport (a_name a) w data dl l1 /\ l = l1 ++ l2 /\
    forall bs, Branches dl bs ->
      exists us, Logs (fun b u lg => exists t, Flat t b /\ nested (SlTok t) = (lg, Ok u)) bs us l2.
Proof. intros U FT nested a data w dl l ds Hk Hf. rewrite (Flat_fun _ _ Hf). now apply execif_messages. Qed.
Print Assumptions C49_execif.

(* Set, for data that is not one variable alone (that is split by its name,
   C31). *)
Theorem C49_set : forall U FT nested a data w dl l ds, a_kind a = ASet -> Canon data dl -> ~ Named data ->
  app_call U FT nested a data w = (l, Ok ds) ->
  ds = [] /\ exists l1 l2,
    AssignReport U FT (fun f args lc => exists sl, SlFlat sl args /\ call_func U FT f sl w = (lc, Ok tt)) w data dl l1 /\
    AppBalance w data dl l2 /\ l = l1 ++ l2.
Proof.
  intros U FT nested a data w dl l ds Hk Hc Hn H. pose proof (Canon_shallow _ _ Hc) as Hs.
  rewrite <- (Canon_elems _ _ Hc). apply set_messages in H as (l1 & l2 & u & -> & H1 & H2 & ->); [|easy].
  split; [easy|]. exists l1, l2. split; [now apply (assign_report U FT data w l1 u)|]. split; [|easy].
  now apply (balance_report data w l2 tt).
Qed.
Print Assumptions C49_set.

Theorem C49_plain : forall U FT nested a data w dl l ds, a_kind a = APlain \/ a_kind a = ABackground -> Flat data dl ->
  app_call U FT nested a data w = (l, Ok ds) -> ds = [] /\ AppBalance w data dl l.
Proof. intros U FT nested a data w dl l ds Hk Hf. rewrite (Flat_fun _ _ Hf). now apply plain_messages. Qed.
Print Assumptions C49_plain.

(* The whole line: its name and parentheses, the name as known, the
   variables of the data, the call. *)
Theorem C49_line : forall U FT AT raw w l ds, application U FT AT raw w = (l, Ok ds) ->
  exists l1 l2 name data r, AppText U w raw l1 name data /\ AppName w name l2 r /\
  match r with
  | None => ds = [] /\ l = l1 ++ l2
  | Some n => exists a l3 d l4 nested l5, AppOf U AT n a /\ Spelling w a n l3 /\
      parse_inner U FT n data w = (l4, Ok d) /\ app_call U FT nested a d w = (l5, Ok ds) /\
      l = l1 ++ l2 ++ LApp (u_lower U n) :: l3 ++ l4 ++ l5
  end.
Proof. intros U FT AT raw w l ds. apply application_report. Qed.
Print Assumptions C49_line.

(* strip() of a value *)
Theorem C49_strip : forall t l t', Canon t l -> vstrip t = Ok t' -> exists l', Canon t' l' /\ Trimmed l l'.
Proof. exact vstrip_trimmed. Qed.
Print Assumptions C49_strip.

Example C49_example_args :
  application uni_ascii funcs_v13 apps_v13 (L "VoiceMail(1@x,uzu)") at0 =
    ([LApp (L "voicemail")] ++
     say E_APP_ARG_BADOPT at0 [(L "argno", cnt 2); (L "app", AStr (L "VoiceMail")); (L "opts", AStr (L "z"))] ++
     say E_APP_ARG_DUPEOPT at0 [(L "argno", cnt 2); (L "app", AStr (L "VoiceMail")); (L "opts", AStr (L "uzu"))], Ok []) /\
  application uni_ascii funcs_v13 apps_v13 (L "Originate(SIP/x|apx)") at0 =
    ([LApp (L "originate")] ++
     say E_APP_ARG_FEW at0 [(L "app", AStr (L "Originate")); (L "min_args", cnt 3)] ++
     say E_APP_ARG_PIPEDELIM at0 [(L "app", AStr (L "Originate")); (L "data", AStr (L "SIP/x|apx"))], Ok []).
Proof. split; vm_compute; reflexivity. Qed.

Example C49_example_if :
  application uni_ascii funcs_v13 apps_v13 (L "GotoIf(1 > 2?a:b)") at0 =
    ([LApp (L "gotoif")] ++
     say E_APP_ARG_IFCONST at0 [(L "app", AStr (L "GotoIf")); (L "data", AStr (L "1 > 2?a:b")); (L "cond", AStr (L "1 > 2"))],
     Ok [Dest None None (SlTok (TS (L "a"))); Dest None None (SlTok (TS (L "b")))]) /\
  application uni_ascii funcs_v13 apps_v13 (L "ExecIf( ?noop():NoOp)") at0 =
    ([LApp (L "execif")] ++
     say E_APP_ARG_IFEMPTY at0 [(L "app", AStr (L "ExecIf")); (L "data", AStr (L " ?noop():NoOp"))] ++
     [LApp (L "noop")] ++ say W_APP_BAD_CASE at0 [(L "app", AStr (L "noop")); (L "proper", AStr (L "NoOp"))] ++
     [LApp (L "noop")], Ok []).
Proof. split; vm_compute; reflexivity. Qed.

Example C49_example_set :
  application uni_ascii funcs_v13 apps_v13 (L " Set(cdr(x y) =(1)") at0 =
    (say W_APP_WSH at0 [(L "app", AStr (L " Set"))] ++ [LApp (L "set")] ++
     say W_ASSIGN_SPACES at0 [(L "name", AStr (L "cdr(x y) "))] ++
     say W_APP_BALANCE at0 [(L "data", AStr (L "cdr(x y) =(1"))], Ok []) /\
  application uni_ascii funcs_v13 apps_v13 (L "Set(cdr(x)=1)") at0 =
    ([LApp (L "set"); LFunc (L "cdr")] ++
     say E_FUNC_BAD_CASE at0 [(L "func", AStr (L "cdr")); (L "proper", AStr (L "CDR"))], Ok []) /\
  application uni_ascii funcs_v13 apps_v13 (L "Hangup") at0 =
    (say W_APP_NEED_PARENS at0 [(L "app", AStr (L "Hangup"))] ++ [LApp (L "hangup")], Ok []).
Proof. repeat split; vm_compute; reflexivity. Qed.
