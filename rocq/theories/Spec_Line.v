(* Declarative side of C58: everything said about and recorded of the line of
   an application, and its jump destinations. *)
From Verif Require Import Base PyStr Defines Var VarFun AppM Spec_Var Spec_VarFun Spec_App Spec_Args Spec_Crash Spec_Subst.

(* ---- values put together: pieces of text run together, other values are
   kept as they are ---- *)
Definition lump (t : tok) : list elem := match t with TS s => map Ch s | _ => [Va t] end.
Definition Joined (ts : list tok) (t : tok) : Prop :=
  exists m, flat_map lump m = flat_map lump ts /\ ~ In (TS []) m /\
    (forall a x y b, m <> a ++ TS x :: TS y :: b) /\ t = match m with [] => TS [] | [x] => x | _ => TList m end.

(* ---- jumps ---- *)

(* priority; extension and priority; context, extension and priority *)
Inductive Target : list tok -> dest -> Prop :=
| Ta_prio p : Target [p] (Dest None None (SlTok p))
| Ta_exten e p : Target [e; p] (Dest None (Some e) (SlTok p))
| Ta_full c e p : Target [c; e; p] (Dest (Some c) (Some e) (SlTok p)).

(* The same for Gosub; more than three belong to the priority, commas and all. *)
Fixpoint with_commas (ts : list tok) : list tok :=
  match ts with
  | [] => []
  | [x] => [x]
  | x :: r => x :: TS [44] :: with_commas r
  end.
Inductive GosubParts : list tok -> option tok -> option tok -> tok -> Prop :=
| Gp_prio p : GosubParts [p] None None p
| Gp_exten e p : GosubParts [e; p] None (Some e) p
| Gp_full c e p : GosubParts [c; e; p] (Some c) (Some e) p
| Gp_more c e x y r p : Joined (with_commas (x :: y :: r)) p -> GosubParts (c :: e :: x :: y :: r) (Some c) (Some e) p.

(* [warned]: the number of arguments has been checked already. *)
Inductive GosubTarget (name : str) (w : loc) (warned : bool) (ts : list tok) : dest -> list lev -> Prop :=
| Gt_intro c e pt p sl l1 l2 : GosubParts ts c e pt -> Flat pt p -> PrioOf pt p sl -> BalReport w pt p l2 ->
    (l1 = [] /\ (warned = true \/ (length ts <= 3)%nat) \/
     l1 = say E_APP_ARG_MANY w [(L "app", AStr name); (L "max_args", cnt 3)] /\ warned = false /\ (3 < length ts)%nat) ->
    GosubTarget name w warned ts (Dest c e sl) (l1 ++ l2).

(* The arguments of each branch of cond?true:false.  Old-style arguments,
   cond,a,b, run together, less a quote or backslash at the end. *)
Inductive Unmarked (ts : list tok) : list tok -> Prop :=
| Um_mark r c : ts = r ++ [TS [c]] -> In c [34; 92] -> Unmarked ts r
| Um_none : (forall r c, ts = r ++ [TS [c]] -> ~ In c [34; 92]) -> Unmarked ts ts.
Inductive JumpArgs (dl : list elem) : list (list tok) -> Prop :=
| Ja_new bs tss : Branches dl bs ->
    Forall2 (fun b ts => exists args, Args 44 b args /\ Forall2 Canon ts args) bs tss -> JumpArgs dl tss
| Ja_none x c : Args 63 dl [x] -> Separated 44 dl [c] -> JumpArgs dl []
| Ja_old x c y more ts ts' t : Args 63 dl [x] -> Separated 44 dl (c :: y :: more) -> Forall2 Canon ts (y :: more) ->
    Unmarked ts ts' -> Joined ts' t -> JumpArgs dl [[t]].

Section Tables.
Variable U : uni.
Variable FT : ftable.
Variable AT : atable.
Variable w : loc.

(* ---- conditions ---- *)

(* These messages print the data and the condition; '${}' and '$[]' cannot be
   printed, nor can they be stripped when standing alone. *)
Definition Shown (l : list lev) : Prop := forall c w' p args k s r,
  In (LMsg (Msg c w' p args)) l -> In c [E_APP_ARG_IFCONST; E_APP_ARG_IFEMPTY; E_APP_ARG_IFSTYLE] ->
  In k [L "data"; L "cond"] -> In (k, AObj s r) args -> exists x, s = Ok x.
Definition Strippable (c : list elem) : Prop := forall v n, c = [Va v] -> NameIs v n -> ~ Flat n [].

Inductive IfSays (name : str) (data : tok) (dl c : list elem) : list lev -> Prop :=
| Iy_intro c0 l1 l2 : IfSplit name w data dl c0 l1 -> Strippable c0 -> Trimmed c0 c ->
    (c <> [] /\ l2 = [] \/
     c = [] /\ l2 = say E_APP_ARG_IFEMPTY w [(L "app", AStr name); (L "data", targ data)]) ->
    Shown (l1 ++ l2) -> IfSays name data dl c (l1 ++ l2).
Inductive CondSays (name : str) (data : tok) (dl : list elem) : list lev -> Prop :=
| Cy_fine c l : IfSays name data dl c l -> (forall ch, ~ In (Ch ch) c) -> CondSays name data dl l
| Cy_const c l t ch : IfSays name data dl c l -> In (Ch ch) c -> Canon t c ->
    Shown (say E_APP_ARG_IFCONST w [(L "app", AStr name); (L "data", targ data); (L "cond", targ t)]) ->
    CondSays name data dl (l ++ say E_APP_ARG_IFCONST w
      [(L "app", AStr name); (L "data", targ data); (L "cond", targ t)]).

(* ---- calls, ExecIf aside ---- *)
Inductive CallSays (a : ainfo) (data : tok) (dl : list elem) : list lev -> list dest -> Prop :=
| Cl_plain l : a_kind a = APlain \/ a_kind a = ABackground -> AppBalance w data dl l -> CallSays a data dl l []
| Cl_set l1 l2 : a_kind a = ASet -> Assigned U FT w data l1 -> AppBalance w data dl l2 -> CallSays a data dl (l1 ++ l2) []
| Cl_args ks mn args l1 l2 l3 : a_kind a = AArgs ks mn -> Separated 44 dl args ->
    CountReport (a_name a) w mn (Some (length ks)) args l1 -> OptReports (a_name a) w 1 ks args l2 ->
    PipeReport (a_name a) w data args l3 -> CallSays a data dl (l1 ++ l2 ++ l3) []
| Cl_goto args ts l1 l2 d : a_kind a = AGoto -> Separated 44 dl args ->
    CountReport (a_name a) w (Some 1%nat) (Some 3%nat) args l1 -> PipeReport (a_name a) w data args l2 ->
    Forall2 Canon ts args -> Target ts d -> CallSays a data dl (l1 ++ l2) [d]
| Cl_gosub args ts l1 l2 l3 d : a_kind a = AGosub -> Separated 44 dl args ->
    CountReport (a_name a) w (Some 1%nat) (Some 3%nat) args l1 -> PipeReport (a_name a) w data args l2 ->
    Forall2 Canon ts args -> GosubTarget (a_name a) w true ts d l3 -> CallSays a data dl (l1 ++ l2 ++ l3) [d]
| Cl_if c l : a_kind a = AIfStyle -> IfSays (a_name a) data dl c l -> CallSays a data dl l []
| Cl_gotoif l tss ds : a_kind a = AGotoIf -> CondSays (a_name a) data dl l -> JumpArgs dl tss ->
    Forall2 Target tss ds -> CallSays a data dl l ds
| Cl_gosubif l1 l2 tss ds : a_kind a = AGosubIf -> CondSays (a_name a) data dl l1 -> JumpArgs dl tss ->
    Logs (GosubTarget (a_name a) w false) tss ds l2 -> CallSays a data dl (l1 ++ l2) ds.

(* ---- lines ---- *)

(* name(data): the application, its data and what is said up to there *)
Inductive Heading (s : str) : ainfo -> list elem -> list lev -> Prop :=
| He_intro name data n a dl l1 l2 l3 l4 : AppText U w s l1 name data -> AppName w name l2 (Some n) ->
    AppOf U AT n a -> Spelling w a n l3 -> Data U FT w n data dl l4 ->
    Heading s a dl (l1 ++ l2 ++ LApp (u_lower U n) :: l3 ++ l4).

(* The text of a branch of ExecIf.  The name must be text; what follows is
   printed to be read again. *)
Inductive Raw : tok -> str -> Prop :=
| Rw_text s : Raw (TS s) s
| Rw_call t name post s : (forall x, t <> TS x) -> Seen t (map Ch name ++ Ch 40 :: post) -> ~ In 40 name ->
    Texts post s -> Raw t (name ++ 40 :: s).

Inductive LineSays : str -> list lev -> list dest -> Prop :=
| Ln_noname s name data l1 l2 : AppText U w s l1 name data -> AppName w name l2 None -> LineSays s (l1 ++ l2) []
| Ln_call s a data dl l1 l2 ds : Heading s a dl l1 -> Canon data dl -> CallSays a data dl l2 ds ->
    LineSays s (l1 ++ l2) ds
| Ln_execif s a data dl bs l1 l2 l3 : Heading s a dl l1 -> Canon data dl -> a_kind a = AExecIf ->
    CondSays (a_name a) data dl l2 -> Branches dl bs -> BranchesSay bs l3 -> LineSays s (l1 ++ l2 ++ l3) []
| Ln_execif_cond s a data dl x c l1 l2 : Heading s a dl l1 -> Canon data dl -> a_kind a = AExecIf ->
    CondSays (a_name a) data dl l2 -> Args 63 dl [x] -> Separated 44 dl [c] -> LineSays s (l1 ++ l2) []
(* branch by branch; destinations of the application called are lost *)
with BranchesSay : list (list elem) -> list lev -> Prop :=
| Bs_nil : BranchesSay [] []
| Bs_cons b bs t s ds l1 l2 : Canon t b -> Raw t s -> LineSays s l1 ds -> BranchesSay bs l2 ->
    BranchesSay (b :: bs) (l1 ++ l2).
End Tables.
