(* Declarative side of C49: what is said about the arguments of applications. *)
From Verif Require Import Base PyStr Defines Var VarFun AppM Spec_Var Spec_App.

Definition say (c : mcls) (w : loc) (args : list (str * arg)) : list lev := [LMsg (Msg c w None args)].
Definition cnt (n : nat) : arg := AInt (Z.of_nat n).

Section About.
Variable name : str.          (* of the application *)
Variable w : loc.

(* Too few arguments: an empty one does not count if one is required. *)
Definition TooFew (mn : option nat) (args : list (list elem)) : Prop :=
  exists m, mn = Some m /\ ((length args < m)%nat \/ (m = 1%nat /\ args = [[]])).

Inductive CountReport (mn mx : option nat) (args : list (list elem)) : list lev -> Prop :=
| Cr_few m : mn = Some m -> TooFew mn args ->
    CountReport mn mx args (say E_APP_ARG_FEW w [(L "app", AStr name); (L "min_args", cnt m)])
| Cr_many m : ~ TooFew mn args -> mx = Some m -> (m < length args)%nat ->
    CountReport mn mx args (say E_APP_ARG_MANY w [(L "app", AStr name); (L "max_args", cnt m)])
| Cr_fine : ~ TooFew mn args -> (forall m, mx = Some m -> (length args <= m)%nat) ->
    CountReport mn mx args [].

(* Options: characters; those not known are listed, in order. *)
Definition unknown (opts : str) (l : list elem) : str :=
  filter (fun c => negb (existsb (N.eqb c) opts)) (chars_of l).
Definition opt_args (argno : nat) (a : arg) : list (str * arg) :=
  [(L "argno", cnt argno); (L "app", AStr name); (L "opts", a)].

Inductive OptReport (argno : nat) (l : list elem) : aarg -> list lev -> Prop :=
| Or_any : OptReport argno l AnyArg []
| Or_opts opts t l1 l2 : Canon t l ->
    (unknown opts l = [] /\ l1 = [] \/
     unknown opts l <> [] /\ l1 = say E_APP_ARG_BADOPT w (opt_args argno (AStr (unknown opts l)))) ->
    (NoDup (chars_of l) /\ l2 = [] \/
     ~ NoDup (chars_of l) /\ l2 = say E_APP_ARG_DUPEOPT w (opt_args argno (targ t))) ->
    OptReport argno l (Options opts) (l1 ++ l2)
| Or_word x : In x [L "app"; L "exten"] -> l = map Ch x -> OptReport argno l AppOrExten []
| Or_noword t : (forall x, In x [L "app"; L "exten"] -> l <> map Ch x) -> Canon t l ->
    OptReport argno l AppOrExten (say E_APP_ARG_BADOPT w (opt_args argno (targ t))).

(* Arguments are numbered from 1; what has no check, or no argument, is skipped. *)
Inductive OptReports : nat -> list aarg -> list (list elem) -> list lev -> Prop :=
| Os_nochecks n args : OptReports n [] args []
| Os_noargs n ks : OptReports n ks [] []
| Os_next n k ks a args l1 l2 : OptReport n a k l1 -> OptReports (S n) ks args l2 ->
    OptReports n (k :: ks) (a :: args) (l1 ++ l2).

(* A pipe in the only argument. *)
Inductive PipeReport (data : tok) (args : list (list elem)) : list lev -> Prop :=
| Pr_pipe a : args = [a] -> In (Ch 124) a ->
    PipeReport data args (say E_APP_ARG_PIPEDELIM w [(L "app", AStr name); (L "data", targ data)])
| Pr_fine : (forall a, args = [a] -> ~ In (Ch 124) a) -> PipeReport data args [].

(* Stripping: around text it is the usual one, but next to a variable only
   text that is blank altogether goes away. *)
Definition Blank (s : str) : Prop := Forall (fun c => isspace c = true) s.
Inductive Trimmed : list elem -> list elem -> Prop :=
| Tr_text a s b : Blank a -> Blank b ->
    (forall c r, s = c :: r -> isspace c = false) -> (forall c r, s = r ++ [c] -> isspace c = false) ->
    Trimmed (map Ch (a ++ s ++ b)) (map Ch s)
| Tr_mixed a mid b a' b' v r v' r' : mid = Va v :: r -> mid = r' ++ [Va v'] ->
    (Blank a /\ a' = [] \/ ~ Blank a /\ a' = a) -> (Blank b /\ b' = [] \/ ~ Blank b /\ b' = b) ->
    Trimmed (map Ch a ++ mid ++ map Ch b) (map Ch a' ++ mid ++ map Ch b').

(* cond?iftrue:iffalse.  [c] is the condition, trimmed. *)
Inductive IfSplit (data : tok) (dl : list elem) : list elem -> list lev -> Prop :=
| Is_two c act : Args 63 dl [c; act] -> IfSplit data dl c []
| Is_many c act x more : Args 63 dl (c :: act :: x :: more) ->
    IfSplit data dl c (say E_APP_ARG_MANY w [(L "app", AStr name); (L "data", targ data); (L "max_args", cnt 2)])
| Is_none x c : Args 63 dl [x] -> Separated 44 dl [c] ->
    IfSplit data dl c (say E_APP_ARG_FEW w [(L "app", AStr name); (L "data", targ data); (L "min_args", cnt 2)])
| Is_comma x c t y more ts : Args 63 dl [x] -> Separated 44 dl (c :: y :: more) -> Canon t c ->
    Forall2 Canon ts (y :: more) ->
    IfSplit data dl c (say E_APP_ARG_IFSTYLE w
      [(L "app", AStr name); (L "data", targ data); (L "cond", targ t); (L "args", larg ts)]).

Inductive IfReport (data : tok) (dl c : list elem) : list lev -> Prop :=
| Ir_intro c0 l1 l2 : IfSplit data dl c0 l1 -> Trimmed c0 c ->
    (c <> [] /\ l2 = [] \/
     c = [] /\ l2 = say E_APP_ARG_IFEMPTY w [(L "app", AStr name); (L "data", targ data)]) ->
    IfReport data dl c (l1 ++ l2).

(* A condition with any text outside variables and expressions is constant. *)
Inductive CondReport (data : tok) (dl : list elem) : list lev -> Prop :=
| Co_fine c l : IfReport data dl c l -> (forall ch, ~ In (Ch ch) c) -> CondReport data dl l
| Co_const c l t ch : IfReport data dl c l -> In (Ch ch) c -> Canon t c ->
    CondReport data dl (l ++ say E_APP_ARG_IFCONST w
      [(L "app", AStr name); (L "data", targ data); (L "cond", targ t)]).

(* The priority of a Gosub without its arguments.  If it has variables the
   part before the parenthesis is a list, unless it is one part. *)
Inductive PrioOf (t : tok) (p : list elem) : sliced -> Prop :=
| Po_plain : ~ In (Ch 40) p -> PrioOf t p (SlTok t)
| Po_text s post : p = map Ch s ++ Ch 40 :: map Ch post -> ~ In 40 s -> PrioOf t p (SlTok (TS s))
| Po_one pre post x v : p = pre ++ Ch 40 :: post -> ~ In (Ch 40) pre -> In (Va v) p -> Parts [x] pre ->
    PrioOf t p (SlTok x)
| Po_list pre post m v : p = pre ++ Ch 40 :: post -> ~ In (Ch 40) pre -> In (Va v) p -> Parts m pre ->
    length m <> 1%nat -> PrioOf t p (SlList m).

Inductive BalReport (t : tok) (p : list elem) : list lev -> Prop :=
| Bl_fine : ~ In (Ch 40) p \/ (exists r, p = r ++ [Ch 41]) -> BalReport t p []
| Bl_bad : In (Ch 40) p -> (forall r, p <> r ++ [Ch 41]) ->
    BalReport t p (say W_APP_BALANCE w [(L "data", targ t)]).

(* More than three arguments: the rest belongs to the priority. *)
Inductive GosubArgs : list (list elem) -> option tok -> option tok -> tok -> list elem -> Prop :=
| Ga_prio p pt : Canon pt p -> GosubArgs [p] None None pt p
| Ga_exten e et p pt : Canon et e -> Canon pt p -> GosubArgs [e; p] None (Some et) pt p
| Ga_full c ct e et p pt : Canon ct c -> Canon et e -> Canon pt p -> GosubArgs [c; e; p] (Some ct) (Some et) pt p
| Ga_more c ct e et x y r pt : Canon ct c -> Canon et e -> Flat pt (glue 44 (x :: y :: r)) ->
    GosubArgs (c :: e :: x :: y :: r) (Some ct) (Some et) pt (glue 44 (x :: y :: r)).

(* [warned]: the number of arguments has been checked already. *)
Inductive GosubDest (warned : bool) (args : list (list elem)) : dest -> list lev -> Prop :=
| Gd_intro c e pt p sl l1 l2 : GosubArgs args c e pt p -> PrioOf pt p sl -> BalReport pt p l2 ->
    (l1 = [] /\ (warned = true \/ (length args <= 3)%nat) \/
     l1 = say E_APP_ARG_MANY w [(L "app", AStr name); (L "max_args", cnt 3)] /\ warned = false /\ (3 < length args)%nat) ->
    GosubDest warned args (Dest c e sl) (l1 ++ l2).
End About.

(* ---- From the text of a line to the application and its data ---- *)

(* app(data): the parentheses go if both are there; NoOp may be written
   without them. *)
Inductive AppText (U : uni) (w : loc) (s : str) : list lev -> str -> str -> Prop :=
| At_closed name data : s = name ++ 40 :: data ++ [41] -> ~ In 40 name -> AppText U w s [] name data
| At_open name data : s = name ++ 40 :: data -> ~ In 40 name -> (forall d, data <> d ++ [41]) ->
    AppText U w s [] name (40 :: data)
| At_noop : ~ In 40 s -> u_lower U s = L "noop" -> AppText U w s [] s []
| At_bare : ~ In 40 s -> u_lower U s <> L "noop" ->
    AppText U w s (say W_APP_NEED_PARENS w [(L "app", AStr s)]) s [].

(* Space around the name; a name must remain. *)
Inductive AppName (w : loc) (name : str) : list lev -> option str -> Prop :=
| An_after n c : name = n ++ [c] -> isspace c = true ->
    AppName w name (say E_APP_WSH w [(L "app", AStr name)]) None
| An_none : name = [] -> AppName w name (say E_APP_MISSING w [(L "app", AStr (L "(none)"))]) None
| An_before sp x n : name = sp ++ x :: n -> sp <> [] -> Blank sp -> isspace x = false ->
    (forall m c, name = m ++ [c] -> isspace c = false) ->
    AppName w name (say W_APP_WSH w [(L "app", AStr name)]) (Some (x :: n))
| An_fine x n : name = x :: n -> isspace x = false -> (forall m c, name = m ++ [c] -> isspace c = false) ->
    AppName w name [] (Some name).

(* The name as it is known; Background has rules of its own (C34). *)
Inductive Spelling (w : loc) (a : ainfo) (name : str) : list lev -> Prop :=
| Sp_background : a_kind a = ABackground -> Spelling w a name [LBg name w]
| Sp_same : a_kind a <> ABackground -> a_name a = name -> Spelling w a name []
| Sp_missing : a_kind a <> ABackground -> a_name a = L "Unknown" -> name <> L "Unknown" ->
    Spelling w a name (say E_APP_MISSING w [(L "app", AStr name)])
| Sp_case : a_kind a <> ABackground -> a_name a <> name -> a_name a <> L "Unknown" ->
    Spelling w a name (say W_APP_BAD_CASE w [(L "app", AStr name); (L "proper", AStr (a_name a))]).

(* Unbalanced brackets or quotes (C30). *)
Inductive AppBalance (w : loc) (data : tok) (dl : list elem) : list lev -> Prop :=
| Ab_fine : Balanced dl -> AppBalance w data dl []
| Ab_bad s : ~ Balanced dl -> str_of data = Ok s -> AppBalance w data dl (say W_APP_BALANCE w [(L "data", AStr s)]).

(* The function a name stands for, and how the name is written. *)
Inductive FuncSpelling (w : loc) (f : finfo) (name : str) : list lev -> Prop :=
| Fs_same : VarFun.f_name f = name -> FuncSpelling w f name []
| Fs_missing : VarFun.f_name f = L "UNKNOWN" -> name <> L "UNKNOWN" ->
    FuncSpelling w f name (say E_FUNC_MISSING w [(L "func", AStr name)])
| Fs_case : VarFun.f_name f <> name -> VarFun.f_name f <> L "UNKNOWN" ->
    FuncSpelling w f name (say E_FUNC_BAD_CASE w [(L "func", AStr name); (L "proper", AStr (VarFun.f_name f))]).
Definition FuncOf (U : uni) (FT : ftable) (name : str) (f : finfo) : Prop :=
  lookup (u_lower U name) FT = Some f \/
  (lookup (u_lower U name) FT = None /\ lookup (L "unknown") FT = Some f).

(* name=value.  A name that ends in a parenthesis is a function written to;
   [call] is what that function says of its arguments. *)
Inductive AssignReport (U : uni) (FT : ftable) (call : finfo -> list elem -> list lev -> Prop)
    (w : loc) (data : tok) (dl : list elem) : list lev -> Prop :=
| Ar_empty : dl = [] -> AssignReport U FT call w data dl (say E_ASSIGN_EMPTY w [])
| Ar_noequals : dl <> [] -> ~ In (Ch 61) dl ->
    AssignReport U FT call w data dl (say E_ASSIGN_NO_EQUALS w [(L "data", targ data)])
| Ar_var name value t l1 : dl = name ++ Ch 61 :: value -> ~ In (Ch 61) name -> Flat t name ->
    (~ In (Ch 32) name /\ l1 = [] \/ In (Ch 32) name /\ l1 = say W_ASSIGN_SPACES w [(L "name", targ t)]) ->
    (forall r, name <> r ++ [Ch 41]) -> AssignReport U FT call w data dl l1
| Ar_func name value t l1 fname args f l2 l3 : dl = name ++ Ch 61 :: value -> ~ In (Ch 61) name -> Flat t name ->
    (~ In (Ch 32) name /\ l1 = [] \/ In (Ch 32) name /\ l1 = say W_ASSIGN_SPACES w [(L "name", targ t)]) ->
    name = map Ch fname ++ Ch 40 :: args ++ [Ch 41] -> ~ In 40 fname ->
    FuncOf U FT fname f -> FuncSpelling w f fname l2 -> call f args l3 ->
    AssignReport U FT call w data dl (l1 ++ LFunc (u_lower U fname) :: l2 ++ l3).

Definition AppOf (U : uni) (AT : atable) (name : str) (a : ainfo) : Prop :=
  lookup (u_lower U name) AT = Some a \/
  (lookup (u_lower U name) AT = None /\ lookup (L "unknown") AT = Some a).

(* one log for each branch *)
Inductive Logs {A B} (R : A -> B -> list lev -> Prop) : list A -> list B -> list lev -> Prop :=
| Lg_nil : Logs R [] [] []
| Lg_cons a b l1 la lb l2 : R a b l1 -> Logs R la lb l2 -> Logs R (a :: la) (b :: lb) (l1 ++ l2).

Definition SlFlat (sl : sliced) (l : list elem) : Prop :=
  exists ls, Forall2 Flat (sl_items sl) ls /\ List.concat ls = l.
