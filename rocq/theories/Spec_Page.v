(* Declarative side of C42: the page that modules-show prints. *)
From Coq Require Import Sorted.
From Verif Require Import Base PyStr Defines VarFun AppM Spec_Commands Spec_Check.

(* name(), name(), ... *)
Inductive Row : list str -> str -> Prop :=
| Rw_none : Row [] []
| Rw_one n : Row [n] (n ++ L "()")
| Rw_more n m r s : Row (m :: r) s -> Row (n :: m :: r) (n ++ L "(), " ++ s).
(* The width of a row with one more name behind these. *)
Inductive Width : list str -> str -> nat -> Prop :=
| Wd_first n : Width [] n (length n + 2)
| Wd_more m r s n : Row (m :: r) s -> Width (m :: r) n (length s + 2 + length n + 2).
(* As many names as fit in 52 columns; the first row may be empty, a name that
   does not fit at all is alone or first. *)
Definition Rows (names : list str) (rows : list (list str)) : Prop :=
  List.concat rows = names /\
  (forall p q a n b x, rows = p ++ (a ++ n :: b) :: q -> a <> [] \/ p = [] -> Width a n x -> (x <= 52)%nat) /\
  (forall p q g h, rows = p ++ g :: h :: q -> exists n b x, h = n :: b /\ Width g n x /\ (52 < x)%nat) /\
  rows <> [].
Definition Bare (s t : str) : Prop := exists a b, s = a ++ t ++ b /\ forallb isspace a = true /\ forallb isspace b = true /\
  (forall c r, t = c :: r -> isspace c = false) /\ (forall c r, t = r ++ [c] -> isspace c = false).
Definition Column (m col : str) : Prop :=
  exists k, col = m ++ repeat 32 k /\ (length col = 20%nat \/ k = 0%nat /\ (20 < length m)%nat).
(* The lines; a row that goes on ends in a comma. *)
Inductive Listed : str -> list (list str) -> list str -> Prop :=
| Ls_last m g col s t : Column m col -> Row g s -> Bare s t -> Listed m [g] [L ";   " ++ col ++ L "  " ++ t]
| Ls_empty m g r col t ls : Column m col -> g = [] -> t = [] -> Listed [] r ls ->
    Listed m (g :: r) ((L ";   " ++ col ++ L "  " ++ t) :: ls)
| Ls_more m g r col s t ls : Column m col -> g <> [] -> Row g s -> Bare (s ++ L ",") t -> Listed [] r ls ->
    Listed m (g :: r) ((L ";   " ++ col ++ L "  " ++ t) :: ls).

(* What was used, in the order of the keys; what is not in the table counts as
   the stand-in. *)
Definition Used {A} (name module : A -> str) (tab : list (str * A)) (unknown : A) (keys : list str) (items : list (str * str)) : Prop :=
  exists ks, StronglySorted StrLe ks /\ NoDup ks /\ (forall k, In k ks <-> In k keys /\ k <> L "unknown") /\
    Forall2 (fun k i => exists a, (lookup k tab = Some a \/ lookup k tab = None /\ a = unknown) /\ i = (name a, module a)) ks items.
Definition Modules {A} (module : A -> str) (tab : list (str * A)) (keys mods : list str) : Prop :=
  StronglySorted StrLe mods /\ NoDup mods /\ forall m, In m mods <-> Provides module tab keys m.
Inductive Sections (items : list (str * str)) : list str -> list str -> Prop :=
| Se_nil : Sections items [] []
| Se_cons m mods rows ls ls' : Rows (map fst (filter (fun i => str_eqb (snd i) m) items)) rows -> Listed m rows ls ->
    Sections items mods ls' -> Sections items (m :: mods) (ls ++ ls').
Definition Names (ms : list msg) (c : mcls) (key : str) (ns : list str) : Prop :=
  StronglySorted StrLe ns /\ NoDup ns /\
  forall n, In n ns <-> exists m, In m ms /\ m_cls m = c /\ lookup key (m_args m) = Some (AStr n).
Inductive Commas : list str -> str -> Prop :=
| Cm_one n : Commas [n] n
| Cm_more n m r s : Commas (m :: r) s -> Commas (n :: m :: r) (n ++ L ", " ++ s).
Inductive Unknown (what : str) : list str -> list str -> Prop :=
| Uk_none : Unknown what [] []
| Uk_some ns s : Commas ns s ->
    Unknown what ns [L "; WARNING: The following unknown " ++ what ++ L " were seen:"; L ";   " ++ s; L ";"].

Inductive Page (AT : atable) (FT : ftable) (apps funcs : list str) (ms : list msg) : list str -> N -> Prop :=
| Pg_intro ua uf ia im if_ fm la lf mods unka unkf lua luf status :
    lookup (L "unknown") AT = Some ua -> lookup (L "unknown") FT = Some uf ->
    Used a_name a_module AT ua apps ia -> Modules a_module AT apps im -> Sections ia im la ->
    Used VarFun.f_name VarFun.f_module FT uf funcs if_ -> Modules VarFun.f_module FT funcs fm -> Sections if_ fm lf ->
    StronglySorted StrLe mods -> NoDup mods -> (forall m, In m mods <-> (In m im \/ In m fm) /\ m <> L "<builtin>") ->
    Names ms E_APP_MISSING (L "app") unka -> Unknown (L "applications") unka lua ->
    Names ms E_FUNC_MISSING (L "func") unkf -> Unknown (L "functions") unkf luf ->
    (status = 0 /\ unka = [] /\ unkf = [] \/ status = 1 /\ (unka <> [] \/ unkf <> [])) ->
    Page AT FT apps funcs ms
      ((L "; Application providing modules used:" :: la ++ [L ";"]) ++
       (L "; Function providing modules used:" :: lf ++ [L ";"]) ++
       (L "; modules.conf" :: map (fun m => L "load => " ++ m ++ L ".so") mods ++ [[]]) ++ lua ++ luf) status.
