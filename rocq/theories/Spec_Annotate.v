(* Independent specification of func_odbc-annotate (C53). *)
From Verif Require Import Base PyStr Defines Config VarFun FuncOdbc Annotate Spec_FuncOdbc.

(* A number in decimal. *)
Inductive Numeral : str -> N -> Prop :=
| Nu_one d : d < 10 -> Numeral [48 + d] d
| Nu_more s n d : Numeral s n -> 0 < n -> d < 10 -> Numeral (s ++ [48 + d]) (n * 10 + d).

(* The columns of a statement that is a SELECT; a statement that is not one has
   none.  Otherwise it is not understood. *)
Definition Names (i : ident) (c : str) : Prop :=
  (exists a, id_alias i = Some a /\ a <> [] /\ c = a) \/
  ((id_alias i = None \/ id_alias i = Some []) /\ c = id_text i).
Definition Idents (t : sqltok) (is : list ident) : Prop :=
  (exists i, t = TkIdent i /\ is = [i]) \/ t = TkList is.
(* SELECT x, or SELECT x . FROM *)
Definition Selects (ts : list sqltok) (t : sqltok) : Prop :=
  ts = [TkSelect; TkSpace; t] \/ exists s r, ts = TkSelect :: TkSpace :: t :: s :: TkFrom :: r.
Inductive Columns (stmts : list (list sqltok)) : list str -> Prop :=
| Co_other t r : stmts = [t :: r] -> t <> TkSelect -> Columns stmts []
| Co_select ts t is cs : stmts = [ts] -> Selects ts t -> Idents t is -> Forall2 Names is cs -> Columns stmts cs.
Inductive NoColumns (stmts : list (list sqltok)) : exn -> Prop :=
| Nc_many : length stmts <> 1%nat -> NoColumns stmts AssertionError
| Nc_empty : stmts = [[]] -> NoColumns stmts IndexError
| Nc_short ts : stmts = [TkSelect :: ts] -> (length ts < 2)%nat -> NoColumns stmts AssertionError
| Nc_space s t r : stmts = [TkSelect :: s :: t :: r] -> s <> TkSpace -> NoColumns stmts AssertionError
| Nc_keyword t s r : stmts = [TkSelect :: TkSpace :: t :: s :: r] -> (forall r', r <> TkFrom :: r') -> NoColumns stmts NotImplementedError
| Nc_type ts t : stmts = [ts] -> Selects ts t -> (forall is, ~ Idents t is) -> NoColumns stmts TypeError.

(* Numbered lines. *)
Definition Row (n : N) (c line : str) : Prop :=
  exists num pad, Numeral num n /\ line = L "-- " ++ pad ++ num ++ L ". " ++ c /\
    (pad = [] \/ pad = L " ") /\ (pad = [] <-> (2 <= length num)%nat).
Inductive Rows : N -> list str -> list str -> Prop :=
| Ro_nil n : Rows n [] []
| Ro_cons n c cs l ls : Row n c l -> Rows (n + 1) cs ls -> Rows n (c :: cs) (l :: ls).
Definition ColumnLines (cs : list str) (ls : list str) : Prop :=
  (cs = [] /\ ls = []) \/ (cs <> [] /\ exists rows, Rows 1 cs rows /\ ls = L "-- COLUMNS:" :: rows).

(* The statement, with one semicolon more if it has none at the end. *)
Definition Statement (formatted line : str) : Prop :=
  (last_of formatted 59 /\ line = formatted) \/ (~ last_of formatted 59 /\ line = formatted ++ [59]).

(* The queries of a section in the order insert, read, write; without the white
   space around them. *)
Definition Trim (s t : str) : Prop :=
  exists a b, s = a ++ t ++ b /\ forallb isspace a = true /\ forallb isspace b = true /\
    (forall c r, t = c :: r -> isspace c = false) /\ (forall r c, t = r ++ [c] -> isspace c = false).
Inductive Listed (key : str) : option str -> list (str * str) -> Prop :=
| Li_none : Listed key None []
| Li_some s t : Trim s t -> Listed key (Some s) [(key, t)].
Definition Texts (o : ofunc) (qs : list (str * str)) : Prop :=
  exists i r w l1 l2 l3, Chosen o (L "insertsql") (L "insertsql") i /\ Chosen o (L "readsql") (L "read") r /\
    Chosen o (L "writesql") (L "write") w /\
    Listed (L "insert") i l1 /\ Listed (L "read") r l2 /\ Listed (L "write") w l3 /\ qs = l1 ++ l2 ++ l3.

Section Writes.
Variable installed : bool.
Variable sql_format : str -> str.
Variable sql_parse : str -> list (list sqltok).

(* The lines of the queries; what was written when a query is not understood,
   or when sqlparse is not installed. *)
Inductive WritesQueries : list (str * str) -> list str -> res unit -> Prop :=
| WQ_nil : WritesQueries [] [] (Ok tt)
| WQ_missing k q qs : installed = false -> WritesQueries ((k, q) :: qs) [L "-- FUNCTION TYPE: " ++ k] (Exn ImportError)
| WQ_read q cs cl st qs ls r : installed = true -> Columns (sql_parse q) cs -> ColumnLines cs cl -> Statement (sql_format q) st ->
    WritesQueries qs ls r -> WritesQueries ((L "read", q) :: qs) (L "-- FUNCTION TYPE: read" :: cl ++ st :: ls) r
| WQ_fail q qs e : installed = true -> NoColumns (sql_parse q) e -> WritesQueries ((L "read", q) :: qs) [L "-- FUNCTION TYPE: read"] (Exn e)
| WQ_other k q st qs ls r : installed = true -> k <> L "read" -> Statement (sql_format q) st -> WritesQueries qs ls r ->
    WritesQueries ((k, q) :: qs) ((L "-- FUNCTION TYPE: " ++ k) :: st :: ls) r.

(* The lines of the sections. *)
Inductive Writes : list ofunc -> list str -> res unit -> Prop :=
| Wr_nil : Writes [] [] (Ok tt)
| Wr_nul o os n : HasQuery o -> FunName o n -> In 0 n -> Writes (o :: os) [] (Exn ValueError)
| Wr_cons o os n qs ls ls' r : FunName o n -> (HasQuery o -> ~ In 0 n) -> Texts o qs -> WritesQueries qs ls (Ok tt) ->
    Writes os ls' r -> Writes (o :: os) ([L "-- " ++ n; L "-- ."] ++ ls ++ [] :: ls') r
| Wr_fail o os n qs ls e : FunName o n -> (HasQuery o -> ~ In 0 n) -> Texts o qs -> WritesQueries qs ls (Exn e) ->
    Writes (o :: os) ([L "-- " ++ n; L "-- ."] ++ ls) (Exn e).
End Writes.
Definition Preamble : list str :=
  [L "-- BEWARE: This output format is not standardized yet"; L "-- NOT FOR MACHINE CONSUMPTION"; []].
