(* The command func_odbc-annotate: asterisklint/commands/func_odbc-annotate.py and
   OdbcQuery, func_odbc.py:56-132.  The library sqlparse is a parameter. *)
From Verif Require Import Base PyStr Defines FileRd Config VSpace VarFun FuncOdbc Var.

(* What is asked of the tokens of a statement. *)
Record ident := Ident { id_alias : option str; id_text : str }.
Inductive sqltok :=
| TkSelect                    (* match(DML, 'SELECT') *)
| TkSpace                     (* match(Whitespace, r'\s+', regex=True) *)
| TkFrom                      (* match(Keyword, 'FROM') *)
| TkIdent (i : ident)         (* a Function or an Identifier *)
| TkList (l : list ident)     (* an IdentifierList *)
| TkOther.

Section Sql.
Variable installed : bool.
Variable sql_format : str -> str.                   (* sqlparse.format with the options of line 69 *)
Variable sql_parse : str -> list (list sqltok).     (* sqlparse.parse: the tokens of the statements *)

(* _require_sqlparse: func_odbc.py:64-66 *)
Definition require : res unit := if installed then Ok tt else Exn ImportError.
(* format_sql: func_odbc.py:68-73 *)
Definition format_sql (q : str) : res str := let! _ := require in Ok (sql_format q).

(* token.get_alias() or str(token): func_odbc.py:129-131 *)
Definition column_name (i : ident) : str :=
  match id_alias i with Some (c :: a) => c :: a | _ => id_text i end.
(* _token_to_identifiers: func_odbc.py:116-127 *)
Definition token_idents (t : sqltok) : res (list ident) :=
  match t with
  | TkIdent i => Ok [i]
  | TkList l => Ok l
  | _ => Exn TypeError
  end.
(* _tokens_to_identifiers: func_odbc.py:89-114 *)
Definition tokens_idents (ts : list sqltok) : res (list ident) :=
  match ts with
  | _ :: s :: t :: r =>
    match s with
    | TkSpace =>
      match r with
      | [] => token_idents t
      | _ :: TkFrom :: _ => token_idents t
      | _ => Exn NotImplementedError
      end
    | _ => Exn AssertionError
    end
  | _ => Exn AssertionError
  end.
(* select_columns: func_odbc.py:75-87 *)
Definition select_columns (q : str) : res (option (list str)) :=
  let! _ := require in
  match sql_parse q with
  | [ts] =>
    match ts with
    | [] => Exn IndexError
    | TkSelect :: _ => let! is := tokens_idents ts in Ok (Some (map column_name is))
    | _ => Ok None
    end
  | _ => Exn AssertionError
  end.

(* A program that prints lines and may end by an exception. *)
Definition out (A : Type) : Type := (list str * res A)%type.
Definition oret {A} (a : A) : out A := ([], Ok a).
Definition obind {A B} (m : out A) (f : A -> out B) : out B :=
  match m with
  | (l, Ok a) => let (l', r) := f a in (l ++ l', r)
  | (l, Exn e) => (l, Exn e)
  | (l, Hang) => (l, Hang)
  end.
Definition print (s : str) : out unit := ([s], Ok tt).
Definition olift {A} (r : res A) : out A := ([], r).

(* '{:2d}' of a positive number *)
Definition d2 (n : N) : str := let s := nstr n in repeat 32 (2 - length s) ++ s.
(* func_odbc-annotate.py:64-65 *)
Fixpoint column_lines (n : N) (cols : list str) : list str :=
  match cols with
  | [] => []
  | c :: r => (L "-- " ++ d2 n ++ L ". " ++ c) :: column_lines (n + 1) r
  end.
(* func_odbc-annotate.py:57-69 *)
Definition annotate_query (kq : str * str) : out unit :=
  let (key, q) := kq in
  obind (print (L "-- FUNCTION TYPE: " ++ key)) (fun _ =>
  obind (if str_eqb key (L "read") then
           obind (olift (select_columns q)) (fun cols =>
           match cols with
           | Some (c :: r) => (L "-- COLUMNS:" :: column_lines 1 (c :: r), Ok tt)
           | _ => oret tt
           end)
         else oret tt) (fun _ =>
  obind (olift (format_sql q)) (fun formatted =>
  print (if endswith (L ";") formatted then formatted else formatted ++ L ";")))).
Fixpoint annotate_queries (l : list (str * str)) : out unit :=
  match l with
  | [] => oret tt
  | x :: r => obind (annotate_query x) (fun _ => annotate_queries r)
  end.

(* sorted(get_queries().items()): func_odbc.py:156-167; from_query strips *)
Definition opt_query (key : str) (q : option str) : list (str * str) :=
  match q with Some t => [(key, strip_p isspace t)] | None => [] end.
Definition sorted_queries (o : ofunc) : list (str * str) :=
  let '(r, w, i) := queries o in opt_query (L "insert") i ++ opt_query (L "read") r ++ opt_query (L "write") w.

(* finalize of one section (func_odbc.py:217-241), then its lines *)
Definition finalize (o : ofunc) : res unit :=
  if any_read_write o then let! _ := registered o in Ok tt else Ok tt.
Fixpoint annotate_all (os : list ofunc) : out unit :=
  match os with
  | [] => oret tt
  | o :: r =>
    obind (olift (finalize o)) (fun _ =>
    obind (print (L "-- " ++ function_name o)) (fun _ =>
    obind (print (L "-- .")) (fun _ =>
    obind (annotate_queries (sorted_queries o)) (fun _ =>
    obind (print []) (fun _ => annotate_all r)))))
  end.

(* handle_args: func_odbc-annotate.py:42-70; the file is opened before anything
   is printed, and read completely before the first section is shown. *)
Definition annotate (fuel : nat) (fs : fsys) (name : str) : out unit :=
  obind (olift (open_frame fs name)) (fun _ =>
  obind (L "-- BEWARE: This output format is not standardized yet" :: L "-- NOT FOR MACHINE CONSUMPTION" :: [[]], Ok tt) (fun _ =>
  let (evs, o) := vsw_stream (parse_file fuel fs name) in
  obind (olift (snd (fo_stream [] evs o))) (fun st => annotate_all (rev st)))).
End Sql.
