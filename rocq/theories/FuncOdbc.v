(* asterisklint/func_odbc.py: sections of func_odbc.conf and the functions they
   define.  OdbcQuery (which needs the optional sqlparse) is modelled only as
   far as the query text goes. *)
From Verif Require Import Base PyStr Defines FileRd Config VSpace VarFun.

(* OdbcFunction.ORDER: func_odbc.py:135-139 *)
Definition fo_order : list str :=
  [L "prefix"; L "synopsis"; L "dsn"; L "escapecommas"; L "mode"; L "rowlimit"; L "readhandle";
   L "writehandle"; L "readsql"; L "writesql"; L "insertsql"; L "read"; L "write"].

(* tuple.index; None = ValueError *)
Fixpoint pos_of (l : list str) (k : str) : option nat :=
  match l with
  | [] => None
  | x :: r => if str_eqb x k then Some O else option_map S (pos_of r k)
  end.

(* OdbcFunction (a Context): name, where, _varsets in order *)
Record ofunc := OFunc { of_name : str; of_where : loc; of_vars : list varset }.

Definition key_arg (v : varset) : list (str * arg) := [(L "key", AStr (v_variable v))].

(* [self.ORDER.index(i.variable) for i in set_]: func_odbc.py:202 *)
Fixpoint used_poses (l : list varset) : res (list nat) :=
  match l with
  | [] => Ok []
  | v :: r => match pos_of fo_order (v_variable v) with
              | Some n => let! ns := used_poses r in Ok (n :: ns)
              | None => Exn ValueError
              end
  end.

(* check_order: func_odbc.py:194-215.  The [previous] handed to E_CONF_KEY_DUPE
   is a Varset; only its position is kept here (its text, shown with
   show_previous only, is that of a plain object). *)
Definition check_order (l : list varset) (v : varset) : W bool :=
  match pos_of fo_order (v_variable v) with
  | None => do! _ <- emit E_CONF_KEY_INVALID (v_where v) None (key_arg v); wret false
  | Some n =>
    match l with
    | [] => wret true
    | _ =>
      do! ns <- wlift (used_poses l);
      if existsb (Nat.eqb n) ns then
        match filter (fun u => str_eqb (v_variable u) (v_variable v)) l with
        | u :: _ => do! _ <- emit E_CONF_KEY_DUPE (v_where v) (Some (v_where u)) (key_arg v); wret false
        | [] => wexn IndexError                    (* not reached *)
        end
      else
        do! _ <- (match last_opt ns with
                  | Some m => if (n <? m)%nat then emit W_CONF_KEY_LATE (v_where v) None (key_arg v)
                              else wret tt
                  | None => wret tt
                  end);
        wret true
    end
  end.

(* func_odbc.py:176-178 *)
Definition sql_keys : list str := [L "readsql"; L "writesql"; L "insertsql"; L "read"; L "write"].
Definition legacy_keys : list str := [L "read"; L "write"].

(* add: func_odbc.py:172-189 *)
Definition fo_add (o : ofunc) (v : varset) : W ofunc :=
  do! ok <- check_order (of_vars o) v;
  if ok : bool then
    do! _ <- (if smem (v_variable v) sql_keys then
                do! _ <- (if smem (v_variable v) legacy_keys
                          then emit W_ODBC_LEGACY (v_where v) None [] else wret tt);
                (if endswith (L ";") (v_value v) then emit W_ODBC_TAILSEMI (v_where v) None [] else wret tt)
              else wret tt);
    wret (OFunc (of_name o) (of_where o) (of_vars o ++ [v]))
  else wret o.

(* FUNC_NAME_RE: func_odbc.py:251.  The two classes are disjoint, so that the
   search never has to go back. *)
Definition fname_char (c : N) : bool := ((65 <=? c) && (c <=? 90)) || ((48 <=? c) && (c <=? 57)).
Fixpoint fname_rest (s : str) : bool :=
  match s with
  | [] => true
  | c :: r =>
    if fname_char c then fname_rest r
    else if c =? 95 then match r with d :: r' => fname_char d && fname_rest r' | [] => false end
    else match r with [] => c =? 10 | _ => false end
  end.
Definition fname_ok (s : str) : bool :=
  match s with c :: r => fname_char c && fname_rest r | [] => false end.

(* FuncOdbcAggregator.on_context: func_odbc.py:262-267, config.py:211-215,
   from_context (which constructs a second Context, repeating the template
   message): configobj.py:38-60.  The state is _contexts, newest first; its
   head is _curcontext. *)
Definition fo_context (st : list ofunc) (c : ctx) : W (list ofunc) :=
  do! _ <- (if fname_ok (c_name c) then wret tt
            else emit W_ODBC_BADTOKENS (c_where c) None [(L "name", AStr (c_name c))]);
  do! _ <- (match c_templates c with [] => wret tt | _ => emit I_NOTIMPL_TEMPLATES (c_where c) None [] end);
  wret (OFunc (c_name c) (c_where c) [] :: st).

(* on_varset: func_odbc.py:269-276, config.py:217-221 *)
Definition fo_varset (st : list ofunc) (v : varset) : W (list ofunc) :=
  do! _ <- (match v_arrow v with
            | Some true => emit H_CONF_HAS_ARROW (v_where v) None []
            | Some false => wret tt
            | None => wexn AttributeError
            end);
  match st with
  | [] => do! _ <- emit E_CONF_CTX_MISSING (v_where v) None []; wret st
  | o :: r => do! o' <- fo_add o v; wret (o' :: r)
  end.

(* The try block of ConfigAggregator.__iter__, config.py:187-199 *)
Definition fo_element (st : list ofunc) (e : elem) : W (list ofunc) :=
  let m := match e with
           | ECtx c => fo_context st c
           | EVar v => fo_varset st v
           | EEmpty _ _ => wret st
           end in
  match m with
  | (l, Exn _) => (l, Exn ProgrammingError)
  | _ => m
  end.

Fixpoint fo_steps (st : list ofunc) (es : list elem) : W (list ofunc) :=
  match es with
  | [] => wret st
  | e :: r => do! st' <- fo_element st e; fo_steps st' r
  end.

(* ConfigAggregator.__iter__ over the stream of the parser *)
Fixpoint fo_stream (st : list ofunc) (evs : list event) (o : res unit) : W (list ofunc) :=
  match evs with
  | [] => wlift (let! _ := o in Ok st)
  | EvLine _ _ _ :: r => fo_stream st r o
  | EvMsg m :: r => do! _ <- ([m], Ok tt); fo_stream st r o
  | EvElem e :: r => do! st' <- fo_element st e; fo_stream st' r o
  end.

(* get_variable: func_odbc.py:150-154 *)
Fixpoint get_variable (l : list varset) (k : str) : option str :=
  match l with
  | [] => None
  | v :: r => if str_eqb (v_variable v) k then Some (v_value v) else get_variable r k
  end.
(* x or y for a str or None *)
Definition or_str (x : option str) (y : option str) : option str :=
  match x with Some (_ :: _) => x | _ => y end.

(* get_prefix, get_function_name: func_odbc.py:144-148 *)
Definition function_name (o : ofunc) : str :=
  match or_str (get_variable (of_vars o) (L "prefix")) None with
  | Some p => p
  | None => L "ODBC"
  end ++ L "_" ++ of_name o.

(* finalize_check_any_read_write: func_odbc.py:230-235 *)
Definition has_variable (o : ofunc) (k : str) : bool :=
  match get_variable (of_vars o) k with Some _ => true | None => false end.
Definition any_read_write (o : ofunc) : bool :=
  has_variable o (L "read") || has_variable o (L "write")
  || has_variable o (L "readsql") || has_variable o (L "writesql").

(* get_queries: func_odbc.py:156-167; the (unstripped) query texts *)
Definition queries (o : ofunc) : option str * option str * option str :=
  let g := get_variable (of_vars o) in
  (or_str (or_str (g (L "readsql")) (g (L "read"))) None,
   or_str (or_str (g (L "writesql")) (g (L "write"))) None,
   or_str (g (L "insertsql")) None).

(* finalize_register: func_odbc.py:237-241, func/base.py.  type() refuses a name
   with a NUL; this is outside of the try block. *)
Definition registered (o : ofunc) : res finfo :=
  let n := function_name o in
  if memb 0 n then Exn ValueError else Ok (FInfo n (L "func_odbc") FPlain).

(* on_yield with finalize, consumed completely: func_odbc.py:253-256, 217-228,
   mainutil.py:61-64.  The functions are registered one by one. *)
Fixpoint fo_finish (os : list ofunc) : W (list finfo) :=
  match os with
  | [] => wret []
  | o :: r =>
    if any_read_write o then
      do! f <- wlift (registered o);
      do! fs <- fo_finish r; wret (f :: fs)
    else do! _ <- emit E_ODBC_NOSQL (of_where o) None []; fo_finish r
  end.

(* The same from a list of elements, and from a file. *)
Definition fo_run (es : list elem) : W (list finfo) :=
  do! st <- fo_steps [] es; fo_finish (rev st).
Definition load_func_odbc (fuel : nat) (fs : fsys) (name : str) : W (list finfo) :=
  let (evs, o) := vsw_stream (parse_file fuel fs name) in
  do! st <- fo_stream [] evs o; fo_finish (rev st).

(* FuncLoader.register for every function in turn: varfun.py:127-129.  The
   newest entry of a name comes first, as in [Loader.ld_register]. *)
Definition register_all (U : uni) (fs : list finfo) (FT : ftable) : ftable :=
  fold_left (fun t f => (u_lower U (f_name f), f) :: t) fs FT.
