(* Variables and functions in application data: asterisklint/varfun.py,
   func/base.py and the functions with a __call__ of their own. *)
From Verif Require Import Base PyStr Defines Var.

(* Unicode facts the code uses and the model does not fix: str.lower(),
   str.isdigit() per character, and the digit value int() uses.  Theorems
   needing them state what they assume about ASCII. *)
Record uni := Uni { u_lower : str -> str; u_isdigit : N -> bool; u_decimal : N -> option N }.

Definition ascii_digit (c : N) : bool := (48 <=? c) && (c <=? 57).

(* What Python guarantees for ASCII. *)
Definition lower_c (c : N) : N := if (65 <=? c) && (c <=? 90) then c + 32 else c.
Definition is_ascii (c : N) : bool := c <? 128.

(* Plain ASCII instance, for examples. *)
Definition uni_ascii : uni :=
  Uni (map lower_c) ascii_digit (fun c => if ascii_digit c then Some (c - 48) else None).

(* Everything the application layer does to global state, in order: messages;
   VarLoader._variables[v].append(where), varfun.py:378; FuncLoader and
   AppLoader _used sets, varfun.py:124 and application.py:78; and the accepted
   spellings of Background. *)
Inductive lev :=
| LMsg (m : msg)
| LVar (v : str) (w : loc)
| LFunc (lower : str)
| LApp (lower : str)
| LBg (name : str) (w : loc).

Definition M (A : Type) : Type := (list lev * res A)%type.
Definition mret {A} (a : A) : M A := ([], Ok a).
Definition mexn {A} (e : exn) : M A := ([], Exn e).
Definition mlift {A} (r : res A) : M A := ([], r).
Definition mlog (e : lev) : M unit := ([e], Ok tt).
Definition mbind {A B} (m : M A) (f : A -> M B) : M B :=
  match m with
  | (l, Ok a) => let y := f a in (l ++ fst y, snd y)
  | (l, Exn e) => (l, Exn e)
  | (l, Hang) => (l, Hang)
  end.
Notation "'do*' x '<-' m ';' b" := (mbind m (fun x => b))
  (at level 200, x pattern, m at level 100, b at level 200).

Definition mw {A} (m : W A) : M A := (map LMsg (fst m), snd m).
Definition memit (c : mcls) (w : loc) (args : list (str * arg)) : M unit :=
  mw (emit c w None args).

Definition log_msgs (l : list lev) : list msg :=
  flat_map (fun e => match e with LMsg m => [m] | _ => [] end) l.

(* repr(): the default of object for all classes deriving from Var (none of
   variable.py, expression.py, function.py defines __repr__). *)
Definition tclass (t : tok) : str :=
  match t with
  | TS _ | TList _ | TVar _ => L "variable.Var"
  | TExpr _ => L "expression.Expr"
  | TSlice _ _ _ => L "variable.VarSlice"
  | TDyn _ _ _ => L "variable.VarDynSlice"
  | TFunc _ _ => L "function.ReadFunc"
  | TFuncS _ _ _ _ => L "function.ReadFuncSlice"
  end.
Definition trepr (t : tok) : list rp :=
  match t with
  | TS s => [RStr s]
  | _ => [RLit (L "<asterisklint." ++ tclass t ++ L " object at 0x"); RAddr; RLit (L ">")]
  end.
(* The repr() of a list: those of the elements between brackets. *)
Definition lrepr (l : list tok) : list rp :=
  match l with
  | [] => [RLit (L "[]")]
  | x :: r => RLit (L "[") :: trepr x ++ flat_map (fun y => RLit (L ", ") :: trepr y) r ++ [RLit (L "]")]
  end.

(* A str or Var, and a list of them, as a format argument. *)
Definition targ (t : tok) : arg :=
  match t with TS s => AStr s | _ => AObj (str_of t) (trepr t) end.
Definition larg (l : list tok) : arg := AList (lrepr l).

(* func/*.py.  [FSet]: func_logic.py:41-44; [FCount]: INC and DEC,
   func_math.py:24-43; [FAudio]: func_audiohookinherit.py:20-27; all others
   are plain FuncBase. *)
Inductive fkind := FPlain | FSet | FCount | FAudio.
Record finfo := FInfo { f_name : str; f_module : str; f_kind : fkind }.

(* The registered functions as _lower_funcs: varfun.py:86, 127-129; the last
   registration of a key wins. *)
Definition ftable := list (str * finfo).

Section WithTable.
Variable U : uni.
Variable FT : ftable.

(* FuncLoader.get: varfun.py:112-125.  The aliasing of an unknown name to
   'unknown' is not modelled here; it does not change any answer, which is
   proved for the loader as a state machine (Loader.v, C33). *)
Definition func_get (lower : str) : M finfo :=
  match lookup lower FT with
  | Some f => do* _ <- mlog (LFunc lower); mret f
  | None => match lookup (L "unknown") FT with
            | Some f => do* _ <- mlog (LFunc lower); mret f
            | None => mexn NotImplementedError
            end
  end.

(* _get_and_check_availability: varfun.py:205-215 *)
Definition func_check (func : str) (w : loc) : M finfo :=
  do* f <- func_get (u_lower U func);
  do* _ <- (if str_eqb (f_name f) func then mret tt
            else if str_eqb (f_name f) (L "UNKNOWN")
            then memit E_FUNC_MISSING w [(L "func", AStr func)]
            else memit E_FUNC_BAD_CASE w [(L "func", AStr func); (L "proper", AStr (f_name f))]);
  mret f.

(* LEGAL_VAR_TOKENS: varfun.py:72-73 *)
Definition legal_var_token (c : N) : bool :=
  ((97 <=? c) && (c <=? 122)) || ((65 <=? c) && (c <=? 90)) || ascii_digit c || (c =? 95).

(* count_var: varfun.py:372-378 *)
Definition count_var (v : str) (w : loc) : M unit :=
  do* _ <- (if forallb legal_var_token v then mret tt
            else memit E_VAR_BAD_TOKENS w [(L "data", AStr v)]);
  mlog (LVar v w).

(* str(x) for a str, Var or list *)
Definition sl_str (s : sliced) : res unit :=
  match s with SlTok t => let! _ := str_of t in Ok tt | SlList _ => Ok tt end.
Definition sl_arg (s : sliced) : arg :=
  match s with
  | SlTok t => match str_of t with Ok x => AStr x | _ => ANone end
  | SlList l => AShown (lrepr l)
  end.
Definition sl_truthy (s : sliced) : bool :=
  match s with SlTok t => truthy t | SlList l => negb (Nat.eqb (length l) 0) end.

(* FuncBase.__call__: func/base.py:29-33.  str(data) is taken before the
   message is raised. *)
Definition base_call (data : sliced) (w : loc) : M unit :=
  match check_balance (sl_items data) with
  | Ok _ => mret tt
  | Exn e => if is_value_error e
             then do* _ <- mlift (sl_str data);
                  memit W_FUNC_BALANCE w [(L "data", sl_arg data)]
             else mexn e
  | Hang => ([], Hang)
  end.

Definition audio_args : list str :=
  [L "MixMonitor"; L "Chanspy"; L "Volume"; L "Speex"; L "pitch_shift"; L "JACK_HOOK"; L "Mute"].

(* process_write_function: varfun.py:185-203.  [call] is the call of the
   loaded function.  Without '(' the name func is unbound. *)
Definition process_write (call : finfo -> sliced -> loc -> M unit) (dest : tok) (w : loc)
  : M unit :=
  if tin 40 dest then
    do* parts <- mlift (vsplit 40 (Some 1%nat) dest);
    match parts with
    | [func; args] =>
      match last_opt (items args) with
      | None => mexn IndexError
      | Some c =>
        if tok_isc c 41 then
          match func with
          | TS fname => do* f <- func_check fname w;
                        call f (slice_of args (removelast (items args))) w
          | _ => mexn AttributeError       (* func.lower() *)
          end
        else mexn AssertionError
      end
    | _ => mexn ValueError
    end
  else mexn UnboundLocalError.

(* parse_assignment: varfun.py:227-252 *)
Definition parse_assignment (call : finfo -> sliced -> loc -> M unit) (data : sliced) (w : loc)
  : M unit :=
  if negb (sl_truthy data) then memit E_ASSIGN_EMPTY w []
  else match data with
  | SlList _ => mexn AttributeError        (* list has no split *)
  | SlTok t =>
    do* parts <- mlift (vsplit 61 (Some 1%nat) t);
    match parts with
    | [dest; _] =>
      do* _ <- (if tin 32 dest then memit W_ASSIGN_SPACES w [(L "name", targ dest)] else mret tt);
      match last_opt (items dest) with
      | Some c => if tok_isc c 41 then process_write call dest w else mret tt
      | None => mret tt
      end
    | _ => memit E_ASSIGN_NO_EQUALS w [(L "data", targ t)]
    end
  end.

(* Calling a loaded function.  SET may write to a function, which may be SET
   again; the fuel bounds that nesting. *)
Fixpoint func_call (fuel : nat) (f : finfo) (data : sliced) (w : loc) : M unit :=
  match fuel with
  | O => ([], Hang)
  | S k =>
    match f_kind f with
    | FPlain => base_call data w
    | FSet => do* _ <- parse_assignment (func_call k) data w;
              base_call data w
    | FCount => do* _ <- base_call data w;
                match data with
                | SlTok (TS v) => count_var v w
                | _ => mexn AssertionError
                end
    | FAudio =>
      do* _ <- (match data with
                | SlTok (TS v) => if smem v audio_args then mret tt
                                  else memit E_FUNC_BAD_ARGS w [(L "func", AStr (f_name f)); (L "data", AStr v)]
                | _ => mret tt
                end);
      base_call data w
    end
  end.

(* Size of a value, names included; bounds the nesting above. *)
Fixpoint tsize (t : tok) : nat :=
  match t with
  | TS s => length s
  | TList l => list_sum (map tsize l)
  | TVar n | TExpr n | TSlice n _ _ | TDyn n _ _ => S (tsize n)
  | TFunc f a | TFuncS f a _ _ => (length f + tsize a + 3)%nat
  end.
Definition sl_size (s : sliced) : nat :=
  match s with SlTok t => tsize t | SlList l => list_sum (map tsize l) end.

Definition call_func (f : finfo) (data : sliced) (w : loc) : M unit :=
  func_call (S (S (sl_size data))) f data w.

(* VarLoader().parse_assignment as called by the Set application *)
Definition assign (data : tok) (w : loc) : M unit :=
  parse_assignment call_func (SlTok data) w.

(* str.isdigit() *)
Definition sisdigit (s : str) : bool :=
  negb (str_eqb s []) && forallb (u_isdigit U) s.

(* int() on a str of digits with an optional sign.  The limit on the number
   of digits (Python 3.11, 4300 digits) is not modelled. *)
Fixpoint digits_val (acc : N) (s : str) : res N :=
  match s with
  | [] => Ok acc
  | c :: r => match u_decimal U c with
              | Some d => digits_val (acc * 10 + d) r
              | None => Exn ValueError
              end
  end.
Definition int_of (s : str) : res Z :=
  match s with
  | 45 :: r => let! n := digits_val 0 r in Ok (- Z.of_N n)%Z
  | _ => let! n := digits_val 0 s in Ok (Z.of_N n)
  end.

(* start.isdigit() or (start[0] == '-' and start[1:].isdigit()) *)
Definition int_like (s : str) : bool :=
  sisdigit s || match s with 45 :: r => sisdigit r | _ => false end.

(* split_variable_slice: varfun.py:380-430 *)
Definition sl_start (start : option tok) (len : option tok) (w : loc)
  : M (option (num tok) * option tok) :=
  match start with
  | None => mret (None, len)
  | Some (TS s) =>
    if int_like s then do* z <- mlift (int_of s); mret (Some (NI z), len)
    else do* _ <- memit E_VAR_SUBSTR_START w [(L "start", ANone)]; mret (None, None)
  | Some v => mret (Some (NV v), len)
  end.

Definition sl_length (start : option (num tok)) (len : option tok) (w : loc)
  : M (option (num tok) * option (num tok)) :=
  match len with
  | None => mret (start, None)
  | Some (TS s) =>
    if int_like s then
      do* l <- mlift (int_of s);
      do* bad <- (if (l =? 0)%Z then mret true
                  else match start with
                       | Some (NI st) => mret ((st <? 0)%Z && (- l <=? st)%Z)
                       | _ => mexn TypeError
                       end);
      if bad then do* _ <- memit E_VAR_SUBSTR_LENGTH w [(L "length", ANone)]; mret (start, None)
      else mret (start, Some (NI l))
    else do* _ <- memit E_VAR_SUBSTR_LENGTH w [(L "length", AStr s)]; mret (None, None)
  | Some v => mret (start, Some (NV v))
  end.

Definition split_slice (data : tok) (w : loc)
  : M (tok * option (num tok) * option (num tok)) :=
  do* parts <- mlift (vsplit 58 None data);
  do* x <- (match parts with
            | [v; s] => mret (v, Some s, None)
            | [v; s; l] => mret (v, Some s, Some l)
            | v :: _ => do* _ <- memit E_VAR_SUBSTR_ARGS w [(L "data", targ data)]; mret (v, None, None)
            | [] => mexn IndexError
            end);
  let '(v, s, l) := x in
  do* y <- sl_start s l w;
  do* z <- sl_length (fst y) (snd y) w;
  match fst z, snd z with
  | Some (NI 0%Z), None =>
    do* _ <- memit E_VAR_SUBSTR_START w [(L "start", ANone)]; mret (v, None, None)
  | st, ln => mret (v, st, ln)
  end.

(* Position of the first '(' and of the last ')' in a list of items. *)
Fixpoint cut_first (c : N) (l : list tok) : option (list tok * list tok) :=
  match l with
  | [] => None
  | x :: r => if tok_isc x c then Some ([], r)
              else match cut_first c r with
                   | Some (a, b) => Some (x :: a, b)
                   | None => None
                   end
  end.
Fixpoint cut_last (c : N) (l : list tok) : option (list tok * list tok) :=
  match l with
  | [] => None
  | x :: r => match cut_last c r with
              | Some (a, b) => Some (x :: a, b)
              | None => if tok_isc x c then Some ([], r) else None
              end
  end.

(* ReadFunc / ReadFuncSlice construction at the end of process_read_function *)
Definition read_result (f : str) (args : tok) (st ln : option (num tok)) : res tok :=
  match st with
  | Some s => mk_func_slice f args s ln
  | None => Ok (TFunc f args)
  end.

(* process_read_function: varfun.py:131-183 *)
Definition process_read (data : tok) (w : loc) : M tok :=
  match cut_first 40 (items data) with
  | None => mexn UnboundLocalError        (* not reached: only called with a '(' *)
  | Some (before, after) =>
    let func := slice_of data before in
    if negb (sl_truthy func) then mexn AssertionError
    else
      let join_items its := vjoin (sl_items (slice_of data its)) in
      do* at_ <- (match cut_last 41 after with
                  | Some (a, t) => mret (join_items a, join_items t)
                  | None => do* _ <- memit E_FUNC_PARENS w [(L "data", targ data)];
                            mret (join_items after, TS [])
                  end);
      let '(args, tail) := at_ in
      do* sl <- (if truthy tail then
                   do* x <- split_slice tail w;
                   let '(v, st, ln) := x in
                   if truthy v then do* _ <- memit E_FUNC_TAIL w [(L "data", targ data)]; mret (None, None)
                   else mret (st, ln)
                 else mret (None, None));
      match func with
      | SlTok (TS fname) =>
        do* f <- func_check fname w;
        do* _ <- call_func f (SlTok args) w;
        mlift (read_result fname args (fst sl) (snd sl))
      | SlTok v =>                        (* W_FUNC_DYNAMIC without data= *)
        do* _ <- memit W_FUNC_DYNAMIC w [(L "func", targ v)];
        mexn KeyError                     (* not reached: the format fails *)
      | SlList _ => mexn AttributeError   (* func.lower() *)
      end
  end.

(* _process_variable_slice: varfun.py:344-362 *)
Definition process_slice (data : tok) (w : loc) : M tok :=
  do* x <- split_slice data w;
  let '(v, st, ln) := x in
  do* _ <- (match v with TS s => count_var s w | _ => mret tt end);
  match st, ln with
  | None, _ => mret (TVar v)
  | Some (NI s), None => mlift (mk_slice v s None)
  | Some (NI s), Some (NI l) => mlift (mk_slice v s (Some l))
  | Some s, l => mret (TDyn v s l)
  end.

(* _process_variable: varfun.py:322-342 *)
Definition process_variable (data : tok) (w : loc) : M tok :=
  if tin 40 data then process_read data w
  else if tin 58 data then process_slice data w
  else do* _ <- (match data with TS s => count_var s w | _ => mret tt end);
       mret (TVar data).

(* The search for '$' followed by '{' or '[' in parse_variables,
   varfun.py:265-273, 297-298: the text before it, the bracket and the text
   after the bracket. *)
Definition is_open (c : N) : bool := (c =? 123) || (c =? 91).
Fixpoint scan (data : str) : option (str * N * str) :=
  match data with
  | [] => None
  | c :: r =>
    match (if c =? 36 then match r with x :: r' => if is_open x then Some ([], x, r') else None
                                      | [] => None end
           else None) with
    | Some y => Some y
    | None => match scan r with
              | Some (a, x, b) => Some (c :: a, x, b)
              | None => None
              end
    end
  end.

(* _find_brackets_end: varfun.py:302-320.  Returns the text up to the closing
   bracket, the text after it and more_substitutions.  At a final '$' the code
   tests '' in '{[', which is True, but then always raises. *)
Fixpoint find_end (ob cb : N) (depth : nat) (data : str) : option (str * str * bool) :=
  match data with
  | [] => None
  | c :: r =>
    if c =? 36 then
      match find_end ob cb depth r with
      | Some (a, b, m) =>
        Some (c :: a, b, m || match r with x :: _ => is_open x | [] => true end)
      | None => None
      end
    else
      let depth' := if c =? ob then S depth else if c =? cb then pred depth else depth in
      match depth' with
      | O => Some ([], r, false)
      | S _ => match find_end ob cb depth' r with
               | Some (a, b, m) => Some (c :: a, b, m)
               | None => None
               end
      end
  end.
Definition close_of (x : N) : N := if x =? 123 then 125 else 93.

(* parse_variables: varfun.py:254-300; [acc] is ret reversed.  The fuel bounds
   recursion and iteration; the length of the text plus one is enough. *)
Fixpoint parse_loop (fuel : nat) (acc : list tok) (data : str) (w : loc) : M tok :=
  match fuel with
  | O => ([], Hang)
  | S k =>
    match scan data with
    | None => mret (vjoin (rev (TS data :: acc)))
    | Some (pre, x, rest) =>
      match find_end x (close_of x) 1 rest with
      | None => mexn VarParseError
      | Some (inner, rest', more) =>
        do* d <- (if more then parse_loop k [] inner w else mret (TS inner));
        do* v <- (if x =? 123 then process_variable d w else mret (TExpr d));
        parse_loop k (v :: TS pre :: acc) rest' w
      end
    end
  end.

Definition parse_variables (data : str) (w : loc) : M tok :=
  parse_loop (S (length data)) [] data w.

End WithTable.
