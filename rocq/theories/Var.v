(* Variables: asterisklint/variable.py, expression.py, function.py.

   Text handled by the application layer is "a str or a Var".  [tok] is that
   union.  All classes deriving from Var are constructors:

     TS      str
     TList   Var with name None and a private _list     variable.py:64-67
     TVar    Var(name)                                  variable.py:69-70
     TExpr   Expr(name)                                 expression.py:19-30
     TSlice  VarSlice(name, start, length), ints        variable.py:279-282
     TDyn    VarDynSlice(name, start, length)           variable.py:285-290
     TFunc   ReadFunc(func, args)                       function.py:19-39
     TFuncS  ReadFuncSlice(func, args, start, length)   function.py:42-43

   A name is itself a str or a Var.  start/length of the dynamic classes are
   ints or Vars.  The func of a ReadFunc is always a str: for a Var the caller
   raises before constructing it (varfun.py:171, KeyError), for a list the
   lookup raises (varfun.py:206). *)
From Verif Require Import Base PyStr.

Inductive num (T : Type) := NI (z : Z) | NV (v : T).
Arguments NI {T} z.
Arguments NV {T} v.

Inductive tok :=
| TS (s : str)
| TList (l : list tok)
| TVar (n : tok)
| TExpr (n : tok)
| TSlice (n : tok) (start : Z) (len : option Z)
| TDyn (n : tok) (start : num tok) (len : option (num tok))
| TFunc (f : str) (args : tok)
| TFuncS (f : str) (args : tok) (start : num tok) (len : option (num tok)).

Definition is_str (t : tok) : bool := match t with TS _ => true | _ => false end.
Definition is_var (t : tok) : bool := negb (is_str t).

(* t == "literal": variable.py:155-157 makes a Var differ from any str *)
Definition tok_is (t : tok) (s : str) : bool :=
  match t with TS x => str_eqb x s | _ => false end.
Definition tok_isc (t : tok) (c : N) : bool := tok_is t [c].

(* iter(): str iterates over its characters, Var as _get_cached_iter,
   variable.py:108-114, 143-153.  Characters are one-character strs. *)
Definition chars (s : str) : list tok := map (fun c => TS [c]) s.

Fixpoint items (t : tok) : list tok :=
  match t with
  | TS s => chars s
  | TList l => flat_map items l
  | _ => [t]
  end.

(* len(), variable.py:140-141, and truth value: bool() of a Var uses len. *)
Definition tlen (t : tok) : nat := length (items t).
Definition truthy (t : tok) : bool := negb (Nat.eqb (tlen t) 0).

(* '<c>' in t, for a one-character needle: on a Var [in] falls back to iter
   and ==, which is False for Var items. *)
Definition tin (c : N) (t : tok) : bool := existsb (fun i => tok_isc i c) (items t).

(* Var.join: variable.py:40-67.  [push] is the body of the loop, on the
   reversed copy. *)
Definition push (copy : list tok) (v : tok) : list tok :=
  if negb (truthy v) then copy
  else match v, copy with
       | TS x, TS y :: r => TS (y ++ x) :: r
       | _, _ => v :: copy
       end.

Definition vjoin (l : list tok) : tok :=
  match rev (fold_left push l []) with
  | [] => TS []
  | [t] => t
  | l' => TList l'
  end.

(* strjoin: variable.py:300-316; [cache] is the joined cache, None if empty. *)
Fixpoint strjoin_from (cache : option str) (l : list tok) : list tok :=
  match l with
  | [] => match cache with Some s => [TS s] | None => [] end
  | TS x :: r =>
    strjoin_from (Some (match cache with Some s => s ++ x | None => x end)) r
  | v :: r =>
    match cache with Some s => TS s :: v :: strjoin_from None r
                   | None => v :: strjoin_from None r end
  end.
Definition strjoin (l : list tok) : list tok := strjoin_from None l.

(* A slice of a str or Var.  On a Var the result is the joined list, unless
   that has exactly one element: variable.py:116-138. *)
Inductive sliced := SlTok (t : tok) | SlList (l : list tok).

Definition slice_of (t : tok) (its : list tok) : sliced :=
  match t with
  | TS _ => SlTok (TS (flat_map (fun i => match i with TS s => s | _ => [] end) its))
  | _ => match strjoin its with
         | [x] => SlTok x
         | l => SlList l
         end
  end.

(* Iterating over such a slice. *)
Definition sl_items (s : sliced) : list tok :=
  match s with SlTok t => items t | SlList l => l end.

(* Decimal text of ints, as produced by str.format. *)
Fixpoint digits_fuel (fuel : nat) (n : N) (acc : str) : str :=
  match fuel with
  | O => acc
  | S k => let acc' := 48 + n mod 10 :: acc in
           if n / 10 =? 0 then acc' else digits_fuel k (n / 10) acc'
  end.
Definition nstr (n : N) : str := digits_fuel (S (N.to_nat (N.log2 n))) n [].
Definition zstr (z : Z) : str :=
  match z with
  | Z0 => [48]
  | Zpos p => nstr (Npos p)
  | Zneg p => 45 :: nstr (Npos p)
  end.

(* '${' + name + ':' + start [+ ':' + length] + '}': variable.py:271-276,
   292-297.  The length is never 0 (asserted, or a Var of nonzero len). *)
Definition slice_text (name start : str) (len : option str) : str :=
  L "${" ++ name ++ L ":" ++ start ++
  match len with Some l => L ":" ++ l | None => [] end ++ L "}".

(* str(): variable.py:170-173, 271-276, 292-297, expression.py:32-35.  A
   falsy name (the empty str) makes Var and Expr use the missing _list.  The
   name of a ReadFunc is Var.join([func, '(', args, ')']), function.py:31-36;
   its text is the concatenation of the parts' texts. *)
Fixpoint str_of (t : tok) : res str :=
  let num_text x := match x with NI z => Ok (zstr z) | NV v => str_of v end in
  let len_text x := match x with
                    | None => Ok None
                    | Some y => let! s := num_text y in Ok (Some s)
                    end in
  match t with
  | TS s => Ok s
  | TList l => (fix go l := match l with
                            | [] => Ok []
                            | x :: r => let! a := str_of x in let! b := go r in Ok (a ++ b)
                            end) l
  | TVar n => if truthy n then let! s := str_of n in Ok (L "${" ++ s ++ L "}")
              else Exn AttributeError
  | TExpr n => if truthy n then let! s := str_of n in Ok (L "$[" ++ s ++ L "]")
               else Exn AttributeError
  | TSlice n st ln =>
    let! s := str_of n in
    Ok (slice_text s (zstr st) (option_map zstr ln))
  | TDyn n st ln =>
    let! s := str_of n in
    let! a := num_text st in
    let! b := len_text ln in
    Ok (slice_text s a b)
  | TFunc f args =>
    let! s := str_of args in
    Ok (L "${" ++ (f ++ L "(" ++ s ++ L ")") ++ L "}")
  | TFuncS f args st ln =>
    let! s := str_of args in
    let! a := num_text st in
    let! b := len_text ln in
    Ok (slice_text (f ++ L "(" ++ s ++ L ")") a b)
  end.

(* Var.name; None for a list Var and meaningless for a str. *)
Definition name_of (t : tok) : option tok :=
  match t with
  | TS _ | TList _ => None
  | TVar n | TExpr n | TSlice n _ _ | TDyn n _ _ => Some n
  | TFunc f args | TFuncS f args _ _ => Some (vjoin [TS f; TS (L "("); args; TS (L ")")])
  end.

(* str.split(c, maxsplit); [None] is maxsplit -1 *)
Fixpoint ssplit (c : N) (max : option nat) (s : str) : list str :=
  match s with
  | [] => [[]]
  | x :: r =>
    if (x =? c) && (match max with Some O => false | _ => true end)
    then [] :: ssplit c (option_map pred max) r
    else match ssplit c max r with
         | [] => [[x]]
         | h :: t => (x :: h) :: t
         end
  end.

(* Var._split: variable.py:191-226.  [cur] is split_up[-1] reversed, [done]
   the number of splits made; the groups come out in order. *)
Definition close_group (cur : list tok) : tok :=
  match rev cur with
  | [] => TS []
  | [t] => t
  | l => vjoin l
  end.

Definition opt_cons (s : str) (cur : list tok) : list tok :=
  match s with [] => cur | _ => TS s :: cur end.

Fixpoint add_parts (cur : list tok) (parts : list str) : list tok * list tok :=
  (* lines 207-215: closed groups and the group left open *)
  match parts with
  | [] => ([], cur)
  | [p] => ([], opt_cons p cur)
  | p :: r => let '(gs, cur') := add_parts [] r in
              (close_group (opt_cons p cur) :: gs, cur')
  end.

Fixpoint split_items (c : N) (max : option nat) (done : nat) (cur : list tok)
    (source : list tok) : list tok :=
  match source with
  | [] => [close_group cur]
  | TS s :: r =>
    if negb (memb c s) || match max with Some m => Nat.eqb m done | None => false end
    then split_items c max done (TS s :: cur) r
    else let parts := ssplit c (option_map (fun m => m - done)%nat max) s in
         let '(gs, cur') := add_parts cur parts in
         gs ++ split_items c max (done + (length parts - 1)) cur' r
  | v :: r => split_items c max done (v :: cur) r
  end.

(* str.split / Var.split: variable.py:175-189.  A named Var is split by its
   name; a falsy name raises.  The assertion on (token, maxsplit) holds for
   every caller. *)
Definition vsplit (c : N) (max : option nat) (t : tok) : res (list tok) :=
  match t with
  | TS s => Ok (map TS (ssplit c max s))
  | TList l => Ok (split_items c max 0 [] l)
  | v => match name_of v with
         | Some n => if truthy n then Ok (split_items c max 0 [] [n])
                     else Exn AttributeError
         | None => Exn AttributeError
         end
  end.

(* str.strip() / Var.strip: variable.py:228-246 *)
Definition blank (t : tok) : bool :=
  match t with TS s => str_eqb (strip_p isspace s) [] | _ => false end.

Definition strip_last (l : list tok) : list tok :=
  match last_opt l with
  | Some x => if blank x then removelast l else l
  | None => l
  end.

Definition vstrip (t : tok) : res tok :=
  match t with
  | TS s => Ok (TS (strip_p isspace s))
  | TList [] => Exn IndexError
  | TList ((x :: r) as l) =>
    let l' := strip_last (if blank x then r else l) in
    if Nat.eqb (length l') (length l) then Ok t
    else match l' with [y] => Ok y | _ => Ok (TList l') end
  | v => match name_of v with
         | Some n => if truthy n then Ok v else Exn AttributeError
         | None => Exn AttributeError
         end
  end.

(* Var.could_match: variable.py:72-89.  The regular expression is the escaped
   characters with '.*' for variables; '.' does not match a line feed and '$'
   also matches before a final line feed.  [value] is str(value). *)
Fixpoint glob_match (p : list tok) (s : str) : bool :=
  match p with
  | [] => str_eqb s [] || str_eqb s [10]
  | TS x :: r => startswith x s && glob_match r (skipn (length x) s)
  | _ :: r =>
    (fix star (s : str) : bool :=
       glob_match r s ||
       match s with
       | [] => false
       | c :: s' => negb (c =? 10) && star s'
       end) s
  end.

Definition could_match (v : tok) (value : str) : bool :=
  match name_of v with
  | Some n => if truthy n then true else glob_match (items v) value
  | None => glob_match (items v) value
  end.

(* Python sequence slicing s[a:b]. *)
Definition clamp (n i : Z) : Z :=
  if (i <? 0)%Z then Z.max 0 (i + n) else Z.min i n.
Definition pyslice {A} (s : list A) (a : Z) (b : option Z) : list A :=
  let n := Z.of_nat (length s) in
  let lo := clamp n a in
  let hi := match b with Some x => clamp n x | None => n end in
  firstn (Z.to_nat (hi - lo)) (skipn (Z.to_nat lo) s).

(* SliceMixin.__init__, variable.py:250-263: the checks made for integer
   offset and length, and _endpos. *)
Definition slice_endpos (start len : Z) : res Z :=
  if (len =? 0)%Z then Exn AssertionError
  else if (len <? 0)%Z then Ok len
  else if (start <? 0)%Z then
    (if (start + len <? 0)%Z then Ok (start + len)%Z else Exn AssertionError)
  else Ok (start + len)%Z.

(* Constructing a VarSlice: variable.py:279-282 *)
Definition mk_slice (n : tok) (start : Z) (len : option Z) : res tok :=
  match len with
  | None => Ok (TSlice n start None)
  | Some l => let! _ := slice_endpos start l in Ok (TSlice n start (Some l))
  end.

(* Constructing a ReadFuncSlice: a Var start compared with 0 raises TypeError *)
Definition mk_func_slice (f : str) (args : tok) (start : num tok) (len : option (num tok))
  : res tok :=
  match len with
  | Some (NI l) =>
    match start with
    | NI s => let! _ := slice_endpos s l in Ok (TFuncS f args start len)
    | NV _ => if (l =? 0)%Z then Exn AssertionError
              else if (l <? 0)%Z then Ok (TFuncS f args start len) else Exn TypeError
    end
  | _ => Ok (TFuncS f args start len)
  end.

(* format( **kwargs): variable.py:91-106, 265-269.  [env] is kwargs; a missing
   name raises KeyError.  VarDynSlice inherits Var.format and so ignores its
   slice. *)
Definition kwargs := str -> option str.

Fixpoint tformat (env : kwargs) (t : tok) : res str :=
  let by_name n :=
    let! k := tformat env n in
    match env k with Some v => Ok v | None => Exn KeyError end in
  match t with
  | TS s => Ok s
  | TList l => (fix go l := match l with
                            | [] => Ok []
                            | x :: r => let! a := tformat env x in let! b := go r in Ok (a ++ b)
                            end) l
  | TVar n | TExpr n | TDyn n _ _ => by_name n
  | TSlice n st ln =>
    let! v := by_name n in
    match ln with
    | None => Ok (pyslice v st None)
    | Some l => let! e := slice_endpos st l in Ok (pyslice v st (Some e))
    end
  | TFunc f args =>
    let! a := tformat env args in
    match env (f ++ L "(" ++ a ++ L ")") with Some v => Ok v | None => Exn KeyError end
  | TFuncS f args st ln =>
    let! a := tformat env args in
    let! v := match env (f ++ L "(" ++ a ++ L ")") with Some v => Ok v | None => Exn KeyError end in
    match ln, st with
    | None, NI z => Ok (pyslice v z None)
    | Some (NI l), NI z => let! e := slice_endpos z l in Ok (pyslice v z (Some e))
    | Some (NV _), _ => Exn AttributeError     (* no _endpos *)
    | _, NV _ => Exn TypeError
    end
  end.

(* variable_check_balance: variable.py:319-374, on the list of things iterated
   over.  [arr] is the stack without the 'X' at the bottom; [char in '({[']
   is a substring test, as the elements of a sliced Var may be longer strs. *)
Fixpoint is_infix (p s : str) : bool :=
  startswith p s || match s with [] => false | _ :: r => is_infix p r end.
Fixpoint find_sub (p s : str) : nat :=
  if startswith p s then O else match s with [] => O | _ :: r => S (find_sub p r) end.

Definition top (arr : list str) : str := match arr with [] => L "X" | x :: _ => x end.
Definition dq : str := [34].
Definition sq : str := [39].

Definition balance_step (arr : list str) (ch : tok) : res (list str) :=
  match ch with
  | TS s =>
    if str_eqb s dq then
      (if str_eqb (top arr) dq then Ok (tl arr)
       else if str_eqb (top arr) sq then Ok arr else Ok (dq :: arr))
    else if str_eqb s sq then
      (if str_eqb (top arr) sq then Ok (tl arr)
       else if str_eqb (top arr) dq then Ok arr else Ok (sq :: arr))
    else if is_infix s (L "({[") then
      (if is_infix (top arr) (sq ++ dq) then Ok arr else Ok (s :: arr))
    else if is_infix s (L ")}]") then
      (if is_infix (top arr) (sq ++ dq) then Ok arr
       else if str_eqb (top arr) (firstn 1 (skipn (find_sub s (L ")}]")) (L "({[")))
       then Ok (tl arr) else Exn ValueError)
    else Ok arr
  | _ => Ok arr
  end.

Fixpoint balance_from (arr : list str) (l : list tok) : res unit :=
  match l with
  | [] => match arr with [] => Ok tt | _ => Exn ValueError end
  | ch :: r => let! arr' := balance_step arr ch in balance_from arr' r
  end.

Definition check_balance (l : list tok) : res unit := balance_from [] l.
