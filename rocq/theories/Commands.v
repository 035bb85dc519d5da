(* The command line front end: asterisklint/main.py, cls.py, version.py and the
   command ident-scan. *)
From Verif Require Import Base PyStr Regex Defines VarFun.

(* ---- main.py ---- *)

(* str.split() without argument *)
Fixpoint words_from (cur s : str) : list str :=
  match s with
  | [] => match cur with [] => [] | _ => [cur] end
  | c :: r => if isspace c
              then match cur with [] => words_from [] r | _ => cur :: words_from [] r end
              else words_from (cur ++ [c]) r
  end.
Definition words (s : str) : list str := words_from [] s.

(* wrap: main.py:35-46.  [width] is maxlen after line 38; it may be negative, in
   which case it acts like 0. *)
Definition wrap_add (width : nat) (lines : list str) (word : str) : list str :=
  match last_opt lines with
  | None => [word]
  | Some l =>
    if Nat.leb width (length l + length word)
    then lines ++ [word]
    else removelast lines ++ [l ++ [32] ++ word]
  end.
Definition wrap_lines (text : str) (skip maxlen : nat) : list str :=
  fold_left (wrap_add (maxlen - (skip + 1))) (words text) [].
Definition wrap (text : str) (skip maxlen : nat) : str :=
  join ([10] ++ repeat 32 skip) (wrap_lines text skip maxlen).

(* COMMAND_RE: main.py:28 *)
Definition cmd_first (c : N) : bool := ((97 <=? c) && (c <=? 122)) || ((48 <=? c) && (c <=? 57)).
Definition cmd_rest (c : N) : bool := cmd_first c || (c =? 95) || (c =? 45).
Definition command_re (s : str) : bool :=
  match re_match [One cmd_first; Greedy cmd_rest] s with Some _ => true | None => false end.

(* load_command up to the file that is loaded: main.py:110-119; [dirs] are those
   of list_command_dirs *)
Inductive found := NoSuchCommand | NoDir | FoundAt (path : str).
Fixpoint first_file (isfile : str -> bool) (dirs : list str) (file : str) : option str :=
  match dirs with
  | [] => None
  | d :: r => let p := path_join d file in if isfile p then Some p else first_file isfile r file
  end.
Definition load_command (isfile : str -> bool) (dirs : list str) (command : str) : found :=
  if command_re command then
    match first_file isfile dirs (command ++ L ".py") with
    | Some p => FoundAt p
    | None => NoDir
    end
  else NoSuchCommand.

(* main: main.py:157-194.  What is run, with which arguments. *)
Inductive choice :=
| ChLs (args : list str)
| ChRun (path : str) (args : list str)
| ChStatus (n : N)                        (* printed error, exit status *)
| ChImportError                           (* not caught *)
| ChUsage.                                (* argparse: no command *)
Fixpoint remove_first (s : str) (l : list str) : list str :=
  match l with
  | [] => []
  | x :: r => if str_eqb s x then r else x :: remove_first s r
  end.
Definition main (isfile : str -> bool) (dirs args : list str) : choice :=
  match filter (fun a => negb (startswith (L "-") a)) args with
  | [] => ChUsage
  | command :: _ =>
    let args' := remove_first command args in
    if str_eqb command (L "ls") then ChLs args'
    else match load_command isfile dirs command with
         | NoSuchCommand => ChStatus 1
         | NoDir => ChImportError
         | FoundAt p => ChRun p args'
         end
  end.

(* ---- cls.py, version.py ---- *)

(* Singleton.__call__: cls.py:38-46.  [init] creates an instance or raises
   (None), [reinit] (if the class has one) checks the arguments or raises; no
   reinit of this program changes the instance. *)
Section Singleton.
Context {Arg Inst : Type}.
Variable init : str -> Arg -> option Inst.
Variable reinit : str -> option (Inst -> Arg -> bool).

Definition instances := list (str * Inst).
Definition single_call (st : instances) (cls : str) (a : Arg) : instances * option Inst :=
  match lookup cls st with
  | None => match init cls a with
            | Some i => (st ++ [(cls, i)], Some i)
            | None => (st, None)
            end
  | Some i => match reinit cls with
              | None => (st, Some i)
              | Some f => (st, if f i a then Some i else None)
              end
  end.
Fixpoint single_run (st : instances) (calls : list (str * Arg)) : instances * list (option Inst) :=
  match calls with
  | [] => (st, [])
  | (c, a) :: r =>
    let '(st1, x) := single_call st c a in
    let '(st2, xs) := single_run st1 r in (st2, x :: xs)
  end.
End Singleton.

(* AsteriskVersion: version.py:32-41; None and '' are false *)
Definition ver_default : str := L "v13".
Definition ver_init (v : option str) : str :=
  match v with None | Some [] => ver_default | Some s => s end.
Definition ver_reinit (cur : str) (v : option str) : bool :=
  match v with None | Some [] => true | Some s => str_eqb cur s end.
Definition ver_cls : str := L "AsteriskVersion".
(* AsteriskVersion among other classes without arguments or reinit; [other]
   tells whether creating one of them raises *)
Definition sys_init (other : str -> option str) (cls : str) (v : option str) : option str :=
  if str_eqb cls ver_cls then Some (ver_init v) else other cls.
Definition sys_reinit (cls : str) : option (str -> option str -> bool) :=
  if str_eqb cls ver_cls then Some ver_reinit else None.
Definition sys_run (other : str -> option str) := single_run (sys_init other) sys_reinit.

(* ---- ident-scan ---- *)

(* sorted(..., key=...): stable; [lt a b] compares the keys *)
Fixpoint sort_insert {A} (lt : A -> A -> bool) (x : A) (l : list A) : list A :=
  match l with
  | [] => [x]
  | y :: r => if lt y x then y :: sort_insert lt x r else x :: l
  end.
Fixpoint sort_by {A} (lt : A -> A -> bool) (l : list A) : list A :=
  match l with [] => [] | x :: r => sort_insert lt x (sort_by lt r) end.

(* < on str *)
Fixpoint str_ltb (a b : str) : bool :=
  match a, b with
  | _, [] => false
  | [], _ => true
  | x :: a', y :: b' => if x <? y then true else if y <? x then false else str_ltb a' b'
  end.

Section Scan.
Variable lower : str -> str.
Variables isupper islower : str -> bool.
Variable isdigit : str -> bool.                 (* str.isdigit *)
Variable dist : str -> str -> nat.              (* editdistance.eval *)

Definition lt_name (a b : str) : bool := str_ltb (lower a) (lower b).
Definition lt_len (a b : str) : bool :=
  if Nat.ltb (length a) (length b) then true
  else if Nat.ltb (length b) (length a) then false
  else str_ltb (lower a) (lower b).

(* ident-scan.py:121-135: whether two neighbours are similar *)
Definition is_similar (prev cur : str) : bool :=
  let d := dist (lower prev) (lower cur) in
  if Nat.eqb d 0 && ((isupper prev && islower cur) || (islower prev && isupper cur)) then false
  else if startswith (L "ARG") prev && startswith (L "ARG") cur && isdigit (skipn 3 prev) && isdigit (skipn 3 cur)
  then false
  else Nat.leb d 2 && Nat.ltb (d + 1) (length prev) && Nat.ltb (d + 1) (length cur).

(* similar: a dict of sets; the keys in order of insertion, the sets in any *)
Definition sim := list (str * list str).
Fixpoint sim_add (s : sim) (k v : str) : sim :=
  match s with
  | [] => [(k, [v])]
  | (k', vs) :: r => if str_eqb k k' then (k', if smem v vs then vs else vs ++ [v]) :: r else (k', vs) :: sim_add r k v
  end.
(* the inner loop, ident-scan.py:118-136; [prev] is '' at first: an empty
   identifier is like None *)
Fixpoint scan_list (s : sim) (prev : str) (l : list str) : sim :=
  match l with
  | [] => s
  | cur :: r =>
    let s' := match prev with
              | [] => s
              | _ => if is_similar prev cur then sim_add (sim_add s prev cur) cur prev else s
              end in
    scan_list s' cur r
  end.
(* print_distance: ident-scan.py:110-146; [ids] is the set in iteration order.
   The lines printed and the exit status. *)
Definition ljust32 (s : str) : str := s ++ repeat 32 (32 - length s).
Definition print_distance (ids : list str) : list str * N :=
  let s := scan_list (scan_list [] [] (sort_by lt_name ids)) [] (sort_by lt_len ids) in
  match s with
  | [] => ([], 0)
  | _ =>
    (L "Identifiers with similar names include:"
       :: map (fun kv => L "  " ++ ljust32 (fst kv) ++ L "  [similar to: " ++ join (L ", ") (sort_by str_ltb (snd kv)) ++ L "]")
            (sort_by (fun a b => lt_name (fst a) (fst b)) s)
       ++ [[]], 1)
  end.
End Scan.

(* Levenshtein distance, for examples *)
Fixpoint lev_row (a : N) (b : str) (diag : nat) (prev : list nat) (left : nat) : list nat :=
  match b, prev with
  | c :: b', up :: prev' =>
    let v := Nat.min (S (Nat.min up left)) (if a =? c then diag else S diag) in
    v :: lev_row a b' up prev' v
  | _, _ => []
  end.
Fixpoint lev_go (a b : str) (i : nat) (row : list nat) : list nat :=
  match a with
  | [] => row
  | c :: a' => lev_go a' b (S i) (lev_row c b i row (S i))
  end.
Definition levenshtein (a b : str) : nat :=
  match b with
  | [] => length a
  | _ => last (lev_go a b 0 (List.map S (List.seq 0 (length b)))) 0%nat
  end.
