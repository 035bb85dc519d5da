(* The builtin command ls and the search path of commands: asterisklint/main.py. *)
From Verif Require Import Base PyStr Regex Defines VarFun Commands.

(* main: main.py:158-163.  [home] is envs.get('HOME', '/dev/null'); [exists_] is
   os.path.exists, [paths] is sys.path. *)
Definition user_dir (home : str) : str := home ++ L "/.asterisklint".
Definition sys_paths (exists_ : str -> bool) (home : str) (paths : list str) : list str :=
  if exists_ (user_dir home) && negb (smem (user_dir home) paths) then user_dir home :: paths else paths.

(* list_command_dirs: main.py:49-53 *)
Definition commands_dir (path : str) : str := path_join (path_join path (L "asterisklint")) (L "commands").
Definition command_dirs (isdir : str -> bool) (paths : list str) : list str := filter isdir (map commands_dir paths).

(* What loading the module of a command yields (main.py:121-148): its docstring,
   NoSuchCommand because it has no main, or another exception. *)
Inductive loaded := LoDoc (doc : option str) | LoNoEntry | LoRaise.

(* directory, name, description *)
Notation entry := (str * str * str)%type (only parsing).

Section Ls.
Variable listdir : str -> option (list str).            (* None: OSError *)
Variable load : str -> str -> loaded.                   (* name, path *)

(* repr() of a command name: the only special character it may have is the line
   feed that $ allows (see command_re) *)
Definition repr_name (s : str) : str :=
  L "'" ++ flat_map (fun c => if c =? 10 then L "\n" else [c]) s ++ L "'".

(* main.py:71-81; None: not caught *)
Definition describe (name path : str) : option str :=
  match load name path with
  | LoDoc (Some d) => Some (strip_p isspace d)
  | LoDoc None => Some (L "(help text missing)")
  | LoNoEntry => Some (L "(error: Command " ++ repr_name name ++ L " has no entrypoint)")
  | LoRaise => None
  end.

(* the loop over the files of a directory: main.py:67-85 *)
Fixpoint ls_files (dir : str) (files used : list str) (acc : list entry) : option (list str * list entry) :=
  match files with
  | [] => Some (used, acc)
  | f :: r =>
    let name := firstn (length f - 3) f in              (* file_[0:-3] *)
    if endswith (L ".py") f && command_re name && negb (smem name used) then
      match describe name (path_join dir f) with
      | None => None
      | Some d => ls_files dir r (used ++ [name]) (acc ++ [(dir, name, d)])
      end
    else ls_files dir r used acc
  end.
(* main.py:61-85 *)
Fixpoint ls_dirs (dirs used : list str) (acc : list entry) : option (list entry) :=
  match dirs with
  | [] => Some acc
  | d :: r =>
    match listdir d with
    | None => ls_dirs r used acc
    | Some files =>
      match ls_files d files used acc with
      | None => None
      | Some (used', acc') => ls_dirs r used' acc'
      end
    end
  end.

(* commands.sort(): main.py:86; < on tuples *)
Definition entry_ltb (a b : entry) : bool :=
  let '(d1, n1, t1) := a in let '(d2, n2, t2) := b in
  if str_ltb d1 d2 then true else if str_ltb d2 d1 then false
  else if str_ltb n1 n2 then true else if str_ltb n2 n1 then false
  else str_ltb t1 t2.

(* main.py:88; '{name:21}' pads to 21 characters *)
Definition ls_line (name desc : str) : str := L "  " ++ name ++ repeat 32 (21 - length name) ++ L " " ++ desc.
(* main.py:92-97 *)
Fixpoint ls_print (last : option str) (es : list entry) : list str :=
  match es with
  | [] => []
  | (p, n, d) :: r =>
    match last with
    | Some q => if str_eqb q p then [] else [[]; p ++ L ":"]
    | None => [[]; p ++ L ":"]
    end ++ ls_line n (wrap d 24 80) :: ls_print (Some p) r
  end.
(* list_commands: main.py:56-99.  One string for every print. *)
Definition list_commands (dirs : list str) : option (list str) :=
  match ls_dirs dirs [] [] with
  | None => None
  | Some es =>
    Some (L "builtin:" :: ls_line (L "ls") (L "List available commands.")
            :: ls_print None (sort_by entry_ltb es)
            ++ [[]; L "Place custom commands in ~/.asterisklint/asterisklint/commands."])
  end.
End Ls.
