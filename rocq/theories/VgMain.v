(* Starting a command: load_command of asterisklint/main.py with its exceptions,
   main, and Main of contrib/commands/vg.py. *)
From Verif Require Import Base PyStr Defines VarFun Commands Report.

(* What executing the file of a command gives (main.py:135-144, the branch for
   Python 3.5 and later): a module with main, one without, ImportError with a text,
   or another exception. *)
Inductive module_ := MoMain | MoNoEntry | MoImport (text : str) | MoRaise.
(* The result of load_command: the file, NoSuchCommand or ImportError with their
   texts, or another exception. *)
Inductive fetched := FeFile (path : str) | FeNoSuch (text : str) | FeImport (text : str) | FeRaise.
(* How a command starts: its main is called with arguments; or a line on stderr and
   an exit status; or an exception that is not caught. *)
Inductive start := StRun (path : str) (args : list str) | StStatus (line : str) (n : N) | StUncaught (f : fetched).

Section Start.
Variable printable : N -> bool.                         (* str.isprintable, beyond ASCII *)
Variable isfile : str -> bool.
Variable exec : str -> str -> module_.                  (* name, path *)
Variable dirs : list str.                               (* of list_command_dirs *)

(* load_command: main.py:103-146 *)
Definition fetch (command : str) : fetched :=
  match load_command isfile dirs command with
  | NoSuchCommand => FeNoSuch (L "Invalid tokens in command " ++ pyrepr printable command)
  | NoDir => FeImport (L "No dir found for command " ++ pyrepr printable command)
  | FoundAt p =>
    match exec command p with
    | MoMain => FeFile p
    | MoNoEntry => FeNoSuch (L "Command " ++ pyrepr printable command ++ L " has no entrypoint")
    | MoImport t => FeImport t
    | MoRaise => FeRaise
    end
  end.

(* main for a command other than ls: main.py:167-178 *)
Definition main_start (command : str) (args : list str) : start :=
  match fetch command with
  | FeFile p => StRun p args
  | FeNoSuch t => StStatus t 1
  | f => StUncaught f
  end.

(* handle_args of vg: vg.py:220-228.  NoSuchCommand is a ValueError: not caught. *)
Definition vg_start (command : str) (args : list str) : start :=
  match fetch command with
  | FeFile p => StRun p args
  | FeImport t => StStatus (L "Cannot load command " ++ pyrepr printable command ++ L ": " ++ t) 1
  | f => StUncaught f
  end.
End Start.
