(* The output of dialplan-show and modules-show. *)
From Verif Require Import Base Defines FileRd Config VarFun AppM Dialplan Check Report.

Section Show.
Variable U : uni.
Variable FT : ftable.
Variable AT : atable.
Variable printable : N -> bool.     (* str.isprintable, beyond ASCII *)
Variable fuel : nat.
Variable fs : fsys.

(* dialplan-show.py:43-49.  All messages are muted, but they are formatted
   (defines.py:82-89), so that a message that cannot be formatted ends the
   command: that is in parse_dialplan.  No func_odbc.conf is read.  handle_args
   returns None, which is exit status 0. *)
Definition show_command (reverse : bool) (name : str) : res (str * N) :=
  let! d := snd (parse_dialplan U FT AT fuel fs name) in
  Ok (dialplan_show (pyrepr printable) reverse d ++ [10], 0).
(* modules-show.py:69-136: print ends every line *)
Definition modules_command (there : str -> bool) (arg : option str) (name : str) : res (str * N) :=
  let! p := modules_show U FT AT there fuel fs arg name in
  Ok (flat_map (fun l => l ++ [10]) (fst p), snd p).
End Show.
