(* Declarative side of C72: what becomes of the name of a command. *)
From Verif Require Import Base PyStr Defines VarFun Commands VgMain Spec_Commands Spec_CmdLs Spec_Report.

(* The file of a command: in the first directory that has it. *)
Definition FirstFile (isfile : str -> bool) (dirs : list str) (c path : str) : Prop :=
  exists before d after, dirs = before ++ d :: after /\ path = file_in d c /\ isfile path = true /\
    forall d', In d' before -> isfile (file_in d' c) = false.
Inductive Fetches (printable : N -> bool) (isfile : str -> bool) (exec : str -> str -> module_) (dirs : list str) (c : str) : fetched -> Prop :=
| Ft_bad q : ~ CommandName c -> Quoted printable c q -> Fetches printable isfile exec dirs c (FeNoSuch (L "Invalid tokens in command " ++ q))
| Ft_lost q : CommandName c -> (forall d, In d dirs -> isfile (file_in d c) = false) -> Quoted printable c q ->
    Fetches printable isfile exec dirs c (FeImport (L "No dir found for command " ++ q))
| Ft_file p : CommandName c -> FirstFile isfile dirs c p -> exec c p = MoMain -> Fetches printable isfile exec dirs c (FeFile p)
| Ft_none p q : CommandName c -> FirstFile isfile dirs c p -> exec c p = MoNoEntry -> Quoted printable c q ->
    Fetches printable isfile exec dirs c (FeNoSuch (L "Command " ++ q ++ L " has no entrypoint"))
| Ft_import p t : CommandName c -> FirstFile isfile dirs c p -> exec c p = MoImport t -> Fetches printable isfile exec dirs c (FeImport t)
| Ft_raise p : CommandName c -> FirstFile isfile dirs c p -> exec c p = MoRaise -> Fetches printable isfile exec dirs c FeRaise.

Section Starts.
Variable printable : N -> bool.
Variable isfile : str -> bool.
Variable exec : str -> str -> module_.
Variable dirs : list str.
Notation Fetches := (Fetches printable isfile exec dirs).
Inductive MainStarts (c : str) (args : list str) : start -> Prop :=
| Ms_run p : Fetches c (FeFile p) -> MainStarts c args (StRun p args)
| Ms_says t : Fetches c (FeNoSuch t) -> MainStarts c args (StStatus t 1)
| Ms_import t : Fetches c (FeImport t) -> MainStarts c args (StUncaught (FeImport t))
| Ms_raise : Fetches c FeRaise -> MainStarts c args (StUncaught FeRaise).
Inductive VgStarts (c : str) (args : list str) : start -> Prop :=
| Gs_run p : Fetches c (FeFile p) -> VgStarts c args (StRun p args)
| Gs_says t q : Fetches c (FeImport t) -> Quoted printable c q -> VgStarts c args (StStatus (L "Cannot load command " ++ q ++ L ": " ++ t) 1)
| Gs_nosuch t : Fetches c (FeNoSuch t) -> VgStarts c args (StUncaught (FeNoSuch t))
| Gs_raise : Fetches c FeRaise -> VgStarts c args (StUncaught FeRaise).
End Starts.
