(* Independent specification of ls and of the choice of a command (C40, C52). *)
From Verif Require Import Base PyStr Commands CmdLs Spec_Commands.
From Coq Require Import Sorted.

(* ---- what is run ---- *)
Definition Option_ (a : str) : Prop := exists r, a = 45 :: r.
(* the file of a command in a directory *)
Definition file_in (d c : str) : str := path_join d (c ++ L ".py").
Inductive Choice (isfile : str -> bool) (dirs args : list str) : choice -> Prop :=
| Ch_none : (forall a, In a args -> Option_ a) -> Choice isfile dirs args ChUsage
| Ch_ls a b : args = a ++ L "ls" :: b -> (forall x, In x a -> Option_ x) -> Choice isfile dirs args (ChLs (a ++ b))
| Ch_bad a c b : args = a ++ c :: b -> (forall x, In x a -> Option_ x) -> ~ Option_ c -> ~ CommandName c ->
    Choice isfile dirs args (ChStatus 1)
| Ch_lost a c b : args = a ++ c :: b -> (forall x, In x a -> Option_ x) -> c <> L "ls" -> CommandName c ->
    (forall d, In d dirs -> isfile (file_in d c) = false) -> Choice isfile dirs args ChImportError
| Ch_run a c b before d after : args = a ++ c :: b -> (forall x, In x a -> Option_ x) -> c <> L "ls" -> CommandName c ->
    dirs = before ++ d :: after -> (forall x, In x before -> isfile (file_in x c) = false) -> isfile (file_in d c) = true ->
    Choice isfile dirs args (ChRun (file_in d c) (a ++ b)).

(* ---- what is listed ---- *)
(* A command is available in the first directory that lists its file. *)
Definition Lists (listdir : str -> option (list str)) (d c : str) : Prop :=
  exists files, listdir d = Some files /\ In (c ++ L ".py") files.
Definition Available (listdir : str -> option (list str)) (dirs : list str) (d c : str) : Prop :=
  CommandName c /\ exists before after, dirs = before ++ d :: after /\ Lists listdir d c /\
    forall x, In x before -> ~ Lists listdir x c.

(* A name in quotes; a line feed at its end is shown as \n. *)
Inductive Quoted (c : str) : str -> Prop :=
| Qu_plain : ~ In 10 c -> Quoted c (L "'" ++ c ++ L "'")
| Qu_lf a : c = a ++ [10] -> ~ In 10 a -> Quoted c (L "'" ++ a ++ L "\n'").
(* What is told about it: the words of the docstring, in lines. *)
Inductive About (load : str -> str -> loaded) (d c : str) : str -> Prop :=
| Ab_doc doc t : load c (file_in d c) = LoDoc (Some doc) -> (forall ws, Words t ws <-> Words doc ws) -> About load d c t
| Ab_nodoc : load c (file_in d c) = LoDoc None -> About load d c (L "(help text missing)")
| Ab_noentry q : load c (file_in d c) = LoNoEntry -> Quoted c q ->
    About load d c (L "(error: Command " ++ q ++ L " has no entrypoint)").
Definition Raises (load : str -> str -> loaded) (d c : str) : Prop := load c (file_in d c) = LoRaise.

(* Blocks by directory, in order; names in order within them. *)
Definition StrLt (a b : str) : Prop := StrLe a b /\ a <> b.
Definition column (c : str) (text : str) : str :=
  L "  " ++ c ++ repeat 32 (21 - length c) ++ L " " ++ text.
Definition block (g : str * list (str * str)) : list str :=
  [[]; fst g ++ L ":"] ++ map (fun x => column (fst x) (wrap (snd x) 24 80)) (snd g).
Definition Page (groups : list (str * list (str * str))) : list str :=
  [L "builtin:"; L "  ls                    List available commands."]
  ++ flat_map block groups
  ++ [[]; L "Place custom commands in ~/.asterisklint/asterisklint/commands."].
Definition Ordered (groups : list (str * list (str * str))) : Prop :=
  StronglySorted StrLt (map fst groups) /\
  forall g, In g groups -> snd g <> [] /\ StronglySorted StrLt (map fst (snd g)).
