(* Final theorems about the choice of a command and ls: C40, C52. *)
From Verif Require Import Base PyStr Regex Defines VarFun Commands CmdLs Spec_Commands Spec_CmdLs Commands_proofs CmdLs_proofs.
From Coq Require Import Permutation Sorted.

(* ---- C40 ---- *)
(* Everything main may choose, for all arguments, directories and files. *)
Theorem C40_main : forall isfile dirs args x, main isfile dirs args = x <-> Choice isfile dirs args x.
Proof.
  intros isfile dirs args x. split.
  - intros <-. apply main_choice.
  - intros H. exact (choice_fun _ _ _ _ (main_choice isfile dirs args) _ H).
Qed.
Print Assumptions C40_main.
Example C40_main_example : Choice (fun _ => true) [L "/c"] [L "-v"; L "ls"; L "x"] (ChLs [L "-v"; L "x"]) /\
  Choice (fun _ => true) [L "/c"] [L "-v"; L "a.b"; L "x"] (ChStatus 1) /\
  Choice (fun p => negb (str_eqb p (L "/c/run.py"))) [L "/c"; L "/d/"] [L "run"; L "-v"; L "run"] (ChRun (L "/d/run.py") [L "-v"; L "run"]) /\
  Choice (fun _ => true) [L "/c"] [L "-v"] ChUsage.
Proof. repeat split; apply C40_main; vm_compute; reflexivity. Qed.

(* ---- C52 ---- *)
(* ls shows every available command once, in the directory it is available from,
   with what its module tells, the directories and the names in order. *)
Theorem C52_page : forall listdir load dirs out, list_commands listdir load dirs = Some out -> exists groups,
  out = Page groups /\ Ordered groups /\
  (forall d c, (exists items t, In (d, items) groups /\ In (c, t) items) <-> Available listdir dirs d c) /\
  (forall d c t items, In (d, items) groups -> In (c, t) items -> About load d c t).
Proof. exact list_some. Qed.
Print Assumptions C52_page.
(* No page if and only if loading an available command raises something else. *)
Theorem C52_fails : forall listdir load dirs,
  list_commands listdir load dirs = None <-> exists d c, Available listdir dirs d c /\ Raises load d c.
Proof. exact list_none. Qed.
Print Assumptions C52_fails.
(* The order in which a directory lists its files does not matter. *)
Theorem C52_order : forall listdir listdir' load dirs,
  (forall d c, In d dirs -> CommandName c -> (Lists listdir d c <-> Lists listdir' d c)) ->
  list_commands listdir load dirs = list_commands listdir' load dirs.
Proof. exact list_same. Qed.
Print Assumptions C52_order.
(* What is listed is what is run, ls itself excepted. *)
Theorem C52_runs_partial : forall isfile listdir dirs c rest, c <> L "ls" -> CommandName c ->
  (forall d, In d dirs -> (isfile (file_in d c) = true <-> Lists listdir d c)) ->
  (forall d, Available listdir dirs d c -> main isfile dirs (c :: rest) = ChRun (file_in d c) rest) /\
  (forall p, main isfile dirs (c :: rest) = ChRun p rest -> exists d, Available listdir dirs d c /\ p = file_in d c).
Proof. exact runs_iff. Qed.
Print Assumptions C52_runs_partial.
(* A file ls.py is listed, and is never run. *)
Theorem C52_runs_refuted : ~ (forall isfile listdir dirs c rest, CommandName c ->
  (forall d, In d dirs -> (isfile (file_in d c) = true <-> Lists listdir d c)) ->
  forall d, Available listdir dirs d c -> main isfile dirs (c :: rest) = ChRun (file_in d c) rest).
Proof.
  intros H.
  assert (LI : Lists (fun _ => Some [L "ls.py"]) (L "/c") (L "ls")) by (exists [L "ls.py"]; split; [reflexivity|now left]).
  specialize (H (fun _ => true) (fun _ => Some [L "ls.py"]) [L "/c"] (L "ls") [] ls_name).
  specialize (H (fun d HD => conj (fun _ => match HD with or_introl E => eq_rect _ (fun d => Lists _ d _) LI _ E | or_intror F => match F with end end) (fun _ => eq_refl)) (L "/c")).
  discriminate H. split; [exact ls_name|]. exists [], []. now repeat split.
Qed.
Print Assumptions C52_runs_refuted.

(* The directory of the user comes first, if it exists and is not in the path
   already; directories that do not exist are skipped. *)
Theorem C52_user : forall exists_ isdir home paths,
  exists_ (home ++ L "/.asterisklint") = true -> ~ In (home ++ L "/.asterisklint") paths ->
  isdir (home ++ L "/.asterisklint/asterisklint/commands") = true ->
  exists rest, command_dirs isdir (sys_paths exists_ home paths) = (home ++ L "/.asterisklint/asterisklint/commands") :: rest /\
    rest = command_dirs isdir paths.
Proof.
  intros exists_ isdir home paths E NI D. unfold sys_paths, user_dir. rewrite E.
  assert (smem (home ++ L "/.asterisklint") paths = false) as ->.
  { destruct (smem _ paths) eqn:X; [|easy]. now apply smem_In in X. }
  cbn [andb negb]. exists (command_dirs isdir paths). split; [|easy]. unfold command_dirs. cbn [map filter].
  assert (commands_dir (home ++ L "/.asterisklint") = home ++ L "/.asterisklint/asterisklint/commands") as EC.
  { unfold commands_dir, path_join. change (startswith (L "/") (L "asterisklint")) with false.
    change (startswith (L "/") (L "commands")) with false. cbn iota.
    change (L "/.asterisklint") with (L "/.asterisklin" ++ [116]). rewrite app_assoc, last_opt_snoc.
    change (is_slash 116) with false. cbn iota.
    change (L "/" ++ L "asterisklint") with (L "/asterisklin" ++ [116]). rewrite !app_assoc, last_opt_snoc.
    change (is_slash 116) with false. cbn iota. now rewrite <- !app_assoc. }
  now rewrite EC, D.
Qed.
Print Assumptions C52_user.

(* two directories, a command in both, one that is not loaded, other files *)
Definition ex_list (d : str) : option (list str) :=
  if str_eqb d (L "/u/") then Some [L "show.py"; L "README"; L "__init__.py"; L "check.py"]
  else if str_eqb d (L "/c") then Some [L "show.py"; L "broken.py"; L "a.b.py"; L "all.py"] else None.
Definition ex_load (c p : str) : loaded :=
  if str_eqb c (L "broken") then LoNoEntry
  else if str_eqb p (L "/c/all.py") then LoDoc None
  else LoDoc (Some ([10] ++ p ++ L ": does  it." ++ [10])).
Example C52_example : list_commands ex_list ex_load [L "/x"; L "/u/"; L "/c"] = Some
  [L "builtin:"; L "  ls                    List available commands.";
   []; L "/c:"; L "  all                   (help text missing)";
   L "  broken                (error: Command 'broken' has no entrypoint)";
   []; L "/u/:"; L "  check                 /u/check.py: does it.";
   L "  show                  /u/show.py: does it.";
   []; L "Place custom commands in ~/.asterisklint/asterisklint/commands."].
Proof. vm_compute. reflexivity. Qed.
Example C52_raises : list_commands ex_list (fun c p => if str_eqb c (L "show") then LoRaise else ex_load c p) [L "/u/"; L "/c"] = None.
Proof. vm_compute. reflexivity. Qed.
Example C52_run_example : main (fun p => str_eqb p (L "/u/show.py") || str_eqb p (L "/c/show.py")) [L "/u/"; L "/c"] [L "show"; L "x"] =
  ChRun (L "/u/show.py") [L "x"].
Proof. vm_compute. reflexivity. Qed.
