(* C72: what becomes of the name of a command, for asterisklint and for vg. *)
From Verif Require Import Base PyStr Defines VarFun Commands VgMain Report Spec_Commands Spec_CmdLs Spec_Report Spec_VgMain VgMain_proofs.

(* What load_command gives, with the words of its exceptions. *)
Theorem C72_load : forall printable isfile exec dirs c x,
  Fetches printable isfile exec dirs c x <-> fetch printable isfile exec dirs c = x.
Proof. exact fetch_iff. Qed.
Print Assumptions C72_load.
Theorem C72_main : forall printable isfile exec dirs c args x,
  MainStarts printable isfile exec dirs c args x <-> main_start printable isfile exec dirs c args = x.
Proof. exact main_start_iff. Qed.
Print Assumptions C72_main.
Theorem C72_vg : forall printable isfile exec dirs c args x,
  VgStarts printable isfile exec dirs c args x <-> vg_start printable isfile exec dirs c args = x.
Proof. exact vg_start_iff. Qed.
Print Assumptions C72_vg.
(* What asterisklint runs for a name is what vg runs for it. *)
Theorem C72_run : forall printable isfile exec dirs c args p,
  vg_start printable isfile exec dirs c args = StRun p args <-> main_start printable isfile exec dirs c args = StRun p args.
Proof. exact starts_run. Qed.
Print Assumptions C72_run.
Theorem C72_run_main : forall printable isfile exec dirs c args p, c <> L "ls" ->
  vg_start printable isfile exec dirs c args = StRun p args -> main isfile dirs (c :: args) = ChRun p args.
Proof. exact starts_main. Qed.
Print Assumptions C72_run_main.
(* The expected: what cannot be loaded is reported with a line and status 1, by
   both.  A name with a slash is not. *)
Theorem C72_reported_refuted : ~ forall printable isfile exec dirs c args,
  (forall p, ~ Fetches printable isfile exec dirs c (FeFile p)) -> ~ Fetches printable isfile exec dirs c FeRaise ->
  (exists line, main_start printable isfile exec dirs c args = StStatus line 1) /\ (exists line, vg_start printable isfile exec dirs c args = StStatus line 1).
Proof.
  intros H. destruct (H (fun _ => true) (fun _ => true) (fun _ _ => MoMain) [L "/c"] (L "a/b") []) as [_ [line E]]; [| |vm_compute in E; discriminate E].
  - intros p X. apply C72_load in X. vm_compute in X. discriminate X.
  - intros X. apply C72_load in X. vm_compute in X. discriminate X.
Qed.
Print Assumptions C72_reported_refuted.
(* Whatever the reason, one of the two reports and the other ends in an exception. *)
Theorem C72_one_reports : forall printable isfile exec dirs c args args',
  (exists p, Fetches printable isfile exec dirs c (FeFile p)) \/ Fetches printable isfile exec dirs c FeRaise \/
  (exists line, main_start printable isfile exec dirs c args = StStatus line 1) /\ (exists f, vg_start printable isfile exec dirs c args' = StUncaught f) \/
  (exists line, vg_start printable isfile exec dirs c args' = StStatus line 1) /\ (exists f, main_start printable isfile exec dirs c args = StUncaught f).
Proof. exact starts_complement. Qed.
Print Assumptions C72_one_reports.

(* ---- examples ---- *)
Definition vm_file (p : str) : bool := smem p [L "/u/commands/vg.py"; L "/u/commands/ident-scan.py"; L "/v/commands/ident-scan.py"; L "/v/commands/bare.py"].
Definition vm_exec (c p : str) : module_ := if str_eqb c (L "bare") then MoNoEntry else if str_eqb c (L "vg") then MoImport (L "No module named 'x'") else MoMain.
Definition vm_dirs : list str := [L "/u/commands"; L "/v/commands"].
Notation vm_main := (main_start (fun _ => true) vm_file vm_exec vm_dirs).
Notation vm_vg := (vg_start (fun _ => true) vm_file vm_exec vm_dirs).
Example C72_example_run : VgStarts (fun _ => true) vm_file vm_exec vm_dirs (L "ident-scan") [L "-v"] (StRun (L "/u/commands/ident-scan.py") [L "-v"]) /\
  main vm_file vm_dirs [L "ident-scan"; L "-v"] = ChRun (L "/u/commands/ident-scan.py") [L "-v"].
Proof.
  assert (E : vm_vg (L "ident-scan") [L "-v"] = StRun (L "/u/commands/ident-scan.py") [L "-v"]) by (vm_compute; reflexivity).
  split; [now apply C72_vg|]. eapply C72_run_main; [discriminate|exact E].
Qed.
(* A name that is no name, one without a file, one without main, one that does not
   import; ls is not known to vg. *)
Example C72_example_reported :
  vm_main (L "../it's") [] = StStatus (L "Invalid tokens in command ""../it's""") 1 /\
  vm_vg (L "../it's") [] = StUncaught (FeNoSuch (L "Invalid tokens in command ""../it's""")) /\
  vm_main (L "dialplan") [] = StUncaught (FeImport (L "No dir found for command 'dialplan'")) /\
  vm_vg (L "dialplan") [] = StStatus (L "Cannot load command 'dialplan': No dir found for command 'dialplan'") 1 /\
  vm_main (L "bare") [] = StStatus (L "Command 'bare' has no entrypoint") 1 /\
  vm_vg (L "bare") [] = StUncaught (FeNoSuch (L "Command 'bare' has no entrypoint")) /\
  vm_vg (L "vg") [] = StStatus (L "Cannot load command 'vg': No module named 'x'") 1 /\
  vm_vg (L "ls") [] = StStatus (L "Cannot load command 'ls': No dir found for command 'ls'") 1.
Proof. vm_compute. repeat split. Qed.
