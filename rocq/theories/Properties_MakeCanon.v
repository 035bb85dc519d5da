(* C66: make_patterns_canonical, from the files to the files. *)
From Coq Require Import Sorting.Sorted.
From Verif Require Import Base PyStr Utf8 Defines FileRd Config VSpace Pattern VarFun AppM Dialplan Commands Mutator MakeCanon Tables
  Spec_Pattern Spec_VarFun Spec_Dialplan Spec_File Spec_Config Spec_Run Spec_Mutator Spec_MakeCanon MakeCanon_proofs MakeCanonL_proofs MakeCanonW_proofs Properties_Crash Properties_Mutator.
From Verif Require Spec_Reader Spec_Include Whole_proofs Run_proofs.
Import Spec_File.

(* What it prints and which files it rewrites with which replacements: decided
   by the messages about the dialplan and the answer. *)
Theorem C66_asks : forall U FT AT d name answer out work, AsciiOk U -> Outcome U FT AT (disk_fs d) name answer out work ->
  Whole_proofs.Eventually (fun fuel => mpc_main U FT AT fuel d (Some name) answer = (out, process mpc_issue work)).
Proof. intros U FT AT d name answer out work HU. now apply asks. Qed.
Print Assumptions C66_asks.

(* Nothing else happens: a dialplan that cannot be read leaves all files alone. *)
Theorem C66_only : forall U FT AT fuel d name answer out p, AsciiOk U -> mpc_main U FT AT fuel d (Some name) answer = (out, p) ->
  (exists work, Outcome U FT AT (disk_fs d) name answer out work /\ p = process mpc_issue work) \/
  ((exists e, p = Ret (Exn e)) \/ p = Ret Hang) /\ (out = [] \/ out ++ [10] = greeting).
Proof. intros U FT AT fuel d name answer out p HU. now apply only. Qed.
Print Assumptions C66_only.
Theorem C66_determined : forall U FT AT fs name answer o1 w1 o2 w2, AsciiOk U ->
  Outcome U FT AT fs name answer o1 w1 -> Outcome U FT AT fs name answer o2 w2 -> o1 = o2 /\ w1 = w2.
Proof. intros U FT AT fs name answer o1 w1 o2 w2 HU. now apply determined. Qed.
Print Assumptions C66_determined.
Theorem C66_opens : forall d, Opens d (disk_fs d).
Proof. exact opens. Qed.
Print Assumptions C66_opens.

(* In a file that is read once the hints come in the order of its lines, one for
   a line at most; so none of them is forgotten (C35). *)
Theorem C66_once : forall U FT AT fs name evs h log f is, AsciiOk U -> Spec_Reader.StreamOf fs name evs (Ok tt) -> PlanSays U FT AT evs h log ->
  Hints f log is -> NoDup (lines_read f evs) -> Ascending is.
Proof. intros U FT AT fs name evs h log f is HU S P. now apply (once U FT AT HU fs name evs h log S P). Qed.
Print Assumptions C66_once.

(* The line of a hint never makes it fail, and has its pattern replaced if the
   pattern is there as it was read. *)
Theorem C66_line : forall U FT AT d name evs h log f is n a b, AsciiOk U -> Spec_Reader.StreamOf (disk_fs d) name evs (Ok tt) -> PlanSays U FT AT evs h log ->
  Hints f log is -> In (n, (a, b)) is ->
  exists content ls line, disk_fs d f = Ok content /\ Spec_Include.Lines content ls /\ nth_error ls (N.to_nat n) = Some line /\
    snd (mpc_issue (a, b) line) = Ok tt /\
    forall p, Utf8 p a -> Findable p -> (exists s, Utf8 s line) \/ Forall (fun c => c < 128) p ->
      exists new, mpc_issue (a, b) line = ([new], Ok tt) /\ Replaced a b line new.
Proof. intros U FT AT d name evs h log f is n a b HU S P. now apply (ok_line U FT AT HU d name evs h log S P). Qed.
Print Assumptions C66_line.

(* The files, at every point of every execution. *)
Theorem C66_files : forall U FT AT d name answer evs h log names out work tr d' p, AsciiOk U ->
  Spec_Reader.StreamOf (disk_fs d) name evs (Ok tt) -> PlanSays U FT AT evs h log -> Concerned log names -> Answer log answer names out work ->
  (forall x t, d x <> Some (Link t)) -> reach d (process mpc_issue work) tr d' p ->
  (answer <> L "y" -> work = []) /\ (answer = L "y" -> map fst work = names) /\
  exists done rest, map fst work = done ++ rest /\ (p = Ret (Ok tt) -> rest = []) /\
  (forall f, In f done -> exists old new, Holds d f old /\ Holds d' f new /\ (NoDup (lines_read f evs) -> Rewritten log f old new)) /\
  (forall x, d x <> None -> ~ In x done -> d' x = d x) /\ (exists t, forall x, x <> t -> ~ In x done -> d' x = d x).
Proof.
  intros U FT AT d name answer evs h log names out work tr d' p HU S P C A NL. now apply (files U FT AT HU d name answer evs h log names S P C out work tr d' p NL A).
Qed.
Print Assumptions C66_files.

(* Nothing but a failing operation makes it fail. *)
Theorem C66_ends : forall U FT AT d name answer evs h log names out work tr d' r, AsciiOk U ->
  Spec_Reader.StreamOf (disk_fs d) name evs (Ok tt) -> PlanSays U FT AT evs h log -> Concerned log names -> Answer log answer names out work ->
  (forall x t, d x <> Some (Link t)) -> reach d (process mpc_issue work) tr d' (Ret r) -> nothing_fails tr -> r = Ok tt.
Proof. intros U FT AT d name answer evs h log names out work tr d' r HU S P C A NL. exact (ends U FT AT HU d name answer evs h log names S P C out work tr d' r NL A). Qed.
Print Assumptions C66_ends.

(* What is printed then: the files in their order, as far as it gets. *)
Theorem C66_printed : forall work d tr d' q, (forall x t, d x <> Some (Link t)) -> reach d (process mpc_issue work) tr d' q ->
  exists shown rest, map fst work = shown ++ rest /\ (q = Ret (Ok tt) -> rest = []) /\
    forall r, mpc_later tr r = List.concat (map (fun f => L "Overwriting " ++ f ++ L " ..." ++ [10]) shown) ++ match r with Ok _ => L "Done" ++ [10] | _ => [] end.
Proof. exact printed. Qed.
Print Assumptions C66_printed.

(* ---- examples ---- *)
Definition lines (l : list bytes) : bytes := List.concat (map (fun b => b ++ [10]) l).
Definition mc_x : bytes := lines [L "[a]"; L "exten => _[2]xx,1,NoOp(_[2]xx)"; L " same = n,Hangup()"; L "#include ""y.conf"""; L "[b]"; L "exten => s,1,Hangup()"].
Definition mc_y : bytes := lines [L "exten=_NxX,1,NoOp() ; _NxX"; L "exten = 1,1,NoOp()"].
Definition mc_disk : disk := disk_of [(L "x.conf", File mc_x 0 0 420); (L "y.conf", File mc_y 0 0 420)].
Definition mc_run (d : disk) (answer : str) : str * prog := mpc_main uni_ascii funcs_v13 apps_v13 60 d (Some (L "x.conf")) answer.
Definition nothing_wrong (n m : nat) : list (option exn) := Some OSError :: repeat None n ++ Some OSError :: repeat None m.
Definition mc_x' : bytes := lines [L "[a]"; L "exten => _2XX,1,NoOp(_[2]xx)"; L " same = n,Hangup()"; L "#include ""y.conf"""; L "[b]"; L "exten => s,1,Hangup()"].
Definition mc_y' : bytes := lines [L "exten=_NXX,1,NoOp() ; _NxX"; L "exten = 1,1,NoOp()"].
Example C66_example :
  fst (mc_run mc_disk (L "y")) = greeting ++ question [L "x.conf"; L "y.conf"] /\
  shows mc_disk (snd (mc_run mc_disk (L "y"))) (nothing_wrong 21 13) (fun tr d' p =>
    p = Ret (Ok tt) /\ content d' (L "x.conf") = Some mc_x' /\ content d' (L "y.conf") = Some mc_y' /\
    mpc_later tr (Ok tt) = lines [L "Overwriting x.conf ..."; L "Overwriting y.conf ..."; L "Done"]).
Proof. vm_compute. repeat split; reflexivity. Qed.
Example C66_example_no : mc_run mc_disk (L "Y") = (greeting ++ question [L "x.conf"; L "y.conf"] ++ L "Aborted." ++ [10], Ret (Ok tt)).
Proof. vm_compute. reflexivity. Qed.
Example C66_example_clean : mc_run (disk_of [(L "x.conf", File mc_x' 0 0 420); (L "y.conf", File mc_y' 0 0 420)]) (L "y") =
  (greeting ++ L "Your dialplan has no issues. We're done here." ++ [10], Ret (Ok tt)).
Proof. vm_compute. reflexivity. Qed.
Definition mc_evs (d : disk) : list event := fst (vsw_stream (parse_file 60 (disk_fs d) (L "x.conf"))).
Lemma mc_stream d : snd (vsw_stream (parse_file 60 (disk_fs d) (L "x.conf"))) = Ok tt -> Spec_Reader.StreamOf (disk_fs d) (L "x.conf") (mc_evs d) (Ok tt).
Proof. intros H. apply Whole_proofs.stream_iff. split; [easy|]. exists 60%nat. rewrite <- H. unfold mc_evs. now destruct (vsw_stream _). Qed.
(* The hypotheses of the theorems hold for that run. *)
Lemma mc_outcome d fuel name answer out p : mpc_main uni_ascii funcs_v13 apps_v13 fuel d (Some name) answer = (out, p) -> (forall e, p <> Ret (Exn e)) -> p <> Ret Hang ->
  exists work, Outcome uni_ascii funcs_v13 apps_v13 (disk_fs d) name answer out work /\ p = process mpc_issue work.
Proof.
  intros E N1 N2. destruct (C66_only _ _ _ _ _ _ _ _ _ ascii_ok E) as [H|[[[e X]|X] _]]; [exact H|now elim (N1 e)|now elim N2].
Qed.
Example C66_example_hyps : (forall x t, mc_disk x <> Some (Link t)) /\
  exists h log names out work tr d', Spec_Reader.StreamOf (disk_fs mc_disk) (L "x.conf") (mc_evs mc_disk) (Ok tt) /\
    PlanSays uni_ascii funcs_v13 apps_v13 (mc_evs mc_disk) h log /\ Concerned log names /\ Answer log (L "y") names out work /\
    reach mc_disk (process mpc_issue work) tr d' (Ret (Ok tt)) /\ Forall (fun f => NoDup (lines_read f (mc_evs mc_disk))) [L "x.conf"; L "y.conf"].
Proof.
  split. { intros x t. unfold mc_disk, disk_of. cbn [find fst snd]. destruct (str_eqb (L "x.conf") x); [easy|]. destruct (str_eqb (L "y.conf") x); easy. }
  assert (G : match snd (mc_run mc_disk (L "y")) with Ret (Exn _) | Ret Hang => false | _ => true end = true) by (vm_compute; reflexivity).
  destruct (mc_run mc_disk (L "y")) as [out p] eqn:E. cbn [snd] in G. destruct (mc_outcome _ _ _ _ _ _ E) as (work & O & ->).
  { intros e ->. discriminate G. }
  { intros ->. discriminate G. }
  destruct O as [evs h log names out work S P C A]. assert (SM : Spec_Reader.StreamOf (disk_fs mc_disk) (L "x.conf") (mc_evs mc_disk) (Ok tt)) by (apply mc_stream; vm_compute; reflexivity).
  destruct (Whole_proofs.stream_det _ _ _ _ _ _ S SM) as [-> _].
  pose proof (proj2 C66_example) as X. rewrite E in X. cbn [snd] in X. apply shows_reach in X as (tr & d' & p & RE & -> & _).
  exists h, log, names, out, work, tr, d'. split; [exact SM|]. split; [exact P|]. split; [exact C|]. split; [exact A|]. split; [exact RE|].
  repeat constructor; vm_compute; intuition discriminate.
Qed.

(* ---- what it does not do ---- *)

(* A pattern that the comments hide is not found: the line stays as it is, and
   so does the hint. *)
Definition mc_semi : bytes := lines [L "[a]"; L "exten => _[\;x]x,1,NoOp()"].
Example C66_example_semicolon : let d := disk_of [(L "x.conf", File mc_semi 0 0 420)] in
  fst (mc_run d (L "y")) = greeting ++ question [L "x.conf"] /\
  shows d (snd (mc_run d (L "y"))) (Some OSError :: repeat None 13) (fun tr d' p => p = Ret (Ok tt) /\ content d' (L "x.conf") = Some mc_semi).
Proof. vm_compute. repeat split; reflexivity. Qed.
(* A file that is read twice, in other contexts: the hints are out of order and
   the first line is left. *)
Definition mc_twice : bytes := lines [L "[general]"; L "#include ""y.conf"""; L "[a]"; L "#include ""y.conf"""].
Definition mc_inner : bytes := lines [L "exten => _xX,1,NoOp()"; L "[c]"; L "exten => _Xx,1,NoOp()"].
Example C66_example_twice : let d := disk_of [(L "x.conf", File mc_twice 0 0 420); (L "y.conf", File mc_inner 0 0 420)] in
  fst (mc_run d (L "y")) = greeting ++ question [L "y.conf"] /\
  shows d (snd (mc_run d (L "y"))) (Some OSError :: repeat None 15) (fun tr d' p => p = Ret (Ok tt) /\
    content d' (L "y.conf") = Some (lines [L "exten => _xX,1,NoOp()"; L "[c]"; L "exten => _XX,1,NoOp()"])).
Proof. vm_compute. repeat split; reflexivity. Qed.
(* A range with a semicolon in it is written out: the line becomes a comment
   from there on, and cannot be read again. *)
Definition mc_range : bytes := lines [L "[a]"; L "exten => _[:-<]X,1,NoOp()"].
Definition mc_broken : bytes := lines [L "[a]"; L "exten => _[:;<]X,1,NoOp()"].
Definition mc_end (d : disk) : res unit :=
  let! _ := snd (parse_dialplan uni_ascii funcs_v13 apps_v13 60 (disk_fs d) (L "x.conf")) in Ok tt.
Example C66_example_comment : let d := disk_of [(L "x.conf", File mc_range 0 0 420)] in
  shows d (snd (mc_run d (L "y"))) (Some OSError :: repeat None 13) (fun tr d' p =>
    p = Ret (Ok tt) /\ content d' (L "x.conf") = Some mc_broken /\ mc_end d = Ok tt /\ mc_end d' = Exn ProgrammingError).
Proof. vm_compute. repeat split; reflexivity. Qed.

(* So it is not true that nothing is left to do after a run without failures,
   nor that the dialplan can still be read. *)
Theorem C66_clean_after_refuted : exists d tr d',
  reach d (snd (mc_run d (L "y"))) tr d' (Ret (Ok tt)) /\ fst (mc_run d' (L "y")) = greeting ++ question [L "x.conf"].
Proof.
  assert (X : let d := disk_of [(L "x.conf", File mc_semi 0 0 420)] in
    shows d (snd (mc_run d (L "y"))) (Some OSError :: repeat None 13) (fun tr d' p => p = Ret (Ok tt) /\ fst (mc_run d' (L "y")) = greeting ++ question [L "x.conf"]))
    by (vm_compute; repeat split; reflexivity).
  apply shows_reach in X as (tr & d' & p & RE & -> & E). eexists _, tr, d'. split; [exact RE|exact E].
Qed.
Print Assumptions C66_clean_after_refuted.
Theorem C66_still_read_refuted : exists d tr d',
  reach d (snd (mc_run d (L "y"))) tr d' (Ret (Ok tt)) /\ mc_end d = Ok tt /\ mc_end d' = Exn ProgrammingError.
Proof.
  pose proof C66_example_comment as X. apply shows_reach in X as (tr & d' & p & RE & -> & _ & E1 & E2). eexists _, tr, d'. split; [exact RE|now split].
Qed.
Print Assumptions C66_still_read_refuted.
