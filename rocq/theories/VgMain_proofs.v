(* Proofs for C72: what becomes of the name of a command. *)
From Verif Require Import Base PyStr Defines VarFun Commands VgMain CmdLs Report Spec_Commands Commands_proofs Spec_CmdLs CmdLs_proofs Spec_Report Report_proofs Spec_VgMain.

Section Start.
Variable printable : N -> bool.
Variable isfile : str -> bool.
Variable exec : str -> str -> module_.
Variable dirs : list str.
Notation Fetches := (Fetches printable isfile exec dirs).
Notation fetch := (fetch printable isfile exec dirs).
Lemma quoted_self s : Quoted printable s (pyrepr printable s).
Proof. now apply quoted_iff. Qed.
Lemma fetch_sound c : Fetches c (fetch c).
Proof.
  unfold VgMain.fetch, load_command. destruct (command_re c) eqn:CR.
  - apply command_iff in CR. destruct (first_file isfile dirs (c ++ L ".py")) as [p|] eqn:FF.
    + apply first_file_spec in FF. change (FirstFile isfile dirs c p) in FF.
      destruct (exec c p) eqn:E; econstructor; eauto using quoted_self.
    + constructor; [easy|now apply first_file_none|apply quoted_self].
  - constructor; [rewrite <- command_iff; congruence|apply quoted_self].
Qed.
Lemma first_fun c p p' : FirstFile isfile dirs c p -> FirstFile isfile dirs c p' -> p = p'.
Proof. intros H H'. apply (first_file_spec isfile dirs (c ++ L ".py")) in H, H'. congruence. Qed.
Lemma first_lost c p : FirstFile isfile dirs c p -> ~ forall d, In d dirs -> isfile (file_in d c) = false.
Proof. intros (a & d & b & -> & -> & T & _) H. rewrite (H d) in T; [discriminate|]. apply in_or_app. right. now left. Qed.
Lemma fetches_fun c x y : Fetches c x -> Fetches c y -> x = y.
Proof.
  intros H H'. inversion H; inversion H'; subst; try easy;
    try (exfalso; eapply first_lost; eassumption);
    repeat match goal with A : Quoted _ _ _ |- _ => apply quoted_iff in A as -> end; try easy;
    match goal with A : FirstFile isfile dirs c ?p, B : FirstFile isfile dirs c ?q |- _ => pose proof (first_fun c p q A B); congruence end.
Qed.
Theorem fetch_iff c x : Fetches c x <-> fetch c = x.
Proof. split; [apply fetches_fun, fetch_sound|]. intros <-. apply fetch_sound. Qed.
Theorem main_start_iff c args x : MainStarts printable isfile exec dirs c args x <-> main_start printable isfile exec dirs c args = x.
Proof.
  unfold main_start. split.
  - intros [p H|t H|t H|H]; apply fetch_iff in H; now rewrite H.
  - intros <-. pose proof (fetch_sound c) as H. destruct (fetch c); now constructor.
Qed.
Theorem vg_start_iff c args x : VgStarts printable isfile exec dirs c args x <-> vg_start printable isfile exec dirs c args = x.
Proof.
  unfold vg_start. split.
  - intros [p H|t q H Q|t H|H]; apply fetch_iff in H; rewrite H; try easy. now apply quoted_iff in Q as ->.
  - intros <-. pose proof (fetch_sound c) as H. destruct (fetch c); constructor; try easy. apply quoted_self.
Qed.
(* Of the two, one reports and one ends in a traceback. *)
Theorem starts_complement c args args' : (exists p, Fetches c (FeFile p)) \/ Fetches c FeRaise \/
  (exists line, main_start printable isfile exec dirs c args = StStatus line 1) /\ (exists f, vg_start printable isfile exec dirs c args' = StUncaught f) \/
  (exists line, vg_start printable isfile exec dirs c args' = StStatus line 1) /\ (exists f, main_start printable isfile exec dirs c args = StUncaught f).
Proof.
  pose proof (fetch_sound c) as H. unfold main_start, vg_start. destruct (fetch c) as [p|t|t|]; [left; now exists p| | |right; now left]; right; right; [left|right]; eauto.
Qed.
(* The same file is run, with the same arguments. *)
Theorem starts_run c args p : vg_start printable isfile exec dirs c args = StRun p args <-> main_start printable isfile exec dirs c args = StRun p args.
Proof. unfold main_start, vg_start. destruct (fetch c); try easy; split; discriminate. Qed.
Theorem starts_main c args p : c <> L "ls" -> vg_start printable isfile exec dirs c args = StRun p args -> main isfile dirs (c :: args) = ChRun p args.
Proof.
  intros N H. unfold vg_start, VgMain.fetch, load_command in H. destruct (command_re c) eqn:CR; [|discriminate].
  destruct (first_file isfile dirs (c ++ L ".py")) as [p'|] eqn:FF; [|discriminate]. destruct (exec c p'); try discriminate. injection H as ->.
  assert (startswith (L "-") c = false) as S by (apply command_iff in CR; apply (name_safe c CR)).
  unfold main. cbn [filter]. rewrite S. cbn [negb remove_first]. rewrite str_eqb_refl. destruct (str_eqb_spec c (L "ls")); [easy|].
  unfold load_command. now rewrite CR, FF.
Qed.
End Start.
