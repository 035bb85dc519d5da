(* Final theorems about rewriting files: C35, C36. *)
From Verif Require Import Base PyStr FileRd Mutator Spec_Mutator Mutator_proofs.
From Coq Require Import Lia Sorting.Sorted.

(* ---- C35: only the lines with issues change ---- *)

(* When process_file returns, the file is the old one with the lines that have
   an issue replaced: all the issues if they are in ascending order ... *)
Theorem C35_lines : forall I (proc : I -> bytes -> list bytes * res unit) d filename old issues tr d',
  content d filename = Some old -> Direct d filename -> Ascending issues ->
  reach d (process_file proc filename issues) tr d' (Ret (Ok tt)) ->
  exists new, Edited proc issues old new /\ content d' filename = Some new.
Proof. intros I proc d filename old issues tr d' C D A. apply done; try easy. now apply used_all. Qed.
Print Assumptions C35_lines.

(* ... and for any list, those up to the first one out of order. *)
Theorem C35_any_issues : forall I (proc : I -> bytes -> list bytes * res unit) d filename old issues pre tr d',
  content d filename = Some old -> Direct d filename -> Used issues pre ->
  reach d (process_file proc filename issues) tr d' (Ret (Ok tt)) ->
  exists new, Edited proc pre old new /\ content d' filename = Some new.
Proof. exact @done. Qed.
Print Assumptions C35_any_issues.

Theorem C35_used_unique : forall I (issues : list (N * I)),
  exists pre, Used issues pre /\ forall pre', Used issues pre' -> pre' = pre.
Proof.
  intros I issues. destruct (used_exists issues) as [pre H]. exists pre. split; [easy|].
  intros pre' H'. now apply (used_fun issues).
Qed.
Print Assumptions C35_used_unique.

(* The new content is determined. *)
Theorem C35_new_unique : forall I (proc : I -> bytes -> list bytes * res unit) issues old new1 new2,
  Edited proc issues old new1 -> Edited proc issues old new2 -> new1 = new2.
Proof. exact @edited_fun. Qed.
Print Assumptions C35_new_unique.

(* If nothing fails, it returns. *)
Theorem C35_returns : forall I (proc : I -> bytes -> list bytes * res unit) d filename old issues tr d' r,
  content d filename = Some old -> issues <> [] ->
  (forall n i line, In (n, i) issues -> nth_error (lines_of old) (N.to_nat n) = Some line -> snd (proc i line) = Ok tt) ->
  reach d (process_file proc filename issues) tr d' (Ret r) -> nothing_fails tr -> r = Ok tt.
Proof.
  intros I proc d filename old issues tr d' r C NE PO RE NF. destruct (content_inv _ _ _ C) as (q & u & g & m & R & F).
  destruct (used_exists issues) as [pre U]. destruct (final proc _ _ _ _ _ _ _ _ _ _ _ _ R F U RE) as (_ & _ & H). now apply H.
Qed.
Print Assumptions C35_returns.

(* make_patterns_canonical: what process_issue does with a line. *)
Theorem C35_canonical_line : forall needle repl line, needle <> [] ->
  (exists new, mpc_issue (needle, repl) line = ([new], Ok tt) /\ Canonised needle repl line new) \/
  (~ In 61 line /\ mpc_issue (needle, repl) line = ([], Exn ValueError)) \/
  (exists head, line = head ++ [61] /\ ~ In 61 head /\ mpc_issue (needle, repl) line = ([], Exn IndexError)).
Proof. exact mpc_spec. Qed.
Print Assumptions C35_canonical_line.

(* ---- C36: never half a file ---- *)

(* At every point of every execution (a crash may follow), whatever fails. *)
Theorem C36_old_or_new : forall I (proc : I -> bytes -> list bytes * res unit) d filename old issues pre tr d' p,
  content d filename = Some old -> Direct d filename -> Used issues pre ->
  reach d (process_file proc filename issues) tr d' p ->
  content d' filename = Some old \/ exists new, Edited proc pre old new /\ content d' filename = Some new.
Proof. exact @old_or_new. Qed.
Print Assumptions C36_old_or_new.

(* The whole disk: unchanged, or one temporary file more, or the target replaced
   by the new content with the owner and mode of the old file. *)
Theorem C36_states : forall I (proc : I -> bytes -> list bytes * res unit) d filename q b u g m issues pre tr d' p,
  resolve max_links d filename = Some q -> d q = Some (File b u g m) -> Used issues pre ->
  reach d (process_file proc filename issues) tr d' p ->
  (forall x, d' x = d x) \/
  (exists t dst, Target d filename dst /\ dirname t = dirname dst /\ d t = None /\ forall x, x <> t -> d' x = d x) \/
  (exists new dst, Target d filename dst /\ Edited proc pre b new /\ d' dst = Some (File new u g m) /\
     forall x, x <> dst -> d' x = d x).
Proof. exact @states. Qed.
Print Assumptions C36_states.

(* An exception while writing removes the temporary file. *)
Theorem C36_temp_removed : forall I (proc : I -> bytes -> list bytes * res unit) d filename old issues tr d' e,
  content d filename = Some old ->
  reach d (process_file proc filename issues) tr d' (Ret (Exn e)) -> only_writing_fails tr ->
  forall x, d' x = d x.
Proof.
  intros I proc d filename old issues tr d' e C RE W. destruct (content_inv _ _ _ C) as (q & u & g & m & R & F).
  destruct (used_exists issues) as [pre U]. destruct (final proc _ _ _ _ _ _ _ _ _ _ _ _ R F U RE) as (_ & H & _).
  now apply (H e).
Qed.
Print Assumptions C36_temp_removed.

(* A failure is never passed over: if the run ends well, nothing failed. *)
Theorem C36_success : forall I (proc : I -> bytes -> list bytes * res unit) d l tr d',
  reach d (process proc l) tr d' (Ret (Ok tt)) -> nothing_fails tr.
Proof. exact @success. Qed.
Print Assumptions C36_success.
Theorem C36_success_file : forall I (proc : I -> bytes -> list bytes * res unit) d filename issues tr d',
  reach d (process_file proc filename issues) tr d' (Ret (Ok tt)) -> nothing_fails tr.
Proof. exact @success_file. Qed.
Print Assumptions C36_success_file.
(* The flush comes after writes that all went well, and is told all they wrote. *)
Theorem C36_flush : forall I (proc : I -> bytes -> list bytes * res unit) d filename issues tr d' p,
  reach d (process_file proc filename issues) tr d' p -> flush_right tr.
Proof. intros I proc d filename issues tr d' p R. exact (flushed_right proc filename issues d tr d' p R). Qed.
Print Assumptions C36_flush.

(* When it returns, no temporary file is left. *)
Theorem C36_done : forall I (proc : I -> bytes -> list bytes * res unit) d filename q b u g m issues pre tr d',
  resolve max_links d filename = Some q -> d q = Some (File b u g m) -> Used issues pre ->
  reach d (process_file proc filename issues) tr d' (Ret (Ok tt)) ->
  exists new dst, Target d filename dst /\ Edited proc pre b new /\ d' dst = Some (File new u g m) /\
     forall x, x <> dst -> d' x = d x.
Proof. intros I proc d filename q b u g m issues pre tr d' R F U RE. now apply (final proc _ _ _ _ _ _ _ _ _ _ _ _ R F U RE). Qed.
Print Assumptions C36_done.

(* All the files: at every point, a beginning of the list is rewritten, the rest
   is untouched, and there is at most one temporary file. *)
Theorem C36_batch : forall I (proc : I -> bytes -> list bytes * res unit) l d tr d' p, NoDup (map fst l) ->
  (forall f, In f l -> exists b, plain d (fst f) b) ->
  reach d (process proc l) tr d' p ->
  exists l1 l2, l = l1 ++ l2 /\
    (forall name issues pre b, In (name, issues) l1 -> plain d name b -> Used issues pre ->
       exists new, Edited proc pre b new /\ plain d' name new) /\
    (forall x, d x <> None -> ~ In x (map fst l1) -> d' x = d x) /\
    (exists t, forall x, x <> t -> ~ In x (map fst l1) -> d' x = d x) /\
    (p = Ret (Ok tt) -> l2 = []).
Proof. exact @batch. Qed.
Print Assumptions C36_batch.

(* ---- examples and refutations ---- *)
Definition disk_of (l : list (str * node)) : disk := fun p =>
  match find (fun x => str_eqb (fst x) p) l with Some x => Some (snd x) | None => None end.
Definition nl : bytes := [10].
Definition conf1 : bytes := L "a=_2xxx" ++ nl ++ L "b=_3xxx" ++ nl ++ L "c=1".
Definition issues1 : list (N * (bytes * bytes)) := [(0, (L "_2xxx", L "_2XXX")); (1, (L "_3xxx", L "_3XXX"))].
Definition disk1 : disk := disk_of [(L "x.conf", File conf1 0 0 420)].

(* Playing an execution: each answer is a failure or the normal one; temporary
   files are called "tmp". *)
Definition act (d : disk) (o : op) (a : option exn) : option (reply * disk) :=
  match a with
  | Some e => Some (RFail e, d)
  | None =>
    match o with
    | OReadlink p => match d p with Some (Link t) => Some (RPath t, d) | _ => None end
    | OMktemp dir =>
      let name := path_join dir (L "tmp") in
      match d name with
      | None => if str_eqb (dirname name) dir then Some (RPath name, upd d name (Some (File [] 0 0 384))) else None
      | _ => None
      end
    | OOpen p => match resolve max_links d p with
                 | Some q => match d q with Some (File b _ _ _) => Some (RLines (lines_of b), d) | _ => None end
                 | None => None
                 end
    | ORead => Some (RUnit, d)
    | OWrite t b => match d t with Some (File x u g m) => Some (RUnit, upd d t (Some (File (x ++ b) u g m))) | _ => None end
    | OFlush t all => match d t with Some (File x u g m) => Some (RUnit, upd d t (Some (File all u g m))) | _ => None end
    | OClose t => Some (RUnit, d)
    | OUnlink p => match d p with Some _ => Some (RUnit, upd d p None) | None => None end
    | OStat p => match resolve max_links d p with
                 | Some q => match d q with Some (File b u g m) => Some (RStat u g m, d) | _ => None end
                 | None => None
                 end
    | OChown p u' g' => match d p with Some (File b u g m) => Some (RUnit, upd d p (Some (File b u' g' m))) | _ => None end
    | OChmod p m' => match d p with Some (File b u g m) => Some (RUnit, upd d p (Some (File b u g m'))) | _ => None end
    | ORename s t => match d s with Some n => Some (RUnit, upd (upd d s None) t (Some n)) | None => None end
    end
  end.
Lemma act_does d o a r d' : act d o a = Some (r, d') -> does d o r d'.
Proof.
  destruct a as [e|]; cbn [act]; [intros [= <- <-]; constructor|].
  destruct o; try (intros [= <- <-]; constructor; fail);
    repeat match goal with
    | |- context [match resolve ?n ?d ?p with _ => _ end] => destruct (resolve n d p) eqn:?
    | |- context [match ?d ?p with _ => _ end] => destruct (d p) eqn:?
    | |- context [match ?n with File _ _ _ _ => _ | Link _ => _ end] => destruct n
    | |- context [if str_eqb ?a ?b then _ else _] => destruct (str_eqb_spec a b)
    end; try easy; intros [= <- <-]; econstructor; eauto.
  match goal with E : str_eqb ?a ?b = true |- _ => now destruct (str_eqb_spec a b) end.
Qed.
Fixpoint play (d : disk) (p : prog) (l : list (option exn)) {struct l} : option (trace * disk * prog) :=
  match l with
  | [] => Some ([], d, p)
  | a :: l' =>
    match p with
    | Ret _ => None
    | Do o k =>
      match act d o a with
      | Some (r, d1) => match play d1 (k r) l' with Some (tr, d2, p2) => Some ((o, r) :: tr, d2, p2) | None => None end
      | None => None
      end
    end
  end.
Lemma play_reach l : forall d p tr d' p', play d p l = Some (tr, d', p') -> reach d p tr d' p'.
Proof.
  induction l as [|a l IH]; intros d p tr d' p' H; cbn [play] in H; [injection H as <- <- <-; constructor|].
  destruct p as [|o k]; [easy|]. destruct (act d o a) as [[r d1]|] eqn:EA; [|easy].
  destruct (play d1 (k r) l) as [[[t1 d2] p2]|] eqn:EP; [|easy]. injection H as <- <- <-.
  apply R_step with d1; [now apply (act_does d o a)|now apply IH].
Qed.

(* A run without failures ... *)
Definition run_ok : list (option exn) := Some OSError :: repeat None 15.
Definition shows (d : disk) (p : prog) (l : list (option exn)) (f : trace -> disk -> prog -> Prop) : Prop :=
  match play d p l with Some (tr, d', p') => f tr d' p' | None => False end.
Lemma shows_reach d p l f : shows d p l f -> exists tr d' p', reach d p tr d' p' /\ f tr d' p'.
Proof.
  unfold shows. destruct (play d p l) as [[[tr d'] p']|] eqn:E; [|easy]. intros H. exists tr, d', p'.
  split; [now apply (play_reach l)|easy].
Qed.

Example C35_example : shows disk1 (process_file mpc_issue (L "x.conf") issues1) run_ok (fun tr d' p =>
  p = Ret (Ok tt) /\
  content d' (L "x.conf") = Some (L "a=_2XXX" ++ nl ++ L "b=_3XXX" ++ nl ++ L "c=1") /\
  d' (L "tmp") = None).
Proof. vm_compute. repeat split; reflexivity. Qed.
(* the flush of that run *)
Example C36_example_flush : shows disk1 (process_file mpc_issue (L "x.conf") issues1) run_ok (fun tr d' p =>
  nth_error tr 10 = Some (OFlush (L "tmp") (L "a=_2XXX" ++ nl ++ L "b=_3XXX" ++ nl ++ L "c=1"), RUnit)).
Proof. vm_compute. reflexivity. Qed.
Example C35_example_hyps : content disk1 (L "x.conf") = Some conf1 /\ Direct disk1 (L "x.conf") /\ Ascending issues1.
Proof.
  split; [vm_compute; reflexivity|]. split; [intros t; vm_compute; discriminate|].
  repeat constructor; vm_compute; reflexivity.
Qed.
(* ... one that stops before the rename ... *)
Example C36_example_crash : shows disk1 (process_file mpc_issue (L "x.conf") issues1) (Some OSError :: repeat None 10) (fun tr d' p =>
  content d' (L "x.conf") = Some conf1 /\
  content d' (L "tmp") = Some (L "a=_2XXX" ++ nl ++ L "b=_3XXX" ++ nl ++ L "c=1")).
Proof. vm_compute. repeat split; reflexivity. Qed.
(* ... one with a full disk ... *)
Example C36_example_full : shows disk1 (process_file mpc_issue (L "x.conf") issues1)
    (Some OSError :: repeat None 5 ++ [Some OSError; None; None]) (fun tr d' p =>
  p = Ret (Exn OSError) /\ content d' (L "x.conf") = Some conf1 /\ d' (L "tmp") = None).
Proof. vm_compute. repeat split; reflexivity. Qed.
(* ... and one that must not give the file away: the temporary file stays. *)
Definition disk2 : disk := disk_of [(L "x.conf", File conf1 33 33 420)].
Example C36_example_chown : shows disk2 (process_file mpc_issue (L "x.conf") issues1)
    (Some OSError :: repeat None 13 ++ [Some OSError]) (fun tr d' p =>
  p = Ret (Exn OSError) /\ content d' (L "x.conf") = Some conf1 /\ d' (L "tmp") <> None).
Proof. vm_compute. repeat split; try reflexivity. discriminate. Qed.
(* The temporary file is not removed on every exception. *)
Theorem C36_temp_always_removed_refuted : exists d filename issues tr d' e old,
  content d filename = Some old /\
  reach d (process_file mpc_issue filename issues) tr d' (Ret (Exn e)) /\ exists x, d x = None /\ d' x <> None.
Proof.
  destruct (shows_reach _ _ _ _ C36_example_chown) as (tr & d' & p & RE & -> & C & T).
  exists disk2, (L "x.conf"), issues1, tr, d', OSError, conf1. split; [vm_compute; reflexivity|]. split; [exact RE|].
  exists (L "tmp"). split; [vm_compute; reflexivity|exact T].
Qed.
Print Assumptions C36_temp_always_removed_refuted.

(* Two issues for one line: the second is never processed, nor are later ones. *)
Definition issues3 : list (N * (bytes * bytes)) :=
  [(0, (L "_2", L "_3")); (0, (L "xxx", L "XXX")); (1, (L "_3xxx", L "_3XXX"))].
Definition conf3 : bytes := L "a=_3xxx" ++ nl ++ L "b=_3xxx" ++ nl ++ L "c=1".
Example C35_example_dup : shows disk1 (process_file mpc_issue (L "x.conf") issues3) run_ok (fun tr d' p =>
  p = Ret (Ok tt) /\ content d' (L "x.conf") = Some conf3).
Proof. vm_compute. repeat split; reflexivity. Qed.
Theorem C35_all_issues_refuted : ~ (forall I (proc : I -> bytes -> list bytes * res unit) d filename old issues tr d',
  content d filename = Some old -> Direct d filename ->
  reach d (process_file proc filename issues) tr d' (Ret (Ok tt)) ->
  exists new, Edited proc issues old new /\ content d' filename = Some new).
Proof.
  intros H. destruct (shows_reach _ _ _ _ C35_example_dup) as (tr & d' & p & RE & -> & C).
  destruct (H _ _ _ _ conf1 _ _ _ (proj1 C35_example_hyps) (proj1 (proj2 C35_example_hyps)) RE) as (new & E & C').
  rewrite C in C'. injection C' as <-. destruct E as (outs & EC & EL & EF).
  assert (X : forall i line, nth_error (lines_of conf1) i = Some line -> forall x, In (N.of_nat i, x) issues3 ->
     nth_error outs i = Some (List.concat (fst (mpc_issue x line)))) by (intros i line H1 x H2; exact (proj2 (proj1 (EF i line H1) x H2))).
  pose proof (X 0%nat (L "a=_2xxx" ++ nl) eq_refl (L "_2", L "_3") (or_introl eq_refl)) as X1.
  pose proof (X 0%nat (L "a=_2xxx" ++ nl) eq_refl (L "xxx", L "XXX") (or_intror (or_introl eq_refl))) as X2.
  rewrite X1 in X2. vm_compute in X2. discriminate.
Qed.
Print Assumptions C35_all_issues_refuted.

(* A relative link in another directory: the text of the link is taken relative to
   the working directory.  The file stays as it was, and another one with the same
   name is overwritten. *)
Definition disk4 : disk := disk_of
  [(L "conf/x.conf", Link (L "real.conf")); (L "conf/real.conf", File conf1 0 0 420);
   (L "real.conf", File (L "unrelated") 0 0 420)].
Example C36_example_link : shows disk4 (process_file mpc_issue (L "conf/x.conf") issues1) (repeat None 16) (fun tr d' p =>
  p = Ret (Ok tt) /\ content d' (L "conf/x.conf") = Some conf1 /\
  content d' (L "real.conf") = Some (L "a=_2XXX" ++ nl ++ L "b=_3XXX" ++ nl ++ L "c=1")).
Proof. vm_compute. repeat split; reflexivity. Qed.
Theorem C36_relative_link_refuted :
  ~ (forall I (proc : I -> bytes -> list bytes * res unit) d filename old issues tr d' x,
  content d filename = Some old -> Ascending issues ->
  reach d (process_file proc filename issues) tr d' (Ret (Ok tt)) ->
  (exists new, Edited proc issues old new /\ content d' filename = Some new) /\
  (d x <> None -> resolve max_links d filename <> Some x -> d' x = d x)).
Proof.
  intros H. destruct (shows_reach _ _ _ _ C36_example_link) as (tr & d' & p & RE & -> & C & C2).
  assert (C0 : content disk4 (L "conf/x.conf") = Some conf1) by (vm_compute; reflexivity).
  destruct (H _ _ _ _ conf1 _ _ _ (L "real.conf") C0 (proj2 (proj2 C35_example_hyps)) RE) as [_ X].
  clear H. assert (X' : d' (L "real.conf") = disk4 (L "real.conf")).
  { apply X; [now vm_compute|]. intros E. vm_compute in E. discriminate E. }
  clear X. rename X' into X.
  change (disk4 (L "real.conf")) with (Some (File (L "unrelated") 0 0 420)) in X.
  unfold content in C2. rewrite (resolve_file max_links d' _ _ _ _ _ X), X in C2. discriminate C2.
Qed.
Print Assumptions C36_relative_link_refuted.

(* Two files, the second one without issues left to do: stopped in between. *)
Definition disk5 : disk := disk_of [(L "x.conf", File conf1 0 0 420); (L "y.conf", File conf1 0 0 420)].
Example C36_example_batch : shows disk5 (process mpc_issue [(L "x.conf", issues1); (L "y.conf", issues1)])
    (run_ok ++ [Some OSError; None; None; None; None]) (fun tr d' p =>
  content d' (L "x.conf") = Some (L "a=_2XXX" ++ nl ++ L "b=_3XXX" ++ nl ++ L "c=1") /\
  content d' (L "y.conf") = Some conf1 /\ d' (L "tmp") <> None).
Proof. vm_compute. repeat split; try reflexivity. discriminate. Qed.

(* Lines: the pattern after the first equals sign; a line read from a cp1252 file
   has other bytes than the needle and is kept. *)
Example C35_example_line : mpc_issue (L "_2xxx", L "_2XXX") (L "exten => _2xxx,1,NoOp(_2xxx)")
  = ([L "exten => _2XXX,1,NoOp(_2xxx)"], Ok tt).
Proof. vm_compute. reflexivity. Qed.
