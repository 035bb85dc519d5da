(* Final theorems about reading with includes: C16, C17. *)
From Verif Require Import Base PyStr Defines FileRd Config Spec_File Spec_Config Spec_Include
  File_proofs Config_proofs Include_proofs.

(* ---- C16 ---- *)

(* Reading succeeds with the view [out] iff [out] is the recursive expansion;
   the fuel does not matter once it is large enough. *)
Theorem C16_include_expansion : forall fs name content ls out,
  fs name = Ok content -> Lines content ls ->
  Expand fs name 0 ls out <->
  exists k, forall fuel, (k <= fuel)%nat ->
    exists evs, parse_file fuel fs name = (evs, Ok tt) /\ xview evs = out.
Proof.
  intros fs name content ls out Ef Ln. split.
  - now apply (expand_parse fs name content ls out).
  - intros [k K]. destruct (K k (le_n k)) as (evs & E & <-).
    apply parse_expand in E as (c & ls' & Ef' & Ln' & Ex). rewrite Ef in Ef'. injection Ef' as <-.
    now rewrite (Lines_fun _ _ Ln _ Ln').
Qed.
Print Assumptions C16_include_expansion.

(* Any successful run shows the expansion. *)
Theorem C16_success_is_expansion : forall fuel fs name evs,
  parse_file fuel fs name = (evs, Ok tt) ->
  exists content ls, fs name = Ok content /\ Lines content ls /\ Expand fs name 0 ls (xview evs).
Proof. exact parse_expand. Qed.
Print Assumptions C16_success_is_expansion.

(* The elements are those of the lines seen (see C21 for parse_line), in order,
   whatever the outcome. *)
Theorem C16_elements : forall fuel fs name,
  let evs := fst (parse_file fuel fs name) in
  ev_elems evs = flat_map line_elems (xview evs).
Proof.
  intros fuel fs name. cbv zeta. unfold parse_file. destruct (open_frame fs name); [apply read_elems|easy..].
Qed.
Print Assumptions C16_elements.

Definition nl : bytes := [10].
Definition fs1 : str -> res bytes := fs_of
  [(L "/etc/asterisk/a.conf", L "[x]" ++ nl ++ L "#include ""sub/b.conf"" ; the b" ++ nl ++ L "k=v" ++ nl);
   (L "/etc/asterisk/sub/b.conf", L "#tryinclude none.conf" ++ nl ++ L "#include none.conf" ++ nl ++ L "#include /c");
   (L "/c", L "y => z" ++ nl)].
Definition wr (f : str) (n : N) (t : bytes) : loc := Where f n t.
Example C16_example : let r := parse_file 30 fs1 (L "/etc/asterisk/a.conf") in
  snd r = Ok tt /\
  map (fun x => match x with XLine w d _ => (w_file w, w_line w, d) | XMissing m => (L "missing", 0, w_file (m_where m)) end)
      (xview (fst r))
  = [(L "/etc/asterisk/a.conf", 1, L "[x]");
     (L "/etc/asterisk/a.conf", 2, L "#include ""sub/b.conf""");
     (L "/etc/asterisk/sub/b.conf", 1, L "#tryinclude none.conf");
     (L "/etc/asterisk/sub/b.conf", 2, L "#include none.conf");
     (L "missing", 0, L "/etc/asterisk/sub/b.conf");
     (L "/etc/asterisk/sub/b.conf", 3, L "#include /c");
     (L "/c", 1, L "y => z");
     (L "/etc/asterisk/a.conf", 3, L "k=v")].
Proof. vm_compute. split; reflexivity. Qed.

(* ---- C17 ---- *)

(* Acyclic includes: the reader ends, whatever is in the files. *)
Theorem C17_acyclic_ends_partial : forall fs name,
  (forall p, fs p <> Hang) -> Acc (fun b a => Inc fs a b) name ->
  exists k, forall fuel, (k <= fuel)%nat -> snd (parse_file fuel fs name) <> Hang.
Proof. exact acyclic_ends. Qed.
Print Assumptions C17_acyclic_ends_partial.

(* A successful run is only possible with acyclic includes. *)
Theorem C17_success_acyclic : forall fuel fs name evs,
  parse_file fuel fs name = (evs, Ok tt) -> Acc (fun b a => Inc fs a b) name.
Proof. exact ok_acyclic. Qed.
Print Assumptions C17_success_acyclic.

(* If every file can be read, then cyclic includes never end and acyclic ones
   end successfully. *)
Theorem C17_ends_iff_acyclic : forall fs name c, Readable fs -> fs name = Ok c ->
  (Acc (fun b a => Inc fs a b) name <-> exists fuel, snd (parse_file fuel fs name) = Ok tt) /\
  (~ Acc (fun b a => Inc fs a b) name <-> forall fuel, snd (parse_file fuel fs name) = Hang).
Proof.
  intros fs name c Rd Ef.
  assert (A : Acc (fun b a => Inc fs a b) name <-> exists fuel, snd (parse_file fuel fs name) = Ok tt).
  { split.
    - intros A. destruct (acyclic_ends fs name) as [k K]; [|easy|].
      + intros p E. destruct (proj1 Rd p) as [[x X]|X]; congruence.
      + exists k. destruct (readable_parse fs name c Rd Ef k) as [E|E]; [easy|]. now destruct (K k (le_n k)).
    - intros [fuel E]. destruct (parse_file fuel fs name) as [evs o] eqn:P. cbn in E. subst o.
      now apply (ok_acyclic fuel fs name evs). }
  split; [exact A|]. rewrite A. split.
  - intros N1 fuel. destruct (readable_parse fs name c Rd Ef fuel) as [E|E]; [|easy]. destruct N1. now exists fuel.
  - intros H [fuel E]. rewrite H in E. discriminate.
Qed.
Print Assumptions C17_ends_iff_acyclic.

(* Refuted: a file that includes itself. *)
Definition fs_self : str -> res bytes := fs_of [(L "/a.conf", L "#include a.conf" ++ nl)].
Theorem C17_always_ends_refuted :
  (exists c, fs_self (L "/a.conf") = Ok c) /\
  forall fuel, snd (parse_file fuel fs_self (L "/a.conf")) = Hang.
Proof.
  split; [now eexists|]. intros fuel.
  set (ln := L "#include a.conf" ++ nl).
  set (w := Where (L "/a.conf") 1 ln).
  set (ff1 := FFst [FFent (L "/a.conf") (Some false) (Some true) w] (Some false)).
  assert (G : forall n stk ff, ff = ff_init \/ ff = ff1 -> snd (read n fs_self (Frame (L "/a.conf") 0 [ln] :: stk) ff) = Hang).
  { induction n as [|n IH]; intros stk ff Hf; [easy|].
    assert (E : read_line ff w ln = ([], Ok (ff1, L "#include a.conf", []))) by (destruct Hf; subst ff; reflexivity).
    pose proof (step_line n fs_self (L "/a.conf") 0 ln [] stk ff [] ff1 _ _ E) as X. cbv zeta in X.
    etransitivity; [apply (f_equal snd X)|].
    exact (IH (Frame (L "/a.conf") (0 + 1) [] :: stk) ff1 (or_intror eq_refl)). }
  change (parse_file fuel fs_self (L "/a.conf")) with (read fuel fs_self [Frame (L "/a.conf") 0 [ln]] ff_init).
  apply G. now left.
Qed.
Print Assumptions C17_always_ends_refuted.

(* The hypotheses of C17_ends_iff_acyclic are met by fs1. *)
Example C17_example : exists fuel, snd (parse_file fuel fs1 (L "/etc/asterisk/a.conf")) = Ok tt.
Proof. exists 30%nat. reflexivity. Qed.
Lemma ascii_decoded l : forallb (fun c => c <? 128) l = true -> Decoded l l.
Proof.
  intros H. left. induction l as [|c l IH]; [constructor|]. cbn in H. apply andb_prop in H as [H1 H2].
  apply (U8_cons c [c]); [|now apply IH]. constructor. now apply N.ltb_lt.
Qed.
Example C17_example_readable : Readable fs1.
Proof.
  split.
  - intros p. unfold fs1, fs_of. repeat (destruct (str_eqb _ p); [left; now eexists|]). now right.
  - intros p c ls line E Ln Hi. exists line. apply ascii_decoded.
    rewrite (Lines_fun _ _ Ln _ (lines_of_Lines c)) in Hi. clear Ln.
    assert (A : forallb (fun c => c <? 128) c = true).
    { unfold fs1, fs_of in E. repeat (destruct (str_eqb _ p); [injection E as <-; reflexivity|]). discriminate. }
    assert (G : forall c, forallb (fun c => c <? 128) c = true -> Forall (fun l => forallb (fun c => c <? 128) l = true) (lines_of c)).
    { clear. induction c as [|x c IH]; cbn; [constructor|]. intros H. apply andb_prop in H as [Hx H]. specialize (IH H).
      destruct (x =? 10); [constructor; [cbn; now rewrite Hx|easy]|].
      destruct (lines_of c); [constructor; [cbn; now rewrite Hx|easy]|]. inversion IH; subst. constructor; [cbn; now rewrite Hx|easy]. }
    specialize (G c A). rewrite Forall_forall in G. now apply G.
Qed.
