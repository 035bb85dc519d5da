(* Final theorems about reading files: C18-C20. *)
From Verif Require Import Base Utf8 PyStr Defines FileRd Spec_File File_proofs.

(* ---- C18 ---- *)

(* A line that is valid UTF-8 is decoded exactly, without message; a line
   decoded without message is valid UTF-8. *)
Theorem C18_utf8_exact : forall w b s, decode_line w b = ([], Ok s) <-> Utf8 s b.
Proof. intros w b s; split; [apply decode_line_fst_nil | apply decode_line_utf8]. Qed.
Print Assumptions C18_utf8_exact.

(* Any other line gives one message; it is decoded bytewise as cp1252, or raises
   if it has an undefined byte. *)
Theorem C18_cp1252_partial : forall w b, (forall s, ~ Utf8 s b) ->
  fst (decode_line w b) = [msg0 E_FILE_UTF8_BAD w]
  /\ (forall s, snd (decode_line w b) = Ok s <-> Forall2 Cp1252 b s)
  /\ (forall e, snd (decode_line w b) = Exn e <-> e = UnicodeDecodeError /\ Exists cp1252_undefined b)
  /\ snd (decode_line w b) <> Hang.
Proof. exact decode_line_other. Qed.
Print Assumptions C18_cp1252_partial.

(* Not every line is decoded. *)
Theorem C18_every_line_decoded_refuted :
  ~ (forall w b, exists s, snd (decode_line w b) = Ok s).
Proof. intros H. destruct (H (Where [] 1 []) [0x81]) as [s E]. discriminate E. Qed.
Print Assumptions C18_every_line_decoded_refuted.

Definition w0 : loc := Where (L "extensions.conf") 7 [].
Example C18_example_utf8 : decode_line w0 [0x63; 0xc3; 0xa9; 0xe2; 0x82; 0xac; 10] = ([], Ok [0x63; 0xe9; 0x20ac; 10]).
Proof. reflexivity. Qed.
Example C18_example_cp1252 : (forall s, ~ Utf8 s [0x63; 0xe9; 0x80]) /\
  decode_line w0 [0x63; 0xe9; 0x80] = ([msg0 E_FILE_UTF8_BAD w0], Ok [0x63; 0xe9; 0x20ac]).
Proof. split; [|reflexivity]. intros s H. apply (C18_utf8_exact w0) in H. discriminate H. Qed.
Example C18_example_crash : decode_line w0 [0x63; 0x8d] = ([msg0 E_FILE_UTF8_BAD w0], Exn UnicodeDecodeError).
Proof. reflexivity. Qed.

(* ---- C19 ---- *)

(* For every tree of included files the messages are those of the
   specification; every line loses its line end and nothing else. *)
Theorem C19_line_end_msgs : forall t, wf_tree [] t ->
  exists ds, ff_file (flat_tree t) = (ff_spec t, Ok ds)
    /\ Forall2 (fun x d => exists e, Ends (snd x) d e) (flat_tree t) ds.
Proof.
  intros t H. eexists. split; [now apply ff_file_tree | apply strip_eols_ends].
Qed.
Print Assumptions C19_line_end_msgs.

(* For every sequence of lines (also of files including themselves) the reader
   ends without failed assertion. *)
Theorem C19_never_fails : forall l, exists ms ds, ff_file l = (ms, Ok ds)
  /\ Forall2 (fun x d => exists e, Ends (snd x) d e) l ds.
Proof.
  intros l. destruct (ff_file_total l) as [ms E]. eexists _, _. split; [exact E | apply strip_eols_ends].
Qed.
Print Assumptions C19_never_fails.

(* The specification is unambiguous and lossless. *)
Theorem C19_line_end_lossless : forall s d e d' e',
  Ends s d e -> s = d ++ e /\ (Ends s d' e' -> d = d' /\ e = e').
Proof. intros s d e d' e' H. split; [now apply Ends_app | intros H'; eapply Ends_unique; eassumption]. Qed.
Print Assumptions C19_line_end_lossless.

Definition fa (n : N) : loc := Where (L "a.conf") n [].
Definition fb (n : N) : loc := Where (L "b.conf") n [].
(* a UNIX file with a CRLF line including a DOS file with a bare LF and a final CRLF *)
Definition ex_tree : ftree :=
  FT (L "a.conf")
    (FIncl (fa 1) (L "#include b.conf" ++ [10])
       (FT (L "b.conf") (FLine (fb 1) (L "x=1" ++ [13; 10])
                        (FLine (fb 2) (L "y=1" ++ [10])
                        (FLine (fb 3) (L "z=1" ++ [13; 10]) FNil))))
    (FLine (fa 2) (L "p=1" ++ [13; 10])
    (FLine (fa 3) (L "q=1") FNil))).
Example C19_example : wf_tree [] ex_tree /\
  ff_file (flat_tree ex_tree) =
    ([msg0 W_FILE_DOS_BARELF (fb 2); msg0 W_FILE_DOS_EOFCRLF (fb 3);
      msg0 W_FILE_UNIX_CRLF (fa 2); msg0 W_FILE_UNIX_NOLF (fa 3)],
     Ok [L "#include b.conf"; L "x=1"; L "y=1"; L "z=1"; L "p=1"; L "q=1"]).
Proof.
  split; [|reflexivity]. cbn. repeat split; try easy. intros [H|[]]; discriminate H.
Qed.

(* ---- C20 ---- *)

(* Trailing blanks are dropped with W_WSH_EOL; the rest is split as specified,
   with W_WSH_COMMENT exactly if the comment directly follows data. *)
Theorem C20_comment_split : forall s w, exists s' blanks d k bare,
  s = s' ++ blanks /\ blank_str blanks /\ ~ ends_blank s' /\ CommentSplit s' d k bare
  /\ comment_line s w
     = ((match blanks with [] => [] | _ => [msg0 W_WSH_EOL w] end)
        ++ (if bare then [msg0 W_WSH_COMMENT w] else []), Ok (d, k)).
Proof. exact comment_line_spec. Qed.
Print Assumptions C20_comment_split.

Theorem C20_split_unique : forall s d k b d' k' b',
  CommentSplit s d k b -> CommentSplit s d' k' b' -> d = d' /\ k = k' /\ b = b'.
Proof. exact CommentSplit_fun. Qed.
Print Assumptions C20_split_unique.

Theorem C20_lossless : forall s d k b, ~ In 92 s -> CommentSplit s d k b -> d ++ k = s.
Proof. exact CommentSplit_lossless. Qed.
Print Assumptions C20_lossless.

Example C20_example :
  comment_line (L "a\;b  ;c;d  ") w0 = ([msg0 W_WSH_EOL w0], Ok (L "a;b", L "  ;c;d")) /\
  comment_line (L "foo;c") w0 = ([msg0 W_WSH_COMMENT w0], Ok (L "foo", L ";c")) /\
  CommentSplit (L "foo;c") (L "foo") (L ";c") true /\ ~ In 92 (L "foo;c").
Proof.
  repeat split; try reflexivity.
  - change (L "foo;c") with (L "foo" ++ 59 :: L "c"). change (L ";c") with ([] ++ 59 :: L "c").
    apply CS_some with (data0 := L "foo").
    + change (L "foo") with [102; 111; 111]. do 3 (apply Un_chr; [discriminate | intros X; discriminate X |]). constructor.
    + intros r E. apply (f_equal (@rev N)) in E. rewrite rev_app_distr in E. discriminate E.
    + reflexivity.
    + constructor.
    + intros (a & c & E & Hc). apply (f_equal (@rev N)) in E. rewrite rev_app_distr in E. cbn in E.
      injection E as <- _. destruct Hc; discriminate.
    + split; intros _; [split; [discriminate | reflexivity] | reflexivity].
  - cbn. intuition discriminate.
Qed.

(* ---- C47 ---- *)

(* Every line, in every state of the reader, is read as specified, with the
   messages of the layers in this order; [ff_line] is the subject of C19. *)
Theorem C47_line_read : forall st w b l st' d k, read_line st w b = (l, Ok (st', d, k)) <->
  exists s before lf after body, LineRead w b s d k before after /\ ff_line st w s = (lf, Ok (st', body)) /\
    l = before ++ lf ++ after.
Proof. exact read_line_iff. Qed.
Print Assumptions C47_line_read.
Theorem C47_determined : forall w b s d k l1 l2 s' d' k' l1' l2',
  LineRead w b s d k l1 l2 -> LineRead w b s' d' k' l1' l2' -> s = s' /\ d = d' /\ k = k' /\ l1 = l1' /\ l2 = l2'.
Proof. exact LineRead_fun. Qed.
Print Assumptions C47_determined.
Theorem C47_control_char : forall w s, when (Exists unusual s) W_FILE_CTRL_CHAR w (ctrl_msgs w s).
Proof. exact ctrl_msgs_when. Qed.
Print Assumptions C47_control_char.

Example C47_example : exists st, read_line ff_init w0 (L "a=" ++ [1; 9; 0xe9] ++ L ";x " ++ [13; 10]) =
  ([msg0 E_FILE_UTF8_BAD w0; msg0 W_FILE_CTRL_CHAR w0; msg0 W_WSH_EOL w0; msg0 W_WSH_COMMENT w0],
   Ok (st, L "a=" ++ [1; 9; 0xe9], L ";x")).
Proof. eexists. vm_compute. reflexivity. Qed.
