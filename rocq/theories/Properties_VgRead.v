(* Final theorems about the VoIPGRID reader over the files and their includes: C67. *)
From Verif Require Import Base PyStr Defines FileRd Config Vg VgRead Spec_File Spec_Config Spec_Include Spec_Reader Spec_Vg Spec_VgRead VgRead_proofs.

(* All ended runs: the outcome and everything that is given, in order, from the
   bytes of the files. *)
Theorem C67_read : forall fs name evs o, (exists text, VgReads fs name text evs o) <->
  o <> Hang /\ exists fuel, vg_parse_file fuel fs name = (evs, o).
Proof. exact vg_reads_iff. Qed.
Print Assumptions C67_read.
Theorem C67_determined : forall fs name text evs o text' evs' o',
  VgReads fs name text evs o -> VgReads fs name text' evs' o' -> text = text' /\ evs = evs' /\ o = o'.
Proof. exact reads_fun. Qed.
Print Assumptions C67_determined.

(* The lines that are given are those that were read, whatever file they are of,
   unfolded by the rules of C51; the messages about blanks and comments are those
   of C51 too. *)
Theorem C67_unfolded : forall fs name text evs, VgReads fs name text evs (Ok tt) ->
  exists l, Unfolds text (given evs) l /\ remarks evs = filter remark l.
Proof. exact reads_unfold. Qed.
Print Assumptions C67_unfolded.

(* All lines of the file are read, in order. *)
Theorem C67_all : forall fs name text evs ws, VgReads fs name text evs (Ok tt) -> FileLines fs name ws -> Within ws (map fst text).
Proof. exact reads_all. Qed.
Print Assumptions C67_all.

(* If no directive that was given is behind blanks, files are read where they are
   included. *)
Theorem C67_in_place : forall fs name text evs ws, VgReads fs name text evs (Ok tt) -> FileLines fs name ws ->
  (forall w d k, In (w, d, k) (given evs) -> LineKind d KDirective -> IsPP d) -> InPlace fs ws text.
Proof. exact reads_in_place. Qed.
Print Assumptions C67_in_place.

(* ---- Examples ---- *)
Definition vr_fs (l : list (str * bytes)) : fsys := fs_of l.
Definition vr_nl : str := [10].
Definition vr_run (l : list (str * bytes)) : list event := fst (vg_parse_file 40 (vr_fs l) (L "a")).
Definition vr_show (evs : list event) : list (str * N * str * str) := map (fun x => (w_file (fst (fst x)), w_line (fst (fst x)), snd (fst x), snd x)) (given evs).
Definition vr_msgs (evs : list event) : list (mcls * str * N) :=
  flat_map (fun v => match v with EvMsg m => [(m_cls m, w_file (m_where m), w_line (m_where m))] | _ => [] end) evs.
Definition vr_says (l : list (str * bytes)) : Prop := exists text, VgReads (vr_fs l) (L "a") text (vr_run l) (Ok tt).
Ltac vr_says := apply C67_read; split; [discriminate|]; exists 40%nat; vm_compute; reflexivity.

(* A query over two lines, a file that is there and one that is not. *)
Definition vr_1 : list (str * bytes) :=
  [(L "a", L "[q]" ++ vr_nl ++ L "x=SELECT 'a;b'" ++ vr_nl ++ L "  FROM t ;all" ++ vr_nl ++ L "#include ""b""" ++ vr_nl ++ L "#include ""c""" ++ vr_nl ++ L "y=1" ++ vr_nl);
   (L "b", L "z=2" ++ vr_nl)].
Example C67_example : vr_says vr_1 /\
  vr_show (vr_run vr_1) = [(L "a", 1, L "[q]", []); (L "a", 2, L "x=SELECT 'a;b'  FROM t", L " ;all"); (L "a", 4, L "#include ""b""", []);
     (L "b", 1, L "z=2", []); (L "a", 5, L "#include ""c""", []); (L "a", 6, L "y=1", [])] /\
  vr_msgs (vr_run vr_1) = [(W_PP_INCLUDE_MISSING, L "a", 5)].
Proof. split; [vr_says|]. split; vm_compute; reflexivity. Qed.
(* Its directives are not behind blanks: it meets the premise of C67_in_place. *)
Example C67_example_in_place : forall w d k, In (w, d, k) (given (vr_run vr_1)) -> LineKind d KDirective -> IsPP d.
Proof.
  assert (X : forall x, In x (given (vr_run vr_1)) -> IsPP (snd (fst x)) \/ exists c r, snd (fst x) = c :: r /\ isspace c = false /\ c <> 35).
  { vm_compute. intros x H. repeat (destruct H as [<-|H]; [cbn [fst snd];
      first [left; eexists; reflexivity|right; eexists; eexists; split; [reflexivity|split; [reflexivity|discriminate]]]|]). destruct H. }
  intros w d k H K. destruct (X _ H) as [P|(c & r & E & Sp & N1)]; [exact P|]. cbn [fst snd] in E. exfalso.
  inversion K as [| | |sp r' E' W _ _|]; subst. destruct sp as [|c' sp]; [injection E' as -> _; now apply N1|].
  injection E' as <- _. inversion W as [|? ? Wc _]; subst. congruence.
Qed.

(* The messages about line ends, among others: a is taken for a Unix file, b and c
   (without any line end) for DOS files.  b is over when a goes on. *)
Definition vr_crlf : str := [13; 10].
Definition vr_6 : list (str * bytes) :=
  [(L "a", L "[q]" ++ vr_nl ++ L "#include ""b""" ++ vr_nl ++ L "x=1" ++ vr_crlf ++ L "y=2 ");
   (L "b", L "z=2" ++ vr_crlf ++ L "#include ""c""" ++ vr_nl ++ L "u=4" ++ vr_crlf); (L "c", L "v=3")].
Example C67_example_line_ends : vr_says vr_6 /\
  vr_msgs (vr_run vr_6) = [(W_FILE_DOS_BARELF, L "b", 2); (W_FILE_DOS_EOFCRLF, L "b", 3); (W_FILE_UNIX_CRLF, L "a", 3);
    (W_WSH_EOL, L "a", 4); (W_FILE_UNIX_NOLF, L "a", 4)].
Proof. split; [vr_says|]. vm_compute; reflexivity. Qed.

(* The claim that a file is read where it is included fails in four ways.  An
   include behind blanks waits like other lines: the line after it comes first. *)
Definition vr_2 : list (str * bytes) := [(L "a", L " #include ""b""" ++ vr_nl ++ L "x=1" ++ vr_nl ++ L "y=2" ++ vr_nl); (L "b", L "z=3" ++ vr_nl)].
Theorem C67_in_place_refuted : exists fs evs, (exists text, VgReads fs (L "a") text evs (Ok tt)) /\
  fs (L "a") = Ok (L " #include ""b""" ++ vr_nl ++ L "x=1" ++ vr_nl ++ L "y=2" ++ vr_nl) /\ fs (L "b") = Ok (L "z=3" ++ vr_nl) /\
  vr_show evs = [(L "a", 1, L " #include ""b""", []); (L "a", 2, L "x=1", []); (L "b", 1, L "z=3", []); (L "a", 3, L "y=2", [])].
Proof. exists (vr_fs vr_2), (vr_run vr_2). split; [vr_says|]. repeat split; vm_compute; reflexivity. Qed.
Print Assumptions C67_in_place_refuted.
(* As last line it is given and its file is there, but not a line of it is read,
   and nothing is said but for the blank. *)
Definition vr_3 : list (str * bytes) := [(L "a", L "x=1" ++ vr_nl ++ vr_nl ++ vr_nl ++ L " #include ""b""" ++ vr_nl); (L "b", L "z=3" ++ vr_nl)].
Theorem C67_included_refuted : exists fs evs, (exists text, VgReads fs (L "a") text evs (Ok tt)) /\
  fs (L "a") = Ok (L "x=1" ++ vr_nl ++ vr_nl ++ vr_nl ++ L " #include ""b""" ++ vr_nl) /\ fs (L "b") = Ok (L "z=3" ++ vr_nl) /\
  vr_show evs = [(L "a", 1, L "x=1", []); (L "a", 2, [], []); (L "a", 3, L " #include ""b""", [])] /\
  vr_msgs evs = [(W_WSH_BOL, L "a", 4); (W_WSH_BOL, L "a", 3)].
Proof. exists (vr_fs vr_3), (vr_run vr_3). split; [vr_says|]. repeat split; vm_compute; reflexivity. Qed.
Print Assumptions C67_included_refuted.
(* The last line of an included file is continued by the file that includes it. *)
Definition vr_4 : list (str * bytes) := [(L "a", L "#include ""b""" ++ vr_nl ++ L " y" ++ vr_nl); (L "b", L "z=3" ++ vr_nl)].
Theorem C67_own_lines_refuted : exists fs evs, (exists text, VgReads fs (L "a") text evs (Ok tt)) /\
  fs (L "a") = Ok (L "#include ""b""" ++ vr_nl ++ L " y" ++ vr_nl) /\ fs (L "b") = Ok (L "z=3" ++ vr_nl) /\
  vr_show evs = [(L "a", 1, L "#include ""b""", []); (L "b", 1, L "z=3 y", [])] /\ vr_msgs evs = [].
Proof. exists (vr_fs vr_4), (vr_run vr_4). split; [vr_says|]. repeat split; vm_compute; reflexivity. Qed.
Print Assumptions C67_own_lines_refuted.
(* Of two includes the second can be read first. *)
Definition vr_5 : list (str * bytes) := [(L "a", L "	#include ""b""" ++ vr_nl ++ L "#include ""c""" ++ vr_nl); (L "b", L "y=2" ++ vr_nl); (L "c", L "z=3" ++ vr_nl)].
Theorem C67_order_refuted : exists fs evs, (exists text, VgReads fs (L "a") text evs (Ok tt)) /\
  fs (L "a") = Ok (L "	#include ""b""" ++ vr_nl ++ L "#include ""c""" ++ vr_nl) /\ fs (L "b") = Ok (L "y=2" ++ vr_nl) /\ fs (L "c") = Ok (L "z=3" ++ vr_nl) /\
  vr_show evs = [(L "a", 1, L "	#include ""b""", []); (L "a", 2, L "#include ""c""", []); (L "c", 1, L "z=3", []); (L "b", 1, L "y=2", [])].
Proof. exists (vr_fs vr_5), (vr_run vr_5). split; [vr_says|]. repeat split; vm_compute; reflexivity. Qed.
Print Assumptions C67_order_refuted.
