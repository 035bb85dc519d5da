(* The unit tests of tests/file, evaluated on the model. *)
From Verif Require Import Base Utf8 PyStr Defines FileRd Config VSpace Pattern Var VarFun AppM Tables Dialplan Aggregator Tests_Util.


(* tests/file/test_comments.py:23 *)
Definition fs_t_comments_CommentsTest_test_normal : fsys := fs_of [(L "test.conf", lines [L ";; vim: set fenc=utf-8 et:"; L ";; A short explanation about this,"; 
     L ";; and that."; []; 
     L "[general] ; the general context must exist, blah blah"; L "; The magic flag must be enabled for the frobnication to work."; 
     L "magic=yes   ; once upon a time, there was a long"; L "            ; help text that spanned multiple lines."; 
     L "            ; in fact, it was so long, that a comment"; L "            ; stripping parser would complain about the"; 
     L "            ; voidness."; L "frobnication=always"; 
     []; L ";; The rest of this file will hold other stuff."; 
     []; L "[stuff]"; 
     []; L "[more-stuff]"; 
     L "with_actual_values=1 ; these may certainly be duplicate"; L "with_actual_values=2"; 
     L "with_actual_values=3"; L "this_is_not_a_comment=semi\;delimited; but this is a comment"])].
Definition p_t_comments_CommentsTest_test_normal := Eval vm_compute in read_all fs_t_comments_CommentsTest_test_normal (L "test.conf").
Definition r_t_comments_CommentsTest_test_normal := snd p_t_comments_CommentsTest_test_normal.
Example t_comments_CommentsTest_test_normal : linted [] (fst p_t_comments_CommentsTest_test_normal) [(W_WSH_COMMENT, 1%nat)] = true /\
  (map (fun i => (snd (fst i))) r_t_comments_CommentsTest_test_normal) = [([] : str); ([] : str); ([] : str); ([] : str); (L "[general]"); ([] : str); (L "magic=yes"); ([] : str); ([] : str); ([] : str); ([] : str); (L "frobnication=always"); ([] : str); ([] : str); ([] : str); (L "[stuff]"); ([] : str); (L "[more-stuff]"); (L "with_actual_values=1"); (L "with_actual_values=2"); (L "with_actual_values=3"); (L "this_is_not_a_comment=semi;delimited")] /\
  (map (fun i => (snd i)) r_t_comments_CommentsTest_test_normal) = [(L ";; vim: set fenc=utf-8 et:"); (L ";; A short explanation about this,"); (L ";; and that."); ([] : str); (L " ; the general context must exist, blah blah"); (L "; The magic flag must be enabled for the frobnication to work."); (L "   ; once upon a time, there was a long"); (L "            ; help text that spanned multiple lines."); (L "            ; in fact, it was so long, that a comment"); (L "            ; stripping parser would complain about the"); (L "            ; voidness."); ([] : str); ([] : str); (L ";; The rest of this file will hold other stuff."); ([] : str); ([] : str); ([] : str); ([] : str); (L " ; these may certainly be duplicate"); ([] : str); ([] : str); (L "; but this is a comment")].
Proof. vm_compute. repeat split. Qed.

(* tests/file/test_comments.py:103 *)
Definition fs_t_comments_CommentsTest_test_escaped_space : fsys := fs_of [(L "test.conf", lines [L "[general]"; L "value1=\ "; 
     L "value2=\  ; with comment"; L "value3=\; ; with comment"; 
     L "value4=\\;\;; with comment"])].
Definition p_t_comments_CommentsTest_test_escaped_space := Eval vm_compute in read_all fs_t_comments_CommentsTest_test_escaped_space (L "test.conf").
Definition r_t_comments_CommentsTest_test_escaped_space := snd p_t_comments_CommentsTest_test_escaped_space.
Example t_comments_CommentsTest_test_escaped_space : linted [] (fst p_t_comments_CommentsTest_test_escaped_space) [(W_WSH_COMMENT, 1%nat); (W_WSH_EOL, 1%nat)] = true /\
  (map (fun i => (snd (fst i))) r_t_comments_CommentsTest_test_escaped_space) = [(L "[general]"); (L "value1=\"); (L "value2=\"); (L "value3=;"); (L "value4=\;;")] /\
  (map (fun i => (snd i)) r_t_comments_CommentsTest_test_escaped_space) = [([] : str); ([] : str); (L "  ; with comment"); (L " ; with comment"); (L "; with comment")].
Proof. vm_compute. repeat split. Qed.

(* tests/file/test_ctrl.py:21 *)
Definition fs_t_ctrl_CtrlTest_test_ctrl : fsys := fs_of [(L "test.conf", lines [L "[context]" ++ [0]; L "variable=value" ++ [11]; 
     L "other=value"])].
Definition p_t_ctrl_CtrlTest_test_ctrl := Eval vm_compute in read_all fs_t_ctrl_CtrlTest_test_ctrl (L "test.conf").
Definition r_t_ctrl_CtrlTest_test_ctrl := snd p_t_ctrl_CtrlTest_test_ctrl.
Example t_ctrl_CtrlTest_test_ctrl : linted [] (fst p_t_ctrl_CtrlTest_test_ctrl) [(W_FILE_CTRL_CHAR, 2%nat)] = true /\
  N.of_nat (length r_t_ctrl_CtrlTest_test_ctrl) = 3.
Proof. vm_compute. repeat split. Qed.

(* tests/file/test_encoding.py:21 *)
Definition fs_t_encoding_EncodingTest_test_utf8 : fsys := fs_of [(L "utf8.conf", lines [L "[c" ++ [195; 182] ++ L "ntext]"; L "variable=value"])].
Definition p_t_encoding_EncodingTest_test_utf8 := Eval vm_compute in read_all fs_t_encoding_EncodingTest_test_utf8 (L "utf8.conf").
Definition r_t_encoding_EncodingTest_test_utf8 := snd p_t_encoding_EncodingTest_test_utf8.
Example t_encoding_EncodingTest_test_utf8 : linted [] (fst p_t_encoding_EncodingTest_test_utf8) [] = true /\
  N.of_nat (length r_t_encoding_EncodingTest_test_utf8) = 2 /\
  (snd (fst (nth 0 r_t_encoding_EncodingTest_test_utf8 no_line))) = (L "[c" ++ [246] ++ L "ntext]").
Proof. vm_compute. repeat split. Qed.

(* tests/file/test_encoding.py:31 *)
Definition fs_t_encoding_EncodingTest_test_cp1252 : fsys := fs_of [(L "cp1252.conf", lines [L "[cont" ++ [128] ++ L "xt]"; L "variable=value"])].
Definition p_t_encoding_EncodingTest_test_cp1252 := Eval vm_compute in read_all fs_t_encoding_EncodingTest_test_cp1252 (L "cp1252.conf").
Definition r_t_encoding_EncodingTest_test_cp1252 := snd p_t_encoding_EncodingTest_test_cp1252.
Example t_encoding_EncodingTest_test_cp1252 : linted [] (fst p_t_encoding_EncodingTest_test_cp1252) [(E_FILE_UTF8_BAD, 1%nat)] = true /\
  N.of_nat (length r_t_encoding_EncodingTest_test_cp1252) = 2 /\
  (snd (fst (nth 0 r_t_encoding_EncodingTest_test_cp1252 no_line))) = (L "[cont" ++ [8364] ++ L "xt]").
Proof. vm_compute. repeat split. Qed.

(* tests/file/test_encoding.py:42 *)
Definition fs_t_encoding_EncodingTest_test_utf8_and_cp1252 : fsys := fs_of [(L "encodingmess.conf", lines [L "[c" ++ [195; 182] ++ L "nt" ++ [128] ++ L "xt]"; L "variable=value"])].
Definition p_t_encoding_EncodingTest_test_utf8_and_cp1252 := Eval vm_compute in read_all fs_t_encoding_EncodingTest_test_utf8_and_cp1252 (L "encodingmess.conf").
Definition r_t_encoding_EncodingTest_test_utf8_and_cp1252 := snd p_t_encoding_EncodingTest_test_utf8_and_cp1252.
Example t_encoding_EncodingTest_test_utf8_and_cp1252 : linted [] (fst p_t_encoding_EncodingTest_test_utf8_and_cp1252) [(E_FILE_UTF8_BAD, 1%nat)] = true /\
  N.of_nat (length r_t_encoding_EncodingTest_test_utf8_and_cp1252) = 2 /\
  (snd (fst (nth 0 r_t_encoding_EncodingTest_test_utf8_and_cp1252 no_line))) = (L "[c" ++ [195; 182] ++ L "nt" ++ [8364] ++ L "xt]").
Proof. vm_compute. repeat split. Qed.

(* tests/file/test_normal.py:21 *)
Definition fs_t_normal_NormalTest_test_normal : fsys := fs_of [(L "test.conf", lines [L "[context]"; L "variable=value"; 
     L "other=value"; []; 
     L "[context2]"; L "and_that_is=it"])].
Definition p_t_normal_NormalTest_test_normal := Eval vm_compute in read_all fs_t_normal_NormalTest_test_normal (L "test.conf").
Definition r_t_normal_NormalTest_test_normal := snd p_t_normal_NormalTest_test_normal.
Example t_normal_NormalTest_test_normal : linted [] (fst p_t_normal_NormalTest_test_normal) [] = true /\
  N.of_nat (length r_t_normal_NormalTest_test_normal) = 6 /\
  (w_file (fst (fst (nth 0 r_t_normal_NormalTest_test_normal no_line)))) = (L "test.conf") /\
  (w_line (fst (fst (nth 0 r_t_normal_NormalTest_test_normal no_line)))) = 1 /\
  (w_text (fst (fst (nth 0 r_t_normal_NormalTest_test_normal no_line)))) = (L "[context]" ++ [10]) /\
  (snd (fst (nth 0 r_t_normal_NormalTest_test_normal no_line))) = (L "[context]") /\
  (w_file (fst (fst (nth 1 r_t_normal_NormalTest_test_normal no_line)))) = (L "test.conf") /\
  (w_line (fst (fst (nth 1 r_t_normal_NormalTest_test_normal no_line)))) = 2 /\
  (w_text (fst (fst (nth 1 r_t_normal_NormalTest_test_normal no_line)))) = (L "variable=value" ++ [10]) /\
  (snd (fst (nth 1 r_t_normal_NormalTest_test_normal no_line))) = (L "variable=value") /\
  (w_line (fst (fst (nth 5 r_t_normal_NormalTest_test_normal no_line)))) = 6 /\
  (snd (fst (nth 5 r_t_normal_NormalTest_test_normal no_line))) = (L "and_that_is=it").
Proof. vm_compute. repeat split. Qed.

(* tests/file/test_unixdos.py:28 *)
Definition fs_t_unixdos_UnixDosTest_test_dos_with_bare_lf_1 : fsys := fs_of [(L "test.conf", (L "[context]" ++ [13; 10] ++ L "variable=value" ++ [10] ++ L "other=value"))].
Definition p_t_unixdos_UnixDosTest_test_dos_with_bare_lf_1 := Eval vm_compute in read_all fs_t_unixdos_UnixDosTest_test_dos_with_bare_lf_1 (L "test.conf").
Definition r_t_unixdos_UnixDosTest_test_dos_with_bare_lf_1 := snd p_t_unixdos_UnixDosTest_test_dos_with_bare_lf_1.
Example t_unixdos_UnixDosTest_test_dos_with_bare_lf_1 : linted [] (fst p_t_unixdos_UnixDosTest_test_dos_with_bare_lf_1) [(W_FILE_DOS_BARELF, 1%nat)] = true /\
  N.of_nat (length r_t_unixdos_UnixDosTest_test_dos_with_bare_lf_1) = 3 /\
  (snd (fst (nth 0 r_t_unixdos_UnixDosTest_test_dos_with_bare_lf_1 no_line))) = (L "[context]") /\
  (snd (fst (nth 1 r_t_unixdos_UnixDosTest_test_dos_with_bare_lf_1 no_line))) = (L "variable=value") /\
  (snd (fst (nth 2 r_t_unixdos_UnixDosTest_test_dos_with_bare_lf_1 no_line))) = (L "other=value").
Proof. vm_compute. repeat split. Qed.

(* tests/file/test_unixdos.py:35 *)
Definition fs_t_unixdos_UnixDosTest_test_dos_with_bare_lf_2 : fsys := fs_of [(L "test.conf", lines [L "[context]" ++ [13]; L "variable=value" ++ [13]; 
     L "other=value"])].
Definition p_t_unixdos_UnixDosTest_test_dos_with_bare_lf_2 := Eval vm_compute in read_all fs_t_unixdos_UnixDosTest_test_dos_with_bare_lf_2 (L "test.conf").
Definition r_t_unixdos_UnixDosTest_test_dos_with_bare_lf_2 := snd p_t_unixdos_UnixDosTest_test_dos_with_bare_lf_2.
Example t_unixdos_UnixDosTest_test_dos_with_bare_lf_2 : linted [] (fst p_t_unixdos_UnixDosTest_test_dos_with_bare_lf_2) [(W_FILE_DOS_BARELF, 1%nat); (W_FILE_DOS_EOFCRLF, 1%nat)] = true /\
  N.of_nat (length r_t_unixdos_UnixDosTest_test_dos_with_bare_lf_2) = 3 /\
  (snd (fst (nth 0 r_t_unixdos_UnixDosTest_test_dos_with_bare_lf_2 no_line))) = (L "[context]") /\
  (snd (fst (nth 1 r_t_unixdos_UnixDosTest_test_dos_with_bare_lf_2 no_line))) = (L "variable=value") /\
  (snd (fst (nth 2 r_t_unixdos_UnixDosTest_test_dos_with_bare_lf_2 no_line))) = (L "other=value").
Proof. vm_compute. repeat split. Qed.

(* tests/file/test_unixdos.py:44 *)
Definition fs_t_unixdos_UnixDosTest_test_dos_with_crlf_at_eof : fsys := fs_of [(L "test.conf", lines [L "[context]" ++ [13]; L "variable=value" ++ [13]; 
     L "other=value" ++ [13]])].
Definition p_t_unixdos_UnixDosTest_test_dos_with_crlf_at_eof := Eval vm_compute in read_all fs_t_unixdos_UnixDosTest_test_dos_with_crlf_at_eof (L "test.conf").
Definition r_t_unixdos_UnixDosTest_test_dos_with_crlf_at_eof := snd p_t_unixdos_UnixDosTest_test_dos_with_crlf_at_eof.
Example t_unixdos_UnixDosTest_test_dos_with_crlf_at_eof : linted [] (fst p_t_unixdos_UnixDosTest_test_dos_with_crlf_at_eof) [(W_FILE_DOS_EOFCRLF, 1%nat)] = true /\
  N.of_nat (length r_t_unixdos_UnixDosTest_test_dos_with_crlf_at_eof) = 3 /\
  (snd (fst (nth 0 r_t_unixdos_UnixDosTest_test_dos_with_crlf_at_eof no_line))) = (L "[context]") /\
  (snd (fst (nth 1 r_t_unixdos_UnixDosTest_test_dos_with_crlf_at_eof no_line))) = (L "variable=value") /\
  (snd (fst (nth 2 r_t_unixdos_UnixDosTest_test_dos_with_crlf_at_eof no_line))) = (L "other=value").
Proof. vm_compute. repeat split. Qed.

(* tests/file/test_unixdos.py:51 *)
Definition fs_t_unixdos_UnixDosTest_test_unix_without_lf : fsys := fs_of [(L "test.conf", (L "[context]" ++ [10] ++ L "variable=value" ++ [10] ++ L "other=value"))].
Definition p_t_unixdos_UnixDosTest_test_unix_without_lf := Eval vm_compute in read_all fs_t_unixdos_UnixDosTest_test_unix_without_lf (L "test.conf").
Definition r_t_unixdos_UnixDosTest_test_unix_without_lf := snd p_t_unixdos_UnixDosTest_test_unix_without_lf.
Example t_unixdos_UnixDosTest_test_unix_without_lf : linted [] (fst p_t_unixdos_UnixDosTest_test_unix_without_lf) [(W_FILE_UNIX_NOLF, 1%nat)] = true /\
  N.of_nat (length r_t_unixdos_UnixDosTest_test_unix_without_lf) = 3 /\
  (snd (fst (nth 0 r_t_unixdos_UnixDosTest_test_unix_without_lf no_line))) = (L "[context]") /\
  (snd (fst (nth 1 r_t_unixdos_UnixDosTest_test_unix_without_lf no_line))) = (L "variable=value") /\
  (snd (fst (nth 2 r_t_unixdos_UnixDosTest_test_unix_without_lf no_line))) = (L "other=value").
Proof. vm_compute. repeat split. Qed.

(* tests/file/test_unixdos.py:58 *)
Definition fs_t_unixdos_UnixDosTest_test_unix_with_crlf : fsys := fs_of [(L "test.conf", lines [L "[context]"; L "variable=value" ++ [13]; 
     L "other=value"])].
Definition p_t_unixdos_UnixDosTest_test_unix_with_crlf := Eval vm_compute in read_all fs_t_unixdos_UnixDosTest_test_unix_with_crlf (L "test.conf").
Definition r_t_unixdos_UnixDosTest_test_unix_with_crlf := snd p_t_unixdos_UnixDosTest_test_unix_with_crlf.
Example t_unixdos_UnixDosTest_test_unix_with_crlf : linted [] (fst p_t_unixdos_UnixDosTest_test_unix_with_crlf) [(W_FILE_UNIX_CRLF, 1%nat)] = true /\
  N.of_nat (length r_t_unixdos_UnixDosTest_test_unix_with_crlf) = 3 /\
  (snd (fst (nth 0 r_t_unixdos_UnixDosTest_test_unix_with_crlf no_line))) = (L "[context]") /\
  (snd (fst (nth 1 r_t_unixdos_UnixDosTest_test_unix_with_crlf no_line))) = (L "variable=value") /\
  (snd (fst (nth 2 r_t_unixdos_UnixDosTest_test_unix_with_crlf no_line))) = (L "other=value").
Proof. vm_compute. repeat split. Qed.

(* tests/file/test_comments.py:136 *)
Example t_comments_test_no_problem :
  linted [] (flat_map (fun s => fst (read_all (fs_of [(L "test.conf", s ++ [10])]) (L "test.conf"))) [L ";\;"; L "x\;x"; L "x\;x ;no problem"]) [] = true.
Proof. vm_compute. reflexivity. Qed.

(* tests/file/test_comments.py:141 *)
Example t_comments_test_missing_space :
  linted [] (flat_map (fun s => fst (read_all (fs_of [(L "test.conf", s ++ [10])]) (L "test.conf"))) [L "x=y;"]) [(W_WSH_COMMENT, 1%nat)] = true.
Proof. vm_compute. reflexivity. Qed.

(* tests/file/test_comments.py:147 *)
Example t_comments_test_missing_space_after_escaped_semi :
  linted [] (flat_map (fun s => fst (read_all (fs_of [(L "test.conf", s ++ [10])]) (L "test.conf"))) [L "x=y\;z;"]) [(W_WSH_COMMENT, 1%nat)] = true.
Proof. vm_compute. reflexivity. Qed.
