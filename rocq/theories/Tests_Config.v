(* The unit tests of tests/config, evaluated on the model. *)
From Verif Require Import Base Utf8 PyStr Defines FileRd Config VSpace Pattern Var VarFun AppM Tables Dialplan Aggregator Tests_Util.


(* tests/config/test_include.py:43 *)
Definition fs_t_include_NormalTest_test_normal : fsys := fs_of [(L "test.conf", lines [L "[context1]"; L "variable=value"; 
     L "#include ""test2.conf"""; L "variable2=value2"]);
  (L "test2.conf", lines [L "#include ""test3.conf"""; L "variable3=value3"; 
     L "variable4=value4"]);
  (L "test3.conf", lines [L "variable5=value5"; []; 
     L "[context2]"; L "variable6=value6"])].
Definition p_t_include_NormalTest_test_normal := Eval vm_compute in run_config fs_t_include_NormalTest_test_normal (L "test.conf").
Definition r_t_include_NormalTest_test_normal := snd p_t_include_NormalTest_test_normal.
Example t_include_NormalTest_test_normal : linted [] (fst p_t_include_NormalTest_test_normal) [] = true /\
  (map (fun i => (c_name (fst i))) r_t_include_NormalTest_test_normal) = [(L "context1"); (L "context2")] /\
  (map (fun i => ((w_file (v_where i)), (w_line (v_where i)), (v_variable i), (v_value i))) (snd (nth 0 r_t_include_NormalTest_test_normal no_sec))) = [((L "test.conf"), 2, (L "variable"), (L "value")); ((L "test3.conf"), 1, (L "variable5"), (L "value5"))] /\
  (map (fun i => ((w_file (v_where i)), (w_line (v_where i)), (v_variable i), (v_value i))) (snd (nth 1 r_t_include_NormalTest_test_normal no_sec))) = [((L "test3.conf"), 4, (L "variable6"), (L "value6")); ((L "test2.conf"), 2, (L "variable3"), (L "value3")); ((L "test2.conf"), 3, (L "variable4"), (L "value4")); ((L "test.conf"), 4, (L "variable2"), (L "value2"))].
Proof. vm_compute. repeat split. Qed.

(* tests/config/test_include.py:84 *)
Definition fs_t_include_LineNumberTest_test_correct_linenumber : fsys := fs_of [(L "test.conf", lines [L "[context1]"; L "#include ""test2.conf"""; 
     L "variable=value  ; line 3"]);
  (L "test2.conf", lines [L "variable2=value2"])].
Definition p_t_include_LineNumberTest_test_correct_linenumber := Eval vm_compute in run_config fs_t_include_LineNumberTest_test_correct_linenumber (L "test.conf").
Definition r_t_include_LineNumberTest_test_correct_linenumber := snd p_t_include_LineNumberTest_test_correct_linenumber.
Example t_include_LineNumberTest_test_correct_linenumber : linted [] (fst p_t_include_LineNumberTest_test_correct_linenumber) [] = true /\
  (map (fun i => (c_name (fst i))) r_t_include_LineNumberTest_test_correct_linenumber) = [(L "context1")] /\
  (map (fun i => ((w_file (v_where i)), (w_line (v_where i)), (v_variable i), (v_value i))) (snd (nth 0 r_t_include_LineNumberTest_test_correct_linenumber no_sec))) = [((L "test2.conf"), 1, (L "variable2"), (L "value2")); ((L "test.conf"), 3, (L "variable"), (L "value"))].
Proof. vm_compute. repeat split. Qed.

(* tests/config/test_include.py:115 *)
Definition fs_t_include_WithBlanksTest_test_with_leading_blanks : fsys := fs_of [(L "test.conf", lines [L "  [context1]"; L " variable=value"; 
     L "   #include" ++ [1; 2] ++ L """test2.conf"""; L "variable2=value2  ; line 4 (and not line 3, keep this test!)"]);
  (L "test2.conf", lines [L "  variable3 = value3"; L "  ; this is line 2"; 
     L " variable4 = value4"])].
Definition p_t_include_WithBlanksTest_test_with_leading_blanks := Eval vm_compute in run_config fs_t_include_WithBlanksTest_test_with_leading_blanks (L "test.conf").
Definition r_t_include_WithBlanksTest_test_with_leading_blanks := snd p_t_include_WithBlanksTest_test_with_leading_blanks.
Example t_include_WithBlanksTest_test_with_leading_blanks : linted [] (fst p_t_include_WithBlanksTest_test_with_leading_blanks) [(W_FILE_CTRL_CHAR, 1%nat); (W_WSH_BOL, 5%nat); (W_WSH_CTRL, 1%nat); (W_WSH_VARSET, 2%nat)] = true /\
  (map (fun i => (c_name (fst i))) r_t_include_WithBlanksTest_test_with_leading_blanks) = [(L "context1")] /\
  (map (fun i => ((w_file (v_where i)), (w_line (v_where i)), (v_variable i), (v_value i))) (snd (nth 0 r_t_include_WithBlanksTest_test_with_leading_blanks no_sec))) = [((L "test.conf"), 2, (L "variable"), (L "value")); ((L "test2.conf"), 1, (L "variable3"), (L "value3")); ((L "test2.conf"), 3, (L "variable4"), (L "value4")); ((L "test.conf"), 4, (L "variable2"), (L "value2"))].
Proof. vm_compute. repeat split. Qed.

(* tests/config/test_include.py:161 *)
Definition fs_t_include_WhiteSpaceInIncludesTest_test_with_two_bof_eof_warnings : fsys := fs_of [(L "test.conf", lines [[]; []; 
     L "[context1]"; L "variable=value"; 
     L "#include ""test2.conf"""; []; 
     L "[context3]"; L "variable3=value3"; 
     []; []]);
  (L "test2.conf", lines [[]; []; 
     L "[context2]"; L "variable2=value2"; 
     []; []])].
Definition p_t_include_WhiteSpaceInIncludesTest_test_with_two_bof_eof_warnings := Eval vm_compute in run_config fs_t_include_WhiteSpaceInIncludesTest_test_with_two_bof_eof_warnings (L "test.conf").
Definition r_t_include_WhiteSpaceInIncludesTest_test_with_two_bof_eof_warnings := snd p_t_include_WhiteSpaceInIncludesTest_test_with_two_bof_eof_warnings.
Example t_include_WhiteSpaceInIncludesTest_test_with_two_bof_eof_warnings : linted [L "H_WSV_CTX_BETWEEN"] (fst p_t_include_WhiteSpaceInIncludesTest_test_with_two_bof_eof_warnings) [(W_WSV_BOF, 2%nat); (W_WSV_EOF, 2%nat)] = true /\
  (map (fun i => (c_name (fst i))) r_t_include_WhiteSpaceInIncludesTest_test_with_two_bof_eof_warnings) = [(L "context1"); (L "context2"); (L "context3")] /\
  (map (fun i => ((w_file (v_where i)), (w_line (v_where i)), (v_variable i), (v_value i))) (snd (nth 0 r_t_include_WhiteSpaceInIncludesTest_test_with_two_bof_eof_warnings no_sec))) = [((L "test.conf"), 4, (L "variable"), (L "value"))] /\
  (map (fun i => ((w_file (v_where i)), (w_line (v_where i)), (v_variable i), (v_value i))) (snd (nth 1 r_t_include_WhiteSpaceInIncludesTest_test_with_two_bof_eof_warnings no_sec))) = [((L "test2.conf"), 4, (L "variable2"), (L "value2"))] /\
  (map (fun i => ((w_file (v_where i)), (w_line (v_where i)), (v_variable i), (v_value i))) (snd (nth 2 r_t_include_WhiteSpaceInIncludesTest_test_with_two_bof_eof_warnings no_sec))) = [((L "test.conf"), 8, (L "variable3"), (L "value3"))].
Proof. vm_compute. repeat split. Qed.

(* tests/config/test_include.py:206 *)
Definition fs_t_include_IncludeFileLastTest_test_that_this_yields_no_lint_messages : fsys := fs_of [(L "test.conf", lines [L "[context1]"; L "variable=value"; 
     []; L "#include ""test2.conf"""]);
  (L "test2.conf", lines [L "[context2]"; L "variable2=value2"])].
Definition p_t_include_IncludeFileLastTest_test_that_this_yields_no_lint_messages := Eval vm_compute in run_config fs_t_include_IncludeFileLastTest_test_that_this_yields_no_lint_messages (L "test.conf").
Definition r_t_include_IncludeFileLastTest_test_that_this_yields_no_lint_messages := snd p_t_include_IncludeFileLastTest_test_that_this_yields_no_lint_messages.
Example t_include_IncludeFileLastTest_test_that_this_yields_no_lint_messages : linted [] (fst p_t_include_IncludeFileLastTest_test_that_this_yields_no_lint_messages) [] = true.
Proof. vm_compute. repeat split. Qed.

(* tests/config/test_include.py:213 *)
Definition fs_t_include_IncludeFileLastTest_test_that_this_yields_an_eof_lint_message : fsys := fs_of [(L "test.conf", lines [L "[context1]"; L "variable=value"; 
     []; L "#include ""test2.conf"""; 
     []]);
  (L "test2.conf", lines [L "[context2]"; L "variable2=value2"])].
Definition p_t_include_IncludeFileLastTest_test_that_this_yields_an_eof_lint_message := Eval vm_compute in run_config fs_t_include_IncludeFileLastTest_test_that_this_yields_an_eof_lint_message (L "test.conf").
Definition r_t_include_IncludeFileLastTest_test_that_this_yields_an_eof_lint_message := snd p_t_include_IncludeFileLastTest_test_that_this_yields_an_eof_lint_message.
Example t_include_IncludeFileLastTest_test_that_this_yields_an_eof_lint_message : linted [] (fst p_t_include_IncludeFileLastTest_test_that_this_yields_an_eof_lint_message) [(W_WSV_EOF, 1%nat)] = true.
Proof. vm_compute. repeat split. Qed.

(* tests/config/test_normal.py:22 *)
Definition fs_t_normal_NormalTest_test_normal : fsys := fs_of [(L "test.conf", lines [L "[context]"; L "variable => value"; 
     L "other=value2"; []; 
     L "[context2]"; L "and_that_is=it"])].
Definition p_t_normal_NormalTest_test_normal := Eval vm_compute in run_config fs_t_normal_NormalTest_test_normal (L "test.conf").
Definition r_t_normal_NormalTest_test_normal := snd p_t_normal_NormalTest_test_normal.
Example t_normal_NormalTest_test_normal : linted [] (fst p_t_normal_NormalTest_test_normal) [] = true /\
  N.of_nat (length r_t_normal_NormalTest_test_normal) = 2 /\
  (c_name (fst (nth 0 r_t_normal_NormalTest_test_normal no_sec))) = (L "context") /\
  N.of_nat (length (snd (nth 0 r_t_normal_NormalTest_test_normal no_sec))) = 2 /\
  (c_name (fst (nth 1 r_t_normal_NormalTest_test_normal no_sec))) = (L "context2") /\
  N.of_nat (length (snd (nth 1 r_t_normal_NormalTest_test_normal no_sec))) = 1 /\
  (v_variable (nth 0 (snd (nth 0 r_t_normal_NormalTest_test_normal no_sec)) no_var)) = (L "variable") /\
  (v_value (nth 0 (snd (nth 0 r_t_normal_NormalTest_test_normal no_sec)) no_var)) = (L "value") /\
  (v_arrow (nth 0 (snd (nth 0 r_t_normal_NormalTest_test_normal no_sec)) no_var)) = Some true /\
  (v_variable (nth 1 (snd (nth 0 r_t_normal_NormalTest_test_normal no_sec)) no_var)) = (L "other") /\
  (v_value (nth 1 (snd (nth 0 r_t_normal_NormalTest_test_normal no_sec)) no_var)) = (L "value2") /\
  (v_arrow (nth 1 (snd (nth 0 r_t_normal_NormalTest_test_normal no_sec)) no_var)) = Some false /\
  (map (fun i => ((v_variable i), (v_value i))) (snd (nth 1 r_t_normal_NormalTest_test_normal no_sec))) = [((L "and_that_is"), (L "it"))].
Proof. vm_compute. repeat split. Qed.

(* tests/config/test_ws.py:31 *)
Definition fs_t_ws_HorizontalWhitespaceTest_test_wsh_bol_1 : fsys := fs_of [(L "test.conf", lines [L " [context]"])].
Definition p_t_ws_HorizontalWhitespaceTest_test_wsh_bol_1 := Eval vm_compute in run_config fs_t_ws_HorizontalWhitespaceTest_test_wsh_bol_1 (L "test.conf").
Definition r_t_ws_HorizontalWhitespaceTest_test_wsh_bol_1 := snd p_t_ws_HorizontalWhitespaceTest_test_wsh_bol_1.
Example t_ws_HorizontalWhitespaceTest_test_wsh_bol_1 : linted [] (fst p_t_ws_HorizontalWhitespaceTest_test_wsh_bol_1) [(W_WSH_BOL, 1%nat)] = true /\
  N.of_nat (length r_t_ws_HorizontalWhitespaceTest_test_wsh_bol_1) = 1.
Proof. vm_compute. repeat split. Qed.

(* tests/config/test_ws.py:39 *)
Definition fs_t_ws_HorizontalWhitespaceTest_test_wsh_bol_2 : fsys := fs_of [(L "test.conf", lines [L "[context]"; L "  foo=bar"])].
Definition p_t_ws_HorizontalWhitespaceTest_test_wsh_bol_2 := Eval vm_compute in run_config fs_t_ws_HorizontalWhitespaceTest_test_wsh_bol_2 (L "test.conf").
Definition r_t_ws_HorizontalWhitespaceTest_test_wsh_bol_2 := snd p_t_ws_HorizontalWhitespaceTest_test_wsh_bol_2.
Example t_ws_HorizontalWhitespaceTest_test_wsh_bol_2 : linted [] (fst p_t_ws_HorizontalWhitespaceTest_test_wsh_bol_2) [(W_WSH_BOL, 1%nat)] = true /\
  N.of_nat (length r_t_ws_HorizontalWhitespaceTest_test_wsh_bol_2) = 1 /\
  (c_name (fst (nth 0 r_t_ws_HorizontalWhitespaceTest_test_wsh_bol_2 no_sec))) = (L "context") /\
  N.of_nat (length (snd (nth 0 r_t_ws_HorizontalWhitespaceTest_test_wsh_bol_2 no_sec))) = 1 /\
  (v_variable (nth 0 (snd (nth 0 r_t_ws_HorizontalWhitespaceTest_test_wsh_bol_2 no_sec)) no_var)) = (L "foo") /\
  (v_value (nth 0 (snd (nth 0 r_t_ws_HorizontalWhitespaceTest_test_wsh_bol_2 no_sec)) no_var)) = (L "bar").
Proof. vm_compute. repeat split. Qed.

(* tests/config/test_ws.py:47 *)
Definition fs_t_ws_HorizontalWhitespaceTest_test_wsh_bol_3 : fsys := fs_of [(L "test.conf", lines [L "[context]"; [9] ++ L " foo=bar"])].
Definition p_t_ws_HorizontalWhitespaceTest_test_wsh_bol_3 := Eval vm_compute in run_config fs_t_ws_HorizontalWhitespaceTest_test_wsh_bol_3 (L "test.conf").
Definition r_t_ws_HorizontalWhitespaceTest_test_wsh_bol_3 := snd p_t_ws_HorizontalWhitespaceTest_test_wsh_bol_3.
Example t_ws_HorizontalWhitespaceTest_test_wsh_bol_3 : linted [] (fst p_t_ws_HorizontalWhitespaceTest_test_wsh_bol_3) [(W_WSH_BOL, 1%nat)] = true /\
  N.of_nat (length r_t_ws_HorizontalWhitespaceTest_test_wsh_bol_3) = 1 /\
  (c_name (fst (nth 0 r_t_ws_HorizontalWhitespaceTest_test_wsh_bol_3 no_sec))) = (L "context") /\
  N.of_nat (length (snd (nth 0 r_t_ws_HorizontalWhitespaceTest_test_wsh_bol_3 no_sec))) = 1 /\
  (v_variable (nth 0 (snd (nth 0 r_t_ws_HorizontalWhitespaceTest_test_wsh_bol_3 no_sec)) no_var)) = (L "foo") /\
  (v_value (nth 0 (snd (nth 0 r_t_ws_HorizontalWhitespaceTest_test_wsh_bol_3 no_sec)) no_var)) = (L "bar").
Proof. vm_compute. repeat split. Qed.

(* tests/config/test_ws.py:55 *)
Definition fs_t_ws_HorizontalWhitespaceTest_test_wsh_eol : fsys := fs_of [(L "test.conf", lines [L "[context] "; L "foo=bar "])].
Definition p_t_ws_HorizontalWhitespaceTest_test_wsh_eol := Eval vm_compute in run_config fs_t_ws_HorizontalWhitespaceTest_test_wsh_eol (L "test.conf").
Definition r_t_ws_HorizontalWhitespaceTest_test_wsh_eol := snd p_t_ws_HorizontalWhitespaceTest_test_wsh_eol.
Example t_ws_HorizontalWhitespaceTest_test_wsh_eol : linted [] (fst p_t_ws_HorizontalWhitespaceTest_test_wsh_eol) [(W_WSH_EOL, 2%nat)] = true /\
  N.of_nat (length r_t_ws_HorizontalWhitespaceTest_test_wsh_eol) = 1 /\
  (c_name (fst (nth 0 r_t_ws_HorizontalWhitespaceTest_test_wsh_eol no_sec))) = (L "context") /\
  N.of_nat (length (snd (nth 0 r_t_ws_HorizontalWhitespaceTest_test_wsh_eol no_sec))) = 1 /\
  (v_variable (nth 0 (snd (nth 0 r_t_ws_HorizontalWhitespaceTest_test_wsh_eol no_sec)) no_var)) = (L "foo") /\
  (v_value (nth 0 (snd (nth 0 r_t_ws_HorizontalWhitespaceTest_test_wsh_eol no_sec)) no_var)) = (L "bar").
Proof. vm_compute. repeat split. Qed.

(* tests/config/test_ws.py:62 *)
Definition fs_t_ws_HorizontalWhitespaceTest_test_wsh_varset : fsys := fs_of [(L "test.conf", lines [L "[context]"; L "foo = bar"])].
Definition p_t_ws_HorizontalWhitespaceTest_test_wsh_varset := Eval vm_compute in run_config fs_t_ws_HorizontalWhitespaceTest_test_wsh_varset (L "test.conf").
Definition r_t_ws_HorizontalWhitespaceTest_test_wsh_varset := snd p_t_ws_HorizontalWhitespaceTest_test_wsh_varset.
Example t_ws_HorizontalWhitespaceTest_test_wsh_varset : linted [] (fst p_t_ws_HorizontalWhitespaceTest_test_wsh_varset) [(W_WSH_VARSET, 1%nat)] = true /\
  N.of_nat (length r_t_ws_HorizontalWhitespaceTest_test_wsh_varset) = 1 /\
  (c_name (fst (nth 0 r_t_ws_HorizontalWhitespaceTest_test_wsh_varset no_sec))) = (L "context") /\
  N.of_nat (length (snd (nth 0 r_t_ws_HorizontalWhitespaceTest_test_wsh_varset no_sec))) = 1 /\
  (v_variable (nth 0 (snd (nth 0 r_t_ws_HorizontalWhitespaceTest_test_wsh_varset no_sec)) no_var)) = (L "foo") /\
  (v_value (nth 0 (snd (nth 0 r_t_ws_HorizontalWhitespaceTest_test_wsh_varset no_sec)) no_var)) = (L "bar").
Proof. vm_compute. repeat split. Qed.

(* tests/config/test_ws.py:69 *)
Definition fs_t_ws_HorizontalWhitespaceTest_test_wsh_objset : fsys := fs_of [(L "test.conf", lines [L "[context]"; L "foo=>bar"])].
Definition p_t_ws_HorizontalWhitespaceTest_test_wsh_objset := Eval vm_compute in run_config fs_t_ws_HorizontalWhitespaceTest_test_wsh_objset (L "test.conf").
Definition r_t_ws_HorizontalWhitespaceTest_test_wsh_objset := snd p_t_ws_HorizontalWhitespaceTest_test_wsh_objset.
Example t_ws_HorizontalWhitespaceTest_test_wsh_objset : linted [] (fst p_t_ws_HorizontalWhitespaceTest_test_wsh_objset) [(W_WSH_OBJSET, 1%nat)] = true /\
  N.of_nat (length r_t_ws_HorizontalWhitespaceTest_test_wsh_objset) = 1 /\
  (c_name (fst (nth 0 r_t_ws_HorizontalWhitespaceTest_test_wsh_objset no_sec))) = (L "context") /\
  N.of_nat (length (snd (nth 0 r_t_ws_HorizontalWhitespaceTest_test_wsh_objset no_sec))) = 1 /\
  (v_variable (nth 0 (snd (nth 0 r_t_ws_HorizontalWhitespaceTest_test_wsh_objset no_sec)) no_var)) = (L "foo") /\
  (v_value (nth 0 (snd (nth 0 r_t_ws_HorizontalWhitespaceTest_test_wsh_objset no_sec)) no_var)) = (L "bar").
Proof. vm_compute. repeat split. Qed.

(* tests/config/test_ws.py:98 *)
Definition fs_t_ws_VerticalWhitespaceTest_test_wsv_bof : fsys := fs_of [(L "test.conf", lines [[]; L "[context]"; 
     L "foo=bar"; L "foo2=bar2"; 
     L "foo3=bar3"; []; 
     L "[context2]"; L "bar=baz"])].
Definition p_t_ws_VerticalWhitespaceTest_test_wsv_bof := Eval vm_compute in run_config fs_t_ws_VerticalWhitespaceTest_test_wsv_bof (L "test.conf").
Definition r_t_ws_VerticalWhitespaceTest_test_wsv_bof := snd p_t_ws_VerticalWhitespaceTest_test_wsv_bof.
Example t_ws_VerticalWhitespaceTest_test_wsv_bof : linted [] (fst p_t_ws_VerticalWhitespaceTest_test_wsv_bof) [(W_WSV_BOF, 1%nat)] = true /\
  N.of_nat (length r_t_ws_VerticalWhitespaceTest_test_wsv_bof) = 2 /\
  (c_name (fst (nth 0 r_t_ws_VerticalWhitespaceTest_test_wsv_bof no_sec))) = (L "context") /\
  (c_name (fst (nth 1 r_t_ws_VerticalWhitespaceTest_test_wsv_bof no_sec))) = (L "context2") /\
  N.of_nat (length (snd (nth 0 r_t_ws_VerticalWhitespaceTest_test_wsv_bof no_sec))) = 3 /\
  (v_variable (nth 0 (snd (nth 0 r_t_ws_VerticalWhitespaceTest_test_wsv_bof no_sec)) no_var)) = (L "foo") /\
  (v_value (nth 0 (snd (nth 0 r_t_ws_VerticalWhitespaceTest_test_wsv_bof no_sec)) no_var)) = (L "bar") /\
  (v_variable (nth 1 (snd (nth 0 r_t_ws_VerticalWhitespaceTest_test_wsv_bof no_sec)) no_var)) = (L "foo2") /\
  (v_value (nth 1 (snd (nth 0 r_t_ws_VerticalWhitespaceTest_test_wsv_bof no_sec)) no_var)) = (L "bar2") /\
  (v_variable (nth 2 (snd (nth 0 r_t_ws_VerticalWhitespaceTest_test_wsv_bof no_sec)) no_var)) = (L "foo3") /\
  (v_value (nth 2 (snd (nth 0 r_t_ws_VerticalWhitespaceTest_test_wsv_bof no_sec)) no_var)) = (L "bar3") /\
  N.of_nat (length (snd (nth 1 r_t_ws_VerticalWhitespaceTest_test_wsv_bof no_sec))) = 1 /\
  (v_variable (nth 0 (snd (nth 1 r_t_ws_VerticalWhitespaceTest_test_wsv_bof no_sec)) no_var)) = (L "bar") /\
  (v_value (nth 0 (snd (nth 1 r_t_ws_VerticalWhitespaceTest_test_wsv_bof no_sec)) no_var)) = (L "baz").
Proof. vm_compute. repeat split. Qed.

(* tests/config/test_ws.py:114 *)
Definition fs_t_ws_VerticalWhitespaceTest_test_wsv_eof : fsys := fs_of [(L "test.conf", lines [L "[context]"; L "foo=bar"; 
     L "foo2=bar2"; L "foo3=bar3"; 
     []; L "[context2]"; 
     L "bar=baz"; []])].
Definition p_t_ws_VerticalWhitespaceTest_test_wsv_eof := Eval vm_compute in run_config fs_t_ws_VerticalWhitespaceTest_test_wsv_eof (L "test.conf").
Definition r_t_ws_VerticalWhitespaceTest_test_wsv_eof := snd p_t_ws_VerticalWhitespaceTest_test_wsv_eof.
Example t_ws_VerticalWhitespaceTest_test_wsv_eof : linted [] (fst p_t_ws_VerticalWhitespaceTest_test_wsv_eof) [(W_WSV_EOF, 1%nat)] = true /\
  N.of_nat (length r_t_ws_VerticalWhitespaceTest_test_wsv_eof) = 2 /\
  (c_name (fst (nth 0 r_t_ws_VerticalWhitespaceTest_test_wsv_eof no_sec))) = (L "context") /\
  (c_name (fst (nth 1 r_t_ws_VerticalWhitespaceTest_test_wsv_eof no_sec))) = (L "context2") /\
  N.of_nat (length (snd (nth 0 r_t_ws_VerticalWhitespaceTest_test_wsv_eof no_sec))) = 3 /\
  (v_variable (nth 0 (snd (nth 0 r_t_ws_VerticalWhitespaceTest_test_wsv_eof no_sec)) no_var)) = (L "foo") /\
  (v_value (nth 0 (snd (nth 0 r_t_ws_VerticalWhitespaceTest_test_wsv_eof no_sec)) no_var)) = (L "bar") /\
  (v_variable (nth 1 (snd (nth 0 r_t_ws_VerticalWhitespaceTest_test_wsv_eof no_sec)) no_var)) = (L "foo2") /\
  (v_value (nth 1 (snd (nth 0 r_t_ws_VerticalWhitespaceTest_test_wsv_eof no_sec)) no_var)) = (L "bar2") /\
  (v_variable (nth 2 (snd (nth 0 r_t_ws_VerticalWhitespaceTest_test_wsv_eof no_sec)) no_var)) = (L "foo3") /\
  (v_value (nth 2 (snd (nth 0 r_t_ws_VerticalWhitespaceTest_test_wsv_eof no_sec)) no_var)) = (L "bar3") /\
  N.of_nat (length (snd (nth 1 r_t_ws_VerticalWhitespaceTest_test_wsv_eof no_sec))) = 1 /\
  (v_variable (nth 0 (snd (nth 1 r_t_ws_VerticalWhitespaceTest_test_wsv_eof no_sec)) no_var)) = (L "bar") /\
  (v_value (nth 0 (snd (nth 1 r_t_ws_VerticalWhitespaceTest_test_wsv_eof no_sec)) no_var)) = (L "baz").
Proof. vm_compute. repeat split. Qed.

(* tests/config/test_ws.py:130 *)
Definition fs_t_ws_VerticalWhitespaceTest_test_wsv_bof_eof : fsys := fs_of [(L "test.conf", lines [[]; []; 
     []])].
Definition p_t_ws_VerticalWhitespaceTest_test_wsv_bof_eof := Eval vm_compute in run_config fs_t_ws_VerticalWhitespaceTest_test_wsv_bof_eof (L "test.conf").
Definition r_t_ws_VerticalWhitespaceTest_test_wsv_bof_eof := snd p_t_ws_VerticalWhitespaceTest_test_wsv_bof_eof.
Example t_ws_VerticalWhitespaceTest_test_wsv_bof_eof : linted [] (fst p_t_ws_VerticalWhitespaceTest_test_wsv_bof_eof) [(W_WSV_EOF, 1%nat)] = true /\
  N.of_nat (length r_t_ws_VerticalWhitespaceTest_test_wsv_bof_eof) = 0.
Proof. vm_compute. repeat split. Qed.

(* tests/config/test_ws.py:138 *)
Definition fs_t_ws_VerticalWhitespaceTest_test_wsv_ctx_between_toofew : fsys := fs_of [(L "test.conf", lines [L "[context]"; L "foo=bar"; 
     L "foo2=bar2"; L "foo3=bar3"; 
     L "[context2]"; L "bar=baz"])].
Definition p_t_ws_VerticalWhitespaceTest_test_wsv_ctx_between_toofew := Eval vm_compute in run_config fs_t_ws_VerticalWhitespaceTest_test_wsv_ctx_between_toofew (L "test.conf").
Definition r_t_ws_VerticalWhitespaceTest_test_wsv_ctx_between_toofew := snd p_t_ws_VerticalWhitespaceTest_test_wsv_ctx_between_toofew.
Example t_ws_VerticalWhitespaceTest_test_wsv_ctx_between_toofew : linted [] (fst p_t_ws_VerticalWhitespaceTest_test_wsv_ctx_between_toofew) [(H_WSV_CTX_BETWEEN, 1%nat)] = true /\
  N.of_nat (length r_t_ws_VerticalWhitespaceTest_test_wsv_ctx_between_toofew) = 2 /\
  (c_name (fst (nth 0 r_t_ws_VerticalWhitespaceTest_test_wsv_ctx_between_toofew no_sec))) = (L "context") /\
  (c_name (fst (nth 1 r_t_ws_VerticalWhitespaceTest_test_wsv_ctx_between_toofew no_sec))) = (L "context2") /\
  N.of_nat (length (snd (nth 0 r_t_ws_VerticalWhitespaceTest_test_wsv_ctx_between_toofew no_sec))) = 3 /\
  (v_variable (nth 0 (snd (nth 0 r_t_ws_VerticalWhitespaceTest_test_wsv_ctx_between_toofew no_sec)) no_var)) = (L "foo") /\
  (v_value (nth 0 (snd (nth 0 r_t_ws_VerticalWhitespaceTest_test_wsv_ctx_between_toofew no_sec)) no_var)) = (L "bar") /\
  (v_variable (nth 1 (snd (nth 0 r_t_ws_VerticalWhitespaceTest_test_wsv_ctx_between_toofew no_sec)) no_var)) = (L "foo2") /\
  (v_value (nth 1 (snd (nth 0 r_t_ws_VerticalWhitespaceTest_test_wsv_ctx_between_toofew no_sec)) no_var)) = (L "bar2") /\
  (v_variable (nth 2 (snd (nth 0 r_t_ws_VerticalWhitespaceTest_test_wsv_ctx_between_toofew no_sec)) no_var)) = (L "foo3") /\
  (v_value (nth 2 (snd (nth 0 r_t_ws_VerticalWhitespaceTest_test_wsv_ctx_between_toofew no_sec)) no_var)) = (L "bar3") /\
  N.of_nat (length (snd (nth 1 r_t_ws_VerticalWhitespaceTest_test_wsv_ctx_between_toofew no_sec))) = 1 /\
  (v_variable (nth 0 (snd (nth 1 r_t_ws_VerticalWhitespaceTest_test_wsv_ctx_between_toofew no_sec)) no_var)) = (L "bar") /\
  (v_value (nth 0 (snd (nth 1 r_t_ws_VerticalWhitespaceTest_test_wsv_ctx_between_toofew no_sec)) no_var)) = (L "baz").
Proof. vm_compute. repeat split. Qed.

(* tests/config/test_ws.py:152 *)
Definition fs_t_ws_VerticalWhitespaceTest_test_wsv_ctx_between_toomany : fsys := fs_of [(L "test.conf", lines [L "[context]"; L "foo=bar"; 
     L "foo2=bar2"; []; 
     L "foo3=bar3"; []; 
     []; []; 
     L "[context2]"; L "bar=baz"])].
Definition p_t_ws_VerticalWhitespaceTest_test_wsv_ctx_between_toomany := Eval vm_compute in run_config fs_t_ws_VerticalWhitespaceTest_test_wsv_ctx_between_toomany (L "test.conf").
Definition r_t_ws_VerticalWhitespaceTest_test_wsv_ctx_between_toomany := snd p_t_ws_VerticalWhitespaceTest_test_wsv_ctx_between_toomany.
Example t_ws_VerticalWhitespaceTest_test_wsv_ctx_between_toomany : linted [] (fst p_t_ws_VerticalWhitespaceTest_test_wsv_ctx_between_toomany) [(H_WSV_CTX_BETWEEN, 1%nat)] = true /\
  N.of_nat (length r_t_ws_VerticalWhitespaceTest_test_wsv_ctx_between_toomany) = 2 /\
  (c_name (fst (nth 0 r_t_ws_VerticalWhitespaceTest_test_wsv_ctx_between_toomany no_sec))) = (L "context") /\
  (c_name (fst (nth 1 r_t_ws_VerticalWhitespaceTest_test_wsv_ctx_between_toomany no_sec))) = (L "context2") /\
  N.of_nat (length (snd (nth 0 r_t_ws_VerticalWhitespaceTest_test_wsv_ctx_between_toomany no_sec))) = 3 /\
  (v_variable (nth 0 (snd (nth 0 r_t_ws_VerticalWhitespaceTest_test_wsv_ctx_between_toomany no_sec)) no_var)) = (L "foo") /\
  (v_value (nth 0 (snd (nth 0 r_t_ws_VerticalWhitespaceTest_test_wsv_ctx_between_toomany no_sec)) no_var)) = (L "bar") /\
  (v_variable (nth 1 (snd (nth 0 r_t_ws_VerticalWhitespaceTest_test_wsv_ctx_between_toomany no_sec)) no_var)) = (L "foo2") /\
  (v_value (nth 1 (snd (nth 0 r_t_ws_VerticalWhitespaceTest_test_wsv_ctx_between_toomany no_sec)) no_var)) = (L "bar2") /\
  (v_variable (nth 2 (snd (nth 0 r_t_ws_VerticalWhitespaceTest_test_wsv_ctx_between_toomany no_sec)) no_var)) = (L "foo3") /\
  (v_value (nth 2 (snd (nth 0 r_t_ws_VerticalWhitespaceTest_test_wsv_ctx_between_toomany no_sec)) no_var)) = (L "bar3") /\
  N.of_nat (length (snd (nth 1 r_t_ws_VerticalWhitespaceTest_test_wsv_ctx_between_toomany no_sec))) = 1 /\
  (v_variable (nth 0 (snd (nth 1 r_t_ws_VerticalWhitespaceTest_test_wsv_ctx_between_toomany no_sec)) no_var)) = (L "bar") /\
  (v_value (nth 0 (snd (nth 1 r_t_ws_VerticalWhitespaceTest_test_wsv_ctx_between_toomany no_sec)) no_var)) = (L "baz").
Proof. vm_compute. repeat split. Qed.

(* tests/config/test_ws.py:170 *)
Definition fs_t_ws_VerticalWhitespaceTest_test_wsv_ctx_between_toomanyatbeginandend : fsys := fs_of [(L "test.conf", lines [L "; too many below here (v1)"; []; 
     []; []; 
     L "[context]"; []; 
     L "foo=bar"; L "foo2=bar2"; 
     L "foo3=bar3"; []; 
     []; []; 
     L "[context2] ; too many above this (^2)"; L "bar=baz"; 
     []; []; 
     []; L "; too many above above this (^3)"; 
     L "; (v4)"; []; 
     []; []; 
     L "; too many above this"])].
Definition p_t_ws_VerticalWhitespaceTest_test_wsv_ctx_between_toomanyatbeginandend := Eval vm_compute in run_config fs_t_ws_VerticalWhitespaceTest_test_wsv_ctx_between_toomanyatbeginandend (L "test.conf").
Definition r_t_ws_VerticalWhitespaceTest_test_wsv_ctx_between_toomanyatbeginandend := snd p_t_ws_VerticalWhitespaceTest_test_wsv_ctx_between_toomanyatbeginandend.
Example t_ws_VerticalWhitespaceTest_test_wsv_ctx_between_toomanyatbeginandend : linted [] (fst p_t_ws_VerticalWhitespaceTest_test_wsv_ctx_between_toomanyatbeginandend) [(H_WSV_CTX_BETWEEN, 4%nat)] = true /\
  N.of_nat (length r_t_ws_VerticalWhitespaceTest_test_wsv_ctx_between_toomanyatbeginandend) = 2 /\
  (c_name (fst (nth 0 r_t_ws_VerticalWhitespaceTest_test_wsv_ctx_between_toomanyatbeginandend no_sec))) = (L "context") /\
  (c_name (fst (nth 1 r_t_ws_VerticalWhitespaceTest_test_wsv_ctx_between_toomanyatbeginandend no_sec))) = (L "context2") /\
  N.of_nat (length (snd (nth 0 r_t_ws_VerticalWhitespaceTest_test_wsv_ctx_between_toomanyatbeginandend no_sec))) = 3 /\
  (v_variable (nth 0 (snd (nth 0 r_t_ws_VerticalWhitespaceTest_test_wsv_ctx_between_toomanyatbeginandend no_sec)) no_var)) = (L "foo") /\
  (v_value (nth 0 (snd (nth 0 r_t_ws_VerticalWhitespaceTest_test_wsv_ctx_between_toomanyatbeginandend no_sec)) no_var)) = (L "bar") /\
  (v_variable (nth 1 (snd (nth 0 r_t_ws_VerticalWhitespaceTest_test_wsv_ctx_between_toomanyatbeginandend no_sec)) no_var)) = (L "foo2") /\
  (v_value (nth 1 (snd (nth 0 r_t_ws_VerticalWhitespaceTest_test_wsv_ctx_between_toomanyatbeginandend no_sec)) no_var)) = (L "bar2") /\
  (v_variable (nth 2 (snd (nth 0 r_t_ws_VerticalWhitespaceTest_test_wsv_ctx_between_toomanyatbeginandend no_sec)) no_var)) = (L "foo3") /\
  (v_value (nth 2 (snd (nth 0 r_t_ws_VerticalWhitespaceTest_test_wsv_ctx_between_toomanyatbeginandend no_sec)) no_var)) = (L "bar3") /\
  N.of_nat (length (snd (nth 1 r_t_ws_VerticalWhitespaceTest_test_wsv_ctx_between_toomanyatbeginandend no_sec))) = 1 /\
  (v_variable (nth 0 (snd (nth 1 r_t_ws_VerticalWhitespaceTest_test_wsv_ctx_between_toomanyatbeginandend no_sec)) no_var)) = (L "bar") /\
  (v_value (nth 0 (snd (nth 1 r_t_ws_VerticalWhitespaceTest_test_wsv_ctx_between_toomanyatbeginandend no_sec)) no_var)) = (L "baz").
Proof. vm_compute. repeat split. Qed.

(* tests/config/test_ws.py:201 *)
Definition fs_t_ws_VerticalWhitespaceTest_test_wsv_ctx_between_ok : fsys := fs_of [(L "test.conf", lines [L "[context]"; L "foo=bar"; 
     L "foo2=bar2"; L "foo3=bar3"; 
     []; []; 
     L "[context2]"; L "bar=baz"])].
Definition p_t_ws_VerticalWhitespaceTest_test_wsv_ctx_between_ok := Eval vm_compute in run_config fs_t_ws_VerticalWhitespaceTest_test_wsv_ctx_between_ok (L "test.conf").
Definition r_t_ws_VerticalWhitespaceTest_test_wsv_ctx_between_ok := snd p_t_ws_VerticalWhitespaceTest_test_wsv_ctx_between_ok.
Example t_ws_VerticalWhitespaceTest_test_wsv_ctx_between_ok : linted [] (fst p_t_ws_VerticalWhitespaceTest_test_wsv_ctx_between_ok) [] = true /\
  N.of_nat (length r_t_ws_VerticalWhitespaceTest_test_wsv_ctx_between_ok) = 2 /\
  (c_name (fst (nth 0 r_t_ws_VerticalWhitespaceTest_test_wsv_ctx_between_ok no_sec))) = (L "context") /\
  (c_name (fst (nth 1 r_t_ws_VerticalWhitespaceTest_test_wsv_ctx_between_ok no_sec))) = (L "context2") /\
  N.of_nat (length (snd (nth 0 r_t_ws_VerticalWhitespaceTest_test_wsv_ctx_between_ok no_sec))) = 3 /\
  (v_variable (nth 0 (snd (nth 0 r_t_ws_VerticalWhitespaceTest_test_wsv_ctx_between_ok no_sec)) no_var)) = (L "foo") /\
  (v_value (nth 0 (snd (nth 0 r_t_ws_VerticalWhitespaceTest_test_wsv_ctx_between_ok no_sec)) no_var)) = (L "bar") /\
  (v_variable (nth 1 (snd (nth 0 r_t_ws_VerticalWhitespaceTest_test_wsv_ctx_between_ok no_sec)) no_var)) = (L "foo2") /\
  (v_value (nth 1 (snd (nth 0 r_t_ws_VerticalWhitespaceTest_test_wsv_ctx_between_ok no_sec)) no_var)) = (L "bar2") /\
  (v_variable (nth 2 (snd (nth 0 r_t_ws_VerticalWhitespaceTest_test_wsv_ctx_between_ok no_sec)) no_var)) = (L "foo3") /\
  (v_value (nth 2 (snd (nth 0 r_t_ws_VerticalWhitespaceTest_test_wsv_ctx_between_ok no_sec)) no_var)) = (L "bar3") /\
  N.of_nat (length (snd (nth 1 r_t_ws_VerticalWhitespaceTest_test_wsv_ctx_between_ok no_sec))) = 1 /\
  (v_variable (nth 0 (snd (nth 1 r_t_ws_VerticalWhitespaceTest_test_wsv_ctx_between_ok no_sec)) no_var)) = (L "bar") /\
  (v_value (nth 0 (snd (nth 1 r_t_ws_VerticalWhitespaceTest_test_wsv_ctx_between_ok no_sec)) no_var)) = (L "baz").
Proof. vm_compute. repeat split. Qed.

(* tests/config/test_ws.py:217 *)
Definition fs_t_ws_VerticalWhitespaceTest_test_wsv_ctx_between_okwithcomment : fsys := fs_of [(L "test.conf", lines [L "[context]"; L "foo=bar"; 
     []; L "foo2=bar2"; 
     []; L "foo3=bar3"; 
     []; L ";"; 
     L ";"; []; 
     []; L "[context2]"; 
     L "bar=baz"])].
Definition p_t_ws_VerticalWhitespaceTest_test_wsv_ctx_between_okwithcomment := Eval vm_compute in run_config fs_t_ws_VerticalWhitespaceTest_test_wsv_ctx_between_okwithcomment (L "test.conf").
Definition r_t_ws_VerticalWhitespaceTest_test_wsv_ctx_between_okwithcomment := snd p_t_ws_VerticalWhitespaceTest_test_wsv_ctx_between_okwithcomment.
Example t_ws_VerticalWhitespaceTest_test_wsv_ctx_between_okwithcomment : linted [] (fst p_t_ws_VerticalWhitespaceTest_test_wsv_ctx_between_okwithcomment) [] = true /\
  N.of_nat (length r_t_ws_VerticalWhitespaceTest_test_wsv_ctx_between_okwithcomment) = 2 /\
  (c_name (fst (nth 0 r_t_ws_VerticalWhitespaceTest_test_wsv_ctx_between_okwithcomment no_sec))) = (L "context") /\
  (c_name (fst (nth 1 r_t_ws_VerticalWhitespaceTest_test_wsv_ctx_between_okwithcomment no_sec))) = (L "context2") /\
  N.of_nat (length (snd (nth 0 r_t_ws_VerticalWhitespaceTest_test_wsv_ctx_between_okwithcomment no_sec))) = 3 /\
  (v_variable (nth 0 (snd (nth 0 r_t_ws_VerticalWhitespaceTest_test_wsv_ctx_between_okwithcomment no_sec)) no_var)) = (L "foo") /\
  (v_value (nth 0 (snd (nth 0 r_t_ws_VerticalWhitespaceTest_test_wsv_ctx_between_okwithcomment no_sec)) no_var)) = (L "bar") /\
  (v_variable (nth 1 (snd (nth 0 r_t_ws_VerticalWhitespaceTest_test_wsv_ctx_between_okwithcomment no_sec)) no_var)) = (L "foo2") /\
  (v_value (nth 1 (snd (nth 0 r_t_ws_VerticalWhitespaceTest_test_wsv_ctx_between_okwithcomment no_sec)) no_var)) = (L "bar2") /\
  (v_variable (nth 2 (snd (nth 0 r_t_ws_VerticalWhitespaceTest_test_wsv_ctx_between_okwithcomment no_sec)) no_var)) = (L "foo3") /\
  (v_value (nth 2 (snd (nth 0 r_t_ws_VerticalWhitespaceTest_test_wsv_ctx_between_okwithcomment no_sec)) no_var)) = (L "bar3") /\
  N.of_nat (length (snd (nth 1 r_t_ws_VerticalWhitespaceTest_test_wsv_ctx_between_okwithcomment no_sec))) = 1 /\
  (v_variable (nth 0 (snd (nth 1 r_t_ws_VerticalWhitespaceTest_test_wsv_ctx_between_okwithcomment no_sec)) no_var)) = (L "bar") /\
  (v_value (nth 0 (snd (nth 1 r_t_ws_VerticalWhitespaceTest_test_wsv_ctx_between_okwithcomment no_sec)) no_var)) = (L "baz").
Proof. vm_compute. repeat split. Qed.

(* tests/config/test_ws.py:238 *)
Definition fs_t_ws_VerticalWhitespaceTest_test_wsv_ctx_between_okwithcommentabove : fsys := fs_of [(L "test.conf", lines [L "[context]"; L "foo=bar"; 
     L "foo2=bar2"; L "foo3=bar3"; 
     []; L "; near comment"; 
     L "[context2]"; L "bar=baz"])].
Definition p_t_ws_VerticalWhitespaceTest_test_wsv_ctx_between_okwithcommentabove := Eval vm_compute in run_config fs_t_ws_VerticalWhitespaceTest_test_wsv_ctx_between_okwithcommentabove (L "test.conf").
Definition r_t_ws_VerticalWhitespaceTest_test_wsv_ctx_between_okwithcommentabove := snd p_t_ws_VerticalWhitespaceTest_test_wsv_ctx_between_okwithcommentabove.
Example t_ws_VerticalWhitespaceTest_test_wsv_ctx_between_okwithcommentabove : linted [] (fst p_t_ws_VerticalWhitespaceTest_test_wsv_ctx_between_okwithcommentabove) [] = true /\
  N.of_nat (length r_t_ws_VerticalWhitespaceTest_test_wsv_ctx_between_okwithcommentabove) = 2 /\
  (c_name (fst (nth 0 r_t_ws_VerticalWhitespaceTest_test_wsv_ctx_between_okwithcommentabove no_sec))) = (L "context") /\
  (c_name (fst (nth 1 r_t_ws_VerticalWhitespaceTest_test_wsv_ctx_between_okwithcommentabove no_sec))) = (L "context2") /\
  N.of_nat (length (snd (nth 0 r_t_ws_VerticalWhitespaceTest_test_wsv_ctx_between_okwithcommentabove no_sec))) = 3 /\
  (v_variable (nth 0 (snd (nth 0 r_t_ws_VerticalWhitespaceTest_test_wsv_ctx_between_okwithcommentabove no_sec)) no_var)) = (L "foo") /\
  (v_value (nth 0 (snd (nth 0 r_t_ws_VerticalWhitespaceTest_test_wsv_ctx_between_okwithcommentabove no_sec)) no_var)) = (L "bar") /\
  (v_variable (nth 1 (snd (nth 0 r_t_ws_VerticalWhitespaceTest_test_wsv_ctx_between_okwithcommentabove no_sec)) no_var)) = (L "foo2") /\
  (v_value (nth 1 (snd (nth 0 r_t_ws_VerticalWhitespaceTest_test_wsv_ctx_between_okwithcommentabove no_sec)) no_var)) = (L "bar2") /\
  (v_variable (nth 2 (snd (nth 0 r_t_ws_VerticalWhitespaceTest_test_wsv_ctx_between_okwithcommentabove no_sec)) no_var)) = (L "foo3") /\
  (v_value (nth 2 (snd (nth 0 r_t_ws_VerticalWhitespaceTest_test_wsv_ctx_between_okwithcommentabove no_sec)) no_var)) = (L "bar3") /\
  N.of_nat (length (snd (nth 1 r_t_ws_VerticalWhitespaceTest_test_wsv_ctx_between_okwithcommentabove no_sec))) = 1 /\
  (v_variable (nth 0 (snd (nth 1 r_t_ws_VerticalWhitespaceTest_test_wsv_ctx_between_okwithcommentabove no_sec)) no_var)) = (L "bar") /\
  (v_value (nth 0 (snd (nth 1 r_t_ws_VerticalWhitespaceTest_test_wsv_ctx_between_okwithcommentabove no_sec)) no_var)) = (L "baz").
Proof. vm_compute. repeat split. Qed.

(* tests/config/test_ws.py:254 *)
Definition fs_t_ws_VerticalWhitespaceTest_test_wsv_varset_between_ok : fsys := fs_of [(L "test.conf", lines [L "[context]"; []; 
     L "foo=bar"; []; 
     L "foo2=bar2"; L "foo3=bar3"; 
     []; L "[context2]"; 
     L "bar=baz"])].
Definition p_t_ws_VerticalWhitespaceTest_test_wsv_varset_between_ok := Eval vm_compute in run_config fs_t_ws_VerticalWhitespaceTest_test_wsv_varset_between_ok (L "test.conf").
Definition r_t_ws_VerticalWhitespaceTest_test_wsv_varset_between_ok := snd p_t_ws_VerticalWhitespaceTest_test_wsv_varset_between_ok.
Example t_ws_VerticalWhitespaceTest_test_wsv_varset_between_ok : linted [] (fst p_t_ws_VerticalWhitespaceTest_test_wsv_varset_between_ok) [] = true /\
  N.of_nat (length r_t_ws_VerticalWhitespaceTest_test_wsv_varset_between_ok) = 2 /\
  (c_name (fst (nth 0 r_t_ws_VerticalWhitespaceTest_test_wsv_varset_between_ok no_sec))) = (L "context") /\
  (c_name (fst (nth 1 r_t_ws_VerticalWhitespaceTest_test_wsv_varset_between_ok no_sec))) = (L "context2") /\
  N.of_nat (length (snd (nth 0 r_t_ws_VerticalWhitespaceTest_test_wsv_varset_between_ok no_sec))) = 3 /\
  (v_variable (nth 0 (snd (nth 0 r_t_ws_VerticalWhitespaceTest_test_wsv_varset_between_ok no_sec)) no_var)) = (L "foo") /\
  (v_value (nth 0 (snd (nth 0 r_t_ws_VerticalWhitespaceTest_test_wsv_varset_between_ok no_sec)) no_var)) = (L "bar") /\
  (v_variable (nth 1 (snd (nth 0 r_t_ws_VerticalWhitespaceTest_test_wsv_varset_between_ok no_sec)) no_var)) = (L "foo2") /\
  (v_value (nth 1 (snd (nth 0 r_t_ws_VerticalWhitespaceTest_test_wsv_varset_between_ok no_sec)) no_var)) = (L "bar2") /\
  (v_variable (nth 2 (snd (nth 0 r_t_ws_VerticalWhitespaceTest_test_wsv_varset_between_ok no_sec)) no_var)) = (L "foo3") /\
  (v_value (nth 2 (snd (nth 0 r_t_ws_VerticalWhitespaceTest_test_wsv_varset_between_ok no_sec)) no_var)) = (L "bar3") /\
  N.of_nat (length (snd (nth 1 r_t_ws_VerticalWhitespaceTest_test_wsv_varset_between_ok no_sec))) = 1 /\
  (v_variable (nth 0 (snd (nth 1 r_t_ws_VerticalWhitespaceTest_test_wsv_varset_between_ok no_sec)) no_var)) = (L "bar") /\
  (v_value (nth 0 (snd (nth 1 r_t_ws_VerticalWhitespaceTest_test_wsv_varset_between_ok no_sec)) no_var)) = (L "baz").
Proof. vm_compute. repeat split. Qed.

(* tests/config/test_ws.py:271 *)
Definition fs_t_ws_VerticalWhitespaceTest_test_wsv_varset_between_okwithcomment : fsys := fs_of [(L "test.conf", lines [L "[context]"; []; 
     L "foo=bar"; []; 
     L "; ok"; []; 
     L "foo2=bar2"; L "foo3=bar3"; 
     []; L "[context2]"; 
     L "bar=baz"])].
Definition p_t_ws_VerticalWhitespaceTest_test_wsv_varset_between_okwithcomment := Eval vm_compute in run_config fs_t_ws_VerticalWhitespaceTest_test_wsv_varset_between_okwithcomment (L "test.conf").
Definition r_t_ws_VerticalWhitespaceTest_test_wsv_varset_between_okwithcomment := snd p_t_ws_VerticalWhitespaceTest_test_wsv_varset_between_okwithcomment.
Example t_ws_VerticalWhitespaceTest_test_wsv_varset_between_okwithcomment : linted [] (fst p_t_ws_VerticalWhitespaceTest_test_wsv_varset_between_okwithcomment) [] = true /\
  N.of_nat (length r_t_ws_VerticalWhitespaceTest_test_wsv_varset_between_okwithcomment) = 2 /\
  (c_name (fst (nth 0 r_t_ws_VerticalWhitespaceTest_test_wsv_varset_between_okwithcomment no_sec))) = (L "context") /\
  (c_name (fst (nth 1 r_t_ws_VerticalWhitespaceTest_test_wsv_varset_between_okwithcomment no_sec))) = (L "context2") /\
  N.of_nat (length (snd (nth 0 r_t_ws_VerticalWhitespaceTest_test_wsv_varset_between_okwithcomment no_sec))) = 3 /\
  (v_variable (nth 0 (snd (nth 0 r_t_ws_VerticalWhitespaceTest_test_wsv_varset_between_okwithcomment no_sec)) no_var)) = (L "foo") /\
  (v_value (nth 0 (snd (nth 0 r_t_ws_VerticalWhitespaceTest_test_wsv_varset_between_okwithcomment no_sec)) no_var)) = (L "bar") /\
  (v_variable (nth 1 (snd (nth 0 r_t_ws_VerticalWhitespaceTest_test_wsv_varset_between_okwithcomment no_sec)) no_var)) = (L "foo2") /\
  (v_value (nth 1 (snd (nth 0 r_t_ws_VerticalWhitespaceTest_test_wsv_varset_between_okwithcomment no_sec)) no_var)) = (L "bar2") /\
  (v_variable (nth 2 (snd (nth 0 r_t_ws_VerticalWhitespaceTest_test_wsv_varset_between_okwithcomment no_sec)) no_var)) = (L "foo3") /\
  (v_value (nth 2 (snd (nth 0 r_t_ws_VerticalWhitespaceTest_test_wsv_varset_between_okwithcomment no_sec)) no_var)) = (L "bar3") /\
  N.of_nat (length (snd (nth 1 r_t_ws_VerticalWhitespaceTest_test_wsv_varset_between_okwithcomment no_sec))) = 1 /\
  (v_variable (nth 0 (snd (nth 1 r_t_ws_VerticalWhitespaceTest_test_wsv_varset_between_okwithcomment no_sec)) no_var)) = (L "bar") /\
  (v_value (nth 0 (snd (nth 1 r_t_ws_VerticalWhitespaceTest_test_wsv_varset_between_okwithcomment no_sec)) no_var)) = (L "baz").
Proof. vm_compute. repeat split. Qed.

(* tests/config/test_ws.py:290 *)
Definition fs_t_ws_VerticalWhitespaceTest_test_wsv_varset_between_notok : fsys := fs_of [(L "test.conf", lines [L "[context]"; []; 
     []; L "foo=bar"; 
     []; []; 
     L "foo2=bar2"; L "foo3=bar3"; 
     []; L "[context2]"; 
     L "bar=baz"])].
Definition p_t_ws_VerticalWhitespaceTest_test_wsv_varset_between_notok := Eval vm_compute in run_config fs_t_ws_VerticalWhitespaceTest_test_wsv_varset_between_notok (L "test.conf").
Definition r_t_ws_VerticalWhitespaceTest_test_wsv_varset_between_notok := snd p_t_ws_VerticalWhitespaceTest_test_wsv_varset_between_notok.
Example t_ws_VerticalWhitespaceTest_test_wsv_varset_between_notok : linted [] (fst p_t_ws_VerticalWhitespaceTest_test_wsv_varset_between_notok) [(H_WSV_VARSET_BETWEEN, 2%nat)] = true /\
  N.of_nat (length r_t_ws_VerticalWhitespaceTest_test_wsv_varset_between_notok) = 2 /\
  (c_name (fst (nth 0 r_t_ws_VerticalWhitespaceTest_test_wsv_varset_between_notok no_sec))) = (L "context") /\
  (c_name (fst (nth 1 r_t_ws_VerticalWhitespaceTest_test_wsv_varset_between_notok no_sec))) = (L "context2") /\
  N.of_nat (length (snd (nth 0 r_t_ws_VerticalWhitespaceTest_test_wsv_varset_between_notok no_sec))) = 3 /\
  (v_variable (nth 0 (snd (nth 0 r_t_ws_VerticalWhitespaceTest_test_wsv_varset_between_notok no_sec)) no_var)) = (L "foo") /\
  (v_value (nth 0 (snd (nth 0 r_t_ws_VerticalWhitespaceTest_test_wsv_varset_between_notok no_sec)) no_var)) = (L "bar") /\
  (v_variable (nth 1 (snd (nth 0 r_t_ws_VerticalWhitespaceTest_test_wsv_varset_between_notok no_sec)) no_var)) = (L "foo2") /\
  (v_value (nth 1 (snd (nth 0 r_t_ws_VerticalWhitespaceTest_test_wsv_varset_between_notok no_sec)) no_var)) = (L "bar2") /\
  (v_variable (nth 2 (snd (nth 0 r_t_ws_VerticalWhitespaceTest_test_wsv_varset_between_notok no_sec)) no_var)) = (L "foo3") /\
  (v_value (nth 2 (snd (nth 0 r_t_ws_VerticalWhitespaceTest_test_wsv_varset_between_notok no_sec)) no_var)) = (L "bar3") /\
  N.of_nat (length (snd (nth 1 r_t_ws_VerticalWhitespaceTest_test_wsv_varset_between_notok no_sec))) = 1 /\
  (v_variable (nth 0 (snd (nth 1 r_t_ws_VerticalWhitespaceTest_test_wsv_varset_between_notok no_sec)) no_var)) = (L "bar") /\
  (v_value (nth 0 (snd (nth 1 r_t_ws_VerticalWhitespaceTest_test_wsv_varset_between_notok no_sec)) no_var)) = (L "baz").
Proof. vm_compute. repeat split. Qed.

(* tests/config/test_ws.py:311 *)
Definition fs_t_ws_TightVerticalWhitespaceTest_test_no_space_at_all_is_fine_for_0 : fsys := fs_of [(L "test.conf", lines [L "[context]"; L "[context2]"])].
Definition p_t_ws_TightVerticalWhitespaceTest_test_no_space_at_all_is_fine_for_0 := Eval vm_compute in run_config fs_t_ws_TightVerticalWhitespaceTest_test_no_space_at_all_is_fine_for_0 (L "test.conf").
Definition r_t_ws_TightVerticalWhitespaceTest_test_no_space_at_all_is_fine_for_0 := snd p_t_ws_TightVerticalWhitespaceTest_test_no_space_at_all_is_fine_for_0.
Example t_ws_TightVerticalWhitespaceTest_test_no_space_at_all_is_fine_for_0 : linted [] (fst p_t_ws_TightVerticalWhitespaceTest_test_no_space_at_all_is_fine_for_0) [] = true /\
  N.of_nat (length r_t_ws_TightVerticalWhitespaceTest_test_no_space_at_all_is_fine_for_0) = 2.
Proof. vm_compute. repeat split. Qed.

(* tests/config/test_ws.py:321 *)
Definition fs_t_ws_TightVerticalWhitespaceTest_test_no_space_at_all_is_fine_for_1 : fsys := fs_of [(L "test.conf", lines [L "[context]"; L "foo=bar"; 
     L "[context2]"; L "bar=baz"])].
Definition p_t_ws_TightVerticalWhitespaceTest_test_no_space_at_all_is_fine_for_1 := Eval vm_compute in run_config fs_t_ws_TightVerticalWhitespaceTest_test_no_space_at_all_is_fine_for_1 (L "test.conf").
Definition r_t_ws_TightVerticalWhitespaceTest_test_no_space_at_all_is_fine_for_1 := snd p_t_ws_TightVerticalWhitespaceTest_test_no_space_at_all_is_fine_for_1.
Example t_ws_TightVerticalWhitespaceTest_test_no_space_at_all_is_fine_for_1 : linted [] (fst p_t_ws_TightVerticalWhitespaceTest_test_no_space_at_all_is_fine_for_1) [] = true /\
  N.of_nat (length r_t_ws_TightVerticalWhitespaceTest_test_no_space_at_all_is_fine_for_1) = 2.
Proof. vm_compute. repeat split. Qed.

(* tests/config/test_ws.py:333 *)
Definition fs_t_ws_TightVerticalWhitespaceTest_test_no_space_at_all_is_fine_for_2 : fsys := fs_of [(L "test.conf", lines [L "[context]"; L "foo=bar"; 
     L "foo2=bar2"; L "[context2]"; 
     L "bar=baz"; L "bar2=baz2"])].
Definition p_t_ws_TightVerticalWhitespaceTest_test_no_space_at_all_is_fine_for_2 := Eval vm_compute in run_config fs_t_ws_TightVerticalWhitespaceTest_test_no_space_at_all_is_fine_for_2 (L "test.conf").
Definition r_t_ws_TightVerticalWhitespaceTest_test_no_space_at_all_is_fine_for_2 := snd p_t_ws_TightVerticalWhitespaceTest_test_no_space_at_all_is_fine_for_2.
Example t_ws_TightVerticalWhitespaceTest_test_no_space_at_all_is_fine_for_2 : linted [] (fst p_t_ws_TightVerticalWhitespaceTest_test_no_space_at_all_is_fine_for_2) [] = true /\
  N.of_nat (length r_t_ws_TightVerticalWhitespaceTest_test_no_space_at_all_is_fine_for_2) = 2.
Proof. vm_compute. repeat split. Qed.

(* tests/config/test_ws.py:347 *)
Definition fs_t_ws_TightVerticalWhitespaceTest_test_now_its_enough : fsys := fs_of [(L "test.conf", lines [L "[context]"; L "foo=bar"; 
     L "foo2=bar2"; L "foo3=bar3"; 
     L "[context2]"; L "bar=baz"; 
     L "bar2=baz2"])].
Definition p_t_ws_TightVerticalWhitespaceTest_test_now_its_enough := Eval vm_compute in run_config fs_t_ws_TightVerticalWhitespaceTest_test_now_its_enough (L "test.conf").
Definition r_t_ws_TightVerticalWhitespaceTest_test_now_its_enough := snd p_t_ws_TightVerticalWhitespaceTest_test_now_its_enough.
Example t_ws_TightVerticalWhitespaceTest_test_now_its_enough : linted [] (fst p_t_ws_TightVerticalWhitespaceTest_test_now_its_enough) [(H_WSV_CTX_BETWEEN, 1%nat)] = true /\
  N.of_nat (length r_t_ws_TightVerticalWhitespaceTest_test_now_its_enough) = 2.
Proof. vm_compute. repeat split. Qed.
