(* The unit tests of tests/dialplan and tests/pattern/test_dialplan.py, evaluated
   on the model. *)
From Verif Require Import Base Utf8 PyStr Defines FileRd Config VSpace Pattern Var VarFun AppM Tables Dialplan Aggregator Tests_Util.


(* tests/dialplan/test_examples.py:24 *)
Definition fs_t_examples_ExamplesTest_test_duplicate_prio_is_dropped : fsys := fs_of [(L "test.conf", lines [L "[abc]"; L "exten => s,1,NoOp(1)"; 
     L "exten => s,n,NoOp(2)"; L "exten => h,1,NoOp(3)"; 
     L "exten => s,1,NoOp(another)"])].
Definition p_t_examples_ExamplesTest_test_duplicate_prio_is_dropped := Eval vm_compute in run_dialplan fs_t_examples_ExamplesTest_test_duplicate_prio_is_dropped (L "test.conf").
Definition r_t_examples_ExamplesTest_test_duplicate_prio_is_dropped := snd p_t_examples_ExamplesTest_test_duplicate_prio_is_dropped.
Example t_examples_ExamplesTest_test_duplicate_prio_is_dropped : linted [L "H_*"] (fst p_t_examples_ExamplesTest_test_duplicate_prio_is_dropped) [(E_DP_PRIO_DUPE, 1%nat)] = true /\
  N.of_nat (length r_t_examples_ExamplesTest_test_duplicate_prio_is_dropped) = 1 /\
  (dialplan_show quoted true (nth 0 r_t_examples_ExamplesTest_test_duplicate_prio_is_dropped dp_init)) = (L "[ Context 'abc' created by 'pbx_config' ]" ++ [10] ++ L "  'h' =>            1. NoOp(3)                                    [pbx_config]" ++ [10] ++ L "  's' =>            1. NoOp(1)                                    [pbx_config]" ++ [10] ++ L "                    2. NoOp(2)                                    [pbx_config]" ++ [10]).
Proof. vm_compute. repeat split. Qed.

(* tests/dialplan/test_examples.py:48 *)
Definition fs_t_examples_ExamplesTest_test_leading_spaces_are_allowed : fsys := fs_of [(L "test.conf", lines [[9] ++ L " [abc]"; L "exten => s,1,NoOp(1)"; 
     L "   exten => s,n,NoOp(2)"])].
Definition p_t_examples_ExamplesTest_test_leading_spaces_are_allowed := Eval vm_compute in run_dialplan fs_t_examples_ExamplesTest_test_leading_spaces_are_allowed (L "test.conf").
Definition r_t_examples_ExamplesTest_test_leading_spaces_are_allowed := snd p_t_examples_ExamplesTest_test_leading_spaces_are_allowed.
Example t_examples_ExamplesTest_test_leading_spaces_are_allowed : linted [L "H_*"] (fst p_t_examples_ExamplesTest_test_leading_spaces_are_allowed) [(W_WSH_BOL, 2%nat)] = true /\
  N.of_nat (length r_t_examples_ExamplesTest_test_leading_spaces_are_allowed) = 1 /\
  (dialplan_show quoted true (nth 0 r_t_examples_ExamplesTest_test_leading_spaces_are_allowed dp_init)) = (L "[ Context 'abc' created by 'pbx_config' ]" ++ [10] ++ L "  's' =>            1. NoOp(1)                                    [pbx_config]" ++ [10] ++ L "                    2. NoOp(2)                                    [pbx_config]" ++ [10]).
Proof. vm_compute. repeat split. Qed.

(* tests/dialplan/test_examples.py:69 *)
Definition fs_t_examples_ExamplesTest_test_contexts_can_be_appended_to : fsys := fs_of [(L "test.conf", lines [L "[context1]"; L "exten => 100,1,NoOp(100)"; 
     L "exten => 101,1,NoOp(101)"; []; 
     L "[context2]"; L "exten => 200,1,NoOp(200)"; 
     L "exten => 201,1,NoOp(201)"; []; 
     L "[context1]"; L "exten => 100,1,NoOp(""dupe, won't work"")"; 
     L "exten => 102,1,NoOp(102)"])].
Definition p_t_examples_ExamplesTest_test_contexts_can_be_appended_to := Eval vm_compute in run_dialplan fs_t_examples_ExamplesTest_test_contexts_can_be_appended_to (L "test.conf").
Definition r_t_examples_ExamplesTest_test_contexts_can_be_appended_to := snd p_t_examples_ExamplesTest_test_contexts_can_be_appended_to.
Example t_examples_ExamplesTest_test_contexts_can_be_appended_to : linted [L "H_*"] (fst p_t_examples_ExamplesTest_test_contexts_can_be_appended_to) [(E_DP_PRIO_DUPE, 1%nat)] = true /\
  N.of_nat (length r_t_examples_ExamplesTest_test_contexts_can_be_appended_to) = 1 /\
  (dialplan_show quoted true (nth 0 r_t_examples_ExamplesTest_test_contexts_can_be_appended_to dp_init)) = (L "[ Context 'context2' created by 'pbx_config' ]" ++ [10] ++ L "  '200' =>          1. NoOp(200)                                  [pbx_config]" ++ [10] ++ L "  '201' =>          1. NoOp(201)                                  [pbx_config]" ++ [10; 10] ++ L "[ Context 'context1' created by 'pbx_config' ]" ++ [10] ++ L "  '100' =>          1. NoOp(100)                                  [pbx_config]" ++ [10] ++ L "  '101' =>          1. NoOp(101)                                  [pbx_config]" ++ [10] ++ L "  '102' =>          1. NoOp(102)                                  [pbx_config]" ++ [10]).
Proof. vm_compute. repeat split. Qed.

(* tests/dialplan/test_examples.py:103 *)
Definition fs_t_examples_ExamplesTest_test_new_context_does_not_reset_n : fsys := fs_of [(L "test.conf", lines [L "[quirk1]"; L "exten => s,1,NoOp(1)"; 
     L "exten => s,n,NoOp(2)"; L "exten => s,n,NoOp(3)"; 
     []; L "[quirk2]"; 
     L "exten => t,1,NoOp(t1)"; L "exten => t,n,NoOp(t2)"; 
     []; L "[quirk1]"; 
     L "exten => s,n,NoOp(4) ; E_DP_PRIO_DUPE: tries to overwrite s3"; L "exten => s,n,NoOp(5) ; W_DP_PRIO_BADORDER: context_last_prio should be reset"; 
     []; L "[quirk3]"; 
     L "exten => h,n,NoOp(h) ; W_DP_PRIO_BADORDER: it works, but order is stupid"])].
Definition p_t_examples_ExamplesTest_test_new_context_does_not_reset_n := Eval vm_compute in run_dialplan fs_t_examples_ExamplesTest_test_new_context_does_not_reset_n (L "test.conf").
Definition r_t_examples_ExamplesTest_test_new_context_does_not_reset_n := snd p_t_examples_ExamplesTest_test_new_context_does_not_reset_n.
Example t_examples_ExamplesTest_test_new_context_does_not_reset_n : linted [L "H_*"] (fst p_t_examples_ExamplesTest_test_new_context_does_not_reset_n) [(E_DP_PRIO_DUPE, 1%nat); (W_DP_PRIO_BADORDER, 2%nat)] = true /\
  N.of_nat (length r_t_examples_ExamplesTest_test_new_context_does_not_reset_n) = 1 /\
  (dialplan_show quoted true (nth 0 r_t_examples_ExamplesTest_test_new_context_does_not_reset_n dp_init)) = (L "[ Context 'quirk3' created by 'pbx_config' ]" ++ [10] ++ L "  'h' =>            5. NoOp(h)                                    [pbx_config]" ++ [10; 10] ++ L "[ Context 'quirk2' created by 'pbx_config' ]" ++ [10] ++ L "  't' =>            1. NoOp(t1)                                   [pbx_config]" ++ [10] ++ L "                    2. NoOp(t2)                                   [pbx_config]" ++ [10; 10] ++ L "[ Context 'quirk1' created by 'pbx_config' ]" ++ [10] ++ L "  's' =>            1. NoOp(1)                                    [pbx_config]" ++ [10] ++ L "                    2. NoOp(2)                                    [pbx_config]" ++ [10] ++ L "                    3. NoOp(3)                                    [pbx_config]" ++ [10] ++ L "                    4. NoOp(5)                                    [pbx_config]" ++ [10]).
Proof. vm_compute. repeat split. Qed.

(* tests/dialplan/test_include.py:24 *)
Definition fs_t_include_IncludeTest_test_random_include_order : fsys := fs_of [(L "test.conf", lines [L "[context1]"; L "include => context2"; 
     L "exten => _Z!,1,NoOp"; L " same => n,Goto(2${EXTEN:1})"; 
     []; L "[context2]"; 
     L "exten => _Z!,1,NoOp"; L " same => n,Set(CALLERID(num)=1234)"; 
     L "include => context1"; L " same => n,Dial(SIP/300)"])].
Definition p_t_include_IncludeTest_test_random_include_order := Eval vm_compute in run_dialplan fs_t_include_IncludeTest_test_random_include_order (L "test.conf").
Definition r_t_include_IncludeTest_test_random_include_order := snd p_t_include_IncludeTest_test_random_include_order.
Example t_include_IncludeTest_test_random_include_order : linted [L "*"] (fst p_t_include_IncludeTest_test_random_include_order) [] = true /\
  N.of_nat (length r_t_include_IncludeTest_test_random_include_order) = 1 /\
  (dialplan_show quoted true (nth 0 r_t_include_IncludeTest_test_random_include_order dp_init)) = (L "[ Context 'context2' created by 'pbx_config' ]" ++ [10] ++ L "  '_Z!' =>          1. NoOp()                                     [pbx_config]" ++ [10] ++ L "                    2. Set(CALLERID(num)=1234)                    [pbx_config]" ++ [10] ++ L "                    3. Dial(SIP/300)                              [pbx_config]" ++ [10] ++ L "  Include =>        'context1'                                    [pbx_config]" ++ [10; 10] ++ L "[ Context 'context1' created by 'pbx_config' ]" ++ [10] ++ L "  '_Z!' =>          1. NoOp()                                     [pbx_config]" ++ [10] ++ L "                    2. Goto(2${EXTEN:1})                          [pbx_config]" ++ [10] ++ L "  Include =>        'context2'                                    [pbx_config]" ++ [10]).
Proof. vm_compute. repeat split. Qed.

(* tests/dialplan/test_normal.py:21 *)
Definition fs_t_normal_NormalTest_test_normal : fsys := fs_of [(L "test.conf", lines [L "[general]"; L "writeprotect=yes"; 
     []; L "[globals]"; 
     L "GLOBAL1=X"; L "GLOBAL2=Y"; 
     []; L "[non_empty_context]"; 
     L "exten => s,1,NoOp"; L " same => n(label2),Verbose(foo)"; 
     L " same => n,Hangup()"; []; 
     L "[empty_context]"])].
Definition p_t_normal_NormalTest_test_normal := Eval vm_compute in run_dialplan fs_t_normal_NormalTest_test_normal (L "test.conf").
Definition r_t_normal_NormalTest_test_normal := snd p_t_normal_NormalTest_test_normal.
Example t_normal_NormalTest_test_normal : linted [] (fst p_t_normal_NormalTest_test_normal) [] = true /\
  N.of_nat (length r_t_normal_NormalTest_test_normal) = 1 /\
  N.of_nat (length (dp_ctxs (nth 0 r_t_normal_NormalTest_test_normal dp_init))) = 2 /\
  N.of_nat (length (dc_exts (nth 0 (dp_ctxs (nth 0 r_t_normal_NormalTest_test_normal dp_init)) no_ctx))) = 3 /\
  N.of_nat (length (dc_exts (nth 1 (dp_ctxs (nth 0 r_t_normal_NormalTest_test_normal dp_init)) no_ctx))) = 0.
Proof. vm_compute. repeat split. Qed.

(* tests/dialplan/test_normal.py:48 *)
Definition fs_t_normal_NormalTest_test_dupe_label : fsys := fs_of [(L "test.conf", lines [L "[non_empty_context]"; L "exten => s,1(label1),Verbose(foo1)"; 
     L " same => n(label2),Verbose(foo2)"; L " same => n(label1),Verbose(foo3)"; 
     L " same => n(label2),Verbose(foo4)"; L " same => n,Hangup()"])].
Definition p_t_normal_NormalTest_test_dupe_label := Eval vm_compute in run_dialplan fs_t_normal_NormalTest_test_dupe_label (L "test.conf").
Definition r_t_normal_NormalTest_test_dupe_label := snd p_t_normal_NormalTest_test_dupe_label.
Example t_normal_NormalTest_test_dupe_label : linted [L "H_*"] (fst p_t_normal_NormalTest_test_dupe_label) [(E_DP_LABEL_DUPE, 2%nat)] = true /\
  N.of_nat (length r_t_normal_NormalTest_test_dupe_label) = 1 /\
  N.of_nat (length (dp_ctxs (nth 0 r_t_normal_NormalTest_test_dupe_label dp_init))) = 1 /\
  N.of_nat (length (dc_exts (nth 0 (dp_ctxs (nth 0 r_t_normal_NormalTest_test_dupe_label dp_init)) no_ctx))) = 5 /\
  (label_of (nth 0 (dc_exts (nth 0 (dp_ctxs (nth 0 r_t_normal_NormalTest_test_dupe_label dp_init)) no_ctx)) no_ext)) = (L "label1") /\
  (label_of (nth 1 (dc_exts (nth 0 (dp_ctxs (nth 0 r_t_normal_NormalTest_test_dupe_label dp_init)) no_ctx)) no_ext)) = (L "label2") /\
  (label_of (nth 2 (dc_exts (nth 0 (dp_ctxs (nth 0 r_t_normal_NormalTest_test_dupe_label dp_init)) no_ctx)) no_ext)) = ([] : str) /\
  (label_of (nth 3 (dc_exts (nth 0 (dp_ctxs (nth 0 r_t_normal_NormalTest_test_dupe_label dp_init)) no_ctx)) no_ext)) = ([] : str).
Proof. vm_compute. repeat split. Qed.

(* tests/dialplan/test_prio.py:36 *)
Definition fs_t_prio_SamePrioTest_test_exten_num_prio : fsys := fs_of [(L "test.conf", lines [L "[context]"; L "exten => pattern,1,NoOp(1)"; 
     L "exten => pattern,2,NoOp(2)"; L "exten => pattern,3,NoOp(3)"])].
Definition p_t_prio_SamePrioTest_test_exten_num_prio := Eval vm_compute in run_dialplan fs_t_prio_SamePrioTest_test_exten_num_prio (L "test.conf").
Definition r_t_prio_SamePrioTest_test_exten_num_prio := snd p_t_prio_SamePrioTest_test_exten_num_prio.
Example t_prio_SamePrioTest_test_exten_num_prio : linted [L "H_DP_GENERAL_MISPLACED"; L "H_DP_GLOBALS_MISPLACED"] (fst p_t_prio_SamePrioTest_test_exten_num_prio) [] = true /\
  N.of_nat (length (dp_ctxs (nth 0 r_t_prio_SamePrioTest_test_exten_num_prio dp_init))) = 1 /\
  N.of_nat (length (dc_exts (nth 0 (dp_ctxs (nth 0 r_t_prio_SamePrioTest_test_exten_num_prio dp_init)) no_ctx))) = 3 /\
  (nodup str_eq_dec (map (fun i => (praw (x_pat i))) (dc_exts (nth 0 (dp_ctxs (nth 0 r_t_prio_SamePrioTest_test_exten_num_prio dp_init)) no_ctx)))) = (nodup str_eq_dec [(L "pattern")]) /\
  (map (fun i => (Z.to_N (x_prio i))) (dc_exts (nth 0 (dp_ctxs (nth 0 r_t_prio_SamePrioTest_test_exten_num_prio dp_init)) no_ctx))) = [1; 2; 3] /\
  (map (fun i => (x_raw i)) (dc_exts (nth 0 (dp_ctxs (nth 0 r_t_prio_SamePrioTest_test_exten_num_prio dp_init)) no_ctx))) = [L "NoOp(1)"; L "NoOp(2)"; L "NoOp(3)"].
Proof. vm_compute. repeat split. Qed.

(* tests/dialplan/test_prio.py:46 *)
Definition fs_t_prio_SamePrioTest_test_exten_n_prio : fsys := fs_of [(L "test.conf", lines [L "[context]"; L "exten => pattern,1,NoOp(1)"; 
     L "exten => pattern,n,NoOp(2)"; L "exten => pattern,n,NoOp(3)"])].
Definition p_t_prio_SamePrioTest_test_exten_n_prio := Eval vm_compute in run_dialplan fs_t_prio_SamePrioTest_test_exten_n_prio (L "test.conf").
Definition r_t_prio_SamePrioTest_test_exten_n_prio := snd p_t_prio_SamePrioTest_test_exten_n_prio.
Example t_prio_SamePrioTest_test_exten_n_prio : linted [L "H_DP_GENERAL_MISPLACED"; L "H_DP_GLOBALS_MISPLACED"] (fst p_t_prio_SamePrioTest_test_exten_n_prio) [] = true /\
  N.of_nat (length (dp_ctxs (nth 0 r_t_prio_SamePrioTest_test_exten_n_prio dp_init))) = 1 /\
  N.of_nat (length (dc_exts (nth 0 (dp_ctxs (nth 0 r_t_prio_SamePrioTest_test_exten_n_prio dp_init)) no_ctx))) = 3 /\
  (nodup str_eq_dec (map (fun i => (praw (x_pat i))) (dc_exts (nth 0 (dp_ctxs (nth 0 r_t_prio_SamePrioTest_test_exten_n_prio dp_init)) no_ctx)))) = (nodup str_eq_dec [(L "pattern")]) /\
  (map (fun i => (Z.to_N (x_prio i))) (dc_exts (nth 0 (dp_ctxs (nth 0 r_t_prio_SamePrioTest_test_exten_n_prio dp_init)) no_ctx))) = [1; 2; 3] /\
  (map (fun i => (x_raw i)) (dc_exts (nth 0 (dp_ctxs (nth 0 r_t_prio_SamePrioTest_test_exten_n_prio dp_init)) no_ctx))) = [L "NoOp(1)"; L "NoOp(2)"; L "NoOp(3)"].
Proof. vm_compute. repeat split. Qed.

(* tests/dialplan/test_prio.py:56 *)
Definition fs_t_prio_SamePrioTest_test_same_n_prio : fsys := fs_of [(L "test.conf", lines [L "[context]"; L "exten => pattern,1,NoOp(1)"; 
     L " same => n,NoOp(2)"; L " same => n,NoOp(3)"])].
Definition p_t_prio_SamePrioTest_test_same_n_prio := Eval vm_compute in run_dialplan fs_t_prio_SamePrioTest_test_same_n_prio (L "test.conf").
Definition r_t_prio_SamePrioTest_test_same_n_prio := snd p_t_prio_SamePrioTest_test_same_n_prio.
Example t_prio_SamePrioTest_test_same_n_prio : linted [L "H_DP_GENERAL_MISPLACED"; L "H_DP_GLOBALS_MISPLACED"] (fst p_t_prio_SamePrioTest_test_same_n_prio) [] = true /\
  N.of_nat (length (dp_ctxs (nth 0 r_t_prio_SamePrioTest_test_same_n_prio dp_init))) = 1 /\
  N.of_nat (length (dc_exts (nth 0 (dp_ctxs (nth 0 r_t_prio_SamePrioTest_test_same_n_prio dp_init)) no_ctx))) = 3 /\
  (nodup str_eq_dec (map (fun i => (praw (x_pat i))) (dc_exts (nth 0 (dp_ctxs (nth 0 r_t_prio_SamePrioTest_test_same_n_prio dp_init)) no_ctx)))) = (nodup str_eq_dec [(L "pattern")]) /\
  (map (fun i => (Z.to_N (x_prio i))) (dc_exts (nth 0 (dp_ctxs (nth 0 r_t_prio_SamePrioTest_test_same_n_prio dp_init)) no_ctx))) = [1; 2; 3] /\
  (map (fun i => (x_raw i)) (dc_exts (nth 0 (dp_ctxs (nth 0 r_t_prio_SamePrioTest_test_same_n_prio dp_init)) no_ctx))) = [L "NoOp(1)"; L "NoOp(2)"; L "NoOp(3)"].
Proof. vm_compute. repeat split. Qed.

(* tests/dialplan/test_prio.py:69 *)
Definition fs_t_prio_BadPrioTest_test_invalid_prio : fsys := fs_of [(L "test.conf", lines [L "[context]"; L "exten => pattern,0,NoOp(1)"])].
Definition p_t_prio_BadPrioTest_test_invalid_prio := Eval vm_compute in run_dialplan fs_t_prio_BadPrioTest_test_invalid_prio (L "test.conf").
Definition r_t_prio_BadPrioTest_test_invalid_prio := snd p_t_prio_BadPrioTest_test_invalid_prio.
Example t_prio_BadPrioTest_test_invalid_prio : linted [L "H_DP_GENERAL_MISPLACED"; L "H_DP_GLOBALS_MISPLACED"] (fst p_t_prio_BadPrioTest_test_invalid_prio) [(E_DP_PRIO_INVALID, 1%nat)] = true /\
  N.of_nat (length (dc_exts (nth 0 (dp_ctxs (nth 0 r_t_prio_BadPrioTest_test_invalid_prio dp_init)) no_ctx))) = 0.
Proof. vm_compute. repeat split. Qed.

(* tests/dialplan/test_prio.py:79 *)
Definition fs_t_prio_BadPrioTest_test_dupe_prio : fsys := fs_of [(L "test.conf", lines [L "[context]"; L "exten => pattern,1,NoOp(1)"; 
     L "exten => pattern,2,NoOp(2)"; L "exten => pattern,2,NoOp(3)"])].
Definition p_t_prio_BadPrioTest_test_dupe_prio := Eval vm_compute in run_dialplan fs_t_prio_BadPrioTest_test_dupe_prio (L "test.conf").
Definition r_t_prio_BadPrioTest_test_dupe_prio := snd p_t_prio_BadPrioTest_test_dupe_prio.
Example t_prio_BadPrioTest_test_dupe_prio : linted [L "H_DP_GENERAL_MISPLACED"; L "H_DP_GLOBALS_MISPLACED"] (fst p_t_prio_BadPrioTest_test_dupe_prio) [(E_DP_PRIO_DUPE, 1%nat)] = true /\
  N.of_nat (length (dc_exts (nth 0 (dp_ctxs (nth 0 r_t_prio_BadPrioTest_test_dupe_prio dp_init)) no_ctx))) = 2.
Proof. vm_compute. repeat split. Qed.

(* tests/dialplan/test_prio.py:91 *)
Definition fs_t_prio_BadPrioTest_test_missing_prio_1 : fsys := fs_of [(L "test.conf", lines [L "[context]"; L "exten => pattern,n,NoOp(1)"; 
     L "exten => pattern,n,NoOp(2)"; L "exten => pattern,n,NoOp(3)"])].
Definition p_t_prio_BadPrioTest_test_missing_prio_1 := Eval vm_compute in run_dialplan fs_t_prio_BadPrioTest_test_missing_prio_1 (L "test.conf").
Definition r_t_prio_BadPrioTest_test_missing_prio_1 := snd p_t_prio_BadPrioTest_test_missing_prio_1.
Example t_prio_BadPrioTest_test_missing_prio_1 : linted [L "H_DP_GENERAL_MISPLACED"; L "H_DP_GLOBALS_MISPLACED"] (fst p_t_prio_BadPrioTest_test_missing_prio_1) [(E_DP_PRIO_MISSING, 3%nat)] = true /\
  N.of_nat (length (dc_exts (nth 0 (dp_ctxs (nth 0 r_t_prio_BadPrioTest_test_missing_prio_1 dp_init)) no_ctx))) = 0.
Proof. vm_compute. repeat split. Qed.

(* tests/dialplan/test_prio.py:103 *)
Definition fs_t_prio_BadPrioTest_test_prio_bad_start : fsys := fs_of [(L "test.conf", lines [L "[context]"; L "exten => pattern,2,NoOp(1)"; 
     L "exten => pattern,n,NoOp(2)"; L "exten => pattern,n,NoOp(3)"])].
Definition p_t_prio_BadPrioTest_test_prio_bad_start := Eval vm_compute in run_dialplan fs_t_prio_BadPrioTest_test_prio_bad_start (L "test.conf").
Definition r_t_prio_BadPrioTest_test_prio_bad_start := snd p_t_prio_BadPrioTest_test_prio_bad_start.
Example t_prio_BadPrioTest_test_prio_bad_start : linted [L "H_DP_GENERAL_MISPLACED"; L "H_DP_GLOBALS_MISPLACED"] (fst p_t_prio_BadPrioTest_test_prio_bad_start) [(W_DP_PRIO_BADORDER, 1%nat)] = true /\
  N.of_nat (length (dc_exts (nth 0 (dp_ctxs (nth 0 r_t_prio_BadPrioTest_test_prio_bad_start dp_init)) no_ctx))) = 3.
Proof. vm_compute. repeat split. Qed.

(* tests/dialplan/test_prio.py:115 *)
Definition fs_t_prio_BadPrioTest_test_prio_missing : fsys := fs_of [(L "test.conf", lines [L "[context]"; L "exten => pattern,1,NoOp(1)"; 
     L "exten => pattern,NoOp(2)"; L "exten => pattern,n,NoOp(3)"])].
Definition p_t_prio_BadPrioTest_test_prio_missing := Eval vm_compute in run_dialplan fs_t_prio_BadPrioTest_test_prio_missing (L "test.conf").
Definition r_t_prio_BadPrioTest_test_prio_missing := snd p_t_prio_BadPrioTest_test_prio_missing.
Example t_prio_BadPrioTest_test_prio_missing : linted [L "H_DP_GENERAL_MISPLACED"; L "H_DP_GLOBALS_MISPLACED"] (fst p_t_prio_BadPrioTest_test_prio_missing) [(E_DP_PRIO_INVALID, 1%nat)] = true /\
  N.of_nat (length (dc_exts (nth 0 (dp_ctxs (nth 0 r_t_prio_BadPrioTest_test_prio_missing dp_init)) no_ctx))) = 2.
Proof. vm_compute. repeat split. Qed.

(* tests/dialplan/test_prio.py:127 *)
Definition fs_t_prio_BadPrioTest_test_prio_missing_app : fsys := fs_of [(L "test.conf", lines [L "[context]"; L "exten => pattern,1,NoOp(1)"; 
     L "exten => pattern,n"; L "exten => pattern,n,NoOp(3)"])].
Definition p_t_prio_BadPrioTest_test_prio_missing_app := Eval vm_compute in run_dialplan fs_t_prio_BadPrioTest_test_prio_missing_app (L "test.conf").
Definition r_t_prio_BadPrioTest_test_prio_missing_app := snd p_t_prio_BadPrioTest_test_prio_missing_app.
Example t_prio_BadPrioTest_test_prio_missing_app : linted [L "H_DP_GENERAL_MISPLACED"; L "H_DP_GLOBALS_MISPLACED"] (fst p_t_prio_BadPrioTest_test_prio_missing_app) [(E_APP_MISSING, 1%nat); (W_APP_NEED_PARENS, 1%nat)] = true /\
  N.of_nat (length (dc_exts (nth 0 (dp_ctxs (nth 0 r_t_prio_BadPrioTest_test_prio_missing_app dp_init)) no_ctx))) = 3.
Proof. vm_compute. repeat split. Qed.

(* tests/dialplan/test_prio.py:140 *)
Definition fs_t_prio_BadPrioTest_test_prio_inconsistent_n : fsys := fs_of [(L "test.conf", lines [L "[context]"; L "exten => 10,1,NoOp(10a)"; 
     L "exten => 10,n,NoOp(10b)"; L "exten => 20,1,NoOp(20a)"; 
     L "exten => 10,n,NoOp(20b) ; this does not become 10,2, but gets discarded"; L "exten => 10,n,NoOp(20c) ; this becomes 10,3"; 
     L "exten => 10,n,NoOp(20d) ; this becomes 10,4"; L "exten => 10,n,NoOp(20e) ; this becomes 10,5"])].
Definition p_t_prio_BadPrioTest_test_prio_inconsistent_n := Eval vm_compute in run_dialplan fs_t_prio_BadPrioTest_test_prio_inconsistent_n (L "test.conf").
Definition r_t_prio_BadPrioTest_test_prio_inconsistent_n := snd p_t_prio_BadPrioTest_test_prio_inconsistent_n.
Example t_prio_BadPrioTest_test_prio_inconsistent_n : linted [L "H_DP_GENERAL_MISPLACED"; L "H_DP_GLOBALS_MISPLACED"] (fst p_t_prio_BadPrioTest_test_prio_inconsistent_n) [(E_DP_PRIO_DUPE, 1%nat); (W_DP_PRIO_BADORDER, 2%nat)] = true /\
  N.of_nat (length (dp_ctxs (nth 0 r_t_prio_BadPrioTest_test_prio_inconsistent_n dp_init))) = 1 /\
  (map (fun i => ((praw (x_pat i)), (Z.to_N (x_prio i)), (x_raw i))) (fst (by_pattern (nth 0 (dp_ctxs (nth 0 r_t_prio_BadPrioTest_test_prio_inconsistent_n dp_init)) no_ctx)))) = [((L "10"), 1, (L "NoOp(10a)")); ((L "10"), 2, (L "NoOp(10b)")); ((L "10"), 3, (L "NoOp(20c)")); ((L "10"), 4, (L "NoOp(20d)")); ((L "10"), 5, (L "NoOp(20e)")); ((L "20"), 1, (L "NoOp(20a)"))].
Proof. vm_compute. repeat split. Qed.

(* tests/dialplan/test_prio.py:170 *)
Definition fs_t_prio_BadPrioTest_test_prio_missing_1_in_context2 : fsys := fs_of [(L "test.conf", lines [L "[context]"; L "exten => 10,1,NoOp(10a)"; 
     L "exten => 10,n,NoOp(10b)"; []; 
     L "[context2a]"; L "exten => 10,n,NoOp(10c) ; gets eaten in Ast11, gets prio 3 in Ast1.4"; 
     L "exten => 20,50,NoOp(20a)"])].
Definition p_t_prio_BadPrioTest_test_prio_missing_1_in_context2 := Eval vm_compute in run_dialplan fs_t_prio_BadPrioTest_test_prio_missing_1_in_context2 (L "test.conf").
Definition r_t_prio_BadPrioTest_test_prio_missing_1_in_context2 := snd p_t_prio_BadPrioTest_test_prio_missing_1_in_context2.
Example t_prio_BadPrioTest_test_prio_missing_1_in_context2 : linted [L "H_DP_GENERAL_MISPLACED"; L "H_DP_GLOBALS_MISPLACED"] (fst p_t_prio_BadPrioTest_test_prio_missing_1_in_context2) [(W_DP_PRIO_BADORDER, 2%nat)] = true /\
  N.of_nat (length (dp_ctxs (nth 0 r_t_prio_BadPrioTest_test_prio_missing_1_in_context2 dp_init))) = 2 /\
  (map (fun i => ((praw (x_pat i)), (Z.to_N (x_prio i)), (x_raw i))) (fst (by_pattern (nth 0 (dp_ctxs (nth 0 r_t_prio_BadPrioTest_test_prio_missing_1_in_context2 dp_init)) no_ctx)))) = [((L "10"), 1, (L "NoOp(10a)")); ((L "10"), 2, (L "NoOp(10b)"))] /\
  (map (fun i => ((praw (x_pat i)), (Z.to_N (x_prio i)), (x_raw i))) (fst (by_pattern (nth 1 (dp_ctxs (nth 0 r_t_prio_BadPrioTest_test_prio_missing_1_in_context2 dp_init)) no_ctx)))) = [((L "10"), 3, (L "NoOp(10c)")); ((L "20"), 50, (L "NoOp(20a)"))].
Proof. vm_compute. repeat split. Qed.

(* tests/dialplan/test_versionspecific.py:24 *)
Definition fs_t_versionspecific_VersionSpecificTest_test_asterisk_1_4_has_lowercase_NZX_sort_bug : fsys := fs_of [(L "test.conf", lines [L "[asterisk-1.4-sorting-bug]"; L "exten => _X-0,1,NoOp(X)"; 
     L "exten => _x-1,1,NoOp(x)"; L "exten => _N-0,1,NoOp(N)"; 
     L "exten => _n-1,1,NoOp(n)"; L "exten => _Z-0,1,NoOp(Z)"; 
     L "exten => _z-1,1,NoOp(z)"])].
Definition p_t_versionspecific_VersionSpecificTest_test_asterisk_1_4_has_lowercase_NZX_sort_bug := Eval vm_compute in run_dialplan fs_t_versionspecific_VersionSpecificTest_test_asterisk_1_4_has_lowercase_NZX_sort_bug (L "test.conf").
Definition r_t_versionspecific_VersionSpecificTest_test_asterisk_1_4_has_lowercase_NZX_sort_bug := snd p_t_versionspecific_VersionSpecificTest_test_asterisk_1_4_has_lowercase_NZX_sort_bug.
Example t_versionspecific_VersionSpecificTest_test_asterisk_1_4_has_lowercase_NZX_sort_bug : linted [L "H_*"] (fst p_t_versionspecific_VersionSpecificTest_test_asterisk_1_4_has_lowercase_NZX_sort_bug) [] = true /\
  N.of_nat (length r_t_versionspecific_VersionSpecificTest_test_asterisk_1_4_has_lowercase_NZX_sort_bug) = 1 /\
  (dialplan_show quoted true (nth 0 r_t_versionspecific_VersionSpecificTest_test_asterisk_1_4_has_lowercase_NZX_sort_bug dp_init)) = (L "[ Context 'asterisk-1.4-sorting-bug' created by 'pbx_config' ]" ++ [10] ++ L "  '_N-0' =>         1. NoOp(N)                                    [pbx_config]" ++ [10] ++ L "  '_n-1' =>         1. NoOp(n)                                    [pbx_config]" ++ [10] ++ L "  '_Z-0' =>         1. NoOp(Z)                                    [pbx_config]" ++ [10] ++ L "  '_z-1' =>         1. NoOp(z)                                    [pbx_config]" ++ [10] ++ L "  '_X-0' =>         1. NoOp(X)                                    [pbx_config]" ++ [10] ++ L "  '_x-1' =>         1. NoOp(x)                                    [pbx_config]" ++ [10]).
Proof. vm_compute. repeat split. Qed.

(* tests/pattern/test_dialplan.py:40 *)
Definition fs_t_dialplan_PatternDialplanTest_test_normal : fsys := fs_of [(L "test.conf", lines [L "[general]"; []; 
     L "[globals]"; []; 
     L "[non_empty_context]"; L "exten => s,1,NoOp(s,1)"; 
     L "exten => s,n,NoOp(s,2)"; L "exten => 100,1,NoOp(100,1)"; 
     L "exten => 100,n,NoOp(100,2)"; L "exten => 100,n,NoOp(100,3)"; 
     L "exten => 101,1,NoOp(101,1)"; L "exten => _X!,1,NoOp(_X!,1)"; 
     L "exten => _X!,n,NoOp(_X!,2)"])].
Definition p_t_dialplan_PatternDialplanTest_test_normal := Eval vm_compute in run_dialplan fs_t_dialplan_PatternDialplanTest_test_normal (L "test.conf").
Definition r_t_dialplan_PatternDialplanTest_test_normal := snd p_t_dialplan_PatternDialplanTest_test_normal.
Example t_dialplan_PatternDialplanTest_test_normal : linted [] (fst p_t_dialplan_PatternDialplanTest_test_normal) [] = true /\
  N.of_nat (length r_t_dialplan_PatternDialplanTest_test_normal) = 1 /\
  N.of_nat (length (dp_ctxs (nth 0 r_t_dialplan_PatternDialplanTest_test_normal dp_init))) = 1 /\
  (map (fun i => (praw i)) (map (fun i => x_pat i) (dc_exts (nth 0 (dp_ctxs (nth 0 r_t_dialplan_PatternDialplanTest_test_normal dp_init)) no_ctx)))) = [(L "s"); (L "s"); (L "100"); (L "100"); (L "100"); (L "101"); (L "_X!"); (L "_X!")].
Proof. vm_compute. repeat split. Qed.

(* tests/pattern/test_dialplan.py:55 *)
Definition fs_t_dialplan_PatternDialplanTest_test_canonical_hints : fsys := fs_of [(L "test.conf", lines [L "[general]"; []; 
     L "[globals]"; []; 
     L "[non_empty_context]"; L "exten => _s[2-9]ob,1,NoOp(1)"; 
     L "exten => _s[2-9]ob,n,NoOp(2)"; L "exten => _s[2-9]ob,n,NoOp(3)"])].
Definition p_t_dialplan_PatternDialplanTest_test_canonical_hints := Eval vm_compute in run_dialplan fs_t_dialplan_PatternDialplanTest_test_canonical_hints (L "test.conf").
Definition r_t_dialplan_PatternDialplanTest_test_canonical_hints := snd p_t_dialplan_PatternDialplanTest_test_canonical_hints.
Example t_dialplan_PatternDialplanTest_test_canonical_hints : linted [] (fst p_t_dialplan_PatternDialplanTest_test_canonical_hints) [(H_PAT_NON_CANONICAL, 3%nat)] = true /\
  N.of_nat (length r_t_dialplan_PatternDialplanTest_test_canonical_hints) = 1 /\
  N.of_nat (length (dp_ctxs (nth 0 r_t_dialplan_PatternDialplanTest_test_canonical_hints dp_init))) = 1 /\
  (map (fun i => (canon i)) (map (fun i => x_pat i) (dc_exts (nth 0 (dp_ctxs (nth 0 r_t_dialplan_PatternDialplanTest_test_canonical_hints dp_init)) no_ctx)))) = [(L "_sNob"); (L "_sNob"); (L "_sNob")].
Proof. vm_compute. repeat split. Qed.

(* tests/pattern/test_dialplan.py:66 *)
Definition fs_t_dialplan_PatternDialplanTest_test_canonical_valid : fsys := fs_of [(L "test.conf", lines [L "[general]"; []; 
     L "[globals]"; []; 
     L "[non_empty_context]"; L "exten => _[0-9a-f].,1,NoOp(1)"; 
     L "exten => _[0-9a-f].,n,NoOp(2)"])].
Definition p_t_dialplan_PatternDialplanTest_test_canonical_valid := Eval vm_compute in run_dialplan fs_t_dialplan_PatternDialplanTest_test_canonical_valid (L "test.conf").
Definition r_t_dialplan_PatternDialplanTest_test_canonical_valid := snd p_t_dialplan_PatternDialplanTest_test_canonical_valid.
Example t_dialplan_PatternDialplanTest_test_canonical_valid : linted [] (fst p_t_dialplan_PatternDialplanTest_test_canonical_valid) [] = true /\
  N.of_nat (length r_t_dialplan_PatternDialplanTest_test_canonical_valid) = 1 /\
  N.of_nat (length (dp_ctxs (nth 0 r_t_dialplan_PatternDialplanTest_test_canonical_valid dp_init))) = 1 /\
  (map (fun i => (canon i)) (map (fun i => x_pat i) (dc_exts (nth 0 (dp_ctxs (nth 0 r_t_dialplan_PatternDialplanTest_test_canonical_valid dp_init)) no_ctx)))) = [(L "_[0-9a-f]."); (L "_[0-9a-f].")].
Proof. vm_compute. repeat split. Qed.
