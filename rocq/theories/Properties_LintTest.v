(* C64: the test harness: what a test that passes shows, which messages the list
   at the end leaves out, and which tests a generated class has. *)
From Coq Require Import Sorted.
From Verif Require Import Base PyStr Defines Commands Check Spec_Commands Spec_Check LintTest Spec_LintTest LintTest_proofs.

(* ---- what is ignored ---- *)
Theorem C64_values : forall vs, (exists g, ignore_of vs = Ok g) <-> forall v, In v vs -> exists s, v = Some s /\ Value s.
Proof. exact ignore_some. Qed.
Print Assumptions C64_values.
Theorem C64_value_errors : forall vs e, ignore_of vs = Exn e <-> exists a v r, vs = map Some a ++ v :: r /\ (forall s, In s a -> Value s) /\
  (v = None /\ e = TypeError \/ exists s, v = Some s /\ ~ Value s /\ e = ValueError).
Proof. exact ignore_error. Qed.
Print Assumptions C64_value_errors.
Theorem C64_ignored : forall vs g, ignore_of (map Some vs) = Ok g -> forall k, ignored g k = true <-> Ignored vs k.
Proof. exact ignore_exact. Qed.
Print Assumptions C64_ignored.
Example C64_example_values :
  exists g, ignore_of (map Some [L "W_WHATEVER"; L "H_*"]) = Ok g /\ ignored g (L "H_MY_HINT3") = true /\ ignored g (L "W_MY_WARNING3") = false /\
  ignored g (L "H_") = true /\ ignored g (L "H") = false /\ ignored g (L "W_WHATEVER2") = false.
Proof. eexists. vm_compute. repeat split. Qed.
Example C64_example_bad_values : ignore_of [Some (L "H_*"); Some (L "*_X"); None] = Exn ValueError /\ ignore_of [Some (L "H_*"); None; Some (L "*_X")] = Exn TypeError.
Proof. now vm_compute. Qed.
Example C64_example_ignored : Ignored [L "W_WHATEVER"; L "H_*"] (L "H_MY_HINT3") /\ ~ Ignored [L "W_WHATEVER"; L "H_*"] (L "W_MY_WARNING3").
Proof.
  split; [right; exists (L "H_"), (L "MY_HINT3"); now vm_compute; auto|]. intros H. apply (C64_ignored [L "W_WHATEVER"; L "H_*"] (Ignore [L "W_WHATEVER"] [L "H_"]) eq_refl) in H. discriminate H.
Qed.

(* ---- a test ---- *)
(* A test passes exactly if it raised, up to each assertLinted and up to its end,
   the messages that it states, in number, and others that it ignores. *)
Theorem C64_test : forall c m t, Made c (t_class t) -> Made m (t_method t) ->
  (snd (run_test [] t) = true <-> Passes (Skip c m) (t_body t)) /\
  exists l, Tested (Skip c m) (t_body t) l /\ forall k, lookup k (snd (fst (run_test [] t))) = if existsb (str_eqb k) l then Some (times k l) else None.
Proof. exact test_says. Qed.
Print Assumptions C64_test.
Theorem C64_tested_determined : forall skip l a b, Tested skip l a -> Tested skip l b -> a = b.
Proof. intros skip l a b H. exact (tested_fun skip l a H b). Qed.
Print Assumptions C64_tested_determined.
(* Nothing is left to the next test, whatever the test did and found. *)
Theorem C64_left : forall raised t, fst (fst (run_test raised t)) = [].
Proof. exact run_test_left. Qed.
Print Assumptions C64_left.
(* But nothing clears what is raised before the first test (while the modules
   load): it counts as raised by that test. *)
Theorem C64_before : forall pre t, run_test (fold_left (fun d k => count_add k 1 d) pre []) t =
  run_test [] (Test (t_class t) (t_method t) (map Raise pre ++ t_body t)).
Proof. exact test_before. Qed.
Print Assumptions C64_before.

(* tests/alinttest/test_assertlinted.py *)
Definition made (vs : list str) : option ignore := match ignore_of (map Some vs) with Ok g => Some g | _ => None end.
Definition raises (l : list str) : list act := map Raise l.
Example C64_example_multiple :
  run_test [] (Test None None (raises [L "H_MY_HINT2"; L "W_MY_WARNING2"; L "H_MY_HINT2"] ++ [Assert [(L "W_MY_WARNING2", 1); (L "H_MY_HINT2", 2)]]))
  = ([], [(L "H_MY_HINT2", 2); (L "W_MY_WARNING2", 1)], true).
Proof. now vm_compute. Qed.
Example C64_example_asterisk :
  snd (run_test [] (Test None (made [L "W_WHATEVER"; L "H_*"]) (raises [L "H_MY_HINT3"; L "W_MY_WARNING3"; L "H_MY_HINT3"] ++ [Assert [(L "W_MY_WARNING3", 1)]]))) = true.
Proof. now vm_compute. Qed.
Example C64_example_without_call :
  run_test [] (Test None (made [L "*"]) (raises [L "H_MY_HINT5"; L "W_MY_WARNING5"; L "H_MY_HINT5"])) = ([], [(L "H_MY_HINT5", 2); (L "W_MY_WARNING5", 1)], true).
Proof. now vm_compute. Qed.
Example C64_example_class :
  snd (run_test [] (Test (made [L "H_SOMETHING_DIFFERENT"; L "W_MY_WARN*"]) None
    (raises [L "H_MY_HINT6"; L "W_MY_WARNING6"; L "H_MY_HINT6"] ++ [Assert [(L "H_MY_HINT6", 2)]]))) = true.
Proof. now vm_compute. Qed.
Example C64_example_teardown : run_test [] (Test None None (raises [L "W_MY_WARNING7"])) = ([], [(L "W_MY_WARNING7", 1)], false).
Proof. now vm_compute. Qed.
Example C64_example_errored : run_test [] (Test None None (raises [L "W_MY_WARNING8"] ++ [Stop])) = ([], [], false).
Proof. now vm_compute. Qed.
Example C64_example_passes : Passes (Skip None (Some [L "W_WHATEVER"; L "H_*"]))
  (raises [L "H_MY_HINT3"; L "W_MY_WARNING3"; L "H_MY_HINT3"] ++ [Assert [(L "W_MY_WARNING3", 1)]]).
Proof.
  apply (proj1 (C64_test None (Some [L "W_WHATEVER"; L "H_*"]) (Test None (made [L "W_WHATEVER"; L "H_*"]) _) I eq_refl)). now vm_compute.
Qed.
(* ignored messages may not be stated *)
Example C64_example_stated :
  snd (run_test [] (Test None (made [L "H_*"]) (raises [L "H_MY_HINT3"] ++ [Assert [(L "H_MY_HINT3", 1)]]))) = false.
Proof. now vm_compute. Qed.

(* Refuted: what the decorators of the class and of the test name is ignored. *)
Theorem C64_both_refuted : ~ forall c m t k, Made (Some c) (t_class t) -> Made (Some m) (t_method t) -> Ignored m k -> t_body t = [Raise k] ->
  snd (run_test [] t) = true.
Proof.
  intros H. specialize (H [L "H_*"] [L "W_*"] (Test (made [L "H_*"]) (made [L "W_*"]) [Raise (L "W_X")]) (L "W_X") eq_refl eq_refl).
  assert (X : false = true); [|discriminate X]. rewrite <- H; [now vm_compute| |easy]. right. exists (L "W_"), (L "X"). vm_compute. auto.
Qed.
Print Assumptions C64_both_refuted.
(* Refuted: a message that a test raised is in the counts. *)
Theorem C64_counted_refuted : ~ forall t k, In (Raise k) (t_body t) -> In k (map fst (snd (fst (run_test [] t)))).
Proof. intros H. destruct (H (Test None None (raises [L "W_MY_WARNING8"] ++ [Stop])) (L "W_MY_WARNING8")); now left. Qed.
Print Assumptions C64_counted_refuted.

(* ---- a run of tests ---- *)
(* Each test has the verdict that it has alone; the list at the end names the
   classes of messages that no test counted, each once and in order. *)
Theorem C64_suite : forall ts, (forall t c m, In (t, c, m) ts -> Made c (t_class t) /\ Made m (t_method t)) ->
  let run := run_suite [] [] (map (fun x => fst (fst x)) ts) in
  Forall2 (fun x ok => ok = true <-> Passes (Skip (snd (fst x)) (snd x)) (t_body (fst (fst x)))) ts (snd run) /\
  exists ls, Forall2 (fun x l => Tested (Skip (snd (fst x)) (snd x)) (t_body (fst (fst x))) l) ts ls /\
             forall types page, untested types (fst run) = page <-> Untested types (List.concat ls) page.
Proof. exact suite_says. Qed.
Print Assumptions C64_suite.
Example C64_example_suite :
  let run := run_suite [] [] [Test None None (raises [L "W_B"]); Test None (made [L "H_*"]) (raises [L "H_A"; L "H_A"; L "W_B"] ++ [Assert [(L "W_B", 1)]]);
                              Test None None (raises [L "W_C"] ++ [Stop])] in
  snd run = [false; true; false] /\
  untested [L "W_D"; L "W_C"; L "W_B"; L "H_A"] (fst run) = [10; 10] ++ L "Still untested messages:" ++ [10] ++ L " - W_C" ++ [10] ++ L " - W_D" ++ [10] /\
  untested [L "W_B"; L "H_A"] (fst run) = [].
Proof. now vm_compute. Qed.
Example C64_example_untested :
  Untested [L "W_D"; L "W_C"; L "W_B"; L "H_A"] [L "W_B"; L "H_A"; L "H_A"; L "W_B"] ([10; 10] ++ L "Still untested messages:" ++ [10] ++ L " - W_C" ++ [10] ++ L " - W_D" ++ [10]).
Proof.
  apply (untested_exact _ _ (add_all (fold_left (fun d k => count_add k 1 d) [L "W_B"; L "H_A"; L "H_A"; L "W_B"] []) [])); [|now vm_compute].
  exact (counts_raises [L "W_B"; L "H_A"; L "H_A"; L "W_B"] [] [] counts_nil).
Qed.

(* ---- generated tests ---- *)
Theorem C64_generated : forall dct argslist n m, lookup n (generate dct argslist) = Some m <-> Has dct argslist n m.
Proof. exact generate_exact. Qed.
Print Assumptions C64_generated.
Theorem C64_every_case : forall dct argslist, (forall a, In a argslist -> lookup (case_name a) (generate dct argslist) = Some (Generated a)) <->
  forall a b n, In a argslist -> In b argslist -> CaseName a n -> CaseName b n -> a = b.
Proof. exact generate_all. Qed.
Print Assumptions C64_every_case.
(* Refuted: a test written by hand is run; tests/application/test_applist.py:28,61
   has Goto in the list and as a test. *)
Theorem C64_written_refuted : ~ forall dct argslist n k, lookup n dct = Some (Written k) -> lookup n (generate dct argslist) = Some (Written k).
Proof. intros H. specialize (H [(L "test_Goto", Written 0)] [[L "Gosub"]; [L "Goto"]] (L "test_Goto") 0 eq_refl). vm_compute in H. discriminate H. Qed.
Print Assumptions C64_written_refuted.
(* Refuted: each argument list has its test. *)
Theorem C64_distinct_refuted : ~ forall dct argslist a, NoDup argslist -> In a argslist -> exists n, lookup n (generate dct argslist) = Some (Generated a).
Proof.
  intros H. destruct (H [] [[L "1_2"; L "3"]; [L "1"; L "2_3"]] [L "1_2"; L "3"]) as [n E].
  - repeat constructor; cbn [In]; intuition discriminate.
  - now left.
  - change (generate [] [[L "1_2"; L "3"]; [L "1"; L "2_3"]]) with [(L "test_1_2_3", Generated [L "1"; L "2_3"])] in E.
    cbn [lookup] in E. destruct (str_eqb n (L "test_1_2_3")); discriminate E.
Qed.
Print Assumptions C64_distinct_refuted.
Example C64_example_generated :
  generate [(L "_test_func", Written 0)] [[L "1"; L "4"]; [L "2"; L "3"]] =
  [(L "_test_func", Written 0); (L "test_1_4", Generated [L "1"; L "4"]); (L "test_2_3", Generated [L "2"; L "3"])].
Proof. now vm_compute. Qed.
