(* C57: what a text with variables, functions and expressions stands for, and
   everything that is said about it and recorded of it. *)
From Verif Require Import Base PyStr Defines Var VarFun AppM Spec_Var Spec_VarFun Spec_App Spec_Args Spec_Crash Spec_Subst
  Spec_Verbatim Verbatim_proofs SubstF_proofs Tables Tok_proofs Properties_App Properties_Var.

(* A text is read without failure exactly if it stands for something; the
   value has those characters and variables, and the log is exactly that. *)
Theorem C57_text : forall U FT w s l t, AsciiOk U ->
  parse_variables U FT s w = (l, Ok t) <-> exists dl, Stands U FT w s dl l /\ Canon t dl.
Proof. intros U FT w s l t HU. now apply parse_iff. Qed.
Print Assumptions C57_text.

Theorem C57_determined : forall U FT w s dl l dl' l', AsciiOk U ->
  Stands U FT w s dl l -> Stands U FT w s dl' l' -> dl = dl' /\ l = l'.
Proof. intros U FT w s dl l dl' l' HU. now apply stands_fun. Qed.
Print Assumptions C57_determined.

(* A bracket without its end: everything to the left of it has been logged. *)
Theorem C57_unfinished : forall U FT w s l, AsciiOk U ->
  parse_variables U FT s w = (l, Exn VarParseError) <-> Unfinished U FT w s l.
Proof. intros U FT w s l HU. now apply parse_vpe. Qed.
Print Assumptions C57_unfinished.

(* Any other text ends the run. *)
Theorem C57_fails : forall U FT w s, AsciiOk U ->
  (exists l e, parse_variables U FT s w = (l, Exn e) /\ e <> VarParseError) <->
  (forall dl l, ~ Stands U FT w s dl l) /\ (forall l, ~ Unfinished U FT w s l).
Proof. intros U FT w s HU. now apply parse_fails. Qed.
Print Assumptions C57_fails.

(* The data of an application: text altogether if a bracket is not closed. *)
Theorem C57_data : forall U FT w app s l t, AsciiOk U ->
  parse_inner U FT app s w = (l, Ok t) <-> exists dl, Data U FT w app s dl l /\ Canon t dl.
Proof. intros U FT w app s l t HU. now apply inner_iff. Qed.
Print Assumptions C57_data.

(* ---- examples ---- *)
Definition P (s : string) := parse_variables uni_ascii funcs_v13 (L s) at0.
Example C57_example_slices :
  P "${x:0:a}${y:0}${x:0:${LEN(${y})}}" =
    (say E_VAR_SUBSTR_LENGTH at0 [(L "length", AStr (L "a"))] ++ [LVar (L "x") at0] ++
     say E_VAR_SUBSTR_START at0 [(L "start", ANone)] ++ [LVar (L "y") at0; LVar (L "y") at0; LFunc (L "len"); LVar (L "x") at0],
     Ok (TList [TVar (TS (L "x")); TVar (TS (L "y"));
                TDyn (TS (L "x")) (NI 0) (Some (NV (TFunc (L "LEN") (TVar (TS (L "y"))))))])).
Proof. vm_compute. reflexivity. Qed.
Example C57_example_functions :
  P "${db(a/b)junk}${CALLERID(num):-4}" =
    (say E_VAR_SUBSTR_ARGS at0 [(L "data", AStr (L "junk"))] ++ say E_FUNC_TAIL at0 [(L "data", AStr (L "db(a/b)junk"))] ++
     [LFunc (L "db")] ++ say E_FUNC_BAD_CASE at0 [(L "func", AStr (L "db")); (L "proper", AStr (L "DB"))] ++ [LFunc (L "callerid")],
     Ok (TList [TFunc (L "db") (TS (L "a/b")); TFuncS (L "CALLERID") (TS (L "num")) (NI (-4)) None])) /\
  P "${SET(HASH(a,${x})=1)}" =
    ([LVar (L "x") at0; LFunc (L "set"); LFunc (L "hash")],
     Ok (TFunc (L "SET") (TList [TS (L "HASH(a,"); TVar (TS (L "x")); TS (L ")=1")]))).
Proof. split; vm_compute; reflexivity. Qed.
Example C57_example_unfinished : P "${INC(n)}${foo:1" = ([LFunc (L "inc"); LVar (L "n") at0], Exn VarParseError).
Proof. vm_compute. reflexivity. Qed.
Example C57_example_fails : fst (P "${x}${INC(${x})}") = [LVar (L "x") at0; LVar (L "x") at0; LFunc (L "inc")] /\
  snd (P "${x}${INC(${x})}") = Exn AssertionError.
Proof. split; vm_compute; reflexivity. Qed.

(* By the rules alone: a legal variable between text. *)
Example C57_example_rules : Stands uni_ascii funcs_v13 at0 (L "a${x}b") [Ch 97; Va (TVar (TS (L "x"))); Ch 98] [LVar (L "x") at0].
Proof.
  assert (N0 : forall c, ~ Opens [c]).
  { intros c (a & o & c' & b & _ & E). destruct a as [|x [|]]; discriminate. }
  apply (St_sub _ _ _ _ (L "a") 123 125 (L "x}b") (L "x") (L "b") (map Ch (L "x")) (TVar (TS (L "x"))) (map Ch (L "b")) [] [LVar (L "x") at0] []).
  - split; [constructor|]. split; [reflexivity|apply N0].
  - split; [reflexivity|]. split; [reflexivity|]. intros a b E. destruct a as [|x [|]]; [easy| |discriminate]. injection E as <- _. easy.
  - apply St_text, N0.
  - apply Me_var; [intros [H|[]]; discriminate|intros [H|[]]; discriminate|apply (Canon_TS (L "x"))|].
    apply (Nu_text _ _ (L "x")); [reflexivity|]. apply Ct_legal. constructor; [left; split; vm_compute; discriminate|constructor].
  - apply St_text, N0.
Qed.

(* ---- C27: the texts that are printed as they were written ---- *)
(* For every text that is read and has no syntax error. *)
Theorem C27_exact : forall U FT w s l t, AsciiOk U -> DecimalOk U ->
  parse_variables U FT s w = (l, Ok t) -> NoSyntaxError l -> str_of t = Ok s <-> Verbatim U FT w s.
Proof. intros U FT w s l t HU HD. exact (verbatim_iff U FT w HU HD s l t). Qed.
Print Assumptions C27_exact.
(* Where another text is printed it is lighter: shorter, or with digits of other
   scripts turned into those of ASCII. *)
Theorem C27_lighter : forall U FT w s l t x, AsciiOk U -> DecimalOk U ->
  parse_variables U FT s w = (l, Ok t) -> NoSyntaxError l -> str_of t = Ok x -> x = s \/ weight x < weight s.
Proof. intros U FT w s l t x HU HD. exact (printed_le U FT w HU HD s l t x). Qed.
Print Assumptions C27_lighter.
Lemma decimal_ok : DecimalOk uni_ascii.
Proof.
  intros c d. cbn. unfold ascii_digit. destruct (48 <=? c) eqn:E1, (c <=? 57) eqn:E2; cbn; try easy. rewrite ?N.leb_le in *. intros [= <-]. lia.
Qed.
Lemma silent_nse l : log_msgs l = [] -> NoSyntaxError l.
Proof.
  induction l as [|[m| | | |] l IH]; cbn; try easy; intros H m' [E|I]; try discriminate E; now apply IH.
Qed.
Lemma verbatim_run s l t : parse_variables uni_ascii funcs_v13 s at0 = (l, Ok t) -> log_msgs l = [] -> str_of t = Ok s -> Verbatim uni_ascii funcs_v13 at0 s.
Proof. intros E H. apply (C27_exact _ _ _ _ _ _ ascii_ok decimal_ok E). now apply silent_nse. Qed.
Lemma verbatim_run_not s l t : parse_variables uni_ascii funcs_v13 s at0 = (l, Ok t) -> log_msgs l = [] -> str_of t <> Ok s -> ~ Verbatim uni_ascii funcs_v13 at0 s.
Proof. intros E H K V. apply K, (C27_exact _ _ _ _ _ _ ascii_ok decimal_ok E); [now apply silent_nse|exact V]. Qed.
Example C27_example_verbatim : Verbatim uni_ascii funcs_v13 at0 c27_text /\ Verbatim uni_ascii funcs_v13 at0 (L "${:1}$[${LEN(a):0:-2}]") /\
  ~ Verbatim uni_ascii funcs_v13 at0 (L "a${foo:007}") /\ ~ Verbatim uni_ascii funcs_v13 at0 (L "b${}") /\ ~ Verbatim uni_ascii funcs_v13 at0 (L "${LEN(a)$[:1]}").
Proof.
  repeat split; [| |intros V|intros V|intros V]; [| |revert V|revert V|revert V].
  1,2: eapply verbatim_run; [vm_compute; reflexivity|reflexivity|vm_compute; reflexivity].
  all: eapply verbatim_run_not; [vm_compute; reflexivity|reflexivity|vm_compute; discriminate].
Qed.
