(* Final theorems about what the linter survives: C23. *)
From Verif Require Import Base Utf8 PyStr Defines FileRd Config Pattern Var VarFun AppM Tables Dialplan Check Spec_Var Spec_VarFun
  Spec_App Spec_Args Spec_Crash Var_proofs App_proofs AppT_proofs Tok_proofs Crash_proofs CrashV_proofs CrashA_proofs.

(* The tables have the entry for everything unknown. *)
Definition HasUnknown {A} (T : list (str * A)) : Prop := lookup (L "unknown") T <> None.

(* Every text of which nothing is odd is read, has an unclosed bracket (which
   is reported), or fails in another way; and the text alone decides. *)
Theorem C23_text : forall U FT s w, AsciiOk U -> HasUnknown FT -> AsciiS s ->
  (forall dl, Reads U FT s dl -> exists l t, parse_variables U FT s w = (l, Ok t) /\ Flat t dl) /\
  (First U FT Unclosed s -> exists l, parse_variables U FT s w = (l, Exn VarParseError)) /\
  (First U FT (Breaks U FT) s -> exists l e, parse_variables U FT s w = (l, Exn e) /\ e <> VarParseError) /\
  (~ First U FT (Odd U FT) s -> (exists dl, Reads U FT s dl) \/ First U FT Unclosed s \/ First U FT (Breaks U FT) s).
Proof.
  intros U FT s w HU HF HA. split; [|split; [|split]].
  - intros dl HR. destruct (parse_reads U FT HU HF s dl w HA HR) as (l & t & E & HC & _). exists l, t. split; [exact E|now apply Canon_Flat].
  - intros H. now apply parse_unclosed.
  - intros H. now apply parse_breaks.
  - intros H. destruct (parse_exact U FT HU HF s w HA H) as [(dl & _ & _ & HR & _)|[(K & _)|(K & _)]]; eauto.
Qed.
Print Assumptions C23_text.

(* The same for applications. *)
Theorem C23_application : forall U FT AT raw w, AsciiOk U -> HasUnknown FT -> HasUnknown AT -> AsciiS raw ->
  (SafeApp U FT AT raw -> exists l ds, application U FT AT raw w = (l, Ok ds)) /\
  (AppFails U FT AT raw -> forall l ds, application U FT AT raw w <> (l, Ok ds)) /\
  (~ OddApp U FT AT raw -> SafeApp U FT AT raw \/ AppFails U FT AT raw).
Proof.
  intros U FT AT raw w HU HF HAT HA. destruct (app_exact U FT AT HU HF HAT (app_fuel raw) raw w (Nat.le_refl _) HA) as (H1 & H2 & H3).
  split; [exact H1|]. split; [|exact H3]. intros H l ds E. apply (H2 H). now exists l, ds.
Qed.
Print Assumptions C23_application.

Definition u0 := uni_ascii.
Lemma ascii_ok : AsciiOk uni_ascii.
Proof.
  intros c Hc. cbn. unfold ascii_digit.
  split; [|intros d]; destruct (48 <=? c) eqn:E1, (c <=? 57) eqn:E2; cbn;
    rewrite ?N.leb_le, ?N.leb_gt in *; split; try congruence; try lia; try (intros [= <-]); try lia;
    try (intros [? ->]); try easy; try lia.
Qed.
Lemma no_opens s : has_sub s = false -> ~ Opens s.
Proof. intros E H. apply has_sub_opens in H. congruence. Qed.
Lemma ascii s : forallb (fun c => c <? 128) s = true -> AsciiS s.
Proof. intros H. apply Forall_forall. intros c I. eapply forallb_forall in H; [|exact I]. now apply N.ltb_lt. Qed.
Lemma closed_plain o c inner rest : ~ In c inner -> ~ In o inner -> ClosedBy o c (inner ++ c :: rest) inner rest.
Proof.
  intros N1 N2. assert (Z : forall x l, ~ In x l -> count x l = 0%nat).
  { intros x l. unfold count. induction l as [|y l IH]; [easy|]. cbn [filter]. intros N. destruct (x =? y) eqn:E; [apply N.eqb_eq in E; exfalso; apply N; now left|].
    apply IH. intros I. apply N. now right. }
  split; [reflexivity|]. split; [now rewrite !Z|]. intros a b E. rewrite Z; [lia|]. intros I. apply N1. rewrite E. apply in_or_app. now left.
Qed.
Lemma closed_nested a b c rest : count 125 a = 0%nat -> count 123 a = 0%nat -> count 125 b = 0%nat -> count 123 b = 0%nat -> count 125 c = 0%nat -> count 123 c = 0%nat ->
  ClosedBy 123 125 ((a ++ 123 :: b ++ 125 :: c) ++ 125 :: rest) (a ++ 123 :: b ++ 125 :: c) rest.
Proof.
  unfold ClosedBy, count. intros A1 A2 B1 B2 C1 C2. split; [reflexivity|]. split.
  - rewrite !filter_app, !app_length. cbn [filter]. change (125 =? 123) with false. change (123 =? 123) with true. cbn iota. cbn [length].
    rewrite !filter_app, !app_length. cbn [filter]. change (125 =? 125) with true. change (123 =? 125) with false. cbn iota. cbn [length]. lia.
  - intros p q E. assert (forall x l1 l2 : list N, l1 = x ++ l2 -> length (filter (N.eqb 125) l1) = 0%nat -> length (filter (N.eqb 125) x) = 0%nat) as Z.
    { intros x l1 l2 -> H. rewrite filter_app, app_length in H. lia. }
    assert (HP : forall s t u v : str, s ++ t = u ++ v -> (exists m, u = s ++ m /\ t = m ++ v) \/ exists m, s = u ++ m /\ v = m ++ t).
    { induction s as [|x s IH]; intros t u v H; [left; now exists u|]. destruct u as [|y u]; [right; exists (x :: s); auto|].
      injection H as -> H. destruct (IH _ _ _ H) as [(m & -> & ->)|(m & -> & ->)]; [left|right]; now exists m. }
    apply HP in E as [(m & -> & E)|(m & -> & E)]; [|rewrite (Z p _ m eq_refl A1); lia].
    rewrite !filter_app, !app_length, A1. destruct m as [|x m]; [cbn; lia|]. injection E as <- E. cbn [filter].
    change (125 =? 123) with false. change (123 =? 123) with true. cbn iota. cbn [length].
    apply HP in E as [(m' & -> & E)|(m' & -> & E)]; [|rewrite (Z m _ m' eq_refl B1); lia].
    rewrite filter_app, app_length, B1. destruct m' as [|y m']; [cbn; lia|]. injection E as <- E. cbn [filter].
    change (125 =? 125) with true. cbn iota. cbn [length]. rewrite (Z m' c q E C1). lia.
Qed.
Ltac no_in := let H := fresh in intros H; vm_compute in H; repeat (destruct H as [H|H]; [discriminate H|]); exact H.

Lemma canon_var n : Canon (TVar (TS n)) [Va (TVar (TS n))].
Proof.
  exists [TVar (TS n)]. split; [|reflexivity]. split; [repeat constructor|]. split.
  - intros a x y b E. now destruct a as [|? [|]].
  - exists [[Va (TVar (TS n))]]. split; [|reflexivity]. repeat constructor.
Qed.
(* ${x}: one variable. *)
Lemma reads_var n rest rl : has_sub n = false -> ~ In 125 n -> ~ In 123 n -> ~ In 40 n -> ~ In 58 n -> n <> [] -> Reads u0 funcs_v13 rest rl ->
  forall pre, has_sub pre = false -> Reads u0 funcs_v13 (pre ++ L "${" ++ n ++ 125 :: rest) (map Ch pre ++ Va (TVar (TS n)) :: rl).
Proof.
  intros E1 N1 N2 N3 N4 N5 HR pre EP. eapply Rd_sub with (o := 123) (c := 125) (inner := n) (rest' := rest).
  - split; [constructor|]. split; [reflexivity|now apply no_opens].
  - now apply closed_plain.
  - apply Rd_text. now apply no_opens.
  - assert (forall c, ~ In c n -> ~ In (Ch c) (map Ch n)) as NI. { intros c N I. apply in_map_iff in I as (y & [= ->] & I). contradiction. }
    apply Su_var; [apply Canon_TS|now destruct n|now apply NI|now apply NI].
  - exact HR.
Qed.
Example C23_example_text : Reads u0 funcs_v13 (L "a${b}c") [Ch 97; Va (TVar (TS (L "b"))); Ch 99].
Proof. apply (reads_var (L "b") (L "c") [Ch 99]) with (pre := L "a"); try reflexivity; try no_in; try discriminate. apply Rd_text. now apply no_opens. Qed.
Example C23_example_breaks : First u0 funcs_v13 (Breaks u0 funcs_v13) (L "${x:${y}:2}").
Proof.
  apply Fi_here. exists [], 125, (L "x:${y}:2}"), (L "x:${y}:2"), [], [Ch 120; Ch 58; Va (TVar (TS (L "y"))); Ch 58; Ch 50].
  split; [split; [constructor|split; [reflexivity|now apply no_opens]]|]. split; [now apply (closed_nested (L "x:$") (L "y") (L ":2"))|].
  split. { apply (reads_var (L "y") (L ":2") (map Ch (L ":2"))) with (pre := L "x:"); try reflexivity; try no_in; try discriminate. apply Rd_text. now apply no_opens. }
  split.
  - apply Sx_slice; [no_in|]. exists [Ch 120], [Va (TVar (TS (L "y")))], [Ch 50], (TVar (TS (L "y"))), 2%Z. split.
    { apply (Sp_next 58 None [Ch 120] [Va (TVar (TS (L "y"))); Ch 58; Ch 50]); [easy|no_in|]. apply (Sp_next 58 None [Va (TVar (TS (L "y")))] [Ch 50]); [easy|no_in|]. apply Sp_none. no_in. }
    split; [eapply Of_var; [now left|]|split; [|easy]].
    + apply canon_var.
    + apply (Of_num [50] 2%Z). apply (Li_pos [50] 2). apply (Di_one 2). reflexivity.
  - intros H. inversion H as [? E|? E _|f args x HC|f fi args tail HC]; try discriminate E.
    + apply cut_paren in HC. revert HC. no_in.
    + apply cut_paren in HC. revert HC. no_in.
Qed.
Lemma called n data : ~ In 40 n -> forall x r, n = x :: r -> isspace x = false -> isspace (last n 0) = false -> Called u0 (n ++ 40 :: data ++ [41]) n data.
Proof.
  intros N x r E E1 E2. exists (Where [] 0 []), [], [], n. split; [now constructor|]. eapply An_fine; [exact E|exact E1|].
  intros m c ->. now rewrite last_last in E2.
Qed.
Lemma separated s d : DelimOk d -> Separated d (map Ch s) (map Var_proofs.elems (separate_args (SlTok (TS s)) d false)).
Proof. intros H. rewrite <- (Canon_elems _ _ (Canon_TS s)). now apply separate_Separated. Qed.
Lemma comma_ok : DelimOk 44. Proof. intros I. vm_compute in I. repeat (destruct I as [I|I]; [discriminate I|]). exact I. Qed.
Example C23_example_safe : AsciiS (L "Goto(b,${x},1)") /\ SafeApp u0 funcs_v13 apps_v13 (L "Goto(b,${x},1)").
Proof.
  split; [now apply ascii|]. destruct (lookup (L "goto") apps_v13) as [a|] eqn:E; [|vm_compute in E; discriminate E].
  assert (a_kind a = AGoto) as K by (revert E; vm_compute; now intros [= <-]).
  set (dl := map Ch (L "b,") ++ Va (TVar (TS (L "x"))) :: map Ch (L ",1")).
  apply (Sa_call _ _ _ _ (L "Goto") (L "b,${x},1") a dl).
  - eapply (called (L "Goto") (L "b,${x},1")); [no_in|reflexivity|reflexivity|reflexivity].
  - left. exact E.
  - apply Do_reads. apply (reads_var (L "x") (L ",1") (map Ch (L ",1"))) with (pre := L "b,"); try reflexivity; try no_in; try discriminate. apply Rd_text. now apply no_opens.
  - congruence.
  - congruence.
  - rewrite K. intros H. inversion H as [args HS HL| | | |]; subst.
    pose proof (separate_Separated (vjoin [TS (L "b,"); TVar (TS (L "x")); TS (L ",1")]) 44 comma_ok) as HS'.
    change (Var_proofs.elems (vjoin [TS (L "b,"); TVar (TS (L "x")); TS (L ",1")])) with dl in HS'.
    rewrite (Separated_fun _ _ _ _ HS HS') in HL. vm_compute in HL. lia.
Qed.
Example C23_example_fails : AsciiS (L "Goto(a,b,1,2)") /\ AppFails u0 funcs_v13 apps_v13 (L "Goto(a,b,1,2)").
Proof.
  split; [now apply ascii|]. destruct (lookup (L "goto") apps_v13) as [a|] eqn:E; [|vm_compute in E; discriminate E].
  assert (a_kind a = AGoto) as K by (revert E; vm_compute; now intros [= <-]).
  apply (Ax_call _ _ _ _ (L "Goto") (L "a,b,1,2") a (map Ch (L "a,b,1,2"))).
  - eapply (called (L "Goto") (L "a,b,1,2")); [no_in|reflexivity|reflexivity|reflexivity].
  - left. exact E.
  - apply Do_reads, Rd_text. now apply no_opens.
  - congruence.
  - congruence.
  - rewrite K. eapply Cf_goto; [exact (separated (L "a,b,1,2") 44 comma_ok)|]. vm_compute. lia.
Qed.
Example C23_example_execif : AsciiS (L "ExecIf(1?Goto(a,b,1,2))") /\ AppFails u0 funcs_v13 apps_v13 (L "ExecIf(1?Goto(a,b,1,2))") /\
  forall l ds, application u0 funcs_v13 apps_v13 (L "ExecIf(1?Goto(a,b,1,2))") (Where [] 1 []) <> (l, Ok ds).
Proof.
  assert (AsciiS (L "ExecIf(1?Goto(a,b,1,2))")) as HA by now apply ascii.
  assert (AppFails u0 funcs_v13 apps_v13 (L "ExecIf(1?Goto(a,b,1,2))")) as HF; [|split; [exact HA|split; [exact HF|]]].
  - destruct (lookup (L "execif") apps_v13) as [a|] eqn:E; [|vm_compute in E; discriminate E].
    assert (a_kind a = AExecIf) as K by (revert E; vm_compute; now intros [= <-]).
    apply (Ax_execif _ _ _ _ (L "ExecIf") (L "1?Goto(a,b,1,2)") a (map Ch (L "1?Goto(a,b,1,2)"))).
    + eapply (called (L "ExecIf") (L "1?Goto(a,b,1,2)")); [no_in|reflexivity|reflexivity|reflexivity].
    + left. exact E.
    + apply Do_reads, Rd_text. now apply no_opens.
    + exact K.
    + apply (Cf_execif _ _ _ _ [map Ch (L "Goto(a,b,1,2)")] (map Ch (L "Goto(a,b,1,2)"))); [|now left|].
      * apply (Br_intro _ (map Ch (L "1")) (map Ch (L "Goto(a,b,1,2)")) [] [map Ch (L "Goto(a,b,1,2)")]).
        -- assert (DelimOk 63) as D by (intros I; vm_compute in I; repeat (destruct I as [I|I]; [discriminate I|]); exact I).
           exact (args_of (TS (L "1?Goto(a,b,1,2)")) 63 D).
        -- assert (DelimOk 58) as D by (intros I; vm_compute in I; repeat (destruct I as [I|I]; [discriminate I|]); exact I).
           exact (separated (L "Goto(a,b,1,2)") 58 D).
      * eapply Nf_app; [now apply Ne_text|now apply ascii|apply C23_example_fails].
  - apply (C23_application u0 funcs_v13 apps_v13); [exact ascii_ok|easy|easy|exact HA|exact HF].
Qed.

(* The claim is false: each of these, after [general], [globals] and [a], ends
   the process without an exit status; with the last three it never ends. *)
Definition conf (head : list str) (l : list str) : fsys :=
  fun n => if str_eqb n (L "x") then Ok (flat_map (fun s => s ++ [10]) (head ++ l)) else Exn OSError.
Definition head3 : list str := [L "[general]"; L "[globals]"; L "[a]"].
Definition ended (fs : fsys) : res N := p_end (dialplan_check uni_ascii funcs_v13 apps_v13 (fun _ => false) 100 fs None None (L "x")).
Definition crashes : list (list str) :=
 [ [L "[general]"];
   [L "[a] ; again"];
   [L "[a](b)"];
   [L "exten => foo"];
   [L "exten => 1,1(a,NoOp"];
   [L "exten => _[1,1,NoOp"];
   [L "exten => _[],1,NoOp"];
   [L "exten => 1,1,NoOp(${${x}(y)})"];
   [L "exten => 1,1,NoOp(${(y)})"];
   [L "exten => 1,1,NoOp(${x:${y}:2})"];
   [L "exten => 1,1,NoOp(${INC(${x})})"];
   [L "exten => 1,1,Set(${})"];
   [L "exten => 1,1,Set(foo)=1)"];
   [L "exten => 1,1,Set(${x}(a)=1)"];
   [L "exten => 1,1,ExecIf(1?${x}(a))"];
   [L "exten => 1,1,ExecIf(1,NoOp,a)"];
   [L "exten => 1,1,Gosub(a${x}b(arg))"];
   [L "exten => 1,1,NoOp(" ++ [0x81] ++ L ")"];
   [L "exten => 1,1,Goto(a,b,1,2)"];
   [L "exten => 1,1,GotoIf(1?a,b,1,2)"];
   [L "exten => 1,1,Goto(b,1)"; L "include => a"] ].
Theorem C23_survives_refuted : forall ls, In ls crashes -> forall n, ended (conf head3 ls) <> Ok n.
Proof.
  intros ls I n. assert (H : forallb (fun ls => match ended (conf head3 ls) with Ok _ => false | _ => true end) crashes = true) by (vm_compute; reflexivity).
  eapply forallb_forall in H; [|exact I]. intros E. now rewrite E in H.
Qed.
Print Assumptions C23_survives_refuted.
Example C23_example_survives : ended (conf head3 [L "exten => 1,1,NoOp(${x})"; L " same => n,Goto(b,1,2)"]) = Ok 1.
Proof. vm_compute. reflexivity. Qed.
