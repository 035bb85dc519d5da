(* Final theorems about the configuration reader: C14-C17, C21. *)
From Verif Require Import Base PyStr Defines FileRd Config Spec_Config Regex_proofs Config_proofs.

(* ---- C21 ---- *)

(* Every data line (no '\n', as delivered by the reader) has exactly one kind. *)
Theorem C21_one_kind : forall d, no_nl d -> exists! k, LineKind d k.
Proof.
  intros d H. destruct (LineKind_exists d H) as [k K]. exists k. split; [easy|].
  intros k' K'. now apply (LineKind_fun d).
Qed.
Print Assumptions C21_one_kind.

(* What the code makes of the line is what the specification says for its kind. *)
Theorem C21_parse_line : forall w d comment k, no_nl d -> LineKind d k ->
  forall ms p, parse_line w d comment = (ms, p)
    <-> LineResult w d (match comment with [] => false | _ => true end) k ms p.
Proof.
  intros w d comment k H K ms p. destruct (parse_line_spec w d comment H) as (k' & K' & R).
  rewrite (LineKind_fun _ _ _ K K'). unfold has_cm in R.
  destruct (parse_line w d comment) as [ms' p'] eqn:E. cbn [fst snd] in R. split.
  - now intros [= <- <-].
  - intros R'. now destruct (LineResult_fun _ _ _ _ _ _ _ _ R R') as [-> ->].
Qed.
Print Assumptions C21_parse_line.

(* Assignments lose nothing. *)
Theorem C21_assign_lossless : forall d key sep value arrow, LineKind d (KAssign key sep value arrow) ->
  d = key ++ sep ++ value /\ ~ In 61 key /\ ~ ends_ws key /\ ~ starts_ws value
  /\ exists sp1 sp2, ws sp1 /\ ws sp2 /\ sep = sp1 ++ (if arrow then [61; 62] else [61]) ++ sp2.
Proof.
  intros d key sep value arrow H. inversion H; subst.
  match goal with X : Assign _ _ _ _ _ |- _ => destruct X end; repeat split; try easy; now exists sp1, sp2.
Qed.
Print Assumptions C21_assign_lossless.

Definition w1 : loc := Where (L "/etc/asterisk/x.conf") 3 [].
Example C21_example_assign :
  LineKind (L "exten  =>  100,1,NoOp(a=b)") (KAssign (L "exten") (L "  =>  ") (L "100,1,NoOp(a=b)") true) /\
  parse_line w1 (L "exten  =>  100,1,NoOp(a=b)") (L ";c") =
    ([msg0 W_WSH_OBJSET w1],
     PElem (EVar (Varset (L "exten") (L "100,1,NoOp(a=b)") (Some true) true w1))).
Proof.
  split; [|reflexivity].
  assert (A : Assign (L "exten  =>  100,1,NoOp(a=b)") (L "exten") (L "  =>  ") (L "100,1,NoOp(a=b)") true).
  { apply (As_obj (L "exten") (L "  ") (L "  ") (L "100,1,NoOp(a=b)")).
    - cbn. intuition discriminate.
    - intros (a & c & E & Hc). apply (f_equal (@rev N)) in E. rewrite rev_app_distr in E. cbn in E.
      injection E as <- _. discriminate Hc.
    - repeat constructor.
    - repeat constructor.
    - intros (c & r & E & Hc). injection E as <- _. discriminate Hc. }
  apply LK_assign; [|exact A]. intros b n t. apply header_none; reflexivity.
Qed.
Example C21_example_others :
  parse_line w1 (L " [gen](!)") [] =
    ([msg0 W_WSH_BOL w1; msg0 I_NOTIMPL_TEMPLATES w1], PElem (ECtx (Ctx (L "gen") (L "!") false w1))) /\
  parse_line w1 (L "#include	  ""sip.d/*.conf") [] =
    ([msg0 W_WSH_CTRL w1; msg0 W_PP_QUOTE_BAD w1], PAct (PPinclude (L """sip.d/*.conf") true)) /\
  parse_line w1 (L "this is not a configuration line") [] =
    ([Msg E_CONF_BAD_LINE w1 None [(L "startswith", AStr (L "this is not a co"))]], PAct PPnone).
Proof. repeat split. Qed.

(* ---- C45 ---- *)

(* A header with a template list, [name](list).  Refuted: lists of more than one
   character give an error line and the context is lost. *)
Theorem C45_template_header_refuted :
  ~ (forall w name list, name <> [] -> ~ In 93 name -> list <> [] -> ~ In 41 list -> no_nl name -> no_nl list ->
       exists ms, parse_line w (L "[" ++ name ++ L "](" ++ list ++ L ")") []
                  = (ms, PElem (ECtx (Ctx name list false w)))).
Proof.
  intros H. destruct (H w1 (L "foo") (L "bar")) as [ms E]; try easy; try (unfold no_nl; cbn; intuition discriminate);
  vm_compute in E; discriminate E.
Qed.
Print Assumptions C45_template_header_refuted.

Lemma tmpl_header name list b n t : ~ In 93 name -> ~ In 41 list ->
  Header (L "[" ++ name ++ L "](" ++ list ++ L ")") b n t -> b = [] /\ n = name /\ t = list /\ exists c, list = [c] /\ c <> 43.
Proof.
  intros N1 N2. set (d := L "[" ++ name ++ L "](" ++ list ++ L ")").
  intros H. remember d as x eqn:Ex. unfold d in Ex. destruct H as [bol n0 Wb Nn|bol n0 gap t0 Wb Nn Wg T1 T2].
    - exfalso. apply (f_equal (@rev N)) in Ex. rewrite !rev_app_distr in Ex. cbn in Ex. discriminate.
    - assert (bol = []) as ->.
      { destruct bol as [|c bol]; [easy|]. cbn in Ex. injection Ex as -> _. inversion Wb; discriminate. }
      cbn in Ex. injection Ex as Ex.
      assert (Cut : forall (a a' b b' : str), a ++ 93 :: b = a' ++ 93 :: b' -> ~ In 93 a -> ~ In 93 a' -> a = a' /\ b = b').
      { clear. induction a as [|x a IH]; intros [|y a'] b b' E H H'; cbn in *.
        - injection E as ->. easy.
        - injection E as <- _. tauto.
        - injection E as -> _. tauto.
        - injection E as -> E. destruct (IH a' b b' E); [tauto|tauto|]. now subst. }
      apply Cut in Ex as [-> Ex]; [|easy..].
      destruct gap as [|c gap].
      + cbn in Ex. injection Ex as Ex. destruct list as [|c list]; cbn in Ex; [injection Ex as -> _; tauto|].
        injection Ex as <- Ex. destruct list as [|c list]; cbn in Ex; [|injection Ex as <- _; exfalso; apply N2; cbn; tauto].
        repeat split; try easy. now exists t0.
      + exfalso. cbn in Ex. injection Ex as -> _. inversion Wg; discriminate. 
Qed.
(* For every name and list, '=' or not: when a context is opened. *)
Theorem C45_exact : forall w name list cm c, ~ In 93 name -> ~ In 41 list -> no_nl name -> no_nl list ->
  snd (parse_line w (L "[" ++ name ++ L "](" ++ list ++ L ")") cm) = PElem (ECtx c) <->
  (exists t, list = [t] /\ t <> 43) /\ c = Ctx name list (match cm with [] => false | _ => true end) w.
Proof.
  intros w name list cm c N1 N2 N5 N6. set (d := L "[" ++ name ++ L "](" ++ list ++ L ")").
  assert (Nd : no_nl d).
  { unfold d, no_nl in *. rewrite !in_app_iff. change (L "[") with [91]; change (L "](") with [93; 40]; change (L ")") with [41]; cbn; intuition (try congruence). }
  destruct (parse_line_spec w d cm Nd) as (k & K & P). unfold has_cm in P.
  destruct (parse_line w d cm) as [ms p]. cbn [fst snd] in *. split.
  - intros ->. inversion P; subst; try (inversion K; fail).
    inversion K; subst. match goal with H : Header _ _ _ _ |- _ => apply tmpl_header in H as (-> & -> & -> & E); [|easy..] end. easy.
  - intros [(t & -> & Ht) ->]. assert (KH : LineKind d (KHeader [] name [t])).
    { apply LK_header. apply (Hd_tmpl [] name [] t); try easy; try constructor. cbn in N2. tauto. }
    rewrite (LineKind_fun _ _ _ K KH) in P. now inversion P.
Qed.
Print Assumptions C45_exact.
Example C45_exact_example : snd (parse_line w1 (L "[a=b](c)") []) = PElem (ECtx (Ctx (L "a=b") (L "c") false w1)) /\
  snd (parse_line w1 (L "[a](b=c)") []) = PElem (EVar (Varset (L "[a](b") (L "c)") (Some false) false w1)).
Proof. split; reflexivity. Qed.

(* Exactly the headers with a one character list other than '+' are recognised. *)
Theorem C45_template_header_partial : forall w name list cm, ~ In 93 name -> ~ In 41 list -> ~ In 61 list -> ~ In 61 name ->
  no_nl name -> no_nl list ->
  snd (parse_line w (L "[" ++ name ++ L "](" ++ list ++ L ")") cm)
  = match list with
    | [t] => if t =? 43 then PAct PPnone
             else PElem (ECtx (Ctx name list (match cm with [] => false | _ => true end) w))
    | _ => PAct PPnone
    end.
Proof.
  intros w name list cm N1 N2 N3 N4 N5 N6.
  set (d := L "[" ++ name ++ L "](" ++ list ++ L ")").
  assert (Nd : no_nl d).
  { unfold d, no_nl in *. rewrite !in_app_iff. change (L "[") with [91]; change (L "](") with [93; 40]; change (L ")") with [41]; cbn; intuition (try congruence). }
  destruct (parse_line_spec w d cm Nd) as (k & K & P).
  assert (Hd : forall b n t, Header d b n t -> b = [] /\ n = name /\ t = list /\ exists c, list = [c] /\ c <> 43)
    by (intros b n t; now apply tmpl_header).
  assert (NE : ~ In 61 d).
  { unfold d. rewrite !in_app_iff. change (L "[") with [91]; change (L "](") with [93; 40]; change (L ")") with [41]; cbn; intuition (try congruence). }
  assert (Yes : forall c, list = [c] -> c <> 43 -> LineKind d (KHeader [] name [c])).
  { intros c -> Hc. apply LK_header. apply (Hd_tmpl [] name [] c); try easy; try constructor. cbn in N2. tauto. }
  assert (No : (forall c, list = [c] -> c = 43) -> LineKind d KBad).
  { intros H. apply (LK_bad d [] 91 (name ++ L "](" ++ list ++ L ")")); try easy; try constructor.
    intros b n t H'. destruct (Hd b n t H') as (_ & _ & _ & c & Ec & Hc). now apply Hc, H. }
  assert (Bad : (forall c, list = [c] -> c = 43) -> snd (parse_line w d cm) = PAct PPnone).
  { intros H. rewrite (LineKind_fun _ _ _ K (No H)) in P. now inversion P. }
  destruct list as [|c [|c2 r]]; [now apply Bad| |apply Bad; congruence].
  destruct (N.eqb_spec c 43) as [->|Hc].
  - apply Bad. congruence.
  - rewrite (LineKind_fun _ _ _ K (Yes c eq_refl Hc)) in P. unfold has_cm in P. now inversion P.
Qed.
Print Assumptions C45_template_header_partial.
Example C45_example : parse_line w1 (L "[phones](!)") (L "; c")
  = ([msg0 I_NOTIMPL_TEMPLATES w1], PElem (ECtx (Ctx (L "phones") (L "!") true w1))).
Proof. reflexivity. Qed.
