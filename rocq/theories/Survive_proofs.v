(* Which lines, sections and files the linter survives (C23). *)
From Verif Require Import Base Utf8 PyStr Defines Config Pattern Var VarFun AppM Dialplan Spec_Pattern Spec_Var Spec_VarFun
  Spec_App Spec_Args Spec_Dialplan Spec_Crash Spec_Survive Utf8_proofs Pattern_proofs Var_proofs VarFun_proofs Round_proofs Slice_proofs App_proofs Tok_proofs
  AppT_proofs Args_proofs Dialplan_proofs DialplanC_proofs DialplanL_proofs DialplanK_proofs Crash_proofs CrashV_proofs CrashA_proofs.

Section Tables.
Variable U : uni.
Variable FT : ftable.
Variable AT : atable.
Hypothesis HU : AsciiOk U.
Hypothesis HUF : lookup (L "unknown") FT <> None.
Hypothesis HUA : lookup (L "unknown") AT <> None.

Lemma isdigit_ascii s : AsciiS s -> (sisdigit U s = true <-> s <> [] /\ Forall (fun c => 48 <= c <= 57) s).
Proof.
  intros HA. unfold sisdigit. rewrite andb_true_iff, negb_true_iff, str_eqb_neq, forallb_forall, Forall_forall.
  split; intros [H1 H2]; (split; [easy|]); intros c I; pose proof (proj1 (Forall_forall _ _) HA c I) as Hc; apply (HU c Hc); auto.
Qed.
Lemma digits_ok s : Forall (fun c => 48 <= c <= 57) s -> forall acc, exists n, digits_val U acc s = Ok n.
Proof.
  induction 1 as [|c s Hc HF IH]; intros acc; [now exists acc|]. cbn [digits_val].
  assert (c < 128) as H by lia. rewrite (proj2 (proj2 (HU c H) (c - 48))); [apply IH|split; [easy|lia]].
Qed.
Lemma int_ok s : s <> [] -> Forall (fun c => 48 <= c <= 57) s -> exists z, int_of U s = Ok z.
Proof.
  intros Hn HF. destruct s as [|c s]; [easy|]. rewrite int_of_pos; [|inversion HF; subst; intros ->; lia].
  destruct (digits_ok _ HF 0) as [n ->]. cbn. eauto.
Qed.
Lemma prio_step prio w : AsciiS prio ->
  let m := if str_eqb prio (L "n") then mret (Some None)
           else if sisdigit U prio then do* z <- mlift (int_of U prio); mret (Some (Some z))
           else if str_eqb prio (L "hint") then do* _ <- memit I_NOTIMPL_HINT w []; mret None
           else do* _ <- memit E_DP_PRIO_INVALID w [(L "prio", AStr prio)]; mret None in
  (PrioOk prio /\ exists q, m = ([], Ok (Some q))) \/ (~ PrioOk prio /\ exists l, m = (l, Ok None)).
Proof.
  intros HA m. subst m. destruct (str_eqb prio (L "n")) eqn:E1.
  { apply str_eqb_eq in E1 as ->. left. split; [now left|]. now exists None. }
  destruct (sisdigit U prio) eqn:E2.
  { apply isdigit_ascii in E2 as [Hn HF]; [|easy]. left. split; [now right|]. destruct (int_ok _ Hn HF) as [z E]. exists (Some z). cbn. now rewrite E. }
  right. split.
  - intros [->|H]; [now rewrite str_eqb_refl in E1|]. apply isdigit_ascii in H; [congruence|easy].
  - destruct (str_eqb prio (L "hint")); eexists; reflexivity.
Qed.

Definition label_of (label : option str) : str := match label with Some b => 40 :: b | None => [] end.
Lemma label_step label w :
  let m := match label with
           | None => mret (Some None)
           | Some s => if endswith [41] s then mret (Some (Some (drop_last s)))
                       else do* _ <- memit E_DP_LABEL_INVALID w []; mret None
           end in
  (exists lb, LabelText (label_of label) lb /\ m = ([], Ok (Some lb))) \/ ((forall lb, ~ LabelText (label_of label) lb) /\ ~ fine m).
Proof.
  intros m. subst m. destruct label as [s|]; [|left; exists None; split; [constructor|reflexivity]].
  destruct (endswith [41] s) eqn:E.
  - apply ends41 in E as (k & -> & Ed). left. exists (Some k). split; [constructor|]. now rewrite Ed.
  - right. split.
    + intros lb H. inversion H as [|k]; subst. rewrite (proj2 (ends41 (k ++ [41]))) in E; [discriminate E|].
      exists k. split; [easy|]. unfold drop_last. now rewrite removelast_last.
    + intros H. apply fine_bind_inv in H as (l & a & H & _). discriminate H.
Qed.
Lemma ascii_valid s : AsciiS s -> valid_str s.
Proof. intros H. eapply Forall_impl; [|exact H]. intros c Hc. cbn in Hc. unfold unicode_scalar. lia. Qed.
Lemma pattern_step pat : AsciiS pat ->
  let m := match pat with [] => mret None | _ => do* p <- mlift (mk_pattern pat); mret (Some p) end in
  (PatternOk pat /\ fine m) \/ (~ PatternOk pat /\ ~ fine m).
Proof.
  intros HA m. subst m. destruct pat as [|c p]; [left; split; [easy|apply fine_ret]|].
  unfold mk_pattern. destruct (parse (c :: p)) as [v|e|] eqn:E.
  - left. split; [|eexists _, _; reflexivity]. pose proof (proj1 (parse_ok_iff (c :: p)) (ex_intro _ v E)) as (_ & _ & H).
    intros q [= -> ->]. now apply H.
  - right. split; [|intros (l & a & H); discriminate H]. intros H. assert (exists v, parse (c :: p) = Ok v) as [v Ev]; [|congruence].
    apply parse_ok_iff. split; [easy|]. split; [now apply ascii_valid|]. cbn. intros ->. now apply H.
  - right. split; [|intros (l & a & H); discriminate H]. intros H. assert (exists v, parse (c :: p) = Ok v) as [v Ev]; [|congruence].
    apply parse_ok_iff. split; [easy|]. split; [now apply ascii_valid|]. cbn. intros ->. now apply H.
Qed.

Definition line_rest (v : varset) (pat rest : str) : M (option dvar) :=
  let w := v_where v in
  let (prio0, app) := match cut1 44 rest with Some r => r | None => (rest, []) end in
  let (prio, label) := match cut1 40 prio0 with Some (a, b) => (a, Some b) | None => (prio0, None) end in
  do* prio' <- (if str_eqb prio (L "n") then mret (Some None)
                else if sisdigit U prio then do* z <- mlift (int_of U prio); mret (Some (Some z))
                else if str_eqb prio (L "hint") then
                  do* _ <- memit I_NOTIMPL_HINT w []; mret None
                else do* _ <- memit E_DP_PRIO_INVALID w [(L "prio", AStr prio)]; mret None);
  match prio' with
  | None => mret None
  | Some q =>
    do* label' <- (match label with
                   | None => mret (Some None)
                   | Some s => if endswith [41] s then mret (Some (Some (drop_last s)))
                               else do* _ <- memit E_DP_LABEL_INVALID w []; mret None
                   end);
    match label' with
    | None => mret None
    | Some lb =>
      do* p <- (match pat with
                | [] => mret None
                | _ => do* p <- mlift (mk_pattern pat); mret (Some p)
                end);
      do* ds <- application U FT AT app w;
      mret (Some (DExt (XLine p q lb app ds w)))
    end
  end.
Lemma fields_parts body prio label app : body_parts body = (prio, label, app) <-> Fields body prio (label_of label) app.
Proof.
  rewrite body_parts_text. split.
  - intros (lt & -> & N1 & N2 & N3 & H). split; [easy|]. split; [easy|]. split; [easy|]. split; [|exact H]. destruct label; [right; eexists; reflexivity|now left].
  - intros (N1 & N2 & N3 & _ & H). exists (label_of label). repeat split; auto.
Qed.
Lemma fields_label body prio lt app : Fields body prio lt app -> exists label, lt = label_of label.
Proof. intros (_ & _ & _ & [->|[t ->]] & _); [now exists None|now exists (Some t)]. Qed.
Lemma fields_fun body prio lt app prio' lt' app' : Fields body prio lt app -> Fields body prio' lt' app' -> prio = prio' /\ lt = lt' /\ app = app'.
Proof.
  intros H H'. destruct (fields_label _ _ _ _ H) as [b ->], (fields_label _ _ _ _ H') as [b' ->].
  apply fields_parts in H, H'. rewrite H in H'. now injection H' as <- <- <-.
Qed.
Lemma fields_any body : exists prio label app, Fields body prio (label_of label) app.
Proof. destruct (body_parts body) as [[p l] a] eqn:E. exists p, l, a. now apply fields_parts. Qed.
Lemma body_fun v pat body pat' body' : BodyOf v pat body -> BodyOf v pat' body' -> pat = pat' /\ body = body'.
Proof.
  intros [E1 E2 N|E1 -> ->] [E1' E2' N'|E1' -> ->]; try (rewrite E1 in E1'; discriminate E1'); [|easy].
  assert (cut1 44 (v_value v) = Some (pat, body)) as K by (apply cut1_some; auto).
  assert (cut1 44 (v_value v) = Some (pat', body')) as K' by (apply cut1_some; auto).
  rewrite K in K'. now injection K' as <- <-.
Qed.
Lemma line_fun v pat prio lt app pat' prio' lt' app' : LineOf v pat prio lt app -> LineOf v pat' prio' lt' app' ->
  pat = pat' /\ prio = prio' /\ lt = lt' /\ app = app'.
Proof.
  intros (b & H1 & H2) (b' & H1' & H2'). destruct (body_fun _ _ _ _ _ H1 H1') as [-> ->]. split; [easy|]. now apply (fields_fun b').
Qed.
Lemma fields_in body prio lt app c : Fields body prio lt app -> In c prio \/ In c lt \/ In c app -> In c body.
Proof. intros (_ & _ & _ & _ & [->|[-> ->]]) H; rewrite !in_app_iff; cbn [In] in *; tauto. Qed.
Lemma body_in v pat body c : BodyOf v pat body -> In c pat \/ In c body -> In c (v_value v).
Proof. intros [_ -> _|_ -> ->] H; [rewrite in_app_iff; cbn; tauto|now destruct H]. Qed.
Lemma ascii_incl s t : AsciiS s -> (forall c, In c t -> In c s) -> AsciiS t.
Proof. unfold AsciiS. rewrite !Forall_forall. auto. Qed.
Lemma line_ascii v pat prio lt app : LineOf v pat prio lt app -> AsciiS (v_value v) -> AsciiS pat /\ AsciiS prio /\ AsciiS lt /\ AsciiS app.
Proof.
  intros (b & HB & HF) HA. split; [|split; [|split]]; apply (ascii_incl _ _ HA); intros c I; eapply body_in; eauto; right; eapply fields_in; eauto.
Qed.
Lemma line_var v pat prio lt app : LineOf v pat prio lt app -> v_variable v = L "exten" \/ v_variable v = L "same".
Proof. intros (b & [H _ _|H _ _] & _); auto. Qed.

Lemma rest_exact v pat prio lt app body : BodyOf v pat body -> Fields body prio lt app -> AsciiS (v_value v) ->
  (fine (line_rest v pat body) <->
   ~ PrioOk prio \/ ((exists lb, LabelText lt lb) /\ PatternOk pat /\ fine (application U FT AT app (v_where v)))) /\
  (PrioOk prio \/ ~ PrioOk prio) /\ ((exists lb, LabelText lt lb) \/ forall lb, ~ LabelText lt lb) /\ (PatternOk pat \/ ~ PatternOk pat).
Proof.
  intros HB HF HA. assert (HLn : LineOf v pat prio lt app) by now exists body.
  destruct (line_ascii _ _ _ _ _ HLn HA) as (A1 & A2 & _ & A4). destruct (fields_label _ _ _ _ HF) as [label ->].
  pose proof (proj2 (fields_parts _ _ _ _) HF) as EB. unfold body_parts in EB. unfold line_rest.
  destruct (match cut1 44 body with Some r => r | None => (body, []) end) as [prio0 app0].
  destruct (match cut1 40 prio0 with Some (a, b) => (a, Some b) | None => (prio0, None) end) as [prio1 label1].
  injection EB as -> -> ->.
  pose proof (prio_step prio (v_where v) A2) as PS. cbv zeta in PS.
  pose proof (label_step label (v_where v)) as LS. cbv zeta in LS.
  pose proof (pattern_step pat A1) as QS. cbv zeta in QS.
  assert (PrioOk prio \/ ~ PrioOk prio) as D1 by (destruct PS as [[H _]|[H _]]; auto).
  assert ((exists lb, LabelText (label_of label) lb) \/ forall lb, ~ LabelText (label_of label) lb) as D2 by (destruct LS as [(lb & H & _)|[H _]]; eauto).
  assert (PatternOk pat \/ ~ PatternOk pat) as D3 by (destruct QS as [[H _]|[H _]]; auto).
  split; [|auto]. destruct PS as [[HP [q ->]]|[HP [l ->]]].
  2:{ split; [auto|]. intros _. eexists _, _; reflexivity. }
  destruct LS as [(lb & HLb & ->)|[HLb HN]].
  2:{ split; [|intros [H|[[lb H] _]]; [now apply H in HP|now apply HLb in H]].
      intros H. exfalso. apply fine_bind_inv in H as (l1 & a1 & E1 & H). injection E1 as <- <-.
      apply fine_bind_inv in H as (l2 & a2 & E2 & _). apply HN. now exists l2, a2. }
  split.
  - intros H. right. apply fine_bind_inv in H as (l1 & a1 & E1 & H). injection E1 as <- <-.
    apply fine_bind_inv in H as (l2 & a2 & E2 & H). injection E2 as <- <-. split; [eauto|].
    apply fine_bind_inv in H as (l3 & a3 & E3 & H). apply fine_bind_inv in H as (l4 & a4 & E4 & _).
    split; [destruct QS as [[H _]|[_ H]]; [easy|exfalso; apply H; now exists l3, a3]|now exists l4, a4].
  - intros [H|(_ & H1 & H2)]; [contradiction|]. apply fine_bind; [now exists [], (Some q)|]. intros ? ? [= <- <-].
    apply fine_bind; [now exists [], (Some lb)|]. intros ? ? [= <- <-].
    apply fine_bind; [destruct QS as [[_ Q]|[Q _]]; [easy|contradiction]|]. intros ? p _. apply fine_bind; [exact H2|]. intros. apply fine_ret.
Qed.
Lemma arrow_fine v : fine (expect_arrow v) <-> v_arrow v <> None.
Proof.
  unfold expect_arrow. destruct (v_arrow v) as [[]|]; (split; [intros H|intros N]); try easy; [apply fine_ret|eexists _, _; reflexivity|].
  destruct H as (l & a & H). discriminate H.
Qed.
Lemma from_line v pat body : BodyOf v pat body -> (fine (from_varset U FT AT v) <-> v_arrow v <> None /\ fine (line_rest v pat body)).
Proof.
  intros HB. rewrite <- arrow_fine. unfold from_varset.
  assert (str_eqb (v_variable v) (L "exten") || str_eqb (v_variable v) (L "same") = true) as ->.
  { destruct HB as [ -> _ _| -> _ _]; reflexivity. }
  assert ((if str_eqb (v_variable v) (L "exten")
           then match cut1 44 (v_value v) with Some (p, r) => mret (p, r) | None => mexn ValueError end
           else mret ([], v_value v)) = ([], Ok (pat, body))) as EQ.
  { destruct HB as [E1 E2 N|E1 -> -> ]; rewrite E1; [|reflexivity].
    assert (cut1 44 (v_value v) = Some (pat, body)) as -> by (apply cut1_some; auto). reflexivity. }
  split.
  - intros H. apply fine_bind_inv in H as (l1 & a1 & E1 & H). split; [now exists l1, a1|].
    rewrite EQ in H. apply fine_bind_inv in H as (l2 & a2 & E2 & H). injection E2 as <- <-. exact H.
  - intros [H1 H2]. apply fine_bind; [exact H1|]. intros. rewrite EQ. apply fine_bind; [now exists [], (pat, body)|]. intros ? ? [= <- <-]. exact H2.
Qed.
Lemma body_any v : v_variable v = L "exten" \/ v_variable v = L "same" -> (exists pat body, BodyOf v pat body) \/ (v_variable v = L "exten" /\ ~ In 44 (v_value v)).
Proof.
  intros [E|E]; [|left; exists [], (v_value v); now apply Bo_same]. destruct (cut1 44 (v_value v)) as [[p r]|] eqn:EC.
  - apply cut1_some in EC as [E' N]. left. exists p, r. now apply Bo_exten.
  - apply cut1_none in EC. now right.
Qed.
Lemma from_comma v : v_variable v = L "exten" -> ~ In 44 (v_value v) -> ~ fine (from_varset U FT AT v).
Proof.
  intros E N H. unfold from_varset in H. rewrite E in H. apply fine_bind_inv in H as (l1 & a1 & _ & H).
  apply fine_bind_inv in H as (l2 & a2 & H & _). apply cut1_none in N. rewrite N in H. discriminate H.
Qed.
Lemma from_other v : In (v_variable v) [L "include"; L "switch"; L "ignorepat"] -> (fine (from_varset U FT AT v) <-> v_arrow v <> None).
Proof.
  intros H. rewrite <- arrow_fine. unfold from_varset. cbn [In] in H. destruct H as [E|[E|[E|[]]]]; rewrite <- E.
  - split; [intros F; apply fine_bind_inv in F as (l & a & F & _); now exists l, a|]. intros F. apply fine_bind; [exact F|intros; apply fine_ret].
  - split; [intros F; apply fine_bind_inv in F as (l & a & F & _); now exists l, a|]. intros F. apply fine_bind; [exact F|intros; eexists _, _; reflexivity].
  - split; [intros F; apply fine_bind_inv in F as (l & a & F & _); now exists l, a|]. intros F. apply fine_bind; [exact F|intros; eexists _, _; reflexivity].
Qed.
Lemma from_unknown v : ~ In (v_variable v) keys -> fine (from_varset U FT AT v).
Proof.
  intros N. unfold from_varset.
  assert (forall k, In k keys -> str_eqb (v_variable v) k = false) as NE. { intros k I. apply str_eqb_neq. intros E. apply N. now rewrite E. }
  rewrite !NE by (cbn; auto 6). eexists _, _; reflexivity.
Qed.
Lemma keys_split k : In k keys -> (k = L "exten" \/ k = L "same") \/ In k [L "include"; L "switch"; L "ignorepat"].
Proof. cbn. intuition. Qed.
Lemma keys_incl k : In k [L "include"; L "switch"; L "ignorepat"] -> In k keys.
Proof. cbn. intuition. Qed.
Lemma keys_line k : k = L "exten" \/ k = L "same" -> In k keys.
Proof. cbn. intuition. Qed.
Lemma keys_apart k : In k [L "include"; L "switch"; L "ignorepat"] -> ~ (k = L "exten" \/ k = L "same").
Proof. cbn. intros [<-|[<-|[<-|[]]]]; intuition discriminate. Qed.

Lemma line_exact v : AsciiS (v_value v) ->
  (SafeLine U FT AT v -> fine (from_varset U FT AT v)) /\
  (LineFails U FT AT v -> ~ fine (from_varset U FT AT v)) /\
  (~ OddLine U FT AT v -> SafeLine U FT AT v \/ LineFails U FT AT v).
Proof.
  intros HA. assert (HAPP : forall app w, AsciiS app -> (SafeApp U FT AT app -> fine (application U FT AT app w)) /\
    (AppFails U FT AT app -> ~ fine (application U FT AT app w)) /\ (~ OddApp U FT AT app -> SafeApp U FT AT app \/ AppFails U FT AT app)).
  { intros app w H. apply app_exact; [exact HU|exact HUF|exact HUA|apply Nat.le_refl|exact H]. }
  split; [|split].
  - intros [N|A I|pat prio lt app A HLn N|pat prio lt app lb A HLn HP HLb HQ HS].
    + now apply from_unknown.
    + now apply from_other.
    + destruct HLn as (b & HB & HF). apply (from_line v pat b HB). split; [exact A|]. apply (rest_exact v pat prio lt app b HB HF HA). now left.
    + pose proof (line_ascii _ _ _ _ _ HLn HA) as (_ & _ & _ & A4). destruct HLn as (b & HB & HF). apply (from_line v pat b HB). split; [exact A|].
      apply (rest_exact v pat prio lt app b HB HF HA). right. split; [eauto|]. split; [easy|]. now apply HAPP.
  - intros H F. destruct H as [A I|E N|pat prio lt app HLn HP HLb|pat prio lt app HLn HP HQ|pat prio lt app HLn HP HS].
    + apply keys_split in I as [I|I]; [|apply from_other in F; [contradiction|exact I]].
      destruct (body_any v I) as [(p & b & HB)|[E N]]; [|now apply from_comma in F].
      destruct (proj1 (from_line v p b HB) F) as [F' _]. contradiction.
    + now apply from_comma in F.
    + destruct HLn as (b & HB & HF). destruct (proj1 (from_line v pat b HB) F) as [_ F']. destruct (proj1 (proj1 (rest_exact v pat prio lt app b HB HF HA)) F') as [K|([lb K] & _)]; [contradiction|now apply HLb in K].
    + destruct HLn as (b & HB & HF). destruct (proj1 (from_line v pat b HB) F) as [_ F']. destruct (proj1 (proj1 (rest_exact v pat prio lt app b HB HF HA)) F') as [K|(_ & K & _)]; contradiction.
    + pose proof (line_ascii _ _ _ _ _ HLn HA) as (_ & _ & _ & A4).
      destruct HLn as (b & HB & HF). destruct (proj1 (from_line v pat b HB) F) as [_ F']. destruct (proj1 (proj1 (rest_exact v pat prio lt app b HB HF HA)) F') as [K|(_ & _ & K)]; [contradiction|].
      now apply (HAPP app (v_where v) A4) in K.
  - intros HO. destruct (in_dec str_eq_dec (v_variable v) keys) as [I|N]; [|left; now apply Sl_unknown].
    destruct (v_arrow v) as [ar|] eqn:EA; [|right; now apply Lf_arrow]. assert (v_arrow v <> None) as A by congruence.
    apply keys_split in I as [I|I]; [|left; now apply Sl_other].
    destruct (body_any v I) as [(pat & b & HB)|[E N]]; [|right; now apply Lf_comma].
    destruct (fields_any b) as (prio & label & app & HF). assert (LineOf v pat prio (label_of label) app) as HLn by now exists b.
    destruct (rest_exact v pat prio _ app b HB HF HA) as (_ & [DP|DP] & DL & DQ); [|left; now eapply Sl_prio; eauto].
    destruct DL as [[lb DL]|DL]; [|right; eapply Lf_label; eauto].
    destruct DQ as [DQ|DQ]; [|right; eapply Lf_pattern; eauto].
    pose proof (line_ascii _ _ _ _ _ HLn HA) as (_ & _ & _ & A4).
    assert (~ OddApp U FT AT app) as HO'. { intros H. apply HO. now exists pat, prio, (label_of label), app. }
    destruct (proj2 (proj2 (HAPP app (v_where v) A4)) HO') as [S|S]; [left; eapply Sl_line; eauto|right; eapply Lf_app; eauto].
Qed.
End Tables.
