(* Which elements of a file the linter survives (C23). *)
From Verif Require Import Base Utf8 PyStr Defines Var VarFun AppM Spec_Var Spec_VarFun Spec_App Spec_Args Spec_Crash VarFun_proofs Crash_proofs CrashA_proofs
  Config Pattern Spec_Pattern Dialplan Spec_Dialplan Dialplan_proofs DialplanC_proofs DialplanL_proofs DialplanK_proofs Spec_Survive
  Survive_proofs SurviveJ_proofs.

Section Tables.
Variable U : uni.
Variable FT : ftable.
Variable AT : atable.
Hypothesis HU : AsciiOk U.
Hypothesis HUF : lookup (L "unknown") FT <> None.
Hypothesis HUA : lookup (L "unknown") AT <> None.

Definition Made (p : pattern) : Prop := exists raw, mk_pattern raw = Ok p.
Record St (before : list Config.elem) (d : dplan) : Prop := {
  st_gen : dp_general d = None <-> ~ Seen before (L "general");
  st_names : forall n, In n (map dc_name (dp_ctxs d)) <-> Seen before n /\ n <> L "general" /\ n <> L "globals";
  st_cur : match dp_cur d with
           | CurNone => forall c, ~ In (ECtx c) before
           | CurPlain => exists c, Within before c /\ Plain c
           | CurCtx n => exists c, Within before c /\ ~ Plain c /\ c_name c = n
           end;
  st_pats : forall c x, In c (dp_ctxs d) -> In x (dc_exts c) -> Made (x_pat x)
}.

Lemma st_init : St [] dp_init.
Proof. constructor; cbn; try easy. - split; [intros _ (c & [] & _)|easy]. - intros n. split; [easy|intros [(c & [] & _) _]]. Qed.

Lemma seen_snoc_ctx before c n : Seen (before ++ [ECtx c]) n <-> Seen before n \/ c_name c = n.
Proof.
  unfold Seen. split.
  - intros (c' & H & E). apply in_snoc in H as [H|H]; [left; eauto|]. injection H as ->. now right.
  - intros [(c' & H & E)|E]; [exists c'; split; [apply in_snoc; auto|easy]|exists c; split; [apply in_snoc; auto|easy]].
Qed.
Lemma within_last before c : Within (before ++ [ECtx c]) c.
Proof. exists before, []. now split. Qed.
Lemma within_fun before c c' : Within before c -> Within before c' -> c = c'.
Proof.
  intros (a & b & -> & N) (a' & b' & E & N'). revert a' E. induction a as [|x a IH]; intros [|x' a'] E; cbn in E.
  - now injection E.
  - injection E as <- E. exfalso. apply (N c'). rewrite E. apply in_app_iff. right. now left.
  - injection E as -> E. exfalso. apply (N' c). rewrite <- E. apply in_app_iff. right. now left.
  - injection E as _ E. now apply (IH a').
Qed.
Lemma within_in before c : Within before c -> In (ECtx c) before.
Proof. intros (a & b & -> & _). apply in_app_iff. right. now left. Qed.
Lemma within_other before e c : (forall c', e <> ECtx c') -> Within before c -> Within (before ++ [e]) c.
Proof.
  intros N (a & b & -> & H). exists a, (b ++ [e]). rewrite <- app_assoc. split; [easy|].
  intros c' I. apply in_snoc in I as [I|I]; [now apply (H c')|now apply (N c')].
Qed.
Lemma st_other before e d d' : (forall c', e <> ECtx c') -> St before d -> dp_general d' = dp_general d -> map dc_name (dp_ctxs d') = map dc_name (dp_ctxs d) ->
  dp_cur d' = dp_cur d -> (forall c x, In c (dp_ctxs d') -> In x (dc_exts c) -> Made (x_pat x)) -> St (before ++ [e]) d'.
Proof.
  intros N [S1 S2 S3 S4] E1 E2 E3 H.
  assert (SN : forall n, Seen (before ++ [e]) n <-> Seen before n).
  { intros n. split; intros (c & I & E); exists c; (split; [|easy]); [|apply in_snoc; auto]. apply in_snoc in I as [I|I]; [easy|]. now destruct (N c). }
  constructor.
  - now rewrite SN, E1.
  - intros n. now rewrite SN, E2.
  - rewrite E3. destruct (dp_cur d).
    + intros c I. apply in_snoc in I as [I|I]; [now apply (S3 c)|now destruct (N c)].
    + destruct S3 as (c & H1 & H2). exists c. split; [now apply within_other|easy].
    + destruct S3 as (c & H1 & H2). exists c. split; [now apply within_other|easy].
  - easy.
Qed.

Lemma st_ctx before d c l d' : NoDup (map dc_name (dp_ctxs d)) -> St before d -> on_context d c = (l, Ok d') -> St (before ++ [ECtx c]) d'.
Proof.
  intros ND [S1 S2 S3 S4]. unfold on_context. destruct (str_eqb_spec (c_name c) (L "general")) as [EG|NG].
  { unfold add_general. destruct (dp_general d) as [old|]; [easy|]. intros H. apply mbind_ok in H as (l1 & [] & l2 & _ & H & _). injection H as _ <-.
    constructor; cbn [dp_general dp_ctxs dp_cur].
    - rewrite seen_snoc_ctx. split; [easy|intros N; destruct N; now right].
    - intros n. rewrite S2, seen_snoc_ctx. split; [tauto|]. intros [[H|H] [H1 H2]]; [tauto|congruence].
    - exists c. split; [apply within_last|now left].
    - easy. }
  destruct (str_eqb_spec (c_name c) (L "globals")) as [EB|NB].
  { assert (K : forall g, St (before ++ [ECtx c]) (DPlan (dp_general d) g (dp_ctxs d) (dp_glob d) CurPlain)).
    { intros g. constructor; cbn [dp_general dp_ctxs dp_cur].
      - rewrite seen_snoc_ctx, S1. split; [|tauto]. intros N [H|H]; [easy|]. rewrite EB in H. discriminate H.
      - intros n. rewrite S2, seen_snoc_ctx. split; [tauto|]. intros [[H|H] [H1 H2]]; [tauto|congruence].
      - exists c. split; [apply within_last|now right].
      - easy. }
    unfold add_globals. destruct (dp_globals d) as [old|]; intros H; apply mbind_ok in H as (l1 & [] & l2 & _ & H & _); injection H as _ <-; apply K. }
  intros H. apply mbind_ok in H as (l1 & [] & l2 & _ & H & _).
  assert (G : dp_general d = None <-> ~ Seen (before ++ [ECtx c]) (L "general")).
  { rewrite seen_snoc_ctx, S1. tauto. }
  destruct (find_ctx (c_name c) (dp_ctxs d)) as [old|] eqn:EF.
  - destruct (find_ctx_in _ _ _ EF) as [IO EN]. apply mbind_ok in H as (l3 & new & l4 & EU & H & _). injection H as _ <-.
    unfold mlift in EU. injection EU as _ EU. unfold ctx_update in EU. destruct (c_comment c); [easy|]. destruct (c_templates c); [|easy]. injection EU as <-.
    constructor; cbn [dp_general dp_ctxs dp_cur]; [easy| | |].
    + intros n. rewrite set_ctx_names, S2, seen_snoc_ctx. split; [tauto|]. intros [[H|H] [H1 H2]]; [tauto|]. rewrite <- S2, <- H, <- EN. now apply in_map.
    + exists c. split; [apply within_last|]. split; [now intros [?|?]|easy].
    + intros c0 x I Ix. apply set_ctx_in in I as [->|[I _]]; [|now apply (S4 c0)|easy]. now apply (S4 old).
  - rewrite find_ctx_none in EF. injection H as _ <-. constructor; cbn [dp_general dp_ctxs dp_cur]; [easy| | |].
    + intros n. rewrite map_app, in_app_iff, S2, seen_snoc_ctx. cbn. split; [|tauto]. intros [H|[<-|[]]]; tauto.
    + exists c. split; [apply within_last|]. split; [now intros [?|?]|easy].
    + intros c0 x I Ix. apply in_snoc in I as [I| ->]; [now apply (S4 c0)|easy].
Qed.

Lemma line_pat v l x p : from_varset U FT AT v = (l, Ok (Some (DExt x))) -> i_pat x = Some p -> Made p.
Proof.
  intros H E. apply line_text in H as (pat & la & lb & _ & _ & H & _). unfold pat_of in H. rewrite E in H. exists pat. apply H.
Qed.
Lemma check_made h g c x l p q : CInv h c -> GInv U h g -> add_check g c x = (l, Ok (Some (p, q))) -> (forall p, i_pat x = Some p -> Made p) ->
  (forall y, In y (dc_exts c) -> Made (x_pat y)) -> Made p.
Proof.
  intros C G H H1 H2. destruct (add_check_rule U _ _ _ _ _ _ C G H) as (ms & _ & [[E _]|(p' & q' & [= <- <-] & EP & _)]); [discriminate|].
  destruct EP as [EP|(_ & y & Hy & ->)]; [now apply H1|]. apply H2. rewrite (ci_exts _ _ C). destruct Hy as [r ->]. apply in_snoc. now right.
Qed.
Lemma add_made h g c x l g' c' : CInv h c -> GInv U h g -> ctx_add U g c x = (l, Ok (g', c')) -> (forall p, i_pat x = Some p -> Made p) ->
  (forall y, In y (dc_exts c) -> Made (x_pat y)) -> dc_name c' = dc_name c /\ forall y, In y (dc_exts c') -> Made (x_pat y).
Proof.
  intros C G H H1 H2. unfold ctx_add in H. apply mbind_ok in H as (l1 & r & l2 & EC & H & _).
  destruct r as [[p q]|]; [|injection H as _ _ <-; now split]. pose proof (check_made _ _ _ _ _ _ _ C G EC H1 H2) as HM.
  apply mbind_ok in H as (l3 & o & l4 & _ & H & _). destruct o as [[[label pc] labels]|]; [|injection H as _ _ <-; now split].
  apply mbind_ok in H as (l5 & js & l6 & _ & H & _). injection H as _ _ <-. cbn [dc_name dc_exts]. split; [easy|].
  intros y Hy. apply in_snoc in Hy as [Hy| ->]; [now apply H2|exact HM].
Qed.
Lemma st_var before d v l d' h : Inv U h d -> St before d -> on_varset U FT AT d v = (l, Ok d') -> St (before ++ [EVar v]) d'.
Proof.
  intros I HS H. assert (NE : forall c', EVar v <> ECtx c') by easy. pose proof (inv_nodup _ _ _ I) as ND.
  assert (SAME : St (before ++ [EVar v]) d) by (eapply st_other; eauto; apply HS).
  unfold on_varset in H. destruct (dp_cur d) as [| |n] eqn:EC.
  - apply mbind_ok in H as (l1 & [] & l2 & _ & H & _). now injection H as _ <-.
  - now injection H as _ <-.
  - apply mbind_ok in H as (l1 & o & l2 & EV & H & _). destruct o as [dv|]; [|now injection H as _ <-].
    destruct (find_ctx n (dp_ctxs d)) as [c|] eqn:EF; [|easy]. destruct (find_ctx_in _ _ _ EF) as [IO EN]. destruct dv as [x|i w].
    + apply mbind_ok in H as (l3 & [] & l4 & _ & H & _). apply mbind_ok in H as (l5 & [g c'] & l6 & EA & H & _). injection H as _ <-.
      destruct (add_made h _ _ _ _ _ _ (in_ctxs _ _ _ I c IO) (in_glob _ _ _ I) EA) as [E1 E2].
      * intros p Ep. eapply line_pat; eauto.
      * intros y Hy. eapply st_pats; eauto.
      * eapply st_other; [exact NE|exact HS|easy|cbn [dp_ctxs]; apply set_ctx_names|easy|].
        cbn [dp_ctxs]. intros c0 y Hc Hy. apply set_ctx_in in Hc as [->|[Hc _]]; [now apply E2| |easy]. eapply st_pats; eauto.
    + injection H as _ <-. eapply st_other; [exact NE|exact HS|easy|cbn [dp_ctxs]; apply set_ctx_names|easy|].
      cbn [dp_ctxs]. intros c0 y Hc Hy. apply set_ctx_in in Hc as [->|[Hc _]]; [|eapply st_pats; eauto|easy]. eapply (st_pats _ _ HS c); [easy|exact Hy].
Qed.
Lemma st_elem before d e l d' h : Inv U h d -> St before d -> on_element U FT AT d e = (l, Ok d') -> St (before ++ [e]) d'.
Proof.
  intros I HS H. unfold on_element in H. destruct e as [b w|c|v].
  - injection H as _ <-. eapply st_other; eauto; [easy|apply HS].
  - destruct (on_context d c) as [l1 [x|x|]] eqn:E; try easy. injection H as <- <-. eapply st_ctx; eauto. eapply inv_nodup; eauto.
  - destruct (on_varset U FT AT d v) as [l1 [x|x|]] eqn:E; try easy. injection H as <- <-. eapply st_var; eauto.
Qed.

(* ---- one element ---- *)
Lemma safe_dests v l x : AsciiS (v_value v) -> SafeLine U FT AT v -> from_varset U FT AT v = (l, Ok (Some (DExt x))) -> Forall (DestIn FmtE) (i_dests x).
Proof.
  intros HA HS H. apply line_text in H as (pat & la & lb & HT & _ & _ & _ & H & _).
  assert (exists prio lt, LineOf v pat prio lt (i_raw x) /\ PrioText U prio (i_prio x)) as (prio & lt & HLn & HP).
  { destruct HT as [(E & N & body & EB & (prio & lt & P1 & P2 & P3 & P4 & P5 & P6))|(E & -> & (prio & lt & P1 & P2 & P3 & P4 & P5 & P6))]; exists prio, lt; (split; [|easy]).
    - exists body. split; [now apply Bo_exten|]. split; [easy|]. split; [easy|]. split; [easy|]. split; [|easy]. destruct P2; [now left|right; eauto].
    - exists (v_value v). split; [now apply Bo_same|]. split; [easy|]. split; [easy|]. split; [easy|]. split; [|easy]. destruct P2; [now left|right; eauto]. }
  pose proof (line_ascii _ _ _ _ _ HLn HA) as (_ & A2 & _ & A4). pose proof (line_var _ _ _ _ _ HLn) as HV.
  destruct HS as [N|_ I|pat' prio' lt' app' _ HLn' N|pat' prio' lt' app' lb' _ HLn' _ _ _ HSA].
  - destruct N. now apply keys_line.
  - now apply keys_apart in I.
  - destruct (line_fun _ _ _ _ _ _ _ _ _ HLn HLn') as (_ & <- & _). destruct N. inversion HP as [E|s z N' Hd]; subst; [now left|right].
    now apply (isdigit_ascii U HU).
  - destruct (line_fun _ _ _ _ _ _ _ _ _ HLn HLn') as (_ & _ & _ & <-). eapply app_dests; eauto.
Qed.
Lemma add_fine h g c x : CInv h c -> GInv U h g -> (forall p, i_pat x = Some p -> Made p) -> (forall y, In y (dc_exts c) -> Made (x_pat y)) ->
  Forall (DestIn FmtE) (i_dests x) -> fine (ctx_add U g c x).
Proof.
  intros C G H1 H2 HD. unfold ctx_add. apply fine_bind.
  - destruct (add_check g c x) as [l r] eqn:E. destruct (add_check_rule U _ _ _ _ _ _ C G E) as (ms & -> & [[-> _]|(p & q & -> & _)]); now eexists _, _.
  - intros l [[p q]|] E; [|apply fine_ret]. destruct (check_made _ _ _ _ _ _ _ C G E H1 H2) as [raw HM].
    apply fine_bind; [destruct (add_cache_ends c p q x) as (l2 & o & ->); now eexists _, _|]. intros l2 [[[label pc] labels]|] _; [|apply fine_ret].
    destruct (jumps_ok U HU (dc_name c) raw p (i_where x) (i_dests x) HM HD) as [js EJ].
    apply fine_bind; [now apply (fine_lift _ js)|intros; apply fine_ret].
Qed.
Lemma ctx_exact before d c h : Inv U h d -> St before d ->
  (SafeElem U FT AT before (ECtx c) -> fine (on_context d c)) /\ (ElemFails U FT AT before (ECtx c) -> ~ fine (on_context d c)) /\
  (SafeElem U FT AT before (ECtx c) \/ ElemFails U FT AT before (ECtx c)).
Proof.
  intros I HS. unfold on_context. destruct (str_eqb_spec (c_name c) (L "general")) as [EG|NG].
  { unfold add_general. pose proof (st_gen _ _ HS) as SG. destruct (dp_general d) as [old|].
    - assert (HSn : Seen before (L "general")).
      { assert (~ ~ Seen before (L "general")) as K by (intros K; apply SG in K; discriminate). unfold Seen in *.
        assert (D : (exists c0, In (ECtx c0) before /\ c_name c0 = L "general") \/ ~ exists c0, In (ECtx c0) before /\ c_name c0 = L "general").
        { clear. induction before as [|e r IH]; [right; now intros (c & [] & _)|]. destruct IH as [(c & H1 & H2)|N]; [left; exists c; split; [now right|easy]|].
          destruct e as [b w|c|v]; [right; intros (c & [H|H] & E); [discriminate|now apply N; exists c]| |right; intros (c & [H|H] & E); [discriminate|now apply N; exists c]].
          destruct (str_eq_dec (c_name c) (L "general")) as [E|NE]; [left; exists c; split; [now left|easy]|].
          right. intros (c' & [H|H] & E); [congruence|apply N; eauto]. }
        destruct D; [easy|contradiction]. }
      split; [|split].
      + intros H. exfalso. inversion H; subst; try easy; try (rewrite EG in *; discriminate);
          match goal with K : ~ Plain c |- _ => apply K; now left end.
      + intros _ H. apply fine_bind_inv in H as (? & ? & _ & H). destruct H as (? & ? & H). discriminate H.
      + right. now apply Ef_general.
    - assert (N : ~ Seen before (L "general")) by now apply SG. split; [|split].
      + intros _. apply fine_bind; [|intros; apply fine_ret]. destruct (dp_globals d); [eexists _, _; reflexivity|]. destruct (dp_ctxs d); [apply fine_ret|eexists _, _; reflexivity].
      + intros H. inversion H; subst; [contradiction|]. destruct H1. now left.
      + left. now apply Se_general. }
  destruct (str_eqb_spec (c_name c) (L "globals")) as [EB|NB].
  { split; [|split].
    - intros _. unfold add_globals. destruct (dp_globals d); (apply fine_bind; [|intros; apply fine_ret]); [eexists _, _; reflexivity|].
      destruct (dp_general d); [|eexists _, _; reflexivity]. destruct (dp_ctxs d); [apply fine_ret|eexists _, _; reflexivity].
    - intros H. inversion H; subst; [rewrite EB in *; discriminate|]. destruct H1. now right.
    - left. now apply Se_globals. }
  assert (NP : ~ Plain c) by now intros [?|?].
  assert (T : fine (match c_templates c with [] => mret tt | _ => memit I_NOTIMPL_TEMPLATES (c_where c) [] end)).
  { destruct (c_templates c); [apply fine_ret|eexists _, _; reflexivity]. }
  destruct (find_ctx (c_name c) (dp_ctxs d)) as [old|] eqn:EF.
  - destruct (find_ctx_in _ _ _ EF) as [IO EN].
    assert (SN : Seen before (c_name c)). { apply (st_names _ _ HS). rewrite <- EN. now apply in_map. }
    unfold ctx_update. destruct (c_comment c) eqn:CC; [|destruct (c_templates c) as [|t0 ts] eqn:CT].
    + split; [|split].
      * intros H. exfalso. inversion H; subst; try easy. congruence.
      * intros _ H. apply fine_bind_inv in H as (? & ? & _ & H). apply fine_bind_inv in H as (? & ? & H & _). discriminate H.
      * right. apply Ef_again; auto.
    + split; [|split].
      * intros _. apply fine_bind; [easy|]. intros. apply fine_bind; [eexists _, _; reflexivity|]. intros; apply fine_ret.
      * intros H. exfalso. inversion H as [|? _ _ [H1|H1]|]; subst; congruence.
      * left. now apply Se_again.
    + split; [|split].
      * intros H. exfalso. inversion H; subst; try easy. congruence.
      * intros _ H. apply fine_bind_inv in H as (? & ? & _ & H). apply fine_bind_inv in H as (? & ? & H & _). discriminate H.
      * right. apply Ef_again; auto. right. now rewrite CT.
  - rewrite find_ctx_none in EF.
    assert (SN : ~ Seen before (c_name c)).
    { intros H. assert (In (c_name c) (map dc_name (dp_ctxs d))) as K by now apply (st_names _ _ HS). apply in_map_iff in K as (c0 & E0 & K). now apply (EF c0). }
    split; [|split].
    + intros _. apply fine_bind; [easy|]. intros; apply fine_ret.
    + intros H. inversion H; subst; contradiction.
    + left. now apply Se_first.
Qed.
Lemma ascii_dec s : AsciiS s \/ ~ AsciiS s.
Proof.
  unfold AsciiS. destruct (forallb (fun c => c <? 128) s) eqn:E; [left|right].
  - apply Forall_forall. intros c H. rewrite forallb_forall in E. apply E in H. now apply N.ltb_lt.
  - intros H. enough (forallb (fun c => c <? 128) s = true) by congruence. apply forallb_forall. rewrite Forall_forall in H. intros c I. apply N.ltb_lt. auto.
Qed.
Lemma var_exact before d v h : Inv U h d -> St before d ->
  (SafeElem U FT AT before (EVar v) -> fine (on_varset U FT AT d v)) /\ (ElemFails U FT AT before (EVar v) -> ~ fine (on_varset U FT AT d v)) /\
  (~ OddElem U FT AT before (EVar v) -> SafeElem U FT AT before (EVar v) \/ ElemFails U FT AT before (EVar v)).
Proof.
  intros I HS. pose proof (st_cur _ _ HS) as SC. unfold on_varset. destruct (dp_cur d) as [| |n].
  - split; [intros _; eexists _, _; reflexivity|]. split; [|intros _; left; now apply Se_outside].
    intros H. inversion H; subst. now apply within_in, SC in H1.
  - destruct SC as (c & HW & HP). split; [intros _; apply fine_ret|]. split; [|intros _; left; now apply (Se_plain _ _ _ _ v c)].
    intros H. inversion H as [| |? c' HW' NP]; subst. rewrite (within_fun _ _ _ HW HW') in HP. contradiction.
  - destruct SC as (c & HW & NP & EN).
    assert (exists c0, find_ctx n (dp_ctxs d) = Some c0) as [c0 EF].
    { destruct (find_ctx n (dp_ctxs d)) as [c0|] eqn:EF; [eauto|]. rewrite find_ctx_none in EF. exfalso.
      assert (In n (map dc_name (dp_ctxs d))) as K.
      { apply (st_names _ _ HS). subst n. split; [exists c; split; [now apply within_in|easy]|]. split; intros E; apply NP; [now left|now right]. }
      apply in_map_iff in K as (c1 & E1 & K). now apply (EF c1). }
    destruct (find_ctx_in _ _ _ EF) as [IO EN0].
    split; [|split].
    + intros H. inversion H as [| | | | |? N|? c' HW' HP'|? c' HW' _ HA HL]; subst.
      * now apply within_in, N in HW.
      * rewrite (within_fun _ _ _ HW HW') in NP. contradiction.
      * apply fine_bind; [now apply (line_exact U FT AT HU HUF HUA v HA)|]. intros l [dv|] EV; [|apply fine_ret]. rewrite EF.
        destruct dv as [x|i w]; [|apply fine_ret].
        apply fine_bind.
        { destruct (i_pat x) as [p|]; [|apply fine_ret]. destruct (is_canonical p); [apply fine_ret|eexists _, _; reflexivity]. }
        intros _ _ _. apply fine_bind; [|intros ? [? ?] _; apply fine_ret].
        eapply add_fine; [exact (in_ctxs _ _ _ I c0 IO)|exact (in_glob _ _ _ I)| | |].
        -- intros p Ep. eapply line_pat; eauto.
        -- intros y Hy. eapply st_pats; eauto.
        -- eapply safe_dests; eauto.
    + intros H F. inversion H as [| |? c' HW' _ HA HL]; subst. apply fine_bind_inv in F as (l & a & F & _).
      apply (line_exact U FT AT HU HUF HUA v HA) in HL. apply HL. now exists l, a.
    + intros HO. destruct (ascii_dec (v_value v)) as [HA|HA]; [|destruct HO; exists v, c; auto].
      destruct (proj2 (proj2 (line_exact U FT AT HU HUF HUA v HA))) as [HL|HL].
      * intros HO'. apply HO. exists v, c. auto.
      * left. now apply (Se_line _ _ _ _ v c).
      * right. now apply (Ef_line _ _ _ _ v c).
Qed.
Lemma wrap_fine (m : M dplan) : fine (match m with (l, Exn _) => (l, Exn ProgrammingError) | _ => m end) <-> fine m.
Proof. destruct m as [l [d|e|]]; [easy| |easy]. split; intros (? & ? & H); discriminate H. Qed.
Lemma elem_exact before d e h : Inv U h d -> St before d ->
  (SafeElem U FT AT before e -> fine (on_element U FT AT d e)) /\ (ElemFails U FT AT before e -> ~ fine (on_element U FT AT d e)) /\
  (~ OddElem U FT AT before e -> SafeElem U FT AT before e \/ ElemFails U FT AT before e).
Proof.
  intros I HS. unfold on_element. cbv zeta. rewrite wrap_fine. destruct e as [b w|c|v].
  - split; [intros _; apply fine_ret|]. split; [intros H; inversion H|]. intros _. left. constructor.
  - destruct (ctx_exact before d c h I HS) as (H1 & H2 & H3). split; [easy|]. split; [easy|]. now intros _.
  - now apply (var_exact before d v h).
Qed.

(* ---- all elements ---- *)
Lemma safe_snoc es e : Safe U FT AT (es ++ [e]) <-> Safe U FT AT es /\ SafeElem U FT AT es e.
Proof.
  unfold Safe. split.
  - intros H. split; [|now apply (H es e [])]. intros a x b E. apply (H a x (b ++ [e])). now rewrite E, <- app_assoc.
  - intros [H1 H2] a x b E. destruct b as [|y b] using rev_ind; [apply app_inj_tail in E as [-> ->]; easy|].
    rewrite app_comm_cons, app_assoc in E. apply app_inj_tail in E as [E _]. eapply H1; eauto.
Qed.
Lemma steps_snoc es e d : dp_steps U FT AT d (es ++ [e]) = mbind (dp_steps U FT AT d es) (fun d' => on_element U FT AT d' e).
Proof.
  revert d. induction es as [|x es IH]; intros d; cbn [List.app dp_steps].
  - unfold mret. cbn [mbind]. destruct (on_element U FT AT d e) as [l [d'|x|]]; cbn [mbind List.app]; now rewrite ?app_nil_r.
  - destruct (on_element U FT AT d x) as [l [d'|y|]]; cbn [mbind fst snd]; [|easy|easy]. rewrite IH.
    destruct (dp_steps U FT AT d' es) as [l2 [d2|y|]]; cbn [mbind fst snd]; [|easy|easy].
    destruct (on_element U FT AT d2 e) as [l3 r]. cbn [fst snd]. now rewrite app_assoc.
Qed.
Lemma safe_steps es : Safe U FT AT es -> exists l d h, dp_steps U FT AT dp_init es = (l, Ok d) /\ Inv U h d /\ St es d.
Proof.
  induction es as [|e es IH] using rev_ind; intros H.
  - exists [], dp_init, []. split; [easy|]. split; [apply inv_init|apply st_init].
  - apply safe_snoc in H as [H1 H2]. destruct (IH H1) as (l & d & h & E & I & HS). rewrite steps_snoc, E. cbn [mbind].
    destruct (proj1 (elem_exact es d e h I HS) H2) as (l' & d' & E'). rewrite E'.
    destruct (on_element_rule _ _ _ _ _ _ _ _ I E') as (h1 & _ & I1). exists (l ++ l'), d', (h ++ h1). split; [easy|]. split; [easy|]. exact (st_elem es d e l' d' h I HS E').
Qed.
Lemma steps_app es1 es2 d : dp_steps U FT AT d (es1 ++ es2) = mbind (dp_steps U FT AT d es1) (fun d' => dp_steps U FT AT d' es2).
Proof.
  revert d. induction es1 as [|x es1 IH]; intros d; cbn [List.app dp_steps].
  - unfold mret. cbn [mbind]. now destruct (dp_steps U FT AT d es2).
  - destruct (on_element U FT AT d x) as [l [d'|y|]]; cbn [mbind fst snd]; [|easy|easy]. rewrite IH.
    destruct (dp_steps U FT AT d' es1) as [l2 [d2|y|]]; cbn [mbind fst snd]; [|easy|easy].
    destruct (dp_steps U FT AT d2 es2) as [l3 r]. cbn [fst snd]. now rewrite app_assoc.
Qed.
Lemma fails_steps es e rest : Safe U FT AT es -> ElemFails U FT AT es e -> exists l r,
  dp_steps U FT AT dp_init (es ++ e :: rest) = (l, r) /\ (r = Exn ProgrammingError \/ r = Hang).
Proof.
  intros H HF. destruct (safe_steps es H) as (l & d & h & E & I & HS). rewrite steps_app, E. cbn [mbind dp_steps].
  pose proof (proj1 (proj2 (elem_exact es d e h I HS)) HF) as N. unfold on_element in *. cbv zeta in *.
  set (m := match e with ECtx c => on_context d c | EVar v => on_varset U FT AT d v | EEmpty _ _ => mret d end) in *.
  destruct m as [l' [d'|x|]]; cbn [mbind].
  - destruct N. now exists l', d'.
  - eexists _, _. split; [reflexivity|]. now left.
  - eexists _, _. split; [reflexivity|]. now right.
Qed.
Lemma elems_cases es : (forall a e b, es = a ++ e :: b -> ~ OddElem U FT AT a e) -> Safe U FT AT es \/
  exists a e b, es = a ++ e :: b /\ Safe U FT AT a /\ ElemFails U FT AT a e.
Proof.
  induction es as [|e es IH] using rev_ind; intros H.
  - left. intros [|? ?] x b E; discriminate E.
  - destruct IH as [HS|(a & x & b & -> & H1 & H2)].
    + intros a x b E. apply (H a x (b ++ [e])). now rewrite E, <- app_assoc.
    + destruct (safe_steps es HS) as (l & d & h & E & I & HT).
      destruct (proj2 (proj2 (elem_exact es d e h I HT)) (H es e [] eq_refl)) as [K|K]; [left; now apply safe_snoc|].
      right. exists es, e, []. auto.
    + right. exists a, x, (b ++ [e]). rewrite <- app_assoc. auto.
Qed.
End Tables.
