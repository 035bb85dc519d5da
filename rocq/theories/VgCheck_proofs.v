(* Proofs about vg dialplan-check (C68). *)
From Verif Require Import Log_proofs Base PyStr Defines FileRd Config VSpace Pattern Var VarFun AppM Dialplan Spec_Dialplan Spec_Search
  Spec_App Spec_Log Spec_VarFun FuncOdbc Spec_FuncOdbc FuncOdbc_proofs Check Spec_Check Check_proofs Spec_Run
  VarFun_proofs Dialplan_proofs DialplanL_proofs DialplanC_proofs DialplanK_proofs Run_proofs
  Vg VgRead VgPlan Spec_VgPlan VgPlan_proofs VgCheck Spec_VgCheck.

Lemma mrel_bind_eq {A B A' B'} (R : A -> A' -> Prop) (S : B -> B' -> Prop) (m : M A) (m' : M A') f f' :
  mrel R m m' -> (forall a a' l, R a a' -> m = (l, Ok a) -> m' = (l, Ok a') -> mrel S (f a) (f' a')) -> mrel S (mbind m f) (mbind m' f').
Proof.
  destruct m as [l r], m' as [l' r']. intros [E H] F. cbn in E. subst l'. destruct r as [a|e|], r' as [a'|e'|]; cbn in H; try easy; try (now subst e').
  destruct (F a a' l H eq_refl eq_refl) as [E2 H2]. unfold mbind. split; cbn; [now rewrite E2|easy].
Qed.

(* ---- names ---- *)
Lemma old_orig F n : old F n = orig F n.
Proof. reflexivity. Qed.
Lemma old_app F a b : old_names F (a ++ b) = old_names F a ++ old_names F b.
Proof. apply map_app. Qed.
Lemma jumping_old F h : jumping (old_names F h) = map (fun t => match t with (n, x, y) => (old F n, x, y) end) (jumping h).
Proof.
  induction h as [|e h IH]; [easy|]. unfold old_names, jumping in *. cbn [map flat_map]. rewrite map_app, <- IH.
  destruct e as [| | |m x [| |y]|]; reflexivity.
Qed.
Lemma jumps_old_frame U F h h1 js : jumping h1 = [] -> JumpsOf U (old_names F h) js -> JumpsOf U (old_names F (h ++ h1)) js.
Proof.
  intros E (jss & K & ->). exists jss. split; [|easy]. rewrite jumping_old in *. now rewrite jumping_app, E, app_nil_r.
Qed.

(* ---- the jumps of one element ---- *)
Section Jumps.
Variable F : list (str * str).
Variable U : uni.
Variable FT : ftable.
Variable AT : atable.

Lemma ctx_add_jumps g g' c x l g1 c1 l' g1' c1' : GSim F g g' -> ctx_add U g (back F c) x = (l, Ok (g1, c1)) -> ctx_add U g' c x = (l', Ok (g1', c1')) ->
  dc_name c1' = dc_name c /\
  (dc_exts c1' = dc_exts c /\ g_jumps g1 = g_jumps g \/
   exists y js, dc_exts c1' = dc_exts c ++ [y] /\ g_jumps g1 = g_jumps g ++ js /\
     mk_jumps U (orig F (dc_name c)) (x_pat y) (x_where y) (i_dests x) = Ok js).
Proof.
  intros G. unfold ctx_add.
  replace (add_check g (back F c) x) with (add_check g' c x)
    by (unfold add_check, last_ext, same_pat; cbn [back named dc_exts dc_last]; now rewrite (gs_last _ _ _ G)).
  destruct (add_check g' c x) as [l0 [[[p q]|]|e|]]; cbn [mbind]; try easy.
  - replace (add_cache (back F c) p q x) with (add_cache c p q x) by easy.
    destruct (add_cache c p q x) as [l2 [[[[label pc] labels]|]|e|]]; cbn [mbind]; try easy.
    + cbn [back named dc_name]. destruct (mk_jumps U (orig F (dc_name c)) p (i_where x) (i_dests x)) as [js|e|] eqn:EJ; cbn [mlift mbind]; try easy.
      destruct (mk_jumps U (dc_name c) p (i_where x) (i_dests x)) as [js'|e|]; cbn [mlift mbind]; try easy.
      intros H H'. injection H as _ <- _. injection H' as _ _ <-. split; [easy|]. right.
      exists (Ext p q label (i_raw x) (i_where x)), js. cbn [dc_exts g_jumps x_pat x_where]. easy.
    + intros H H'. injection H as _ <- _. injection H' as _ _ <-. split; [easy|]. now left.
  - intros H H'. injection H as _ <- _. injection H' as _ _ <-. split; [easy|]. now left.
Qed.

Lemma context_glob d c l d1 : on_context d c = (l, Ok d1) -> dp_glob d1 = dp_glob d.
Proof.
  unfold on_context, add_general, add_globals. intros H.
  repeat match type of H with
  | context [str_eqb ?a ?b] => destruct (str_eqb a b)
  | context [match ?x with _ => _ end] => destruct x eqn:?; try discriminate H
  end.
  all: try (apply mbind_ok in H as (? & ? & ? & ? & H & _)).
  all: try (apply mbind_ok in H as (? & ? & ? & ? & H & _)).
  all: try (injection H as _ <-; reflexivity).
Qed.
Lemma vg_context_glob d c l d1 : vg_on_context d c = (l, Ok d1) -> dp_glob d1 = dp_glob d.
Proof.
  unfold vg_on_context. destruct (str_eqb (c_name c) (L "general") && is_some (dp_general d)); [easy|].
  destruct (str_eqb (c_name c) (L "globals") && is_some (dp_globals d)); [easy|].
  destruct (find_ctx (c_name c) (dp_ctxs d)); intros H; apply context_glob in H; exact H.
Qed.

(* the context that is open, on both sides *)
Lemma cur_both d d' n' : Sim F d d' -> dp_cur d' = CurCtx n' -> exists c,
  dp_cur d = CurCtx (orig F n') /\ find_ctx n' (dp_ctxs d') = Some c /\ dc_name c = n' /\ find_ctx (orig F n') (dp_ctxs d) = Some (back F c).
Proof.
  intros S E. pose proof (si_cur _ _ _ S) as C. rewrite E in C. destruct (dp_cur d) as [| |n]; try easy.
  destruct C as (-> & p & c & Ec & <-). exists c. split; [easy|].
  pose proof (si_nodup _ _ _ S) as N. rewrite Ec, map_app in N. cbn [map] in N.
  assert (~ In (dc_name c) (map dc_name p)) as NI by (apply NoDup_remove_2 in N; now rewrite app_nil_r in N).
  pose proof (si_ctxs _ _ _ S) as X. rewrite Ec, map_app in X. cbn [map] in X. rewrite keep_last_snoc in X.
  assert (~ In (dc_name (back F c)) (map dc_name (filter (other (dc_name (back F c))) (keep_last (map (back F) p))))) as NB by apply filter_other_in.
  rewrite X, Ec. split; [now apply find_last|]. split; [easy|]. now apply find_last.
Qed.

Lemma varset_jumps d d' v h l d1 l' d1' h1 l2 : Sim F d d' -> Inv U h d' -> JumpsOf U (old_names F h) (g_jumps (dp_glob d)) ->
  on_varset U FT AT d v = (l, Ok d1) -> on_varset U FT AT d' v = (l', Ok d1') ->
  ElemRule U FT AT h (EVar v) h1 l2 -> Inv U (h ++ h1) d1' -> JumpsOf U (old_names F (h ++ h1)) (g_jumps (dp_glob d1)).
Proof.
  intros S I J H H' R I1. pose proof (in_cur _ _ _ I) as IC. unfold on_varset in H, H'.
  destruct (dp_cur d') as [| |n'] eqn:E'.
  - assert (d1 = d) as ->.
    { pose proof (si_cur _ _ _ S) as C. rewrite E' in C. destruct (dp_cur d) as [| |n]; try easy.
      apply mbind_ok in H as (? & ? & ? & _ & H & _). now injection H as _ <-. }
    apply jumps_old_frame; [|easy]. inversion R; subst; try easy.
    match goal with K : Latest _ h (HOpen _ _) |- _ => apply latest_in in K as [K _]; destruct (IC _ K Logic.I) end.
  - assert (d1 = d) as ->.
    { pose proof (si_cur _ _ _ S) as C. rewrite E' in C. destruct (dp_cur d) as [| |n]; try easy. now injection H as _ <-. }
    apply jumps_old_frame; [|easy]. destruct IC as (e & Le & Ne). inversion R; subst; try easy.
    match goal with K : Latest _ h (HOpen _ _) |- _ => destruct (Ne _ _ (latest_uniq _ _ _ _ Le K)) end.
  - destruct IC as [w0 IC]. destruct (cur_both d d' n' S E') as (c & E & FC' & Nc & FC). rewrite E in H.
    apply mbind_ok in H as (la & o & lb & H1 & H & ->). apply mbind_ok in H' as (la' & o' & lb' & H1' & H' & ->).
    rewrite H1 in H1'. injection H1' as <- <-.
    destruct o as [[x|i w]|].
    + rewrite FC in H. rewrite FC' in H'.
      apply mbind_ok in H as (lc & [] & ld & H2 & H & ->). apply mbind_ok in H' as (lc' & [] & ld' & H2' & H' & ->).
      apply mbind_ok in H as (le & [g c1] & lf & H3 & H & ->). apply mbind_ok in H' as (le' & [g' c1'] & lf' & H3' & H' & ->).
      injection H as _ <-. injection H' as _ <-. cbn [dp_glob].
      destruct (ctx_add_jumps _ _ _ _ _ _ _ _ _ _ (si_glob _ _ _ S) H3 H3') as [N1 K].
      assert (exists f, h1 = [HLine n' x f]) as [f ->].
      { inversion R; subst; try congruence.
        - exfalso. apply latest_in in IC as [IC _]. match goal with K : forall e, In e h -> ~ _ |- _ => destruct (K _ IC Logic.I) end.
        - exfalso. match goal with A : Latest _ h _, B : forall n w, _ <> HOpen n w |- _ => destruct (B _ _ (latest_uniq _ _ _ _ A IC)) end.
        - match goal with A : Latest _ h (HOpen ?m _), B : from_varset _ _ _ v = (_, Ok (Some (DExt ?z))) |- context [HLine ?m ?z ?f] =>
            pose proof (latest_uniq _ _ _ _ A IC) as X; rewrite H1 in B; exists f end.
          injection X as -> _. match goal with B : (_, Ok (Some (DExt _))) = _ |- _ => injection B as _ -> end. reflexivity. }
      (* the extensions of the context tell whether the line was stored *)
      assert (In c1' (set_ctx c1' (dp_ctxs d'))) as Hin.
      { pose proof (find_ctx_in _ _ _ FC') as [Hc _]. clear -Hc N1. induction (dp_ctxs d') as [|a r IH]; [easy|]. cbn [set_ctx].
        rewrite N1. destruct (str_eqb_spec (dc_name a) (dc_name c)) as [Ea|Ea]; [now left|]. right. destruct Hc as [->|Hc]; [congruence|]. now apply IH. }
      pose proof (find_ctx_in _ _ _ FC') as [Hc _].
      pose proof (ci_exts _ _ (in_ctxs _ _ _ I1 c1' Hin)) as X1. pose proof (ci_exts _ _ (in_ctxs _ _ _ I c Hc)) as X.
      rewrite N1, stored_app, <- X in X1.
      destruct K as [[K1 K2]|(y & js & K1 & K2 & K3)]; rewrite K1 in X1; rewrite K2.
      * apply jumps_old_frame; [|easy]. rewrite Nc in X1. cbn in X1. rewrite str_eqb_refl in X1.
        destruct f as [|p q z|z]; [easy|easy|]. rewrite <- (app_nil_r (dc_exts c)) in X1 at 1. apply app_inv_head in X1. discriminate X1.
      * apply app_inv_head in X1. rewrite Nc in X1. cbn in X1. rewrite str_eqb_refl in X1. destruct f as [|p q z|z]; try easy.
        injection X1 as <-. destruct J as (jss & FJ & ->). exists (jss ++ [js]). split.
        -- rewrite old_app. cbn. rewrite jumping_app. apply Forall2_app; [easy|]. cbn. constructor; [|easy]. rewrite <- Nc. now apply mk_jumps_rule.
        -- rewrite concat_app. cbn. now rewrite app_nil_r.
    + rewrite FC in H. injection H as _ <-. cbn [dp_glob]. apply jumps_old_frame; [|easy]. inversion R; subst; try easy; congruence.
    + injection H as _ <-. apply jumps_old_frame; [|easy]. inversion R; subst; try easy; congruence.
Qed.
End Jumps.

(* ---- what is read ---- *)
Lemma renamed_aside evs evs' fr : Renamed evs evs' fr -> Aside (elems evs) (elems evs') fr.
Proof.
  induction 1 as [|c n evs evs' fr Sp Hin A IH|c evs evs' fr Hk A IH|v evs evs' fr Hv A IH]; [constructor|now constructor|now constructor|].
  destruct v as [w dd k|m|e]; try exact IH. cbn. apply As_other; [|exact IH]. intros c ->. now destruct (Hv c).
Qed.
Lemma head_jumps U FT AT h c h1 l : ElemRule U FT AT h (ECtx c) h1 l -> jumping h1 = [].
Proof. intros R. inversion R; subst; reflexivity. Qed.

Section Stream.
Variable F : list (str * str).
Variable U : uni.
Variable FT : ftable.
Variable AT : atable.

Definition Along (pre : list elem) (d d' : dplan) : Prop :=
  exists h l, History U FT AT pre h l /\ Inv U h d' /\ JumpsOf U (old_names F h) (g_jumps (dp_glob d)).
Lemma along_header pre d d' c c' l d1 d1' : Along pre d d' -> wrap (vg_on_context d c) = (l, Ok d1) -> wrap (on_context d' c') = (l, Ok d1') -> Along (pre ++ [ECtx c']) d1 d1'.
Proof.
  intros (h & l0 & HH & I & J) H H'. destruct (on_element_rule U FT AT h d' (ECtx c') l d1' I H') as (h1 & R & I1). exists (h ++ h1), (l0 ++ l). split; [now constructor|]. split; [easy|].
  apply (proj1 (wrap_ok _ _ _)) in H. rewrite (vg_context_glob _ _ _ _ H). apply jumps_old_frame; [|easy]. now apply head_jumps in R.
Qed.
Lemma along_varset pre d d' v l d1 d1' : Sim F d d' -> Along pre d d' -> wrap (on_varset U FT AT d v) = (l, Ok d1) -> wrap (on_varset U FT AT d' v) = (l, Ok d1') -> Along (pre ++ [EVar v]) d1 d1'.
Proof.
  intros S (h & l0 & HH & I & J) H H'. destruct (on_element_rule U FT AT h d' (EVar v) l d1' I H') as (h1 & R & I1). exists (h ++ h1), (l0 ++ l). split; [now constructor|]. split; [easy|].
  apply (proj1 (wrap_ok _ _ _)) in H, H'. exact (varset_jumps F U FT AT d d' v h l d1 l d1' h1 l S I J H H' R I1).
Qed.
Lemma along_empty pre d d' b w : Along pre d d' -> Along (pre ++ [EEmpty b w]) d d'.
Proof.
  intros (h & l0 & HH & I & J). exists h, l0. split; [|easy]. rewrite <- (app_nil_r h), <- (app_nil_r l0). constructor; [easy|constructor].
Qed.

Lemma stream_back o evs evs' fr : Renamed evs evs' fr -> forall pre d d', Sim F d d' -> Along pre d d' -> Once (elems evs) ->
  (forall n o, In (n, o) fr -> lookup n F = Some o) -> (forall n, In n (heads (elems evs)) -> lookup n F = None) ->
  NoDup (map fst fr) -> (forall n, In n (map fst fr) -> ~ Special n) ->
  (forall n, In n (map dc_name (dp_ctxs d')) -> ~ In n (map fst fr) /\ ~ In n (heads (elems evs))) ->
  (dp_general d' <> None -> ~ In (L "general") (heads (elems evs))) -> (dp_globals d' <> None -> ~ In (L "globals") (heads (elems evs))) ->
  mrel (fun e e' => (Sim F e e' /\ map dc_name (dp_ctxs e') = map dc_name (dp_ctxs d') ++ plain_heads (elems evs')) /\ Along (pre ++ elems evs') e e')
    (vg_dp_stream U FT AT d evs o) (dp_stream U FT AT d' evs' o).
Proof.
  induction 1 as [|c n evs evs' fr Sp Hin A IH|c evs evs' fr Hk A IH|v evs evs' fr Hv A IH];
    intros pre d d' S AL O HF HN ND NS HD HG HB; cbn [vg_dp_stream dp_stream].
  - destruct o as [[]|e|]; cbn; [|easy|easy]. split; [easy|]. cbn. rewrite !app_nil_r. easy.
  - change (elems (EvElem (ECtx c) :: evs)) with (ECtx c :: elems evs) in *.
    apply once_cons in O as [O _]. cbn [map fst] in *. inversion_clear ND as [|? ? NI ND'].
    eapply mrel_bind_eq.
    { apply (mrel_wrap _ (vg_on_context d c) (on_context d' (Ctx n (c_templates c) (c_comment c) (c_where c)))).
      apply (open_back F d d' c n S Sp); [apply NS; now left|unfold orig; now rewrite (HF n (c_name c)) by (now left)|].
      intros K. apply HD in K as [K _]. apply K. now left. }
    intros d1 d1' l1 (S1 & N1 & G1 & B1) Q Q'. pose proof (along_header _ _ _ _ _ _ _ _ AL Q Q') as AL1.
    eapply mrel_mono; [|apply (IH _ d1 d1' S1 AL1 O)]; try easy.
    + intros e e' ((SE & NE) & AE). split; [|now rewrite <- app_assoc in AE]. split; [easy|]. rewrite NE, N1, <- app_assoc.
      change (elems (EvElem (ECtx (Ctx n (c_templates c) (c_comment c) (c_where c))) :: evs')) with (ECtx (Ctx n (c_templates c) (c_comment c) (c_where c)) :: elems evs').
      unfold plain_heads. rewrite heads_cons. cbn [c_name].
      rewrite plain_spec by (apply NS; now left). reflexivity.
    + intros m x H. apply HF. now right.
    + intros m H. apply HN. rewrite heads_cons. now right.
    + intros m H. apply NS. now right.
    + intros m H. rewrite N1 in H. apply in_app_or in H as [H|[<-|[]]].
      * apply HD in H as [H1 H2]. rewrite heads_cons in H2. cbn [In] in *. tauto.
      * split; [easy|]. intros K. assert (lookup n F = None) as K2 by (apply HN; rewrite heads_cons; now right).
        rewrite (HF n (c_name c)) in K2 by (now left). discriminate.
    + rewrite G1. intros H K. apply (HG H). rewrite heads_cons. now right.
    + rewrite B1. intros H K. apply (HB H). rewrite heads_cons. now right.
  - change (elems (EvElem (ECtx c) :: evs)) with (ECtx c :: elems evs) in *.
    change (elems (EvElem (ECtx c) :: evs')) with (ECtx c :: elems evs') in *.
    apply once_cons in O as [O SpO].
    assert (Special (c_name c) \/ ~ Special (c_name c)) as [Sp|Sp].
    { unfold Special. destruct (str_eqb_spec (c_name c) (L "general")); [auto|]. destruct (str_eqb_spec (c_name c) (L "globals")); tauto. }
    + eapply mrel_bind_eq.
      { apply (mrel_wrap _ (vg_on_context d c) (on_context d' c)). apply (special_back F d d' c S Sp).
        - intros E. destruct (dp_general d') eqn:X; [|easy]. exfalso. apply HG; [easy|]. rewrite heads_cons, E. now left.
        - intros E. destruct (dp_globals d') eqn:X; [|easy]. exfalso. apply HB; [easy|]. rewrite heads_cons, E. now left. }
      intros d1 d1' l1 (S1 & N1 & G1 & B1) Q Q'. pose proof (along_header _ _ _ _ _ _ _ _ AL Q Q') as AL1.
      eapply mrel_mono; [|apply (IH _ d1 d1' S1 AL1 O)]; try easy.
      * intros e e' ((SE & NE) & AE). split; [|now rewrite <- app_assoc in AE]. split; [easy|]. rewrite NE, N1. unfold plain_heads. rewrite heads_cons. now rewrite special_skip.
      * intros m H. apply HN. rewrite heads_cons. now right.
      * intros m H. rewrite N1 in H. apply HD in H as [H1 H2]. rewrite heads_cons in H2. cbn [In] in *. tauto.
      * destruct G1 as [-> | G1]; intros H K; [apply (HG H); rewrite heads_cons; now right|]. apply SpO; [easy|]. now rewrite G1.
      * destruct B1 as [-> | B1]; intros H K; [apply (HB H); rewrite heads_cons; now right|]. apply SpO; [easy|]. now rewrite B1.
    + assert (lookup (c_name c) F = None) as LN by (apply HN; rewrite heads_cons; now left).
      eapply mrel_bind_eq.
      { replace c with (Ctx (c_name c) (c_templates c) (c_comment c) (c_where c)) at 2 by (now destruct c).
        apply (mrel_wrap _ (vg_on_context d c) (on_context d' (Ctx (c_name c) (c_templates c) (c_comment c) (c_where c)))).
        apply (open_back F d d' c (c_name c) S Sp Sp); [unfold orig; now rewrite LN|].
        intros K. apply HD in K as [_ K]. apply K. rewrite heads_cons. now left. }
      intros d1 d1' l1 (S1 & N1 & G1 & B1) Q Q'. pose proof (along_header _ _ _ _ _ _ _ _ AL Q Q') as AL1.
      eapply mrel_mono; [|apply (IH _ d1 d1' S1 AL1 O)]; try easy.
      * intros e e' ((SE & NE) & AE). split; [|now rewrite <- app_assoc in AE]. split; [easy|]. rewrite NE, N1, <- app_assoc. unfold plain_heads. rewrite heads_cons.
        rewrite plain_spec by easy. reflexivity.
      * intros m H. apply HN. rewrite heads_cons. now right.
      * intros m H. rewrite N1 in H. apply in_app_or in H as [H|[<-|[]]].
        -- apply HD in H as [H1 H2]. rewrite heads_cons in H2. cbn [In] in *. tauto.
        -- split; [|tauto]. intros K. apply in_map_iff in K as ((n0 & x) & E & K). cbn [fst] in E. subst n0.
           rewrite (HF _ _ K) in LN. discriminate.
      * rewrite G1. intros H K. apply (HG H). rewrite heads_cons. now right.
      * rewrite B1. intros H K. apply (HB H). rewrite heads_cons. now right.
  - destruct v as [w dd k|m|e].
    + apply IH; easy.
    + apply (mrel_bind eq); [apply mrel_eq|]. intros ? ? _. apply IH; easy.
    + assert (forall c, e <> ECtx c) as He by (intros c ->; now destruct (Hv c)).
      change (elems (EvElem e :: evs)) with (e :: elems evs) in *. change (elems (EvElem e :: evs')) with (e :: elems evs') in *.
      rewrite (heads_other e _ He) in *. apply (once_other e _ He) in O.
      assert (plain_heads (e :: elems evs') = plain_heads (elems evs')) as PE by (unfold plain_heads; now rewrite heads_other).
      rewrite PE. destruct e as [b w|c|v]; [|now destruct (He c)|].
      * apply (mrel_bind (fun a a' => a = d /\ a' = d')); [now apply mrel_ret|]. intros ? ? [-> ->].
        rewrite (app_assoc pre [EEmpty b w] (elems evs') : pre ++ EEmpty b w :: elems evs' = _). apply IH; try easy. now apply along_empty.
      * eapply mrel_bind_eq; [apply mrel_wrap; apply (varset_back F U FT AT d d' v S)|].
        intros d1 d1' l1 (S1 & N1 & G1 & B1) Q Q'. pose proof (along_varset _ _ _ _ _ _ _ S AL Q Q') as AL1.
        eapply mrel_mono; [|apply (IH _ d1 d1' S1 AL1 O)]; try easy.
        -- intros e e' ((SE & NE) & AE). split; [|now rewrite <- app_assoc in AE]. split; [easy|]. now rewrite NE, N1.
        -- now rewrite N1.
        -- now rewrite G1.
        -- now rewrite B1.
Qed.
End Stream.

(* ---- the whole file ---- *)
Lemma stream_steps U FT AT evs : forall o d l d1, vg_dp_stream U FT AT d evs o = (l, Ok d1) -> o = Ok tt /\ exists l', vg_steps U FT AT d (elems evs) = (l', Ok d1).
Proof.
  induction evs as [|[w dd k|m|e] evs IH]; intros o d l d1 H; cbn [vg_dp_stream] in H.
  - destruct o as [[]|e|]; try easy. injection H as _ <-. split; [easy|]. now exists [].
  - apply IH in H. exact H.
  - apply mbind_ok in H as (? & ? & ? & _ & H & _). apply IH in H. exact H.
  - apply mbind_ok in H as (l1 & d2 & l2 & H1 & H & _). apply IH in H as [-> [l' H]]. split; [easy|].
    exists (l1 ++ l'). change (elems (EvElem e :: evs)) with (e :: elems evs). cbn [vg_steps]. rewrite H1. cbn [mbind]. now rewrite H.
Qed.
Lemma renamed_exists evs : forall es' fr, Aside (elems evs) es' fr -> exists evs', Renamed evs evs' fr /\ elems evs' = es'.
Proof.
  induction evs as [|[w dd k|m|e] evs IH]; intros es' fr A.
  - inversion A; subst. exists []. split; [constructor|easy].
  - destruct (IH _ _ A) as (evs' & R & <-). exists (EvLine w dd k :: evs'). split; [now constructor|easy].
  - destruct (IH _ _ A) as (evs' & R & <-). exists (EvMsg m :: evs'). split; [now constructor|easy].
  - change (elems (EvElem e :: evs)) with (e :: elems evs) in A. inversion A as [|c n es es0 fr0 Sp Hin A0|c es es0 fr0 Hk A0|e0 es es0 fr0 He A0]; subst;
      destruct (IH _ _ A0) as (evs' & R & <-).
    + eexists. split; [apply Rn_wiped; [exact Sp|exact Hin|exact R]|easy].
    + eexists. split; [apply Rn_kept; [exact Hk|exact R]|easy].
    + exists (EvElem e :: evs'). split; [|easy]. apply Rn_other; [|easy]. intros c E. injection E as ->. now destruct (He c).
Qed.
Lemma stream_history U FT AT h evs h' l : StreamSays U FT AT h evs h' l -> AsciiOk U -> forall es l0, History U FT AT es h l0 -> exists l', History U FT AT (es ++ elems evs) h' l'.
Proof.
  intros H HU. induction H as [h|h w dd k evs h' l _ IH|h m evs h' l _ IH|h e evs h1 h' l1 l2 HE HS IH]; intros es l0 HH.
  - exists l0. cbn. now rewrite app_nil_r.
  - now apply (IH es l0).
  - now apply (IH es l0).
  - apply elem_iff in HE; [|easy]. destruct (IH (es ++ [e]) (l0 ++ l1)) as [l' K]; [now constructor|]. exists l'. now rewrite <- app_assoc in K.
Qed.

Section Plan.
Variable U : uni.
Variable FT : ftable.
Variable AT : atable.
Hypothesis HU : AsciiOk U.

Definition Follows (fr : list (str * str)) (h : list hev) (d : dplan) : Prop := exists d', Inv U h d' /\
  dp_general d = dp_general d' /\ dp_globals d = dp_globals d' /\
  dp_ctxs d = filter (fun c => stays fr (dc_name c)) (dp_ctxs d') /\ g_labels (dp_glob d) = g_labels (dp_glob d') /\
  JumpsOf U (old_names fr h) (g_jumps (dp_glob d)).

Lemma sim_start F : Sim F dp_init dp_init.
Proof. constructor; cbn; try easy; [now repeat constructor|constructor]. Qed.
Lemma same_stream evs evs' fr o : Renamed evs evs' fr -> New (elems evs) fr -> Once (elems evs) ->
  mrel (fun d d' => forall h l, History U FT AT (elems evs') h l -> Inv U h d' -> Follows fr h d)
    (vg_dp_stream U FT AT dp_init evs o) (dp_stream U FT AT dp_init evs' o).
Proof.
  intros R [ND NS] O. pose proof (renamed_aside _ _ _ R) as A.
  assert (forall n o, In (n, o) fr -> lookup n fr = Some o) as HF by (intros; now apply lookup_nodup).
  assert (forall n, In n (heads (elems evs)) -> lookup n fr = None) as HN.
  { intros n H. destruct (lookup n fr) eqn:E; [|easy]. exfalso.
    assert (In n (map fst fr)) as K by (apply smem_In; rewrite <- lookup_keys, E; reflexivity). now apply NS in K. }
  assert (forall n, In n (map fst fr) -> ~ Special n) as NS' by (intros n H; now apply NS).
  eapply mrel_mono; [|apply (stream_back fr U FT AT o evs evs' fr R [] dp_init dp_init (sim_start fr))]; try easy.
  - intros d d' ((S & E) & (h & l & HH & I & J)) h2 l2 HH2 I2. cbn [List.app] in HH.
    destruct (history_det U FT AT _ _ _ _ _ HH HH2) as [<- _]. exists d'. split; [easy|]. cbn [dp_init dp_ctxs map List.app] in E.
    split; [apply S|]. split; [apply S|]. split; [|split; [apply S|easy]].
    rewrite (si_ctxs _ _ _ S), (final_ctxs fr _ _ fr A HF HN NS' _ E). apply filter_ext. intros c. unfold stays. now rewrite lookup_keys.
  - exists [], []. split; [constructor|]. split; [apply inv_init|]. exists []. split; [constructor|easy].
Qed.

Lemma follows_names fr h d : Follows fr h d -> map dc_name (dp_ctxs d) = filter (stays fr) (opened h).
Proof.
  intros (d' & I & _ & _ & E & _). rewrite E, <- (in_names _ _ _ I). clear. induction (dp_ctxs d') as [|c l IH]; [easy|].
  cbn [map filter]. destruct (stays fr (dc_name c)); cbn [map]; now rewrite IH.
Qed.

(* ---- the end of the file ---- *)
Lemma vg_complete_rule fr h d l : Follows fr h d -> on_complete d = (l, Ok tt) -> VgCompletion fr h l.
Proof.
  intros FO. pose proof (follows_names fr h d FO) as IN. destruct FO as (d' & I & EG & EB & EX & _ & _). unfold on_complete.
  pose proof (in_gen _ _ _ I) as IG. pose proof (in_globs _ _ _ I) as IB. rewrite <- EG in IG. rewrite <- EB in IB.
  destruct (dp_ctxs d) as [|c cs] eqn:EC.
  - intros H. cbn in IN. replace l with (@nil lev); [now apply Vc_empty|].
    destruct (dp_general d), (dp_globals d); now injection H as <-.
  - cbn in IN. assert (In c (dp_ctxs d')) as Hc.
    { assert (In c (c :: cs)) as K by now left. rewrite EX in K. now apply filter_In in K. }
    pose proof (ci_where _ _ (in_ctxs _ _ _ I c Hc)) as CW.
    intros H.
    assert (exists lg lb, l = lg ++ lb /\
      (lg = [] /\ dp_general d <> None \/ lg = [LMsg (Msg H_DP_GENERAL_MISPLACED (Where (w_file (dc_where c)) 0 []) None [])] /\ dp_general d = None) /\
      (lb = [] /\ dp_globals d <> None \/ lb = [LMsg (Msg H_DP_GLOBALS_MISPLACED (Where (w_file (dc_where c)) 0 []) None [])] /\ dp_globals d = None))
      as (lg & lb & -> & G & B).
    { destruct (dp_general d), (dp_globals d); injection H as <-.
      - exists [], []. split; [easy|]. split; left; easy.
      - eexists [], [_]. split; [reflexivity|]. split; [left; easy|right; easy].
      - eexists [_], []. split; [reflexivity|]. split; [right; easy|left; easy].
      - eexists [_], [_]. split; [reflexivity|]. split; right; easy. }
    apply (Vc_some _ _ (dc_name c) (map dc_name cs) (dc_where c)); [easy|easy| |].
    + destruct G as [[-> G]|[-> G]].
      * left. split; [|easy]. destruct (dp_general d) as [w|]; [now exists w|easy].
      * right. split; [|easy]. rewrite G in IG. intros [w K]. now apply (IG w).
    + destruct B as [[-> B]|[-> B]].
      * left. split; [|easy]. destruct (dp_globals d) as [w|]; [|easy]. destruct IB as (h1 & h2 & -> & _).
        exists w. apply in_or_app. cbn. auto.
      * right. split; [|easy]. rewrite B in IB. intros [w K]. now apply (IB w).
Qed.
Lemma vg_completion_det fr h l l' : VgCompletion fr h l -> VgCompletion fr h l' -> l = l'.
Proof.
  intros [E|n r w lg lb E Lw G B] [E'|n' r' w' lg' lb' E' Lw' G' B']; try easy; try congruence.
  rewrite E in E'. injection E' as <- <-. pose proof (latest_uniq _ _ _ _ Lw Lw') as K. injection K as <-.
  f_equal; eapply misplaced_det; try eassumption; reflexivity.
Qed.
Lemma vg_complete_iff fr h d l : Follows fr h d -> on_complete d = (l, Ok tt) <-> VgCompletion fr h l.
Proof.
  intros I. split; [now apply vg_complete_rule|]. intros H. destruct (complete_ends d) as [l' E].
  now rewrite (vg_completion_det fr h l l' H (vg_complete_rule fr h d l' I E)).
Qed.

(* ---- jumps ---- *)
Lemma names_filter (f : str -> bool) l : map dc_name (filter (fun c => f (dc_name c)) l) = filter f (map dc_name l).
Proof. induction l as [|c l IH]; [easy|]. cbn [map filter]. destruct (f (dc_name c)); cbn [map]; now rewrite IH. Qed.
Lemma view_filter (f : str -> bool) A B : View A B -> View (filter (fun c => f (dc_name c)) A) (filter (fun c => f (dc_name c)) B).
Proof.
  intros (N1 & N2 & W1 & W2). split; [|split; [|split]].
  - rewrite names_filter. now apply NoDup_filter.
  - rewrite names_filter. now apply NoDup_filter.
  - intros c Hc. apply filter_In in Hc as [Hc Fc]. destruct (W1 c Hc) as (c' & Hc' & S). exists c'. split; [|easy].
    apply filter_In. split; [easy|]. destruct S as (<- & _). easy.
  - intros c Hc. apply filter_In in Hc as [Hc Fc]. destruct (W2 c Hc) as (c' & Hc' & S). exists c'. split; [|easy].
    apply filter_In. split; [easy|]. destruct S as (<- & _). easy.
Qed.
Definition label_list (cs : list dctx) : list str :=
  flat_map (fun c => flat_map (fun y => match x_label y with Some (a :: s) => [a :: s] | _ => [] end) (dc_exts c)) cs.
Lemma label_list_iff cs s : smem s (label_list cs) = true <-> all_labels cs s.
Proof.
  rewrite smem_In. unfold label_list, all_labels, ctx_labels, HasLabel. rewrite in_flat_map. split.
  - intros (c & Hc & H). apply in_flat_map in H as (y & Hy & H). exists c. split; [easy|].
    destruct (x_label y) as [[|a s']|] eqn:E; try easy. destruct H as [<-|[]]. split; [easy|]. now exists y.
  - intros (c & Hc & N & y & Hy & E). exists c. split; [easy|]. apply in_flat_map. exists y. split; [easy|]. rewrite E. destruct s; [easy|]. now left.
Qed.
Lemma vg_jump_iff fr h d j l : Follows fr h d -> check_jump (jump_fuel d) d j = (l, Ok tt) <-> VgJumpSays fr h j l.
Proof.
  intros FO. destruct FO as (d' & I & _ & _ & EX & EL & _). destruct (inv_labels U h d' I) as [AL CL].
  pose proof (contexts_view U h d' I) as V. unfold VgJumpSays. destruct (is_str (j_ctx j)) eqn:EC.
  - set (d2 := DPlan (dp_general d) (dp_globals d) (dp_ctxs d) (Glob (g_last (dp_glob d)) (g_jumps (dp_glob d)) (label_list (dp_ctxs d))) (dp_cur d)).
    assert (check_jump (jump_fuel d) d j = check_jump (jump_fuel d2) d2 j) as ->.
    { unfold check_jump. destruct (j_ctx j); try discriminate EC. reflexivity. }
    rewrite jump_iff.
    + cbn [d2 dp_ctxs]. pose proof (view_filter (stays fr) _ _ V) as V2. rewrite <- EX in V2. fold (kept_contexts fr h) in V2.
      split; [intros H; right; split; [easy|]; now apply (says_view (dp_ctxs d))|].
      intros [[H _]|[_ H]]; [discriminate H|]. apply (says_view (kept_contexts fr h)); [now apply view_sym|easy].
    + cbn [d2 dp_ctxs]. rewrite EX, names_filter. apply NoDup_filter. now apply (inv_nodup U h).
    + cbn [d2 dp_ctxs]. rewrite EX. pose proof (inv_memos U h d' I) as MO. unfold DialplanJ_proofs.Memos in *. rewrite Forall_forall in *.
      intros c Hc. apply filter_In in Hc as [Hc _]. now apply MO.
    + intros s. apply label_list_iff.
    + cbn [d2 dp_ctxs]. intros c s Hc. rewrite EX in Hc. apply filter_In in Hc as [Hc _]. now apply CL.
  - assert (check_jump (jump_fuel d) d j = check_jump (jump_fuel d') d' j) as ->.
    { unfold check_jump, all_label. rewrite EL. destruct (j_ctx j); try discriminate EC; reflexivity. }
    rewrite jump_iff; [|now apply (inv_nodup U h)|now apply (inv_memos U h)|exact AL|exact CL].
    split; [intros H; left; split; [easy|]; now apply (says_view (dp_ctxs d'))|].
    intros [[_ H]|[H _]]; [|discriminate H]. apply (says_view (contexts h)); [now apply view_sym|easy].
Qed.
Lemma vg_walk_iff fr h d js : Follows fr h d -> forall l, walk_jumps (jump_fuel d) d js = (l, Ok tt) <-> exists ls, Forall2 (VgJumpSays fr h) js ls /\ l = List.concat ls.
Proof.
  intros FO. induction js as [|j js IH]; intros l; cbn [walk_jumps].
  - split.
    + intros H. injection H as <-. now exists [].
    + intros (ls & F & ->). inversion F; subst. reflexivity.
  - split.
    + intros H. apply mbind_ok in H as (l1 & [] & l2 & H1 & H2 & ->). apply IH in H2 as (ls & F & ->). apply (vg_jump_iff fr h d j l1 FO) in H1.
      exists (l1 :: ls). split; [now constructor|easy].
    + intros (ls & F & ->). inversion F as [|? l1 ? ls' H1 H2]; subst. apply (vg_jump_iff fr h d j l1 FO) in H1. rewrite H1. cbn [mbind].
      rewrite (proj2 (IH (List.concat ls'))) by now exists ls'. reflexivity.
Qed.
Lemma vg_walk_says fr h d l : Follows fr h d -> walk_jump_destinations d = (l, Ok tt) <-> VgWalkSays U fr h l.
Proof.
  intros FO. unfold walk_jump_destinations. rewrite (vg_walk_iff fr h d _ FO). unfold VgWalkSays.
  assert (JumpsOf U (old_names fr h) (g_jumps (dp_glob d))) as J by (destruct FO as (d' & FO); apply FO). split.
  - intros (ls & F & ->). now exists (g_jumps (dp_glob d)), ls.
  - intros (js & ls & J' & F & ->). rewrite (jumps_det U _ _ _ J J'). now exists ls.
Qed.

(* ---- the dialplan ---- *)
Lemma vg_plan_sound fuel fs name l d : vg_parse_dialplan U FT AT fuel fs name = (l, Ok d) ->
  exists evs fr h, vsw_stream (vg_parse_file fuel fs name) = (evs, Ok tt) /\ VgPlanSays U FT AT evs fr h l /\ Follows fr h d.
Proof.
  intros H. unfold vg_parse_dialplan in H. destruct (vsw_stream (vg_parse_file fuel fs name)) as [evs o].
  apply mbind_ok in H as (l1 & d1 & l2 & H1 & H2 & ->). apply mbind_ok in H2 as (l3 & [] & l4 & H2 & H3 & ->).
  injection H3 as <- <-. rewrite app_nil_r. destruct (stream_steps _ _ _ _ _ _ _ _ H1) as [-> [l' HS]].
  pose proof (ok_once _ _ _ _ _ _ HS) as O. destruct (new_names (elems evs)) as (es' & fr & A & N).
  destruct (renamed_exists evs es' fr A) as (evs' & R & <-).
  destruct (same_stream evs evs' fr (Ok tt) R N O) as [EL K]. rewrite H1 in EL, K. cbn [fst snd] in EL, K.
  destruct (dp_stream U FT AT dp_init evs' (Ok tt)) as [l5 [d'|e|]] eqn:E; try easy. cbn [fst snd rrel] in EL, K. subst l5.
  destruct (stream_sound U FT AT HU evs' dp_init [] l1 d' (inv_init U) E) as (h & S & I).
  destruct (stream_history U FT AT [] evs' h l1 S HU [] [] (Hi_nil U FT AT)) as [lh HH]. cbn [List.app] in HH.
  pose proof (K h lh HH I) as FO. exists evs, fr, h. split; [easy|]. split; [|easy].
  exists evs', l1, l3. repeat (split; [easy|]). split; [|split; [|easy]].
  - exists (g_jumps (dp_glob d')). apply (de_jumps _ _ _ (inv_describes U h d' I)).
  - now apply (vg_complete_rule fr h d1).
Qed.
Lemma vg_plan_complete fuel fs name evs fr h l : vsw_stream (vg_parse_file fuel fs name) = (evs, Ok tt) -> VgPlanSays U FT AT evs fr h l ->
  exists d, vg_parse_dialplan U FT AT fuel fs name = (l, Ok d) /\ Follows fr h d.
Proof.
  intros E (evs' & l1 & l2 & O & R & N & S & J & C & ->).
  destruct (stream_complete U FT AT HU [] evs' h l1 S J dp_init [] [] (inv_init U) (Hi_nil U FT AT)) as [d' H].
  destruct (stream_sound U FT AT HU evs' dp_init [] l1 d' (inv_init U) H) as (h' & S' & I).
  destruct (stream_det U FT AT HU [] evs' h l1 S [] [] (Hi_nil U FT AT) h' l1 S') as [<- _].
  destruct (stream_history U FT AT [] evs' h l1 S HU [] [] (Hi_nil U FT AT)) as [lh HH]. cbn [List.app] in HH.
  destruct (same_stream evs evs' fr (Ok tt) R N O) as [EL K]. rewrite H in EL, K. cbn [fst snd] in EL, K.
  destruct (vg_dp_stream U FT AT dp_init evs (Ok tt)) as [l5 [d|e|]] eqn:Ed; try easy. cbn [fst snd rrel] in EL, K. subst l5.
  pose proof (K h lh HH I) as FO. exists d. split; [|easy]. unfold vg_parse_dialplan. rewrite E, Ed. cbn [mbind].
  apply (vg_complete_iff fr h d l2 FO) in C. rewrite C. cbn. now rewrite app_nil_r.
Qed.
End Plan.

(* ---- func_odbc.conf ---- *)
Lemma vg_load_iff fuel fs f l fns : vg_load_func_odbc fuel fs f = (l, Ok fns) <-> VgOdbcSays fuel fs (Some f) fns l.
Proof.
  unfold vg_load_func_odbc. split.
  - destruct (vsw_stream (vg_parse_file fuel fs f)) as [evs o] eqn:E. intros H. apply wbind_ok in H as (l1 & st & l2 & H1 & H2 & ->).
    destruct (fo_stream_ok evs o [] l1 st H1) as [-> _].
    destruct (odbc_sound evs [] [] [] l1 st eq_refl H1) as [S [l3 R]]. cbn [List.app] in R. apply steps_iff in R.
    apply (Vo_file _ _ _ evs (rev st) fns l3 l1 l2); try easy. apply finish_iff; [|easy]. now apply (FileRule_good _ _ _ R).
  - intros H. inversion H as [|? evs os ? l0 l1 l2 E R S G]; subst. rewrite E. destruct (odbc_complete _ _ _ S [] [] eq_refl) as [st' H1]. rewrite H1. cbn [wbind].
    destruct (odbc_sound evs [] [] [] l1 st' eq_refl H1) as [_ [l3 R']]. cbn [List.app] in R'. apply steps_iff in R'.
    destruct (FileRule_fun _ _ _ _ _ R R') as [-> _]. apply finish_iff in G; [|now apply (FileRule_good _ _ _ R)]. now rewrite G.
Qed.
Lemma vg_load_odbc_iff there fuel fs arg name l fns : vg_load_odbc there fuel fs arg name = (l, Ok fns) <->
  exists f l', OdbcFile there name arg f /\ VgOdbcSays fuel fs f fns l' /\ l = map LMsg l'.
Proof.
  assert (NONE : @mret (list finfo) [] = (l, Ok fns) <-> exists l', VgOdbcSays fuel fs None fns l' /\ l = map LMsg l').
  { split; [intros H; injection H as <- <-; exists []; split; [constructor|easy]|]. intros (l' & H & ->). now inversion H; subst. }
  assert (SOME : forall f, mw (vg_load_func_odbc fuel fs f) = (l, Ok fns) <-> exists l', VgOdbcSays fuel fs (Some f) fns l' /\ l = map LMsg l').
  { intros f. rewrite mw_ok. split; intros (l' & H & ->); exists l'; (split; [now apply vg_load_iff|easy]). }
  unfold vg_load_odbc. destruct arg as [[|c n]|].
  - rewrite NONE. split; [intros (l' & H); exists None, l'; split; [constructor|easy]|].
    intros (f & l' & F & H). exists l'. now inversion F; subst.
  - rewrite SOME. split; [intros (l' & H); exists (Some (c :: n)), l'; split; [constructor|easy]|].
    intros (f & l' & F & H). exists l'. now inversion F; subst.
  - destruct (there (path_join (dirname name) (L "func_odbc.conf"))) eqn:ET.
    + rewrite SOME. split; [intros (l' & H); eexists; exists l'; split; [now apply (Of_beside _ _ _ eq_refl)|easy]|].
      intros (f & l' & F & H). exists l'. inversion F as [| |p E T|T]; subst; [easy|congruence].
    + rewrite NONE. split; [intros (l' & H); exists None, l'; split; [now apply Of_none|easy]|].
      intros (f & l' & F & H). exists l'. inversion F as [| |p E T|T]; subst; [congruence|easy].
Qed.

(* ---- vg dialplan-check ---- *)
Theorem vg_check_iff U FT AT there fuel fs arg name l : AsciiOk U ->
  vg_check_run U FT AT there fuel fs arg name = (l, Ok tt) <-> VgCheckSays U FT AT there fuel fs arg name l.
Proof.
  intros HU. unfold vg_check_run. split.
  - intros H. apply mbind_ok in H as (l1 & fns & l3 & H1 & H & ->). apply mbind_ok in H as (l0 & d & l2 & H2 & H3 & ->).
    apply vg_load_odbc_iff in H1 as (f & l' & F & O & ->). apply vg_plan_sound in H2 as (evs & fr & h & E & P & I); [|easy].
    apply (vg_walk_says U fr h d l2 I) in H3. now apply (Vk_intro _ _ _ _ _ _ _ _ f fns evs fr h).
  - intros H. destruct H as [f fns evs fr h l1 l2 l3 F O E P Wk].
    assert (H1 : vg_load_odbc there fuel fs arg name = (map LMsg l1, Ok fns)) by (apply vg_load_odbc_iff; now exists f, l1).
    rewrite H1. cbn [mbind]. destruct (vg_plan_complete U (register_all U fns FT) AT HU fuel fs name evs fr h l2 E P) as (d & H2 & I).
    rewrite H2. cbn [mbind]. apply (vg_walk_says U fr h d l3 I) in Wk. rewrite Wk. reflexivity.
Qed.
Theorem vg_check_det U FT AT there fuel fs arg name l l' : AsciiOk U ->
  VgCheckSays U FT AT there fuel fs arg name l -> VgCheckSays U FT AT there fuel fs arg name l' -> l = l'.
Proof. intros HU H H'. apply vg_check_iff in H, H'; [|easy|easy]. congruence. Qed.

(* ---- the places, arguments and words of all messages ---- *)
Lemma vg_p1_all fs : forall U FT AT fuel name, (inv (P1 fs) (vg_parse_dialplan U FT AT fuel fs name) /\
    forall d, snd (vg_parse_dialplan U FT AT fuel fs name) = Ok d -> inv (P1 fs) (walk_jump_destinations d)) /\
  inv (P1 fs) (mw (vg_load_func_odbc fuel fs name)).
Proof.
  intros U FT AT fuel name. split; [apply (all_vg_dialplan U FT AT (P1 fs) (RealLine fs))|apply (all_vg_odbc (P1 fs) (RealLine fs))].
  all: try apply p1_nil; try (intros l l' o; apply p1_app); try easy; try apply p1_none; try apply p1_hint; try apply p1_func; try apply p1_appl; try apply p1_head; try apply real_line.
  all: try (intros; now apply p1_msg); intros v w H; (constructor; [exact H|constructor]).
Qed.
Lemma vg_p2_all : forall U FT AT fuel fs name, (inv P2 (vg_parse_dialplan U FT AT fuel fs name) /\
    forall d, snd (vg_parse_dialplan U FT AT fuel fs name) = Ok d -> inv P2 (walk_jump_destinations d)) /\
  inv P2 (mw (vg_load_func_odbc fuel fs name)).
Proof.
  intros U FT AT fuel fs name. split; [apply (all_vg_dialplan U FT AT P2 (fun _ => True))|apply (all_vg_odbc P2 (fun _ => True))].
  all: try (intros; exact Logic.I).
  all: try (intros o _; solve [constructor]).
  all: try (intros l l' o H1 H2 D; apply Forall_app; split; [apply H1; unfold Done; auto|now apply H2]).
  all: try (intros l e _ [H|H]; discriminate).
  all: try (intros v w _ _; constructor; [exact Logic.I|constructor]).
  all: try (intros; now apply p2_msg).
  all: try (intros w _ _; constructor; [reflexivity|constructor]).
  all: try (intros w p x _ _; constructor; [reflexivity|constructor]).
  all: try (intros f w _; apply p2_func). all: try (intros f w _; apply p2_appl).
  all: intros w c _ [->| ->] _; (constructor; [reflexivity|constructor]).
Qed.
Section Whole.
Variable U : uni.
Variable FT : ftable.
Variable AT : atable.
Variable ex : str -> bool.
Variable fuel : nat.
Variable fs : fsys.
Lemma vg_whole (P : list lev -> res unit -> Prop) (Pnil : forall o, P [] o) (Papp : forall l l' o, P l (Ok tt) -> P l' o -> P (l ++ l') o)
  (Pall : forall FT name, (inv P (vg_parse_dialplan U FT AT fuel fs name) /\
     forall d, snd (vg_parse_dialplan U FT AT fuel fs name) = Ok d -> inv P (walk_jump_destinations d)) /\ inv P (mw (vg_load_func_odbc fuel fs name)))
  arg dp : inv P (vg_check_run U FT AT ex fuel fs arg dp).
Proof.
  unfold vg_check_run. apply inv_seq; [exact Papp| |].
  - unfold vg_load_odbc. destruct arg as [[|c s]|]; [apply Pnil|apply (Pall [])|]. cbn zeta. destruct (ex _); [apply (Pall [])|apply Pnil].
  - intros fns _. apply inv_seq; [exact Papp|apply Pall|]. intros d E. eapply Pall. exact E.
Qed.
Lemma vg_levels arg dp : Forall (LevOk fs) (fst (vg_check_run U FT AT ex fuel fs arg dp)).
Proof. apply (vg_whole (P1 fs)); [apply p1_nil|intros l l' o; apply p1_app|]. intros. apply vg_p1_all. Qed.
Theorem vg_formatted arg dp chosen : snd (vg_check_run U FT AT ex fuel fs arg dp) = Ok tt ->
  forall m, In m (run_msgs chosen (fst (vg_check_run U FT AT ex fuel fs arg dp))) -> format_ok (mfields (m_cls m)) (m_args m) = Ok tt.
Proof.
  intros E. assert (F : inv P2 (vg_check_run U FT AT ex fuel fs arg dp)).
  { apply (vg_whole P2); [intros o _; constructor| |intros; apply vg_p2_all].
    intros l l' o H1 H2 D. apply Forall_app. split; [apply H1; unfold Done; auto|now apply H2]. }
  unfold inv, P2 in F. rewrite E in F. specialize (F (or_introl eq_refl)). rewrite Forall_forall in F.
  apply (run_msgs_ok (fun m => format_ok (mfields (m_cls m)) (m_args m) = Ok tt)); [|reflexivity]. intros m H. exact (F _ H).
Qed.
Theorem vg_placed arg dp chosen m : In m (run_msgs chosen (fst (vg_check_run U FT AT ex fuel fs arg dp))) -> Placed fs m.
Proof.
  pose proof (vg_levels arg dp) as F. rewrite Forall_forall in F. apply (run_msgs_ok (fun m => Placed fs m)).
  - intros m' H. exact (proj1 (F _ H)).
  - intros s w p H. apply F in H. cbn [LevOk] in H. cbn. split; [now left|easy].
Qed.
End Whole.
Theorem vg_process_iff U FT AT there fuel fs env arg name p : AsciiOk U -> p = vg_dialplan_check U FT AT there fuel fs env arg name ->
  forall n, p_end p = Ok n <-> exists l, VgCheckSays U FT AT there fuel fs arg name l /\ Messages [] l (p_raised p) /\ Shown env (p_raised p) (p_printed p) /\
    (p_printed p = [] /\ n = 0 \/ p_printed p <> [] /\ n = 1).
Proof.
  intros HU -> n. unfold vg_dialplan_check, process_of. cbn [p_end p_raised p_printed].
  pose proof (vg_formatted U FT AT there fuel fs arg name None) as F.
  pose proof (fun l => vg_check_iff U FT AT there fuel fs arg name l HU) as CI.
  destruct (vg_check_run U FT AT there fuel fs arg name) as [l [[]|x|]]; cbn [fst snd bind] in *.
  - specialize (F eq_refl). change (Formatted (run_msgs None l)) in F. rewrite status_iff by easy. split.
    + intros H. injection H as <-. exists l. split; [now apply CI|]. split; [now apply messages_iff|]. split; [now apply shown_iff|].
      destruct (printed env (run_msgs None l)); [now left|now right].
    + intros (l' & _ & _ & _ & K). destruct K as [[-> ->]|[K ->]]; [easy|]. now destruct (printed env (run_msgs None l)).
  - split; [easy|]. intros (l' & H & _). apply CI in H. discriminate H.
  - split; [easy|]. intros (l' & H & _). apply CI in H. discriminate H.
Qed.

(* ---- files without repeated headers, read alike ---- *)
Lemma renamed_self evs : NoDup (heads (elems evs)) -> Renamed evs evs [].
Proof.
  induction evs as [|v evs IH]; intros H; [constructor|]. destruct v as [w a b|m|[b w|c|v]].
  - apply Rn_other; [easy|now apply IH].
  - apply Rn_other; [easy|now apply IH].
  - apply Rn_other; [easy|now apply IH].
  - change (elems (EvElem (ECtx c) :: evs)) with (ECtx c :: elems evs) in H. rewrite heads_cons in H. inversion_clear H as [|? ? NI ND].
    apply Rn_kept; [now right|now apply IH].
  - apply Rn_other; [easy|now apply IH].
Qed.
Lemma streams_same U FT AT evs o : NoDup (heads (elems evs)) -> vg_dp_stream U FT AT dp_init evs o = dp_stream U FT AT dp_init evs o.
Proof.
  intros H. assert (mrel (fun d d' => d = d') (vg_dp_stream U FT AT dp_init evs o) (dp_stream U FT AT dp_init evs o)) as [E R].
  { eapply mrel_mono; [|apply (stream_back [] U FT AT o evs evs [] (renamed_self evs H) [] dp_init dp_init (sim_start []))]; try easy.
    - intros d d' [[S _] _]. now apply sim_eq.
    - exists [], []. split; [constructor|]. split; [apply inv_init|]. exists []. split; [constructor|easy].
    - now apply nodup_once.
    - constructor. }
  destruct (vg_dp_stream U FT AT dp_init evs o) as [l [d|e|]], (dp_stream U FT AT dp_init evs o) as [l' [d'|e'|]]; cbn in *; try easy; now subst.
Qed.
Theorem vg_same U FT AT there fuel fuel' fs arg name :
  (forall f, f = name \/ OdbcFile there name arg (Some f) -> vsw_stream (vg_parse_file fuel fs f) = vsw_stream (parse_file fuel' fs f)) ->
  NoDup (heads (elems (fst (vsw_stream (parse_file fuel' fs name))))) ->
  vg_check_run U FT AT there fuel fs arg name = check_run U FT AT there fuel' fs arg name.
Proof.
  intros R ND. unfold vg_check_run, check_run, show_run.
  assert (vg_load_odbc there fuel fs arg name = load_odbc there fuel' fs arg name) as ->.
  { unfold vg_load_odbc, load_odbc, vg_load_func_odbc, load_func_odbc. destruct arg as [[|c s]|]; [easy| |].
    - rewrite R; [easy|]. right. constructor.
    - cbn zeta. destruct (there _) eqn:T; [|easy]. rewrite R; [easy|]. right. now apply (Of_beside _ _ _ eq_refl). }
  assert (forall FT, vg_parse_dialplan U FT AT fuel fs name = parse_dialplan U FT AT fuel' fs name) as E.
  { intros FT'. unfold vg_parse_dialplan, parse_dialplan. rewrite R by now left. destruct (vsw_stream (parse_file fuel' fs name)) as [evs o]. cbn [fst] in ND.
    now rewrite streams_same. }
  destruct (load_odbc there fuel' fs arg name) as [l [fns|e|]]; cbn [mbind]; [|easy|easy]. rewrite E.
  destruct (parse_dialplan U (register_all U fns FT) AT fuel' fs name) as [l2 [d|e|]]; [|reflexivity|reflexivity]. unfold mbind.
  destruct (walk_jump_destinations d) as [l3 r] eqn:EW. cbn. rewrite EW. cbn. now rewrite <- app_assoc.
Qed.
