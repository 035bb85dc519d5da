(* Every history is the one of a run: the rules are also sufficient (C07-C09). *)
From Verif Require Import Base PyStr Utf8 Defines FileRd Config Pattern Spec_Pattern Pattern_proofs Var VarFun VarFun_proofs AppM
  Loader_proofs Dialplan Spec_Dialplan Dialplan_proofs DialplanC_proofs DialplanJ_proofs DialplanK_proofs.

Section S.
Variable U : uni.
Variable FT : ftable.
Variable AT : atable.

Lemma mk_jump_complete n p w d j : JumpOf U n p w d j -> exists j', mk_jump U n p w d = Ok j'.
Proof.
  intros (_ & JE & JP & _). unfold mk_jump.
  assert (exists e, match d_ext d with
            | Some t =>
              if truthy t then
                match t with
                | TS _ => Ok t
                | _ => let! ex := example (pv p) in
                       match tformat (exten_env ex) t with
                       | Ok s => Ok (TS s)
                       | Exn KeyError => Ok t
                       | Exn e => Exn e
                       | Hang => Hang
                       end
                end
              else let! ex := example (pv p) in Ok (TS ex)
            | None => let! ex := example (pv p) in Ok (TS ex)
            end = Ok e) as [e ->].
  { inversion JE as [o s N E Eo|s N E|t s r T I E F Et|t s T I E F Et]; subst.
    - destruct (d_ext d) as [t|]; [|rewrite E; now eexists]. rewrite (N t eq_refl), E. now eexists.
    - destruct s as [|a s]; [easy|]. now eexists.
    - rewrite T. fold exten_env in F. change (fun k => if str_eqb k (L "EXTEN") then Some s else None) with (exten_env s) in F.
      destruct t; try easy; rewrite E; cbn [bind]; rewrite F; now eexists.
    - rewrite T. change (fun k => if str_eqb k (L "EXTEN") then Some s else None) with (exten_env s) in F.
      destruct (j_ext j); try easy; rewrite E; cbn [bind]; rewrite F; now eexists. }
  cbn [bind].
  assert (exists q, match d_prio d with
            | SlTok (TS s) => if sisdigit U s then let! z := int_of U s in Ok (JInt z) else Ok (JTok (TS s))
            | SlTok t => Ok (JTok t)
            | SlList l => Ok (JList l)
            end = Ok q) as [q ->].
  { unfold JumpPrio in JP. destruct (d_prio d) as [[s| | | | | | |]|l]; try now eexists.
    destruct JP as [(-> & z & -> & _)|(-> & _)]; now eexists. }
  now eexists.
Qed.
Lemma mk_jumps_complete n p w ds js : Forall2 (JumpOf U n p w) ds js -> exists js', mk_jumps U n p w ds = Ok js'.
Proof.
  induction 1 as [|d j ds js H F [js' IH]]; [now exists []|]. destruct (mk_jump_complete _ _ _ _ _ H) as [j' E].
  cbn. rewrite E. cbn. rewrite IH. now eexists.
Qed.

Definition Jumps (h : list hev) : Prop := exists js, JumpsOf U h js.
Lemma jumps_prefix h h' : Jumps (h ++ h') -> Jumps h.
Proof.
  intros (js & jss & F & _). rewrite jumping_app in F. apply Forall2_app_inv_l in F as (l1 & l2 & F1 & F2 & ->).
  exists (List.concat l1), l1. auto.
Qed.
Lemma jumps_last h n x y : Jumps (h ++ [HLine n x (Stored y)]) ->
  exists s, Forall2 (JumpOf U n (x_pat y) (x_where y)) (i_dests x) s.
Proof.
  intros (js & jss & F & _). rewrite jumping_app in F. apply Forall2_app_inv_l in F as (l1 & l2 & F1 & F2 & ->).
  inversion F2 as [|? s ? ? H]; subst. now exists s.
Qed.

Lemma add_cache_ends c p q x : exists l r, add_cache c p q x = (l, Ok r).
Proof.
  unfold add_cache. destruct (lookup (canonical (pv p)) (dc_cache c)) as [pc|]; [|now do 2 eexists].
  destruct (zlookup q (pc_prios pc)) as [old|]; [now do 2 eexists|].
  destruct (lab (i_label x)) as [s|]; [|now do 2 eexists].
  destruct (lookup s (pc_labels pc)) as [old|]; now do 2 eexists.
Qed.

Lemma ctx_add_complete h g c x f ms : CInv h c -> GInv U h g -> Sane h -> LineRule h (dc_name c) x f ms ->
  Jumps (h ++ [HLine (dc_name c) x f]) -> exists l r, ctx_add U g c x = (l, Ok r).
Proof.
  intros C G S LR J. unfold ctx_add. destruct (add_check g c x) as [l1 r] eqn:EC.
  destruct (add_check_rule U _ _ _ _ _ _ C G EC) as (ms1 & -> & [[-> LR']|(p & q & -> & EP & EQ & Q1)]); [now do 2 eexists|].
  cbn [mbind]. destruct (add_cache_ends c p q x) as (l2 & o & EA). rewrite EA. cbn [mbind].
  destruct (add_cache_rule _ _ _ _ _ _ _ C EA) as (ms2 & -> & R). destruct o as [[[label pc] labels]|]; [|now do 2 eexists].
  destruct R as (ND & EL & CO & ->).
  assert (LineRule h (dc_name c) x (Stored (Ext p q label (i_raw x) (i_where x))) (ms1 ++ ms2)) as LR'
    by (eapply LR_stored; eauto).
  destruct (linerule_det _ _ _ _ _ _ _ S LR LR') as [-> _].
  destruct (jumps_last _ _ _ _ J) as [s F]. apply mk_jumps_complete in F as [js E]. cbn in E.
  unfold mlift. rewrite E. now do 2 eexists.
Qed.

Lemma on_context_complete h d c h' l : Inv U h d -> ElemRule U FT AT h (ECtx c) h' l ->
  exists l' d', on_context d c = (l', Ok d').
Proof.
  intros I R. unfold on_context.
  destruct (str_eqb_spec (c_name c) (L "general")) as [EG|NG].
  { unfold add_general. pose proof (in_gen _ _ _ I) as IG. destruct (dp_general d) as [old|].
    - exfalso. inversion R; subst; try easy; try (rewrite EG in *; discriminate). match goal with K : forall w, ~ In (HGen w) h |- _ => exact (K old IG) end.
    - destruct (dp_globals d), (dp_ctxs d); now do 2 eexists. }
  destruct (str_eqb_spec (c_name c) (L "globals")) as [EB|NB].
  { unfold add_globals. destruct (dp_globals d) as [old|]; [now do 2 eexists|].
    destruct (dp_general d), (dp_ctxs d); now do 2 eexists. }
  assert (c_comment c = false /\ c_templates c = [] \/ find_ctx (c_name c) (dp_ctxs d) = None) as K.
  { inversion R as [| | | |? _ _ HN|? w _ _ HI HC HT| | | | |]; subst; try easy; [right|now left].
    apply find_ctx_none. intros c0 H0 E0.
    assert (In (c_name c) (opened h)) as O by (rewrite <- (in_names _ _ _ I), <- E0; now apply in_map).
    apply opened_in in O as [w O]. now apply (HN w). }
  destruct (find_ctx (c_name c) (dp_ctxs d)) as [old|].
  - destruct K as [[KC KT]|K]; [|easy]. unfold ctx_update. rewrite KC, KT. now do 2 eexists.
  - destruct (c_templates c); now do 2 eexists.
Qed.

Lemma on_varset_complete h d v h' l : Inv U h d -> Sane h -> ElemRule U FT AT h (EVar v) h' l -> Jumps (h ++ h') ->
  exists l' d', on_varset U FT AT d v = (l', Ok d').
Proof.
  intros I S R J. unfold on_varset. pose proof (in_cur _ _ _ I) as IC. destruct (dp_cur d) as [| |n] eqn:ED;
    [now do 2 eexists|now do 2 eexists|]. destruct IC as (w & HL).
  assert (find_ctx n (dp_ctxs d) <> None) as FN.
  { intros F. assert (In n (opened h)) as O by (apply opened_in; exists w; now apply latest_in in HL).
    destruct (inv_find U h d n I O) as (c & Hc & En). now apply (proj1 (find_ctx_none n (dp_ctxs d)) F c). }
  destruct (find_ctx n (dp_ctxs d)) as [c|] eqn:EF; [|easy]. clear FN. destruct (find_ctx_in _ _ _ EF) as [Hc En].
  inversion R as [| | | | | |v0 NH|v0 e LH NO|v0 n0 w0 l0 LH FV|v0 n0 w0 l0 i w1 LH FV|v0 n0 w0 l0 x f ms hint LH FV HH LR]; subst.
  - exfalso. apply latest_in in HL as [HL _]. now apply (NH (HOpen (dc_name c) w)).
  - exfalso. apply (NO (dc_name c) w). exact (latest_uniq _ _ _ _ LH HL).
  - rewrite FV. now do 2 eexists.
  - rewrite FV. now do 2 eexists.
  - pose proof (latest_uniq _ _ _ _ HL LH) as E. injection E as <- <-. rewrite FV. cbn [mbind].
    destruct (ctx_add_complete h (dp_glob d) c x f ms (in_ctxs _ _ _ I c Hc) (in_glob _ _ _ I) S LR J) as (l2 & [g c'] & E).
    rewrite E. destruct (i_pat x) as [p|]; [destruct (is_canonical p)|]; now do 2 eexists.
Qed.

Lemma on_element_complete h d e h' l : Inv U h d -> Sane h -> ElemRule U FT AT h e h' l -> Jumps (h ++ h') ->
  exists l' d', on_element U FT AT d e = (l', Ok d').
Proof.
  intros I S R J. unfold on_element. destruct e as [b w|c|v].
  - now do 2 eexists.
  - destruct (on_context_complete _ _ _ _ _ I R) as (l' & d' & ->). now do 2 eexists.
  - destruct (on_varset_complete _ _ _ _ _ I S R J) as (l' & d' & ->). now do 2 eexists.
Qed.

Lemma steps_app es es' d : dp_steps U FT AT d (es ++ es') = do* d1 <- dp_steps U FT AT d es; dp_steps U FT AT d1 es'.
Proof.
  revert d. induction es as [|e es IH]; intros d.
  - cbn. now destruct (dp_steps U FT AT d es').
  - cbn [app dp_steps]. rewrite mbind_assoc. destruct (on_element U FT AT d e) as [l [d1|x|]]; cbn [mbind]; [|easy|easy].
    now rewrite IH.
Qed.

Lemma history_steps es h l : History U FT AT es h l -> Jumps h -> exists d, dp_steps U FT AT dp_init es = (l, Ok d).
Proof.
  intros H J. assert (exists l' d, dp_steps U FT AT dp_init es = (l', Ok d)) as (l' & d & E).
  { induction H as [|es h l e h' l' H IH R]; [now do 2 eexists|].
    destruct (IH (jumps_prefix _ _ J)) as (l1 & d & E). pose proof E as E'.
    apply steps_history in E' as (h1 & H1 & I). destruct (history_det U FT AT _ _ _ _ _ H H1) as [<- <-].
    destruct (on_element_complete h d e h' l' I (history_sane U FT AT es h l H) R J) as (l2 & d2 & E2).
    rewrite steps_app, E. cbn [mbind dp_steps]. rewrite E2. now do 2 eexists. }
  pose proof E as E'. apply steps_history in E' as (h1 & H1 & I). destruct (history_det U FT AT _ _ _ _ _ H H1) as [<- <-].
  now exists d.
Qed.
End S.
