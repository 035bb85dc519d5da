(* Proofs about the VoIPGRID aggregators (C55). *)
From Verif Require Import Base PyStr Defines FileRd Config VSpace Pattern Var VarFun AppM Aggregator Dialplan Spec_Dialplan
  VarFun_proofs Dialplan_proofs DialplanL_proofs VgPlan Spec_VgPlan.

(* ---- Two runs with the same messages ---- *)
Definition rrel {A B} (R : A -> B -> Prop) (r : res A) (r' : res B) : Prop :=
  match r, r' with
  | Ok a, Ok b => R a b
  | Exn e, Exn e' => e = e'
  | Hang, Hang => True
  | _, _ => False
  end.
Definition mrel {A B} (R : A -> B -> Prop) (m : M A) (m' : M B) : Prop := fst m = fst m' /\ rrel R (snd m) (snd m').
Lemma mrel_bind {A B A' B'} (R : A -> A' -> Prop) (S : B -> B' -> Prop) m m' f f' :
  mrel R m m' -> (forall a a', R a a' -> mrel S (f a) (f' a')) -> mrel S (mbind m f) (mbind m' f').
Proof.
  destruct m as [l r], m' as [l' r']. intros [E H] F. cbn in E. subst l'. destruct r as [a|e|], r' as [a'|e'|]; cbn in H; try easy; try (now subst e').
  destruct (F _ _ H) as [E2 H2]. unfold mbind. split; cbn; [now rewrite E2|easy].
Qed.
Lemma mrel_eq {A} (m : M A) : mrel eq m m.
Proof. split; [easy|]. destruct (snd m); now cbn. Qed.
Lemma mrel_ret {A B} (R : A -> B -> Prop) a b : R a b -> mrel R (mret a) (mret b).
Proof. now split. Qed.

(* ---- Contexts under other names ---- *)
Section Sim.
Variable F : list (str * str).
Definition orig (n : str) : str := match lookup n F with Some o => o | None => n end.
Definition named (o : str) (c : dctx) : dctx :=
  DCtx o (dc_where c) (dc_exts c) (dc_includes c) (dc_last c) (dc_cache c) (dc_sorted c).
Definition back (c : dctx) : dctx := named (orig (dc_name c)) c.
Fixpoint keep_last (l : list dctx) : list dctx :=
  match l with
  | [] => []
  | c :: r => if smem (dc_name c) (map dc_name r) then keep_last r else c :: keep_last r
  end.
Definition other (n : str) (c : dctx) : bool := negb (str_eqb (dc_name c) n).

Lemma keep_last_in l n : In n (map dc_name (keep_last l)) <-> In n (map dc_name l).
Proof.
  induction l as [|c l IH]; [easy|]. cbn [keep_last map]. destruct (smem (dc_name c) (map dc_name l)) eqn:E.
  - apply smem_In in E. rewrite IH. cbn [In]. split; [auto|]. intros [<-|H]; easy.
  - cbn [map In]. now rewrite IH.
Qed.
Lemma keep_last_nodup l : NoDup (map dc_name (keep_last l)).
Proof.
  induction l as [|c l IH]; [constructor|]. cbn [keep_last]. destruct (smem (dc_name c) (map dc_name l)) eqn:E; [easy|].
  cbn [map]. constructor; [|easy]. rewrite keep_last_in. intros H. apply smem_In in H. congruence.
Qed.
Lemma keep_last_nil l : keep_last l = [] <-> l = [].
Proof.
  split; [|now intros ->]. intros H. destruct l as [|c l]; [easy|]. exfalso.
  assert (In (dc_name c) (map dc_name (keep_last (c :: l)))) as I by (rewrite keep_last_in; now left).
  now rewrite H in I.
Qed.
Lemma keep_last_snoc l x : keep_last (l ++ [x]) = filter (other (dc_name x)) (keep_last l) ++ [x].
Proof.
  induction l as [|c l IH]; [easy|]. cbn [app keep_last]. rewrite map_app. cbn [map].
  destruct (smem (dc_name c) (map dc_name l)) eqn:E.
  - apply smem_In in E. replace (smem (dc_name c) (map dc_name l ++ [dc_name x])) with true; [easy|].
    symmetry. apply smem_In, in_or_app. now left.
  - destruct (str_eqb_spec (dc_name c) (dc_name x)) as [N|N].
    + replace (smem (dc_name c) (map dc_name l ++ [dc_name x])) with true
        by (symmetry; apply smem_In, in_or_app; right; now left).
      rewrite IH. cbn [filter]. unfold other at 2. now rewrite N, str_eqb_refl.
    + replace (smem (dc_name c) (map dc_name l ++ [dc_name x])) with false.
      * rewrite IH. cbn [filter]. unfold other at 2. destruct (str_eqb_spec (dc_name c) (dc_name x)); [easy|]. easy.
      * symmetry. apply not_true_is_false. intros H. apply smem_In, in_app_or in H as [H|[H|[]]]; [|congruence].
        apply smem_In in H. congruence.
Qed.
Lemma filter_other_none n l : ~ In n (map dc_name l) -> filter (other n) l = l.
Proof.
  induction l as [|c l IH]; [easy|]. cbn [map In filter]. intros H. unfold other at 1.
  destruct (str_eqb_spec (dc_name c) n); [tauto|]. cbn [negb]. f_equal. apply IH. tauto.
Qed.
Lemma remove_filter n l : NoDup (map dc_name l) -> remove_ctx n l = filter (other n) l.
Proof.
  induction l as [|c l IH]; [easy|]. cbn [map remove_ctx filter]. intros H. inversion_clear H as [|? ? Hn Hd]. unfold other at 1.
  destruct (str_eqb_spec (dc_name c) n) as [<-|]; cbn [negb]; [now rewrite filter_other_none|]. now rewrite IH.
Qed.
Lemma filter_other_in n l : ~ In n (map dc_name (filter (other n) l)).
Proof.
  intros H. apply in_map_iff in H as (c & E & H). apply filter_In in H as [_ H]. unfold other in H.
  rewrite E, str_eqb_refl in H. easy.
Qed.
Lemma find_none_in n l : ~ In n (map dc_name l) -> find_ctx n l = None.
Proof. intros H. apply find_ctx_none. intros c Hc E. apply H. rewrite <- E. now apply in_map. Qed.
Lemma find_last n p c : ~ In n (map dc_name p) -> dc_name c = n -> find_ctx n (p ++ [c]) = Some c.
Proof.
  intros H E. induction p as [|x p IH]; cbn [app find_ctx].
  - now rewrite E, str_eqb_refl.
  - cbn [map In] in H. destruct (str_eqb_spec (dc_name x) n); [tauto|]. apply IH. tauto.
Qed.
Lemma set_last p c c2 : ~ In (dc_name c) (map dc_name p) -> dc_name c2 = dc_name c -> set_ctx c2 (p ++ [c]) = p ++ [c2].
Proof.
  intros H E. induction p as [|x p IH]; cbn [app set_ctx].
  - now rewrite E, str_eqb_refl.
  - cbn [map In] in H. rewrite E. destruct (str_eqb_spec (dc_name x) (dc_name c)); [tauto|]. f_equal. apply IH. tauto.
Qed.

Lemma nodup_end (l : list str) n : NoDup l -> ~ In n l -> NoDup (l ++ [n]).
Proof.
  intros H NI. induction H as [|x l Hx H IH]; cbn [app]; [repeat constructor; easy|]. cbn [In] in NI. constructor.
  - intros K. apply in_app_or in K as [K|[K|[]]]; [easy|]. subst x. tauto.
  - apply IH. tauto.
Qed.

Record GSim (g g' : glob) : Prop := {
  gs_last : g_last g = g_last g';
  gs_labels : g_labels g = g_labels g';
  gs_jumps : Forall2 (JumpBack F) (g_jumps g) (g_jumps g')
}.
Record Sim (d d' : dplan) : Prop := {
  si_gen : dp_general d = dp_general d';
  si_globs : dp_globals d = dp_globals d';
  si_glob : GSim (dp_glob d) (dp_glob d');
  si_ctxs : dp_ctxs d = keep_last (map back (dp_ctxs d'));
  si_nodup : NoDup (map dc_name (dp_ctxs d'));
  si_special : forall c, In c (dp_ctxs d') -> ~ Special (orig (dc_name c));
  si_cur : match dp_cur d, dp_cur d' with
           | CurNone, CurNone | CurPlain, CurPlain => True
           | CurCtx n, CurCtx n' => n = orig n' /\ exists p c, dp_ctxs d' = p ++ [c] /\ dc_name c = n'
           | _, _ => False
           end
}.

Variable U : uni.
Variable FT : ftable.
Variable AT : atable.

Lemma mk_jump_back n p w ds : rrel (JumpBack F) (mk_jump U (orig n) p w ds) (mk_jump U n p w ds).
Proof.
  unfold mk_jump.
  match goal with |- context [bind ?E _] => destruct E as [e|e|]; cbn [bind rrel]; try easy end.
  match goal with |- context [bind ?E _] => destruct E as [q|q|]; cbn [bind rrel]; try easy end.
  destruct (d_ctx ds) as [t|]; [destruct (truthy t); [now left|]|]; unfold orig;
    (destruct (lookup n F) as [o|] eqn:E; [|now left]; right; exists n, o; cbn; repeat split; try easy).
  all: clear -E; induction F as [|[k v] l IH]; [easy|]; cbn [lookup] in E; destruct (str_eqb_spec n k) as [->|];
    [injection E as ->; now left|right; now apply IH].
Qed.
Lemma mk_jumps_back n p w ds : rrel (Forall2 (JumpBack F)) (mk_jumps U (orig n) p w ds) (mk_jumps U n p w ds).
Proof.
  induction ds as [|d ds IH]; cbn [mk_jumps]; [constructor|].
  pose proof (mk_jump_back n p w d) as H.
  destruct (mk_jump U (orig n) p w d), (mk_jump U n p w d); cbn [rrel bind] in *; try easy.
  destruct (mk_jumps U (orig n) p w ds), (mk_jumps U n p w ds); cbn [rrel bind] in *; try easy. now constructor.
Qed.

Lemma ctx_add_back g g' c x : GSim g g' ->
  mrel (fun r r' => GSim (fst r) (fst r') /\ snd r = named (orig (dc_name c)) (snd r') /\ dc_name (snd r') = dc_name c)
    (ctx_add U g (back c) x) (ctx_add U g' c x).
Proof.
  intros G. unfold ctx_add. apply (mrel_bind eq).
  - replace (add_check g (back c) x) with (add_check g' c x); [apply mrel_eq|]. unfold add_check, last_ext, same_pat.
    cbn [back named dc_exts dc_last]. now rewrite (gs_last _ _ G).
  - intros o ? <-. destruct o as [[p q]|]; [|apply mrel_ret; cbn [fst snd]; now repeat split; try apply G].
    apply (mrel_bind eq).
    + replace (add_cache (back c) p q x) with (add_cache c p q x); [apply mrel_eq|]. easy.
    + intros o ? <-. destruct o as [[[label pc] labels]|]; [|apply mrel_ret; cbn [fst snd]; now repeat split; try apply G].
      apply (mrel_bind (Forall2 (JumpBack F))).
      * split; [easy|]. cbn [mlift snd]. apply mk_jumps_back.
      * intros js js' Hj. apply mrel_ret. cbn [fst snd]. repeat split.
        -- cbn [g_labels]. now rewrite (gs_labels _ _ G).
        -- cbn [g_jumps]. apply Forall2_app; [apply G|easy].
Qed.

(* ---- One element ---- *)
Lemma sim_names d d' n : Sim d d' -> In n (map dc_name (dp_ctxs d)) <-> exists c, In c (dp_ctxs d') /\ orig (dc_name c) = n.
Proof.
  intros S. rewrite (si_ctxs _ _ S), keep_last_in, map_map. rewrite in_map_iff. split.
  - intros (c & E & H). now exists c.
  - intros (c & H & E). now exists c.
Qed.
Lemma sim_nodup d d' : Sim d d' -> NoDup (map dc_name (dp_ctxs d)).
Proof. intros S. rewrite (si_ctxs _ _ S). apply keep_last_nodup. Qed.

Lemma sim_nil d d' : Sim d d' -> (dp_ctxs d = [] <-> dp_ctxs d' = []).
Proof.
  intros S. rewrite (si_ctxs _ _ S), keep_last_nil. split; [|now intros ->]. intros H. now apply map_eq_nil in H.
Qed.

Lemma varset_back d d' v : Sim d d' -> mrel (fun e e' => Sim e e' /\ map dc_name (dp_ctxs e') = map dc_name (dp_ctxs d') /\
    dp_general e' = dp_general d' /\ dp_globals e' = dp_globals d')
  (on_varset U FT AT d v) (on_varset U FT AT d' v).
Proof.
  intros S. unfold on_varset. pose proof (si_cur _ _ S) as C.
  destruct (dp_cur d) as [| |n] eqn:E, (dp_cur d') as [| |n'] eqn:E'; try (exfalso; exact C).
  - apply (mrel_bind eq); [apply mrel_eq|]. intros ? ? _. now apply mrel_ret.
  - now apply mrel_ret.
  - destruct C as (-> & p & c & Ec & <-). apply (mrel_bind eq); [apply mrel_eq|]. intros o ? <-.
    destruct o as [dv|]; [|now apply mrel_ret].
    pose proof (si_nodup _ _ S) as N. rewrite Ec, map_app in N. cbn [map] in N.
    assert (~ In (dc_name c) (map dc_name p)) as NI.
    { apply NoDup_remove_2 in N. now rewrite app_nil_r in N. }
    pose proof (si_ctxs _ _ S) as X. rewrite Ec, map_app in X. cbn [map] in X. rewrite keep_last_snoc in X.
    set (p0 := filter (other (dc_name (back c))) (keep_last (map back p))) in *.
    assert (~ In (dc_name (back c)) (map dc_name p0)) as NB by apply filter_other_in. cbn [back named dc_name] in NB.
    rewrite X, Ec, (find_last (dc_name c) p c NI eq_refl), (find_last _ p0 (back c) NB eq_refl).
    assert (forall c2 g g', GSim g g' -> dc_name c2 = dc_name c ->
      Sim (DPlan (dp_general d) (dp_globals d) (set_ctx (named (orig (dc_name c)) c2) (p0 ++ [back c])) g (CurCtx (orig (dc_name c))))
          (DPlan (dp_general d') (dp_globals d') (set_ctx c2 (p ++ [c])) g' (CurCtx (dc_name c)))) as K.
    { intros c2 g g' HG H2. rewrite (set_last p c c2 NI H2), (set_last p0 (back c) (named (orig (dc_name c)) c2) NB eq_refl).
      constructor; cbn [dp_general dp_globals dp_ctxs dp_glob dp_cur]; try apply S.
      - easy.
      - rewrite map_app. cbn [map]. rewrite keep_last_snoc. unfold p0, back. cbn [named dc_name]. now rewrite H2.
      - rewrite map_app. cbn [map]. now rewrite H2.
      - intros y Hy. apply in_app_or in Hy as [Hy|[<-|[]]].
        + apply (si_special _ _ S). rewrite Ec. apply in_or_app. now left.
        + rewrite H2. apply (si_special _ _ S). rewrite Ec. apply in_or_app. right. now left.
      - split; [easy|]. exists p, c2. auto. }
    assert (forall c2, dc_name c2 = dc_name c -> map dc_name (set_ctx c2 (p ++ [c])) = map dc_name (p ++ [c])) as KN.
    { intros c2 H2. apply set_ctx_names. }
    destruct dv as [x|i w].
    + apply (mrel_bind eq); [apply mrel_eq|]. intros ? ? _.
      eapply mrel_bind; [apply ctx_add_back, S|]. intros [g c1] [g' c2] (HG & E1 & E2). cbn [fst snd] in *. subst c1.
      apply mrel_ret. split; [now apply K|]. cbn [dp_ctxs dp_general dp_globals]. now rewrite KN.
    + apply mrel_ret. split; [|now cbn [dp_ctxs dp_general dp_globals]; rewrite KN].
      apply (K (DCtx (dc_name c) (dc_where c) (dc_exts c) (dc_includes c ++ [(i, w)]) (dc_last c) (dc_cache c) (dc_sorted c)));
        [apply S|easy].
Qed.

(* An ordinary header, under its own or another name. *)
Lemma open_back d d' c n : Sim d d' -> ~ Special (c_name c) -> ~ Special n -> orig n = c_name c -> ~ In n (map dc_name (dp_ctxs d')) ->
  mrel (fun e e' => Sim e e' /\ map dc_name (dp_ctxs e') = map dc_name (dp_ctxs d') ++ [n] /\
    dp_general e' = dp_general d' /\ dp_globals e' = dp_globals d')
    (vg_on_context d c) (on_context d' (Ctx n (c_templates c) (c_comment c) (c_where c))).
Proof.
  intros S N1 N2 O NI. unfold Special in N1, N2. unfold vg_on_context, on_context.
  cbn [c_name c_templates c_comment c_where].
  destruct (str_eqb_spec (c_name c) (L "general")); [tauto|]. destruct (str_eqb_spec (c_name c) (L "globals")); [tauto|].
  destruct (str_eqb_spec n (L "general")); [tauto|]. destruct (str_eqb_spec n (L "globals")); [tauto|].
  cbn [andb dp_general dp_globals dp_ctxs dp_glob dp_cur].
  rewrite (find_none_in n _ NI).
  set (new := DCtx n (c_where c) [] [] None [] None).
  assert (Sim (DPlan (dp_general d) (dp_globals d) (filter (other (c_name c)) (dp_ctxs d) ++ [DCtx (c_name c) (c_where c) [] [] None [] None])
                (dp_glob d) (CurCtx (c_name c)))
              (DPlan (dp_general d') (dp_globals d') (dp_ctxs d' ++ [new]) (dp_glob d') (CurCtx n))) as K.
  { constructor; cbn [dp_general dp_globals dp_ctxs dp_glob dp_cur]; try apply S.
    - rewrite map_app. cbn [map]. rewrite keep_last_snoc, <- (si_ctxs _ _ S). unfold new, back, named. cbn [dc_name dc_where].
      now rewrite O.
    - rewrite map_app. cbn [map]. apply nodup_end; [apply S|easy].
    - intros y Hy. apply in_app_or in Hy as [Hy|[<-|[]]]; [now apply (si_special _ _ S)|]. unfold new. cbn [dc_name]. now rewrite O.
    - split; [easy|]. exists (dp_ctxs d'), new. auto. }
  assert (find_ctx (c_name c) (filter (other (c_name c)) (dp_ctxs d)) = None) as FN by apply find_none_in, filter_other_in.
  destruct (find_ctx (c_name c) (dp_ctxs d)) as [old|] eqn:Eo.
  - rewrite (remove_filter _ _ (sim_nodup _ _ S)). cbn [dp_general dp_globals dp_ctxs dp_glob dp_cur].
    apply (mrel_bind eq); [apply mrel_eq|]. intros ? ? _. rewrite FN. apply mrel_ret. split; [exact K|].
    cbn [dp_ctxs dp_general dp_globals]. now rewrite map_app.
  - apply (mrel_bind eq); [apply mrel_eq|]. intros ? ? _. apply mrel_ret.
    rewrite filter_other_none in K.
    + split; [exact K|]. cbn [dp_ctxs dp_general dp_globals]. now rewrite map_app.
    + intros H. rewrite find_ctx_none in Eo. apply in_map_iff in H as (y & E & H). now apply (Eo y).
Qed.

(* [general] and [globals], for the first time. *)
Lemma special_back d d' c : Sim d d' -> Special (c_name c) ->
  (c_name c = L "general" -> dp_general d' = None) -> (c_name c = L "globals" -> dp_globals d' = None) ->
  mrel (fun e e' => Sim e e' /\ map dc_name (dp_ctxs e') = map dc_name (dp_ctxs d') /\
    (dp_general e' = dp_general d' \/ c_name c = L "general") /\ (dp_globals e' = dp_globals d' \/ c_name c = L "globals"))
    (vg_on_context d c) (on_context d' c).
Proof.
  intros S Sp NG NB. unfold vg_on_context.
  assert (find_ctx (c_name c) (dp_ctxs d) = None) as FN.
  { apply find_none_in. intros H. apply (sim_names _ _ _ S) in H as (y & Hy & E). apply (si_special _ _ S y Hy). now rewrite E. }
  rewrite FN. rewrite (si_gen _ _ S), (si_globs _ _ S). unfold on_context.
  assert (forall g b, Sim (DPlan g b (dp_ctxs d) (dp_glob d) CurPlain) (DPlan g b (dp_ctxs d') (dp_glob d') CurPlain)) as K.
  { intros g b. constructor; cbn [dp_general dp_globals dp_ctxs dp_glob dp_cur]; try apply S; easy. }
  destruct (str_eqb_spec (c_name c) (L "general")) as [E|E].
  - rewrite (NG E). cbn [andb is_some]. replace (str_eqb (c_name c) (L "globals")) with false
      by (rewrite E; reflexivity). cbn [andb].
    unfold add_general. rewrite (si_gen _ _ S), (NG E), (si_globs _ _ S).
    apply (mrel_bind eq).
    + assert (match dp_ctxs d with [] => true | _ => false end = match dp_ctxs d' with [] => true | _ => false end) as Z.
      { pose proof (sim_nil _ _ S) as Z. destruct (dp_ctxs d), (dp_ctxs d'); try easy; exfalso; destruct Z as [Z1 Z2];
          [specialize (Z1 eq_refl)|specialize (Z2 eq_refl)]; easy. }
      destruct (dp_globals d'), (dp_ctxs d), (dp_ctxs d'); try easy; apply mrel_eq.
    + intros ? ? _. apply mrel_ret. split; [apply K|]. cbn [dp_general dp_globals dp_ctxs]. auto.
  - destruct Sp as [Sp|Sp]; [easy|]. rewrite (NB Sp). cbn [andb is_some]. rewrite Sp, str_eqb_refl. cbn [andb].
    unfold add_globals. rewrite (si_gen _ _ S), (NB Sp), (si_globs _ _ S), (NB Sp).
    apply (mrel_bind eq).
    + assert (match dp_ctxs d with [] => true | _ => false end = match dp_ctxs d' with [] => true | _ => false end) as Z.
      { pose proof (sim_nil _ _ S) as Z. destruct (dp_ctxs d), (dp_ctxs d'); try easy; exfalso; destruct Z as [Z1 Z2];
          [specialize (Z1 eq_refl)|specialize (Z2 eq_refl)]; easy. }
      destruct (dp_general d'), (dp_ctxs d), (dp_ctxs d'); try easy; apply mrel_eq.
    + intros ? ? _. apply mrel_ret. split; [apply K|]. cbn [dp_general dp_globals dp_ctxs]. auto.
Qed.

(* ---- All elements ---- *)
Definition wrap {A} (m : M A) : M A := match m with (l, Exn _) => (l, Exn ProgrammingError) | _ => m end.
Lemma mrel_wrap {A B} (R : A -> B -> Prop) m m' : mrel R m m' -> mrel R (wrap m) (wrap m').
Proof. destruct m as [l [?|?|]], m' as [l' [?|?|]]; intros [E H]; cbn in *; now subst. Qed.
Lemma mrel_mono {A B} (R R' : A -> B -> Prop) m m' : (forall a b, R a b -> R' a b) -> mrel R m m' -> mrel R' m m'.
Proof. intros H [E K]. split; [easy|]. destruct (snd m), (snd m'); cbn in *; auto. Qed.

Lemma heads_cons c es : heads (ECtx c :: es) = c_name c :: heads es.
Proof. reflexivity. Qed.
Lemma heads_other e es : (forall c, e <> ECtx c) -> heads (e :: es) = heads es.
Proof. intros H. destruct e as [c| |]; try reflexivity. now destruct (H c). Qed.

Lemma once_cons c es : Once (ECtx c :: es) -> Once es /\ (Special (c_name c) -> ~ In (c_name c) (heads es)).
Proof.
  intros H. split.
  - intros n l1 l2 Sp E. apply (H n (c_name c :: l1) l2 Sp). rewrite heads_cons, E. reflexivity.
  - intros Sp. apply (H _ [] (heads es) Sp). reflexivity.
Qed.
Lemma once_other e es : (forall c, e <> ECtx c) -> Once (e :: es) -> Once es.
Proof. intros E H n l1 l2 Sp X. apply (H n l1 l2 Sp). now rewrite heads_other. Qed.

(* [ns]: the names of the ordinary sections of es' *)
Definition plain_heads (es : list elem) : list str :=
  filter (fun n => negb (str_eqb n (L "general") || str_eqb n (L "globals"))) (heads es).
Lemma plain_spec n es : ~ Special n -> filter (fun n => negb (str_eqb n (L "general") || str_eqb n (L "globals"))) (n :: es) =
  n :: filter (fun n => negb (str_eqb n (L "general") || str_eqb n (L "globals"))) es.
Proof.
  intros H. cbn [filter]. destruct (str_eqb_spec n (L "general")) as [E|E]; [destruct H; now left|].
  destruct (str_eqb_spec n (L "globals")) as [E2|E2]; [destruct H; now right|]. easy.
Qed.
Lemma special_skip n es : Special n -> filter (fun n => negb (str_eqb n (L "general") || str_eqb n (L "globals"))) (n :: es) =
  filter (fun n => negb (str_eqb n (L "general") || str_eqb n (L "globals"))) es.
Proof. intros [ -> | -> ]; reflexivity. Qed.

Lemma steps_back es es' fr : Aside es es' fr -> forall d d', Sim d d' -> Once es ->
  (forall n o, In (n, o) fr -> lookup n F = Some o) -> (forall n, In n (heads es) -> lookup n F = None) ->
  NoDup (map fst fr) -> (forall n, In n (map fst fr) -> ~ Special n) ->
  (forall n, In n (map dc_name (dp_ctxs d')) -> ~ In n (map fst fr) /\ ~ In n (heads es)) ->
  (dp_general d' <> None -> ~ In (L "general") (heads es)) -> (dp_globals d' <> None -> ~ In (L "globals") (heads es)) ->
  mrel (fun e e' => Sim e e' /\ map dc_name (dp_ctxs e') = map dc_name (dp_ctxs d') ++ plain_heads es')
    (vg_steps U FT AT d es) (dp_steps U FT AT d' es').
Proof.
  induction 1 as [|c n es es' fr Sp Hin A IH|c es es' fr Hk A IH|e es es' fr He A IH];
    intros d d' S O HF HN ND NS HD HG HB; cbn [vg_steps dp_steps].
  - apply mrel_ret. split; [easy|]. cbn. now rewrite app_nil_r.
  - apply once_cons in O as [O _]. cbn [map fst] in *. inversion_clear ND as [|? ? NI ND'].
    eapply mrel_bind.
    { apply (mrel_wrap _ (vg_on_context d c) (on_context d' (Ctx n (c_templates c) (c_comment c) (c_where c)))).
      apply (open_back d d' c n S Sp); [apply NS; now left|unfold orig; now rewrite (HF n (c_name c)) by (now left)|].
      intros K. apply HD in K as [K _]. apply K. now left. }
    intros d1 d1' (S1 & N1 & G1 & B1). eapply mrel_mono; [|apply (IH d1 d1' S1 O)]; try easy.
    + intros e e' (SE & NE). split; [easy|]. rewrite NE, N1, <- app_assoc. unfold plain_heads. rewrite heads_cons. cbn [c_name].
      rewrite plain_spec by (apply NS; now left). reflexivity.
    + intros m o H. apply HF. now right.
    + intros m H. apply HN. rewrite heads_cons. now right.
    + intros m H. apply NS. now right.
    + intros m H. rewrite N1 in H. apply in_app_or in H as [H|[<-|[]]].
      * apply HD in H as [H1 H2]. rewrite heads_cons in H2. cbn [In] in *. tauto.
      * split; [easy|]. intros K. assert (lookup n F = None) as K2 by (apply HN; rewrite heads_cons; now right).
        rewrite (HF n (c_name c)) in K2 by (now left). discriminate.
    + rewrite G1. intros H K. apply (HG H). rewrite heads_cons. now right.
    + rewrite B1. intros H K. apply (HB H). rewrite heads_cons. now right.
  - apply once_cons in O as [O SpO].
    assert (Special (c_name c) \/ ~ Special (c_name c)) as [Sp|Sp].
    { unfold Special. destruct (str_eqb_spec (c_name c) (L "general")); [auto|]. destruct (str_eqb_spec (c_name c) (L "globals")); tauto. }
    + eapply mrel_bind.
      { apply (mrel_wrap _ (vg_on_context d c) (on_context d' c)). apply (special_back d d' c S Sp).
        - intros E. destruct (dp_general d') eqn:X; [|easy]. exfalso. apply HG; [easy|]. rewrite heads_cons, E. now left.
        - intros E. destruct (dp_globals d') eqn:X; [|easy]. exfalso. apply HB; [easy|]. rewrite heads_cons, E. now left. }
      intros d1 d1' (S1 & N1 & G1 & B1). eapply mrel_mono; [|apply (IH d1 d1' S1 O)]; try easy.
      * intros e e' (SE & NE). split; [easy|]. rewrite NE, N1. unfold plain_heads. rewrite heads_cons. now rewrite special_skip.
      * intros m H. apply HN. rewrite heads_cons. now right.
      * intros m H. rewrite N1 in H. apply HD in H as [H1 H2]. rewrite heads_cons in H2. cbn [In] in *. tauto.
      * destruct G1 as [-> | G1]; intros H K; [apply (HG H); rewrite heads_cons; now right|]. apply SpO; [easy|]. now rewrite G1.
      * destruct B1 as [-> | B1]; intros H K; [apply (HB H); rewrite heads_cons; now right|]. apply SpO; [easy|]. now rewrite B1.
    + assert (lookup (c_name c) F = None) as LN by (apply HN; rewrite heads_cons; now left).
      eapply mrel_bind.
      { replace c with (Ctx (c_name c) (c_templates c) (c_comment c) (c_where c)) at 2 by (now destruct c).
        apply (mrel_wrap _ (vg_on_context d c) (on_context d' (Ctx (c_name c) (c_templates c) (c_comment c) (c_where c)))).
        apply (open_back d d' c (c_name c) S Sp Sp); [unfold orig; now rewrite LN|].
        intros K. apply HD in K as [_ K]. apply K. rewrite heads_cons. now left. }
      intros d1 d1' (S1 & N1 & G1 & B1). eapply mrel_mono; [|apply (IH d1 d1' S1 O)]; try easy.
      * intros e e' (SE & NE). split; [easy|]. rewrite NE, N1, <- app_assoc. unfold plain_heads. rewrite heads_cons.
        rewrite plain_spec by easy. reflexivity.
      * intros m H. apply HN. rewrite heads_cons. now right.
      * intros m H. rewrite N1 in H. apply in_app_or in H as [H|[<-|[]]].
        -- apply HD in H as [H1 H2]. rewrite heads_cons in H2. cbn [In] in *. tauto.
        -- split; [|tauto]. intros K. apply in_map_iff in K as ((n0 & o) & E & K). cbn [fst] in E. subst n0.
           rewrite (HF _ _ K) in LN. discriminate.
      * rewrite G1. intros H K. apply (HG H). rewrite heads_cons. now right.
      * rewrite B1. intros H K. apply (HB H). rewrite heads_cons. now right.
  - rewrite (heads_other e es He) in *. apply (once_other e es He) in O.
    assert (plain_heads (e :: es') = plain_heads es') as PE by (unfold plain_heads; now rewrite heads_other).
    rewrite PE. destruct e as [b w|c|v]; [|now destruct (He c)|].
    + apply (mrel_bind (fun a a' => a = d /\ a' = d')); [now apply mrel_ret|]. intros ? ? [-> ->]. now apply IH.
    + eapply mrel_bind; [apply mrel_wrap; apply (varset_back d d' v S)|].
      intros d1 d1' (S1 & N1 & G1 & B1). eapply mrel_mono; [|apply (IH d1 d1' S1 O)]; try easy.
      * intros e e' (SE & NE). split; [easy|]. now rewrite NE, N1.
      * now rewrite N1.
      * now rewrite G1.
      * now rewrite B1.
Qed.

Lemma orig_heads es es' fr : Aside es es' fr -> (forall n o, In (n, o) fr -> lookup n F = Some o) ->
  (forall n, In n (heads es) -> lookup n F = None) -> (forall n, In n (map fst fr) -> ~ Special n) ->
  map orig (plain_heads es') = plain_heads es.
Proof.
  induction 1 as [|c n es es' fr Sp Hin A IH|c es es' fr Hk A IH|e es es' fr He A IH]; intros HF HN NS; [easy| | |];
    unfold plain_heads in *.
  - rewrite !heads_cons in *. cbn [c_name]. rewrite plain_spec by (apply NS; now left). rewrite plain_spec by easy. cbn [map].
    rewrite IH; [|intros m o K; apply HF; now right|intros m K; apply HN; now right|intros m K; apply NS; now right].
    f_equal. unfold orig. now rewrite (HF n (c_name c)) by (now left).
  - rewrite !heads_cons in *.
    assert (Special (c_name c) \/ ~ Special (c_name c)) as [Sp|Sp].
    { unfold Special. destruct (str_eqb_spec (c_name c) (L "general")); [auto|]. destruct (str_eqb_spec (c_name c) (L "globals")); tauto. }
    + rewrite !special_skip by easy. apply IH; try easy. intros m K. apply HN. now right.
    + rewrite !plain_spec by easy. cbn [map]. rewrite IH; try easy; [|intros m K; apply HN; now right].
      f_equal. unfold orig. now rewrite (HN (c_name c)) by (now left).
  - rewrite (heads_other e es He) in HN. rewrite (heads_other e es He), (heads_other e es' He). now apply IH.
Qed.
Lemma plain_in n es : In n (plain_heads es) <-> In n (heads es) /\ ~ Special n.
Proof.
  unfold plain_heads, Special. rewrite filter_In, negb_true_iff, orb_false_iff.
  destruct (str_eqb_spec n (L "general")), (str_eqb_spec n (L "globals")); intuition congruence.
Qed.

Lemma final_ctxs es es' fr : Aside es es' fr -> (forall n o, In (n, o) fr -> lookup n F = Some o) ->
  (forall n, In n (heads es) -> lookup n F = None) -> (forall n, In n (map fst fr) -> ~ Special n) ->
  forall l, map dc_name l = plain_heads es' -> keep_last (map back l) = filter (fun c => negb (is_some (lookup (dc_name c) F))) l.
Proof.
  induction 1 as [|c n es es' fr Sp Hin A IH|c es es' fr Hk A IH|e es es' fr He A IH]; intros HF HN NS l E.
  - apply map_eq_nil in E. now subst.
  - unfold plain_heads in E. rewrite heads_cons in *. cbn [c_name] in E. rewrite plain_spec in E by (apply NS; now left).
    destruct l as [|x l]; [easy|]. cbn [map] in E. pose proof (f_equal (hd []) E) as E1. pose proof (f_equal (@tl _) E) as E2.
    cbn [hd tl] in E1, E2. fold (plain_heads es') in E2.
    assert (forall m o, In (m, o) fr -> lookup m F = Some o) as HF' by (intros m o K; apply HF; now right).
    assert (forall m, In m (heads es) -> lookup m F = None) as HN' by (intros m K; apply HN; now right).
    assert (forall m, In m (map fst fr) -> ~ Special m) as NS' by (intros m K; apply NS; now right).
    cbn [map keep_last filter]. rewrite E1, (HF n (c_name c)) by (now left). cbn [is_some negb].
    replace (smem (dc_name (back x)) (map dc_name (map back l))) with true; [now apply IH|].
    symmetry. apply smem_In. unfold back at 1. cbn [named dc_name]. rewrite E1. unfold orig at 1.
    rewrite (HF n (c_name c)) by (now left). rewrite map_map.
    replace (map (fun x => dc_name (back x)) l) with (map orig (map dc_name l)) by (now rewrite map_map).
    rewrite E2, (orig_heads es es' fr A HF' HN' NS'). now apply plain_in.
  - rewrite heads_cons in HN. assert (forall m, In m (heads es) -> lookup m F = None) as HN' by (intros m K; apply HN; now right).
    assert (Special (c_name c) \/ ~ Special (c_name c)) as [Sp|Sp].
    { unfold Special. destruct (str_eqb_spec (c_name c) (L "general")); [auto|]. destruct (str_eqb_spec (c_name c) (L "globals")); tauto. }
    + unfold plain_heads in E. rewrite heads_cons, special_skip in E by easy. now apply IH.
    + destruct Hk as [Hk|Hk]; [easy|].
      unfold plain_heads in E. rewrite heads_cons, plain_spec in E by easy. destruct l as [|x l]; [easy|].
      cbn [map] in E. pose proof (f_equal (hd []) E) as E1. pose proof (f_equal (@tl _) E) as E2.
      cbn [hd tl] in E1, E2. fold (plain_heads es') in E2.
      cbn [map keep_last filter]. rewrite E1, (HN (c_name c)) by (now left). cbn [is_some negb].
      assert (back x = x) as Bx.
      { unfold back, orig. rewrite E1, (HN (c_name c)) by (now left). rewrite <- E1. now destruct x. }
      rewrite Bx.
      replace (smem (dc_name x) (map dc_name (map back l))) with false; [f_equal; now apply IH|].
      symmetry. apply not_true_is_false. intros K. apply smem_In in K. rewrite map_map in K.
      replace (map (fun x => dc_name (back x)) l) with (map orig (map dc_name l)) in K by (now rewrite map_map).
      rewrite E1, E2, (orig_heads es es' fr A HF HN' NS) in K. apply plain_in in K. tauto.
  - rewrite (heads_other e es He) in HN. apply IH; try easy. now unfold plain_heads in *; rewrite (heads_other e es' He) in E.
Qed.
End Sim.

(* ---- The whole run ---- *)
Lemma lookup_nodup (fr : list (str * str)) n o : NoDup (map fst fr) -> In (n, o) fr -> lookup n fr = Some o.
Proof.
  induction fr as [|[k v] fr IH]; [easy|]. cbn [map fst In lookup]. intros H. inversion_clear H as [|? ? NI ND]. intros [K|K].
  - injection K as -> ->. now rewrite str_eqb_refl.
  - destruct (str_eqb_spec n k) as [->|]; [|now apply IH]. exfalso. apply NI. now apply (in_map fst) in K.
Qed.
Lemma lookup_keys (fr : list (str * str)) n : is_some (lookup n fr) = smem n (map fst fr).
Proof.
  induction fr as [|[k v] fr IH]; [easy|]. cbn [map fst lookup]. unfold smem in *. cbn [existsb].
  destruct (str_eqb n k); [easy|]. cbn [orb]. apply IH.
Qed.

Definition Kept (fr : list (str * str)) (d d' : dplan) : Prop :=
  dp_general d = dp_general d' /\ dp_globals d = dp_globals d' /\
  dp_ctxs d = filter (fun c => negb (smem (dc_name c) (map fst fr))) (dp_ctxs d') /\
  g_last (dp_glob d) = g_last (dp_glob d') /\ g_labels (dp_glob d) = g_labels (dp_glob d') /\
  Forall2 (JumpBack fr) (g_jumps (dp_glob d)) (g_jumps (dp_glob d')).

Section Run.
Variable U : uni.
Variable FT : ftable.
Variable AT : atable.

Lemma same_run es es' fr : Aside es es' fr -> New es fr -> Once es ->
  mrel (Kept fr) (vg_steps U FT AT dp_init es) (dp_steps U FT AT dp_init es').
Proof.
  intros A [ND NS] O.
  assert (forall n o, In (n, o) fr -> lookup n fr = Some o) as HF by (intros; now apply lookup_nodup).
  assert (forall n, In n (heads es) -> lookup n fr = None) as HN.
  { intros n H. destruct (lookup n fr) eqn:E; [|easy]. exfalso.
    assert (In n (map fst fr)) as K by (apply smem_In; rewrite <- lookup_keys, E; reflexivity). now apply NS in K. }
  assert (forall n, In n (map fst fr) -> ~ Special n) as NS' by (intros n H; now apply NS).
  eapply mrel_mono; [|apply (steps_back fr U FT AT es es' fr A dp_init dp_init)]; try easy.
  - intros d d' (S & E). cbn [dp_init dp_ctxs map app] in E. repeat split; try apply S.
    rewrite (si_ctxs _ _ _ S), (final_ctxs fr es es' fr A HF HN NS' _ E). apply filter_ext. intros c. now rewrite lookup_keys.
  - constructor; cbn; try easy; [now repeat constructor|constructor].
Qed.

Lemma vg_history es es' fr l d : Aside es es' fr -> New es fr -> Once es -> vg_steps U FT AT dp_init es = (l, Ok d) ->
  exists h, History U FT AT es' h l /\ VgDescribes U fr h d.
Proof.
  intros A N O H. destruct (same_run es es' fr A N O) as [EL R]. rewrite H in EL, R. cbn [fst snd] in EL, R.
  destruct (dp_steps U FT AT dp_init es') as [l' [d'|e|]] eqn:E; try easy. cbn [fst snd rrel] in EL, R. subst l'.
  destruct (dialplan_history _ _ _ _ _ _ E) as (h & Hh & D). exists h. split; [easy|].
  destruct R as (_ & _ & EC & _ & EB & J).
  assert (forall c, In c (dp_ctxs d) -> In c (dp_ctxs d')) as I by (intros c Hc; rewrite EC in Hc; now apply filter_In in Hc).
  constructor.
  - rewrite EC, <- (de_names _ _ _ D). generalize (dp_ctxs d'). intros cs. induction cs as [|c cs IHc]; [easy|].
    cbn [map filter]. destruct (smem (dc_name c) (map fst fr)); cbn [negb map]; now rewrite IHc.
  - intros c Hc. apply (de_exts _ _ _ D). auto.
  - intros c Hc. apply (de_incs _ _ _ D). auto.
  - intros c Hc. apply (de_where _ _ _ D). auto.
  - intros c s Hc. apply (de_ctx_labels _ _ _ D). auto.
  - intros s. rewrite <- (de_all_labels _ _ _ D). unfold all_label. now rewrite EB.
  - exists (g_jumps (dp_glob d')). split; [apply D|easy].
Qed.
End Run.

(* ---- Consequences ---- *)
Section More.
Variable U : uni.
Variable FT : ftable.
Variable AT : atable.

(* A run that succeeds met [general] and [globals] once at most. *)
Definition has (d : dplan) (n : str) : bool :=
  if str_eqb n (L "general") then is_some (dp_general d) else is_some (dp_globals d).
Lemma varset_has d v l d' n : on_varset U FT AT d v = (l, Ok d') -> has d' n = has d n.
Proof.
  unfold on_varset. destruct (dp_cur d) as [| |m].
  - intros H. apply mbind_ok in H as (? & ? & ? & _ & H & _). now injection H as <- <-.
  - intros H. now injection H as <- <-.
  - intros H. apply mbind_ok in H as (? & o & ? & _ & H & _). destruct o as [dv|]; [|now injection H as <- <-].
    destruct (find_ctx m (dp_ctxs d)) as [c|]; [|easy]. destruct dv as [y|i w0].
    + apply mbind_ok in H as (? & ? & ? & _ & H & _). apply mbind_ok in H as (? & [g c'] & ? & _ & H & _). now injection H as <- <-.
    + now injection H as <- <-.
Qed.
Lemma context_has d c l d' n : vg_on_context d c = (l, Ok d') -> Special n ->
  has d' n = (str_eqb (c_name c) n || has d n) /\ (str_eqb (c_name c) n = true -> has d n = false).
Proof.
  unfold vg_on_context. intros H Sp.
  destruct (str_eqb (c_name c) (L "general") && is_some (dp_general d)) eqn:E1; [easy|].
  destruct (str_eqb (c_name c) (L "globals") && is_some (dp_globals d)) eqn:E2; [easy|].
  assert (exists dd, on_context dd c = (l, Ok d') /\ dp_general dd = dp_general d /\ dp_globals dd = dp_globals d) as (dd & H' & G & B).
  { destruct (find_ctx (c_name c) (dp_ctxs d)); eexists; (split; [exact H|easy]). }
  clear H. unfold on_context in H'.
  destruct (str_eqb_spec (c_name c) (L "general")) as [Eg|Eg].
  - cbn [andb] in E1. unfold add_general in H'. rewrite G in H'. destruct (dp_general d) eqn:Xg; [easy|].
    apply mbind_ok in H' as (? & ? & ? & _ & H & _). injection H as <- <-. rewrite Eg. unfold has. cbn [dp_general dp_globals].
    destruct Sp as [ -> | -> ].
    + rewrite !str_eqb_refl. cbn. now rewrite Xg.
    + change (str_eqb (L "globals") (L "general")) with false. change (str_eqb (L "general") (L "globals")) with false. now rewrite B.
  - destruct (str_eqb_spec (c_name c) (L "globals")) as [Eb|Eb].
    + cbn [andb] in E2. unfold add_globals in H'. rewrite B in H'. destruct (dp_globals d) eqn:Xg; [easy|].
      apply mbind_ok in H' as (? & ? & ? & _ & H & _). injection H as <- <-. rewrite Eb. unfold has. cbn [dp_general dp_globals].
      destruct Sp as [ -> | -> ].
      * change (str_eqb (L "globals") (L "general")) with false. rewrite str_eqb_refl. now rewrite G.
      * change (str_eqb (L "globals") (L "general")) with false. rewrite str_eqb_refl. now rewrite Xg.
    + replace (str_eqb (c_name c) n) with false.
      2:{ symmetry. apply str_eqb_neq. destruct Sp as [ -> | -> ]; easy. }
      split; [|easy]. cbn [orb]. apply mbind_ok in H' as (? & ? & ? & _ & H & _).
      destruct (find_ctx (c_name c) (dp_ctxs dd)).
      * apply mbind_ok in H as (? & ? & ? & _ & H & _). injection H as <- <-. unfold has. cbn [dp_general dp_globals]. now rewrite G, B.
      * injection H as <- <-. unfold has. cbn [dp_general dp_globals]. now rewrite G, B.
Qed.
Lemma wrap_ok {A} (m : M A) l a : wrap m = (l, Ok a) <-> m = (l, Ok a).
Proof. destruct m as [l' [?|?|]]; cbn; split; easy. Qed.
Lemma element_has d e l d' n : vg_on_element U FT AT d e = (l, Ok d') -> Special n ->
  has d' n = (smem n (heads [e]) || has d n) /\ (In n (heads [e]) -> has d n = false).
Proof.
  intros H Sp. apply (proj1 (wrap_ok _ l d')) in H. destruct e as [b w|c|v].
  - injection H as <- <-. now cbn.
  - apply context_has with (n := n) in H as [H1 H2]; [|easy]. rewrite H1. cbn [heads flat_map app].
    assert (smem n [c_name c] = str_eqb (c_name c) n) as E.
    { unfold smem. cbn [existsb]. rewrite orb_false_r. destruct (str_eqb_spec n (c_name c)), (str_eqb_spec (c_name c) n); congruence. }
    rewrite E. split; [easy|]. intros [K|[]]. apply H2. rewrite K. apply str_eqb_refl.
  - cbn. apply (varset_has _ _ _ _ n) in H. now rewrite H.
Qed.
Lemma heads_app a b : heads (a ++ b) = heads a ++ heads b.
Proof. unfold heads. apply flat_map_app. Qed.
Lemma steps_has es : forall d l d' n, vg_steps U FT AT d es = (l, Ok d') -> Special n ->
  has d' n = (smem n (heads es) || has d n) /\ (In n (heads es) -> has d n = false) /\
  (forall l1 l2, heads es = l1 ++ n :: l2 -> ~ In n l2).
Proof.
  induction es as [|e es IH]; intros d l d' n H Sp.
  - injection H as <- <-. cbn. repeat split; try easy. intros l1 l2 K. now destruct l1.
  - cbn [vg_steps] in H. apply mbind_ok in H as (l1 & d1 & l2 & H1 & H2 & _).
    apply element_has with (n := n) in H1 as [A B]; [|easy]. apply IH with (n := n) in H2 as (C & D & E); [|easy].
    change (e :: es) with ([e] ++ es). rewrite heads_app.
    assert (smem n (heads [e] ++ heads es) = (smem n (heads [e]) || smem n (heads es))) as M by (unfold smem; apply existsb_app).
    repeat split.
    + rewrite C, A, M. destruct (smem n (heads es)), (smem n (heads [e])); reflexivity.
    + intros K. apply in_app_or in K as [K|K]; [now apply B|]. specialize (D K). rewrite A in D. now apply orb_false_iff in D.
    + intros p q K. destruct e as [b w|c|v]; try now apply (E p q).
      cbn [heads flat_map app] in K. destruct p as [|x p].
      * cbn [app] in K. injection K as K1 K2. subst q. intros I. specialize (D I). rewrite A in D. apply orb_false_iff in D as [D _].
        cbn [heads flat_map app] in D. rewrite K1 in D. unfold smem in D. cbn [existsb] in D. now rewrite str_eqb_refl in D.
      * cbn [app] in K. injection K as _ K. now apply (E p q).
Qed.
Lemma ok_once es l d : vg_steps U FT AT dp_init es = (l, Ok d) -> Once es.
Proof. intros H n l1 l2 Sp. now apply (steps_has es _ _ _ _ H Sp). Qed.

Lemma steps_app a : forall b d l d1, vg_steps U FT AT d a = (l, Ok d1) ->
  vg_steps U FT AT d (a ++ b) = (l ++ fst (vg_steps U FT AT d1 b), snd (vg_steps U FT AT d1 b)).
Proof.
  induction a as [|e a IH]; intros b d l d1 H.
  - injection H as <- <-. cbn [app]. now destruct (vg_steps U FT AT d b).
  - cbn [vg_steps app] in *. apply mbind_ok in H as (l1 & d2 & l2 & H1 & H2 & ->). rewrite H1. cbn [mbind].
    rewrite (IH _ _ _ _ H2). cbn [fst snd]. now rewrite app_assoc.
Qed.
Lemma twice pre c post l d : vg_steps U FT AT dp_init pre = (l, Ok d) -> Special (c_name c) -> In (c_name c) (heads pre) ->
  vg_steps U FT AT dp_init (pre ++ ECtx c :: post) = (l, Exn ProgrammingError).
Proof.
  intros H Sp I. rewrite (steps_app _ _ _ _ _ H). destruct (steps_has pre _ _ _ _ H Sp) as (A & _).
  apply smem_In in I. rewrite I in A. cbn [orb] in A.
  assert (vg_on_context d c = mexn AssertionError) as E.
  { unfold vg_on_context. unfold has in A. destruct Sp as [ Sp | Sp ]; rewrite Sp in *.
    - rewrite str_eqb_refl in *. cbn [andb]. now rewrite A.
    - change (str_eqb (L "globals") (L "general")) with false in *. rewrite str_eqb_refl. cbn [andb]. now rewrite A. }
  cbn [vg_steps]. unfold vg_on_element. rewrite E. cbn [mexn mbind fst snd]. now rewrite app_nil_r.
Qed.

(* Sections that are all different. *)
Lemma keep_last_id l : NoDup (map dc_name l) -> keep_last l = l.
Proof.
  induction l as [|c l IH]; [easy|]. cbn [map keep_last]. intros H. inversion_clear H as [|? ? NI ND].
  destruct (smem (dc_name c) (map dc_name l)) eqn:E; [apply smem_In in E; easy|]. now rewrite IH.
Qed.
Lemma sim_eq d d' : Sim [] d d' -> d = d'.
Proof.
  intros S. destruct S as [A B G C D _ K]. assert (dp_ctxs d = dp_ctxs d') as EC.
  { rewrite C. rewrite (map_ext _ (fun c => c)) by (intros c; unfold back, orig; now destruct c). rewrite map_id.
    now apply keep_last_id. }
  assert (dp_cur d = dp_cur d') as EK.
  { destruct (dp_cur d), (dp_cur d'); try easy. destruct K as [-> _]. reflexivity. }
  assert (dp_glob d = dp_glob d') as EG.
  { destruct G as [G1 G2 G3]. destruct (dp_glob d) as [a b c], (dp_glob d') as [a' b' c']. cbn in *. subst. f_equal.
    clear -G3. induction G3 as [|x y ? ? H _ IH]; [easy|]. subst. f_equal. destruct H as [H|(n & o & [] & _)]; easy. }
  destruct d as [x1 x2 x3 x4 x5], d' as [y1 y2 y3 y4 y5]. cbn [dp_general dp_globals dp_ctxs dp_glob dp_cur] in A, B, EC, EG, EK. congruence.
Qed.
Lemma aside_self es : NoDup (heads es) -> Aside es es [].
Proof.
  induction es as [|e es IH]; intros H; [constructor|]. destruct e as [b w|c|v].
  - apply As_other; [easy|]. now apply IH.
  - rewrite heads_cons in H. inversion_clear H as [|? ? NI ND]. apply As_kept; [now right|now apply IH].
  - apply As_other; [easy|]. now apply IH.
Qed.
Lemma nodup_once es : NoDup (heads es) -> Once es.
Proof. intros H n l1 l2 _ E I. rewrite E in H. apply NoDup_remove_2 in H. apply H. apply in_or_app. now right. Qed.
Lemma all_different es : NoDup (heads es) -> vg_steps U FT AT dp_init es = dp_steps U FT AT dp_init es.
Proof.
  intros H. assert (mrel (fun d d' => d = d') (vg_steps U FT AT dp_init es) (dp_steps U FT AT dp_init es)) as [E R].
  { eapply mrel_mono; [|apply (steps_back [] U FT AT es es [] (aside_self es H) dp_init dp_init)]; try easy.
    - intros d d' [S _]. now apply sim_eq.
    - constructor; cbn; try easy; [now repeat constructor|constructor].
    - now apply nodup_once.
    - constructor. }
  destruct (vg_steps U FT AT dp_init es) as [l [d|e|]], (dp_steps U FT AT dp_init es) as [l' [d'|e'|]]; cbn in *; try easy; now subst.
Qed.

(* There are always new names. *)
Lemma aside_exists es : forall k, exists es' fr, Aside es es' fr /\ NoDup (map fst fr) /\
  forall n, In n (map fst fr) -> exists j, n = repeat 120 (j + k).
Proof.
  induction es as [|e es IH]; intros k.
  - exists [], []. repeat split; [constructor|constructor|easy].
  - assert ((exists c, e = ECtx c /\ ~ Special (c_name c) /\ In (c_name c) (heads es)) \/
      (exists c, e = ECtx c /\ (Special (c_name c) \/ ~ In (c_name c) (heads es))) \/ (forall c, e <> ECtx c)) as [(c & -> & Sp & I)|[(c & -> & I)|He]].
    { destruct e as [b w|c|v]; [right; now right| |right; now right]. destruct (smem (c_name c) (heads es)) eqn:E.
      - apply smem_In in E.
        assert (Special (c_name c) \/ ~ Special (c_name c)) as [Sp|Sp].
        { unfold Special. destruct (str_eqb_spec (c_name c) (L "general")); [auto|]. destruct (str_eqb_spec (c_name c) (L "globals")); tauto. }
        + right. left. exists c. auto.
        + left. exists c. auto.
      - right. left. exists c. split; [easy|]. right. intros K. apply smem_In in K. congruence. }
    + destruct (IH (S k)) as (es' & fr & A & ND & K).
      exists (ECtx (Ctx (repeat 120 k) (c_templates c) (c_comment c) (c_where c)) :: es'), ((repeat 120 k, c_name c) :: fr).
      split; [now apply As_wiped|]. cbn [map fst]. split.
      * constructor; [|easy]. intros X. apply K in X as (j & X). apply (f_equal (@List.length N)) in X. rewrite !repeat_length in X. lia.
      * intros n [<-|X]; [now exists 0%nat|]. apply K in X as (j & ->). exists (S j). f_equal. lia.
    + destruct (IH k) as (es' & fr & A & ND & K). exists (ECtx c :: es'), fr. split; [now apply As_kept|auto].
    + destruct (IH k) as (es' & fr & A & ND & K). exists (e :: es'), fr. split; [now apply As_other|auto].
Qed.
Lemma new_names es : exists es' fr, Aside es es' fr /\ New es fr.
Proof.
  set (k := (S (List.fold_right (fun n a => Nat.max (length n) a) 0 (heads es)) + 8)%nat).
  destruct (aside_exists es k) as (es' & fr & A & ND & K). exists es', fr. split; [easy|]. split; [easy|].
  assert (forall (l : list str) (n : str), In n l -> (length n <= List.fold_right (fun n a => Nat.max (length n) a) 0 l)%nat) as B.
  { induction l as [|x l IHl]; [easy|]. cbn [In fold_right]. intros n [->|H]; [lia|]. specialize (IHl n H). lia. }
  intros n H. apply K in H as (j & ->). split.
  - intros [X|X]; apply (f_equal (@List.length N)) in X; rewrite repeat_length in X; cbn in X; unfold k in X; lia.
  - intros X. apply B in X. rewrite repeat_length in X. unfold k in X. lia.
Qed.

(* The names, in the order of their last headers. *)
Lemma names_order es l d : vg_steps U FT AT dp_init es = (l, Ok d) ->
  map dc_name (dp_ctxs d) = last_names (ordinary (heads es)).
Proof.
  intros H. pose proof (ok_once _ _ _ H) as O. destruct (new_names es) as (es' & fr & A & ND & NS).
  assert (forall n o, In (n, o) fr -> lookup n fr = Some o) as HF by (intros; now apply lookup_nodup).
  assert (forall n, In n (heads es) -> lookup n fr = None) as HN.
  { intros n Hn. destruct (lookup n fr) eqn:E; [|easy]. exfalso.
    assert (In n (map fst fr)) as K by (apply smem_In; rewrite <- lookup_keys, E; reflexivity). now apply NS in K. }
  assert (forall n, In n (map fst fr) -> ~ Special n) as NS' by (intros n Hn; now apply NS).
  assert (mrel (fun e e' => Sim fr e e' /\ map dc_name (dp_ctxs e') = plain_heads es')
    (vg_steps U FT AT dp_init es) (dp_steps U FT AT dp_init es')) as [_ R].
  { apply (steps_back fr U FT AT es es' fr A dp_init dp_init); try easy.
    constructor; cbn; try easy; [now repeat constructor|constructor]. }
  rewrite H in R. cbn [snd rrel] in R. destruct (dp_steps U FT AT dp_init es') as [l' [d'|e|]]; try easy. cbn [snd rrel] in R.
  destruct R as [S E]. rewrite (si_ctxs _ _ _ S).
  assert (forall cs, map dc_name (keep_last cs) = last_names (map dc_name cs)) as KL.
  { induction cs as [|c cs IH]; [easy|]. cbn [keep_last map last_names]. destruct (smem (dc_name c) (map dc_name cs)); [easy|].
    cbn [map]. now rewrite IH. }
  rewrite KL. f_equal. rewrite map_map. change (fun x => dc_name (back fr x)) with (fun x => orig fr (dc_name x)).
  rewrite <- map_map, E. now rewrite (orig_heads fr es es' fr A HF HN NS').
Qed.
End More.

(* ---- The other two parsers ---- *)
Definition strip (s : nat * ctx * list varset) : ctx * list varset := (snd (fst s), snd s).
Lemma remove_id_none k l : Forall (fun s => (fst (fst s) < k)%nat) l -> remove_id k l = l.
Proof.
  induction 1 as [|[[k' c] vs] l H _ IH]; [easy|]. cbn [remove_id fst] in *. destruct (Nat.eqb_spec k k'); [lia|]. now rewrite IH.
Qed.
Lemma ag_same es : forall k st, Forall (fun s => (fst (fst s) < k)%nat) st ->
  fst (vg_ag_steps k st es) = fst (ag_steps (map strip st) es) /\
  match snd (vg_ag_steps k st es), snd (ag_steps (map strip st) es) with
  | Ok a, Ok b => map strip a = b | _, _ => False end.
Proof.
  induction es as [|e es IH]; intros k st H; [now cbn|]. cbn [vg_ag_steps ag_steps].
  assert (Forall (fun s => (fst (fst s) < S k)%nat) st) as H' by (eapply Forall_impl; [|exact H]; cbn; intros; lia).
  destruct e as [b w|c|v]; cbn [vg_ag_element ag_element wbind wret fst snd].
  - destruct (IH (S k) st H') as [A B]. unfold wbind. cbn. now rewrite A.
  - rewrite (remove_id_none k st H). destruct (IH (S k) ((k, c, []) :: st)) as [A B]; [constructor; [cbn; lia|easy]|].
    unfold wbind. cbn in *. now rewrite A.
  - destruct st as [|[[k' c] vs] st].
    + destruct (IH (S k) [] H') as [A B]. unfold wbind. cbn in *. now rewrite A.
    + inversion H as [|? ? H1 H2]; subst. destruct (IH (S k) ((k', c, vs ++ [v]) :: st)) as [A B].
      { inversion H'; subst. now constructor. }
      unfold wbind. cbn in *. now rewrite A.
Qed.
Lemma ag_run_same es : vg_ag_run es = ag_run es.
Proof.
  unfold vg_ag_run, ag_run. destruct (ag_same es 0 [] (Forall_nil _)) as [A B]. cbn [map] in A, B.
  destruct (vg_ag_steps 0 [] es) as [l [a|e|]], (ag_steps [] es) as [l' [b|e'|]]; cbn [fst snd] in *; try easy. subst.
  unfold wbind. cbn. now rewrite <- map_rev.
Qed.

Lemma vg_suffices U FT AT es es' fr h l : Aside es es' fr -> New es fr -> Once es -> History U FT AT es' h l ->
  (exists js, JumpsOf U h js) -> exists d, vg_steps U FT AT dp_init es = (l, Ok d).
Proof.
  intros A N O H J. destruct (history_steps U FT AT es' h l H J) as (d' & E). destruct (same_run U FT AT es es' fr A N O) as [EL R].
  rewrite E in EL, R. cbn [fst snd] in EL, R. destruct (vg_steps U FT AT dp_init es) as [l0 [d|e|]]; try easy.
  cbn [fst] in EL. subst l0. now exists d.
Qed.
