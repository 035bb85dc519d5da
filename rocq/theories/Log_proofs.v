(* A traversal of everything that is logged in a run: a predicate on logs and
   outcomes that holds for every raise site and is closed under sequencing holds
   for whole runs. *)
From Verif Require Import Vg VgRead VgPlan VgCheck Base Utf8 Regex PyStr Regex Defines FileRd Config VSpace Pattern Var VarFun AppM Dialplan FuncOdbc
  Spec_Log VarFun_proofs.

Definition good_res (r : res str) : Prop := r <> Hang /\ forall e, r = Exn e -> e = AttributeError.
Definition good_arg (a : arg) : Prop := match a with AObj s _ => good_res s | _ => True end.
Lemma good_ok s : good_res (Ok s).
Proof. split; easy. Qed.
Lemma good_targ t : good_arg (targ t).
Proof. destruct t; try exact I; (split; [apply str_of_nohang|apply str_of_exn]). Qed.
Lemma good_larg l : good_arg (larg l).
Proof. exact I. Qed.
Lemma good_slarg s : good_arg (sl_arg s).
Proof. destruct s as [t|l]; [|exact I]. cbn. now destruct (str_of t). Qed.
Lemma good_jarg q : good_arg (jarg q).
Proof. destruct q; [exact I|apply good_targ|apply good_larg]. Qed.

Lemma mw_bind {A B} (m : W A) (f : A -> W B) : mw (wbind m f) = mbind (mw m) (fun a => mw (f a)).
Proof. destruct m as [l [a|e|]]; unfold mw; cbn; [|easy|easy]. now rewrite map_app. Qed.

Section Traverse.
Variable U : uni.
Variable FT : ftable.
Variable AT : atable.
Variable P : list lev -> res unit -> Prop.
Variable Wh : loc -> Prop.
Hypothesis P_nil : forall o, P [] o.
Hypothesis P_app : forall l l' o, P l (Ok tt) -> P l' o -> P (l ++ l') o.
Hypothesis P_vpe : forall l l' o, P l (Exn VarParseError) -> P l' o -> P (l ++ l') o.
Hypothesis P_pe : forall l e, P l (Exn e) -> P l (Exn ProgrammingError).
Hypothesis P_var : forall v w, Wh w -> P [LVar v w] (Ok tt).
Hypothesis P_msg : forall c w prev args, Wh w -> (forall q, prev = Some q -> Wh q) ->
  In (c, map fst args) raise_sites -> c <> E_APP_MISSING -> c <> E_FUNC_MISSING -> c <> H_PAT_NON_CANONICAL ->
  (forall a, In a args -> good_arg (snd a)) ->
  P [LMsg (Msg c w prev args)] (format_ok (mfields c) args).

Definition inv {A} (m : M A) : Prop := P (fst m) (let! _ := snd m in Ok tt).

Hypothesis P_hint : forall w p x, Wh w ->
  inv (memit H_PAT_NON_CANONICAL w [(L "pat", AStr p); (L "expected", AStr x)]).
Hypothesis P_none : forall w, Wh w -> inv (memit E_APP_MISSING w [(L "app", AStr (L "(none)"))]).
Hypothesis P_func : forall f w, Wh w -> inv (func_check U FT f w).
Hypothesis P_appl : forall app w, Wh w ->
  inv (do* a <- app_get AT (u_lower U app); do* _ <- check_availability a app w; mret a).

Lemma inv_bind {A B} (m : M A) (f : A -> M B) : inv m -> (forall a, snd m = Ok a -> inv (f a)) -> inv (mbind m f).
Proof.
  unfold inv. destruct m as [l [a|e|]]; cbn; intros H1 H2; [|easy|easy].
  apply P_app; [easy|]. now apply H2.
Qed.
Lemma inv_bind' {A B} (m : M A) (f : A -> M B) : inv m -> (forall a, inv (f a)) -> inv (mbind m f).
Proof. intros H1 H2. apply inv_bind; auto. Qed.
Lemma inv_nil {A} (r : res A) : inv ([], r).
Proof. apply P_nil. Qed.

Lemma inv_emit c w prev args : Wh w -> (forall q, prev = Some q -> Wh q) ->
  In (c, map fst args) raise_sites -> c <> E_APP_MISSING -> c <> E_FUNC_MISSING -> c <> H_PAT_NON_CANONICAL ->
  (forall a, In a args -> good_arg (snd a)) -> inv (mw (emit c w prev args)).
Proof.
  intros H1 H2 H3 H4 H5 H5' H6. unfold inv, emit.
  assert (X : P [LMsg (Msg c w prev args)] (let! _ := format_ok (mfields c) args in Ok tt)).
  { replace (let! _ := format_ok (mfields c) args in Ok tt) with (format_ok (mfields c) args).
    - now apply P_msg.
    - now destruct (format_ok (mfields c) args) as [[]| |]. }
  destruct (mdupe c); [|exact X]. destruct prev; [exact X|apply P_nil].
Qed.

Ltac site := cbv [map fst app]; unfold raise_sites; repeat (first [left; reflexivity | right]).
Ltac garg := let a := fresh in let H := fresh in intros a H; cbn [app In] in H;
  repeat (destruct H as [<-|H]; [cbn [snd]; solve [exact I | apply good_targ | apply good_larg | apply good_slarg | apply good_jarg]|]);
  destruct H.
Ltac em := unfold memit; apply inv_emit; [assumption|intros ? ?; try discriminate|site|discriminate|discriminate|discriminate|garg].
Ltac step := match goal with
  | |- inv ([], _) => apply inv_nil
  | |- inv (mret _) => apply inv_nil
  | |- inv (mexn _) => apply inv_nil
  | |- inv (mlift _) => apply inv_nil
  | |- inv (memit _ _ _) => em
  | |- inv (mbind _ _) => apply inv_bind'; [|intros ?]
  | |- inv (match ?x with _ => _ end) => destruct x
  end.
Ltac go := repeat (step; cbn [fst snd]).

Lemma inv_count v w : Wh w -> inv (count_var v w).
Proof. intros H. unfold count_var. go. now apply P_var. Qed.
Lemma inv_base data w : Wh w -> inv (base_call data w).
Proof. intros H. unfold base_call. go. Qed.
Lemma inv_write call dest w : Wh w -> (forall f d, inv (call f d w)) -> inv (process_write U FT call dest w).
Proof. intros H HC. unfold process_write. go; auto. Qed.
Lemma inv_assignment call data w : Wh w -> (forall f d, inv (call f d w)) -> inv (parse_assignment U FT call data w).
Proof. intros H HC. unfold parse_assignment. go; auto. now apply inv_write. Qed.
Lemma inv_fcall k : forall f data w, Wh w -> inv (func_call U FT k f data w).
Proof.
  induction k as [|k IH]; intros f data w H; cbn [func_call]; [go|].
  destruct (f_kind f).
  - now apply inv_base.
  - apply inv_bind'; [apply inv_assignment; auto|]. intros _. now apply inv_base.
  - go; try now apply inv_base. now apply inv_count.
  - go; try now apply inv_base.
Qed.
Lemma inv_call f data w : Wh w -> inv (call_func U FT f data w).
Proof. apply inv_fcall. Qed.
Lemma inv_assign data w : Wh w -> inv (assign U FT data w).
Proof. intros H. apply inv_assignment; [easy|]. intros. now apply inv_call. Qed.
Lemma inv_slice data w : Wh w -> inv (split_slice U data w).
Proof. intros H. unfold split_slice, sl_start, sl_length. go. Qed.
Lemma inv_read data w : Wh w -> inv (process_read U FT data w).
Proof.
  intros H. unfold process_read. cbn zeta. go; try (now apply inv_slice); try (now apply P_func); try (now apply inv_call).
Qed.
Lemma inv_pslice data w : Wh w -> inv (process_slice U data w).
Proof. intros H. unfold process_slice. go; try (now apply inv_slice); try (now apply inv_count). Qed.
Lemma inv_variable data w : Wh w -> inv (process_variable U FT data w).
Proof. intros H. unfold process_variable. go; try (now apply inv_read); try (now apply inv_pslice); try (now apply inv_count). Qed.
Lemma inv_loop k : forall acc data w, Wh w -> inv (parse_loop U FT k acc data w).
Proof.
  induction k as [|k IH]; intros acc data w H; cbn [parse_loop]; [go|].
  destruct (scan data) as [[[pre x] rest]|]; [|go]. destruct (find_end x (close_of x) 1 rest) as [[[inner rest'] more]|]; [|go].
  apply inv_bind'; [destruct more; [now apply IH|go]|]. intros d.
  apply inv_bind'; [destruct (x =? 123); [now apply inv_variable|go]|]. intros v. now apply IH.
Qed.
Lemma inv_vars data w : Wh w -> inv (parse_variables U FT data w).
Proof. apply inv_loop. Qed.

(* ---- applications ---- *)
Lemma inv_minmax name mn mx args w : Wh w -> inv (minmax name mn mx args w).
Proof. intros H. unfold minmax. cbn zeta. destruct mn; go. Qed.
Lemma inv_nopipe name data args w : Wh w -> inv (nopipe name data args w).
Proof. intros H. unfold nopipe. go. Qed.
Lemma inv_validate1 name n k a w : Wh w -> inv (validate_arg name n k a w).
Proof. intros H. unfold validate_arg. cbn zeta. go. Qed.
Lemma inv_validate ks : forall name n args w, Wh w -> inv (validate name n ks args w).
Proof.
  induction ks as [|k ks IH]; intros name n args w H; cbn [validate]; [go|]. destruct args; [go|].
  apply inv_bind'; [now apply inv_validate1|]. intros _. now apply IH.
Qed.
Lemma inv_if name data w : Wh w -> inv (if_args name data w).
Proof. intros H. unfold if_args. cbn zeta. go. Qed.
Lemma inv_varcond name data w : Wh w -> inv (varcond_args name data w).
Proof. intros H. unfold varcond_args. go. now apply inv_if. Qed.
Lemma inv_mmap {A B} (f : A -> M B) l : (forall x, inv (f x)) -> inv (mmap f l).
Proof. intros H. induction l as [|x l IH]; cbn [mmap]; [go|]. go; auto. Qed.
Lemma inv_gprio p w : Wh w -> inv (gosub_prio p w).
Proof. intros H. unfold gosub_prio. go. Qed.
Lemma inv_gdest name b args w : Wh w -> inv (gosub_dest name b args w).
Proof. intros H. unfold gosub_dest. go. now apply inv_gprio. Qed.
Lemma inv_abase d w : Wh w -> inv (abase_call d w).
Proof. intros H. unfold abase_call. go. Qed.
Lemma inv_acall nested a d w : Wh w -> (forall x, inv (nested x)) -> inv (app_call U FT nested a d w).
Proof.
  intros H HN.
  assert (HS : forall mn mx, inv (do* _ <- minmax (a_name a) mn mx (separate_args (SlTok d) 44 false) w; mret (separate_args (SlTok d) 44 false))).
  { intros. go. now apply inv_minmax. }
  unfold app_call. cbn zeta. destruct (a_kind a).
  - go. now apply inv_abase.
  - go. now apply inv_abase.
  - apply inv_bind'; [apply HS|]. intros args. apply inv_bind'; [now apply inv_nopipe|]. intros _. go.
  - apply inv_bind'; [now apply inv_varcond|]. intros [[c t] f]. apply inv_mmap. intros. go.
  - apply inv_bind'; [now apply inv_if|]. intros ?. go.
  - apply inv_bind'; [now apply inv_assign|]. intros _. go. now apply inv_abase.
  - apply inv_bind'; [now apply inv_varcond|]. intros [[c t] f]. apply inv_bind'; [now apply inv_mmap|]. intros ?. go.
  - apply inv_bind'; [apply HS|]. intros args. apply inv_bind'; [now apply inv_nopipe|]. intros _.
    apply inv_bind'; [now apply inv_gdest|]. intros ?. go.
  - apply inv_bind'; [now apply inv_varcond|]. intros [[c t] f]. apply inv_mmap. intros. now apply inv_gdest.
  - apply inv_bind'; [apply HS|]. intros args'. apply inv_bind'; [now apply inv_validate|]. intros _. apply inv_bind'; [now apply inv_nopipe|]. intros _. go.
Qed.
Lemma inv_inner app data w : Wh w -> inv (parse_inner U FT app data w).
Proof.
  intros H. unfold parse_inner. destruct (has_sub data); [|go].
  pose proof (inv_vars data w H) as V. destruct (parse_variables U FT data w) as [l [t|e|]]; try exact V.
  destruct e; try exact V. cbn [fst snd]. unfold inv in V |- *. cbn [fst snd bind] in V |- *.
  apply P_vpe; [exact V|].
  apply (inv_bind' (memit E_APP_PARSE_ERROR w [(L "app", AStr app); (L "args", AStr data)]) (fun _ => mret (TS data))); [em|].
  intros _. go.
Qed.
Lemma inv_split t w : Wh w -> inv (split_app U t w).
Proof. intros H. unfold split_app. cbn zeta. go. now apply P_none. Qed.
Lemma mbind_ext' {A B} (m : M A) (f g : A -> M B) : (forall a, f a = g a) -> mbind m f = mbind m g.
Proof. intros H. destruct m as [l [a|e|]]; cbn; [now rewrite H|easy|easy]. Qed.
Lemma inv_new k : forall raw w, Wh w -> inv (app_new U FT AT k raw w).
Proof.
  induction k as [|k IH]; intros raw w H; cbn [app_new]; [go|]. destruct raw as [t|l]; [|go].
  apply inv_bind'; [now apply inv_split|]. intros [[app data]|]; [|go].
  replace (do* a <- app_get AT (u_lower U app); do* _ <- check_availability a app w;
           do* d <- parse_inner U FT app data w; app_call U FT (fun r => do* _ <- app_new U FT AT k r w; mret tt) a d w)
    with (do* a <- (do* a <- app_get AT (u_lower U app); do* _ <- check_availability a app w; mret a);
          do* d <- parse_inner U FT app data w; app_call U FT (fun r => do* _ <- app_new U FT AT k r w; mret tt) a d w).
  - apply inv_bind'; [now apply P_appl|]. intros a. apply inv_bind'; [now apply inv_inner|]. intros d.
    apply inv_acall; [easy|]. intros r. go. now apply IH.
  - rewrite mbind_assoc. apply mbind_ext'. intros a. rewrite mbind_assoc. apply mbind_ext'. intros _.
    unfold mbind at 1, mret. cbn [fst snd List.app]. now destruct (do* d <- _; _).
Qed.
Lemma inv_application raw w : Wh w -> inv (application U FT AT raw w).
Proof. apply inv_new. Qed.

(* ---- the dialplan ---- *)
Definition CacheOk (pc : pcache) : Prop :=
  (forall s e, In (s, e) (pc_labels pc) -> Wh (x_where e)) /\ (forall q e, In (q, e) (pc_prios pc) -> Wh (x_where e)).
Definition CtxOk (c : dctx) : Prop := Wh (dc_where c) /\ forall k pc, In (k, pc) (dc_cache c) -> CacheOk pc.
Definition PlanOk (d : dplan) : Prop :=
  (forall w, dp_general d = Some w -> Wh w) /\ (forall w, dp_globals d = Some w -> Wh w) /\
  Forall CtxOk (dp_ctxs d) /\ Forall (fun j => Wh (j_where j)) (g_jumps (dp_glob d)).

Lemma inv_check g c x : Wh (i_where x) -> inv (add_check g c x).
Proof. intros H. unfold add_check. cbn zeta. go. Qed.
Lemma zlookup_In {A} k (l : list (Z * A)) v : zlookup k l = Some v -> In (k, v) l.
Proof.
  induction l as [|[k' v'] l IH]; cbn; [easy|]. destruct (Z.eqb_spec k k') as [->|]; [|now right; apply IH].
  intros [= ->]. now left.
Qed.
Lemma lookup_In' {A} k (l : list (str * A)) v : lookup k l = Some v -> In (k, v) l.
Proof.
  induction l as [|[k' v'] l IH]; cbn; [easy|]. destruct (str_eqb_spec k k') as [->|]; [|now right; apply IH].
  intros [= ->]. now left.
Qed.
Lemma inv_cache c p q x : Wh (i_where x) -> CtxOk c -> inv (add_cache c p q x) /\
  forall lb pc ls, snd (add_cache c p q x) = Ok (Some (lb, pc, ls)) -> CacheOk pc.
Proof.
  intros H [HC1 HC2]. unfold add_cache. cbn zeta.
  destruct (lookup (canonical (pv p)) (dc_cache c)) as [pc|] eqn:EL.
  - apply lookup_In' in EL. destruct (HC2 _ _ EL) as [KL KP].
    destruct (zlookup q (pc_prios pc)) as [old|] eqn:EZ.
    + apply zlookup_In in EZ. split.
      * apply inv_bind'; [|intros ?; go]. apply inv_emit; try discriminate; [easy| |site|garg]. intros ? [= <-]. eapply KP. exact EZ.
      * intros lb pc' ls. unfold emit. cbn. easy.
    + destruct (lab (i_label x)) as [s|] eqn:EB.
      * destruct (lookup s (pc_labels pc)) as [old|] eqn:ELB.
        -- apply lookup_In' in ELB. split.
           ++ apply inv_bind'; [|intros ?; go]. apply inv_emit; try discriminate; [easy| |site|garg]. intros ? [= <-]. eapply KL. exact ELB.
           ++ intros lb pc' ls. unfold emit. cbn. intros [= <- <- <-]. split; [exact KL|].
              intros q' e [[= <- <-]|HI]; [exact H|]. eapply KP. exact HI.
        -- split; [go|]. cbn. intros lb pc' ls [= <- <- <-]. split.
           ++ intros s' e [[= <- <-]|HI]; [exact H|]. eapply KL. exact HI.
           ++ intros q' e [[= <- <-]|HI]; [exact H|]. eapply KP. exact HI.
      * split; [go|]. cbn. intros lb pc' ls [= <- <- <-]. split; [exact KL|].
        intros q' e [[= <- <-]|HI]; [exact H|]. eapply KP. exact HI.
  - split; [go|]. cbn. intros lb pc' ls [= <- <- <-]. split; cbn.
    + intros s e. destruct (lab (i_label x)); [|easy]. intros [[= <- <-]|[]]. exact H.
    + intros q' e [[= <- <-]|[]]. exact H.
Qed.
Lemma mk_jumps_where name p w ds : forall js, mk_jumps U name p w ds = Ok js -> Forall (fun j => j_where j = w) js.
Proof.
  induction ds as [|d ds IH]; intros js; cbn [mk_jumps]; [intros [= <-]; constructor|].
  destruct (mk_jump U name p w d) as [j| |] eqn:EJ; cbn [bind]; try easy.
  destruct (mk_jumps U name p w ds) as [js'| |]; cbn [bind]; try easy. intros [= <-].
  constructor; [|now apply IH]. unfold mk_jump in EJ. cbn zeta in EJ.
  destruct (match d_ext d with Some t => _ | None => _ end) as [e| |]; cbn [bind] in EJ; try discriminate.
  destruct (match d_prio d with SlTok (TS s) => _ | _ => _ end) as [q| |]; cbn [bind] in EJ; try discriminate.
  now injection EJ as <-.
Qed.
Lemma mbind_snd {A B} (m : M A) (f : A -> M B) b : snd (mbind m f) = Ok b -> exists a, snd m = Ok a /\ snd (f a) = Ok b.
Proof. destruct m as [l [a|e|]]; cbn; try easy. intros H. now exists a. Qed.
Lemma inv_add g c x : Wh (i_where x) -> CtxOk c -> Forall (fun j => Wh (j_where j)) (g_jumps g) ->
  inv (ctx_add U g c x) /\ forall g' c', snd (ctx_add U g c x) = Ok (g', c') ->
    CtxOk c' /\ Forall (fun j => Wh (j_where j)) (g_jumps g').
Proof.
  intros H HC HJ. unfold ctx_add. cbn zeta. split.
  - apply inv_bind'; [now apply inv_check|]. intros [[p q]|]; [|go].
    apply inv_bind'; [now apply inv_cache|]. intros o. go.
  - intros g' c' E. apply mbind_snd in E as (r & _ & E). destruct r as [[p q]|].
    + apply mbind_snd in E as (o & EO & E). destruct o as [[[lb pc] ls]|].
      * apply mbind_snd in E as (js & EJ & E). cbn in EJ, E. injection E as <- <-. apply mk_jumps_where in EJ.
        destruct (inv_cache c p q x H HC) as [_ K]. apply K in EO. split.
        -- split; [apply HC|]. cbn. intros k pc' [[= <- <-]|HI]; [exact EO|]. eapply HC. exact HI.
        -- cbn. apply Forall_app. split; [easy|]. eapply Forall_impl; [|exact EJ]. cbn. intros j ->. exact H.
      * cbn in E. injection E as <- <-. split; [exact HC|exact HJ].
    + cbn in E. injection E as <- <-. split; [exact HC|exact HJ].
Qed.

Lemma inv_arrow v : Wh (v_where v) -> inv (expect_arrow v).
Proof. intros H. unfold expect_arrow. go. Qed.
Lemma inv_from v : Wh (v_where v) -> inv (from_varset U FT AT v).
Proof.
  intros H. unfold from_varset. cbn zeta. destruct (_ || _).
  - apply inv_bind'; [now apply inv_arrow|]. intros _. apply inv_bind'; [go|]. intros [pat rest].
    destruct (match cut1 44 rest with Some r => r | None => (rest, []) end) as [prio0 app].
    destruct (match cut1 40 prio0 with Some (a, b) => (a, Some b) | None => (prio0, None) end) as [prio label].
    apply inv_bind'; [go|]. intros [q|]; [|go]. apply inv_bind'; [go|]. intros [lb|]; [|go].
    apply inv_bind'; [go|]. intros p. apply inv_bind'; [now apply inv_application|]. intros ds. go.
  - go; now apply inv_arrow.
Qed.
Lemma from_where v dv : snd (from_varset U FT AT v) = Ok (Some dv) ->
  match dv with DExt x => i_where x = v_where v | DInc _ w => w = v_where v end.
Proof.
  unfold from_varset. cbn zeta. destruct (_ || _).
  - intros E. apply mbind_snd in E as (? & _ & E). apply mbind_snd in E as ([pat rest] & _ & E).
    destruct (match cut1 44 rest with Some r => r | None => (rest, []) end) as [prio0 app].
    destruct (match cut1 40 prio0 with Some (a, b) => (a, Some b) | None => (prio0, None) end) as [prio label].
    apply mbind_snd in E as ([q|] & _ & E); [|discriminate]. apply mbind_snd in E as ([lb|] & _ & E); [|discriminate].
    apply mbind_snd in E as (p & _ & E). apply mbind_snd in E as (ds & _ & E). cbn in E. now injection E as <-.
  - repeat match goal with |- context [if ?b then _ else _] => destruct b end; intros E; apply mbind_snd in E as (? & _ & E);
    try (apply mbind_snd in E as (? & _ & E)); cbn in E; try discriminate. now injection E as <-.
Qed.

Lemma inv_general d w : Wh w -> PlanOk d -> inv (add_general d w) /\ forall d', snd (add_general d w) = Ok d' -> PlanOk d'.
Proof.
  intros H (G & GL & C & J). unfold add_general. destruct (dp_general d) as [old|] eqn:E.
  - split; [|cbn; easy]. apply inv_bind'; [|intros; go]. apply inv_emit; try discriminate; [easy| |site|garg].
    intros ? [= <-]. now apply G.
  - split; [destruct (dp_globals d), (dp_ctxs d); go|]. intros d' ED.
    apply mbind_snd in ED as (? & _ & ED). cbn in ED. injection ED as <-. split; [|now split]. cbn. now intros ? [= <-].
Qed.
Lemma inv_globals d w : Wh w -> PlanOk d -> inv (add_globals d w) /\ forall d', snd (add_globals d w) = Ok d' -> PlanOk d'.
Proof.
  intros H (G & GL & C & J). unfold add_globals. destruct (dp_globals d) as [old|] eqn:E.
  - split.
    + apply inv_bind'; [|intros; go]. apply inv_emit; try discriminate; [easy| |site|garg].
      intros ? [= <-]. now apply GL.
    + intros d' ED. apply mbind_snd in ED as (? & _ & ED). cbn in ED. injection ED as <-. split; [easy|]. split; [|easy]. cbn. first [exact GL|rewrite <- E; exact GL|rewrite E in *; exact GL].
  - split; [destruct (dp_general d), (dp_ctxs d); go|]. intros d' ED.
    apply mbind_snd in ED as (? & _ & ED). cbn in ED. injection ED as <-. split; [easy|]. split; [|easy]. cbn. now intros ? [= <-].
Qed.
Lemma set_ctx_Forall (Q : dctx -> Prop) c l : Q c -> Forall Q l -> Forall Q (set_ctx c l).
Proof. intros HC. induction 1 as [|x l HX F IH]; cbn; [constructor|]. destruct (str_eqb _ _); constructor; auto. Qed.
Lemma find_ctx_Forall (Q : dctx -> Prop) n l c : Forall Q l -> find_ctx n l = Some c -> Q c.
Proof. induction 1 as [|x l HX F IH]; cbn; [easy|]. destruct (str_eqb _ _); [now intros [= <-]|exact IH]. Qed.
Lemma inv_context d c : Wh (c_where c) -> PlanOk d -> inv (on_context d c) /\ forall d', snd (on_context d c) = Ok d' -> PlanOk d'.
Proof.
  intros H HP. unfold on_context. destruct (str_eqb _ _); [now apply inv_general|]. destruct (str_eqb _ _); [now apply inv_globals|].
  destruct HP as (G & GL & C & J). split.
  - destruct (c_templates c); go.
  - intros d' E. apply mbind_snd in E as (? & _ & E). destruct (find_ctx (c_name c) (dp_ctxs d)) as [old|] eqn:EF.
    + apply mbind_snd in E as (new & EN & E). cbn in E. injection E as <-. split; [easy|]. split; [easy|]. split; [|easy].
      apply set_ctx_Forall; [|easy]. pose proof (find_ctx_Forall _ _ _ _ C EF) as K. cbn in EN. unfold ctx_update in EN.
      destruct (c_comment c); [discriminate|]. destruct (c_templates c); [|discriminate]. injection EN as <-. split; [exact H|apply K].
    + cbn in E. injection E as <-. split; [easy|]. split; [easy|]. split; [|easy]. cbn. apply Forall_app. split; [easy|].
      constructor; [|constructor]. split; [exact H|easy].
Qed.
Lemma inv_varset d v : Wh (v_where v) -> PlanOk d -> inv (on_varset U FT AT d v) /\ forall d', snd (on_varset U FT AT d v) = Ok d' -> PlanOk d'.
Proof.
  intros H HP. unfold on_varset. destruct (dp_cur d) as [| |name].
  - split; [go|]. intros d' E. apply mbind_snd in E as (? & _ & E). cbn in E. now injection E as <-.
  - split; [go|]. cbn. now intros d' [= <-].
  - assert (K : forall dv, snd (from_varset U FT AT v) = Ok (Some dv) ->
      match dv with DExt x => Wh (i_where x) | DInc _ w => Wh w end).
    { intros dv E. apply from_where in E. destruct dv; subst; [now rewrite E|easy]. }
    destruct HP as (G & GL & C & J). split.
    + apply inv_bind; [now apply inv_from|]. intros [dv|] EO; [|go]. destruct (find_ctx name (dp_ctxs d)) as [c|] eqn:EF; [|go].
      specialize (K _ EO). destruct dv as [x|n w]; [|go]. apply inv_bind'; [destruct (i_pat x) as [p|]; [destruct (is_canonical p); [go|now apply P_hint]|go]|]. intros _. apply inv_bind'; [|intros [g c']; go].
      apply inv_add; [easy| |easy]. eapply find_ctx_Forall; [exact C|exact EF].
    + intros d' E. apply mbind_snd in E as (o & EO & E). destruct o as [dv|]; [|cbn in E; injection E as <-; now split].
      destruct (find_ctx name (dp_ctxs d)) as [c|] eqn:EF; [|discriminate]. pose proof (find_ctx_Forall _ _ _ _ C EF) as KC.
      specialize (K _ EO). destruct dv as [x|n w].
      * apply mbind_snd in E as (? & _ & E). apply mbind_snd in E as ([g c'] & EA & E). cbn in E. injection E as <-.
        destruct (inv_add (dp_glob d) c x K KC J) as [_ KA]. destruct (KA _ _ EA) as [KA1 KA2].
        split; [easy|]. split; [easy|]. split; [now apply set_ctx_Forall|easy].
      * cbn in E. injection E as <-. split; [easy|]. split; [easy|]. split; [|easy]. now apply set_ctx_Forall.
Qed.
Lemma inv_element d e : Wh (e_where e) -> PlanOk d -> inv (on_element U FT AT d e) /\ forall d', snd (on_element U FT AT d e) = Ok d' -> PlanOk d'.
Proof.
  intros H HP. unfold on_element. cbn zeta.
  set (m := match e with ECtx c => on_context d c | EVar v => on_varset U FT AT d v | EEmpty _ _ => mret d end).
  assert (K : inv m /\ forall d', snd m = Ok d' -> PlanOk d').
  { unfold m. destruct e; [split; [go|cbn; now intros d' [= <-]]|now apply inv_context|now apply inv_varset]. }
  destruct m as [l [d1|x|]]; [exact K| |exact K]. destruct K as [K _]. split; [|easy]. unfold inv in *. cbn in *. now apply P_pe with x.
Qed.

Definition EvOk (ev : event) : Prop :=
  match ev with EvLine w _ _ => Wh w | EvMsg m => P [LMsg m] (Ok tt) | EvElem e => Wh (e_where e) end.
Lemma inv_stream evs o : Forall EvOk evs -> forall d, PlanOk d ->
  inv (dp_stream U FT AT d evs o) /\ forall d', snd (dp_stream U FT AT d evs o) = Ok d' -> PlanOk d'.
Proof.
  induction 1 as [|ev evs HE F IH]; intros d HP; cbn [dp_stream].
  - split; [go|]. cbn. intros d'. destruct o; cbn; try easy. now intros [= <-].
  - destruct ev as [w a b|m|e]; [now apply IH| |].
    + split.
      * apply inv_bind'; [exact HE|]. intros _. now apply IH.
      * intros d' E. apply mbind_snd in E as (? & _ & E). now apply (proj2 (IH d HP)).
    + destruct (inv_element d e HE HP) as [K1 K2]. split.
      * apply inv_bind; [exact K1|]. intros d1 E1. now apply IH, K2.
      * intros d' E. apply mbind_snd in E as (d1 & E1 & E). now apply (proj2 (IH d1 (K2 _ E1))).
Qed.

Hypothesis P_head : forall w c, Wh w -> c = H_DP_GENERAL_MISPLACED \/ c = H_DP_GLOBALS_MISPLACED ->
  inv (memit c (Where (w_file w) 0 []) []).
Lemma inv_complete d : PlanOk d -> inv (on_complete d).
Proof.
  intros (_ & _ & C & _). unfold on_complete. cbn zeta.
  destruct (dp_ctxs d) as [|c r]; [destruct (dp_general d), (dp_globals d); go|].
  assert (K : Wh (dc_where c)) by (inversion C as [|? ? C1 _]; apply C1).
  destruct (dp_general d), (dp_globals d); cbn [is_some]; go; apply P_head; auto.
Qed.
Lemma inv_parse fuel fs name : Forall EvOk (fst (vsw_stream (parse_file fuel fs name))) ->
  inv (parse_dialplan U FT AT fuel fs name) /\ forall d, snd (parse_dialplan U FT AT fuel fs name) = Ok d -> PlanOk d.
Proof.
  unfold parse_dialplan. destruct (vsw_stream (parse_file fuel fs name)) as [evs o]. cbn [fst]. intros F.
  assert (I0 : PlanOk dp_init) by (repeat split; try easy; constructor).
  destruct (inv_stream evs o F dp_init I0) as [K1 K2]. split.
  - apply inv_bind; [exact K1|]. intros d E. apply inv_bind'; [now apply inv_complete, K2|]. intros _. go.
  - intros d E. apply mbind_snd in E as (d1 & E1 & E). apply mbind_snd in E as (? & _ & E). cbn in E. injection E as <-. now apply K2.
Qed.
Lemma inv_jump fuel d j : Wh (j_where j) -> inv (check_jump fuel d j).
Proof. intros H. unfold check_jump. cbn zeta. go. Qed.
Lemma inv_walk d : PlanOk d -> inv (walk_jump_destinations d).
Proof.
  intros (_ & _ & _ & J). unfold walk_jump_destinations. generalize (jump_fuel d). intros n.
  induction J as [|j js HJ F IH]; cbn [walk_jumps]; [go|]. apply inv_bind'; [now apply inv_jump|]. intros _. exact IH.
Qed.

(* ---- func_odbc ---- *)
Definition winv {A} (m : W A) : Prop := inv (mw m).
Lemma winv_bind {A B} (m : W A) (f : A -> W B) : winv m -> (forall a, snd m = Ok a -> winv (f a)) -> winv (wbind m f).
Proof. intros H1 H2. unfold winv. rewrite mw_bind. apply inv_bind; [easy|]. cbn. exact H2. Qed.
Lemma winv_nil {A} (r : res A) : winv ([], r).
Proof. apply P_nil. Qed.
Ltac wstep := match goal with
  | |- winv ([], _) => apply winv_nil
  | |- winv (wret _) => apply winv_nil
  | |- winv (wexn _) => apply winv_nil
  | |- winv (wlift _) => apply winv_nil
  | |- winv (emit _ _ None _) => apply inv_emit; [assumption|discriminate|site|discriminate|discriminate|discriminate|garg]
  | |- winv (wbind _ _) => apply winv_bind; [|intros ? ?]
  | |- winv (match ?x with _ => _ end) => destruct x
  end.
Ltac wgo := repeat wstep.
Definition FoOk (o : ofunc) : Prop := Wh (of_where o) /\ Forall (fun v => Wh (v_where v)) (of_vars o).
Lemma inv_order l v : Wh (v_where v) -> Forall (fun v => Wh (v_where v)) l -> winv (check_order l v).
Proof.
  intros H F. unfold check_order. destruct (pos_of fo_order (v_variable v)) as [n|]; [|unfold key_arg; wgo]. destruct l as [|u l]; [wgo|].
  apply winv_bind; [wgo|]. intros ns _. destruct (existsb (Nat.eqb n) ns); [|unfold key_arg; wgo].
  destruct (filter _ (u :: l)) as [|y r] eqn:EF; [wgo|]. apply winv_bind; [|intros; wgo]. unfold key_arg. apply inv_emit; try discriminate; [easy| |site|garg].
  intros ? [= <-]. rewrite Forall_forall in F. apply F. apply (filter_In (fun u0 => str_eqb (v_variable u0) (v_variable v)) y (u :: l)).
  rewrite EF. now left.
Qed.
Lemma wbind_snd {A B} (m : W A) (f : A -> W B) b : snd (wbind m f) = Ok b -> exists a, snd m = Ok a /\ snd (f a) = Ok b.
Proof. destruct m as [l [a|e|]]; cbn; try easy. intros H. now exists a. Qed.
Lemma inv_foadd o v : Wh (v_where v) -> FoOk o -> winv (fo_add o v) /\ forall o', snd (fo_add o v) = Ok o' -> FoOk o'.
Proof.
  intros H [K1 K2]. unfold fo_add. split.
  - apply winv_bind; [now apply inv_order|]. intros; wgo.
  - intros o' E. apply wbind_snd in E as (b & _ & E). destruct b.
    + apply wbind_snd in E as (? & _ & E). cbn in E. injection E as <-. split; [easy|]. cbn. apply Forall_app. auto.
    + cbn in E. injection E as <-. now split.
Qed.
Lemma inv_foctx st c : Wh (c_where c) -> Forall FoOk st -> winv (fo_context st c) /\ forall st', snd (fo_context st c) = Ok st' -> Forall FoOk st'.
Proof.
  intros H F. unfold fo_context. split; [wgo|]. intros st' E. apply wbind_snd in E as (? & _ & E). apply wbind_snd in E as (? & _ & E).
  cbn in E. injection E as <-. constructor; [|easy]. split; [easy|constructor].
Qed.
Lemma inv_fovar st v : Wh (v_where v) -> Forall FoOk st -> winv (fo_varset st v) /\ forall st', snd (fo_varset st v) = Ok st' -> Forall FoOk st'.
Proof.
  intros H F. unfold fo_varset. split.
  - apply winv_bind; [wgo|]. intros _ _. destruct F as [|o r HO F]; [wgo|]. apply winv_bind; [now apply inv_foadd|]. intros; wgo.
  - intros st' E. apply wbind_snd in E as (? & _ & E). destruct F as [|o r HO F].
    + apply wbind_snd in E as (? & _ & E). cbn in E. injection E as <-. constructor.
    + apply wbind_snd in E as (o' & EO & E). cbn in E. injection E as <-. constructor; [|easy]. now apply (proj2 (inv_foadd o v H HO)).
Qed.
Lemma inv_foelem st e : Wh (e_where e) -> Forall FoOk st -> winv (fo_element st e) /\ forall st', snd (fo_element st e) = Ok st' -> Forall FoOk st'.
Proof.
  intros H F. unfold fo_element. cbn zeta.
  set (m := match e with ECtx c => fo_context st c | EVar v => fo_varset st v | EEmpty _ _ => wret st end).
  assert (K : winv m /\ forall st', snd m = Ok st' -> Forall FoOk st').
  { unfold m. destruct e; [split; [wgo|cbn; now intros st' [= <-]]|now apply inv_foctx|now apply inv_fovar]. }
  destruct m as [l [d1|x|]]; [exact K| |exact K]. destruct K as [K _]. split; [|easy]. unfold winv, inv in *. cbn in *. now apply P_pe with x.
Qed.
Lemma inv_fostream evs o : Forall EvOk evs -> forall st, Forall FoOk st ->
  winv (fo_stream st evs o) /\ forall st', snd (fo_stream st evs o) = Ok st' -> Forall FoOk st'.
Proof.
  induction 1 as [|ev evs HE F IH]; intros st HP; cbn [fo_stream].
  - split; [wgo|]. cbn. intros d'. destruct o; cbn; try easy. now intros [= <-].
  - destruct ev as [w a b|m|e]; [now apply IH| |].
    + split.
      * apply winv_bind; [exact HE|]. intros _ _. now apply IH.
      * intros d' E. apply wbind_snd in E as (? & _ & E). now apply (proj2 (IH st HP)).
    + destruct (inv_foelem st e HE HP) as [K1 K2]. split.
      * apply winv_bind; [exact K1|]. intros d1 E1. now apply IH, K2.
      * intros d' E. apply wbind_snd in E as (d1 & E1 & E). now apply (proj2 (IH d1 (K2 _ E1))).
Qed.
Lemma inv_fofin os : Forall FoOk os -> winv (fo_finish os).
Proof.
  induction 1 as [|o os [HO _] F IH]; cbn [fo_finish]; [wgo|]. destruct (any_read_write o).
  - apply winv_bind; [wgo|]. intros f _. apply winv_bind; [exact IH|]. intros; wgo.
  - apply winv_bind; [wgo|]. intros _ _. exact IH.
Qed.
Lemma inv_odbc fuel fs name : Forall EvOk (fst (vsw_stream (parse_file fuel fs name))) -> inv (mw (load_func_odbc fuel fs name)).
Proof.
  unfold load_func_odbc. destruct (vsw_stream (parse_file fuel fs name)) as [evs o]. cbn [fst]. intros F.
  destruct (inv_fostream evs o F [] (Forall_nil _)) as [K1 K2]. apply winv_bind; [exact K1|]. intros st E.
  apply inv_fofin. apply Forall_rev. now apply K2.
Qed.

(* ---- the stream of the parser ---- *)
Hypothesis fs : fsys.
Hypothesis Wh_line : forall name b pre text post, fs name = Ok b -> lines_of b = pre ++ text :: post ->
  Wh (Where name (N.of_nat (length pre) + 1) text).

Lemma P0 c w : Wh w -> In (c, []) raise_sites -> c <> E_APP_MISSING -> c <> E_FUNC_MISSING -> c <> H_PAT_NON_CANONICAL -> mfields c = [] -> P [LMsg (msg0 c w)] (Ok tt).
Proof. intros H1 H2 H3 H4 H4' H5. pose proof (P_msg c w None [] H1) as X. rewrite H5 in X. apply X; easy. Qed.
Lemma P1 c w k a : Wh w -> In (c, [k]) raise_sites -> c <> E_APP_MISSING -> c <> E_FUNC_MISSING -> c <> H_PAT_NON_CANONICAL -> (exists b, mfields c = [(k, b)]) ->
  P [LMsg (Msg c w None [(k, AStr a)])] (Ok tt).
Proof.
  intros H1 H2 H3 H4 H4' [b H5]. pose proof (P_msg c w None [(k, AStr a)] H1) as X. rewrite H5 in X. cbn in X. rewrite str_eqb_refl in X.
  apply X; try easy. now intros x [<-|[]].
Qed.
Definition Msgs (ms : list msg) : Prop := Forall (fun m => P [LMsg m] (Ok tt)) ms.
Ltac p0 := apply P0; [assumption|site|discriminate|discriminate|discriminate|reflexivity].
Ltac ms := unfold Msgs; repeat (first [apply Forall_nil | apply Forall_app; split | apply Forall_cons; [p0|]
   | match goal with |- Forall _ (match ?x with _ => _ end) => destruct x end ]).
Lemma wms_bind {A B} (m : W A) (f : A -> W B) : Msgs (fst m) -> (forall a, snd m = Ok a -> Msgs (fst (f a))) -> Msgs (fst (wbind m f)).
Proof. destruct m as [l [a|e|]]; cbn; intros H1 H2; [|easy|easy]. apply Forall_app. split; [easy|now apply H2]. Qed.

Definition FfOk (st : ffst) : Prop := Forall (fun e => Wh (fe_where e)) (ff_info st).
Lemma pop_ok l stop : Forall (fun e => Wh (fe_where e)) l -> Msgs (fst (ff_pop l stop)) /\
  forall l', snd (ff_pop l stop) = Ok l' -> Forall (fun e => Wh (fe_where e)) l'.
Proof.
  induction 1 as [|e l HE F IH]; cbn [ff_pop].
  - split; [constructor|]. cbn. now intros ? [= <-].
  - assert (K1 : Msgs (fst (ff_pop1 e))).
    { unfold ff_pop1. destruct (fe_dos e), (fe_lf e); cbn; try constructor. destruct (b && b0); cbn; [ms|]. destruct (negb b && negb b0); cbn; ms. }
    destruct (match stop with Some f => _ | None => _ end); [cbn; split; [constructor|now intros ? [= <-]; constructor]|].
    split.
    + apply wms_bind; [exact K1|]. intros _ _. apply IH.
    + intros l' E. apply wbind_snd in E as (? & _ & E). now apply IH.
Qed.
Lemma enter_ok st w : Wh w -> FfOk st -> Msgs (fst (ff_enter st w)) /\ forall st', snd (ff_enter st w) = Ok st' -> FfOk st'.
Proof.
  intros H F. unfold ff_enter. destruct (ff_info st) as [|e l] eqn:EI.
  - split; [constructor|]. cbn. intros st' [= <-]. constructor; [easy|constructor].
  - destruct (str_eqb _ _); [split; [constructor|cbn; now intros st' [= <-]]|]. unfold FfOk in F. rewrite EI in F.
    destruct (existsb _ _).
    + destruct (pop_ok (e :: l) (Some (w_file w)) F) as [K1 K2]. split.
      * apply wms_bind; [exact K1|]. intros [|e' r] _; constructor.
      * intros st' E. apply wbind_snd in E as (l' & EL & E). specialize (K2 _ EL). destruct l' as [|e' r]; [discriminate|].
        cbn in E. now injection E as <-.
    + split; [constructor|]. cbn. intros st' [= <-]. now constructor.
Qed.
Lemma line_ok st w s : Wh w -> FfOk st -> Msgs (fst (ff_line st w s)) /\ forall st' d, snd (ff_line st w s) = Ok (st', d) -> FfOk st'.
Proof.
  intros H F. unfold ff_line. destruct (enter_ok st w H F) as [K1 K2]. split.
  - apply wms_bind; [exact K1|]. intros st1 _. destruct (ff_info st1); cbn zeta; cbn [fst]; ms.
  - intros st' d E. apply wbind_snd in E as (st1 & E1 & E). specialize (K2 _ E1). unfold FfOk in K2. destruct (ff_info st1); [discriminate|].
    cbn zeta in E. cbn [snd] in E. injection E as <- <-. constructor; [easy|]. now inversion K2.
Qed.
Lemma comment_ok s w : Wh w -> Msgs (fst (comment_line s w)).
Proof.
  intros H. assert (K : forall s, Msgs (fst (comment_split s w))).
  { intros s0. unfold comment_split. destruct (memb 92 s0).
    - destruct (lookback _ s0) as [[d k]| |]; try constructor. unfold move_middle_space. cbn [fst]. destruct k, (last_opt d); ms.
    - unfold simple_split. destruct (index_of 59 s0); cbn zeta; cbn [fst]; ms. }
  unfold comment_line. destruct (last_opt s); [|apply K]. destruct (isblank n); [|apply K].
  apply wms_bind; [cbn [fst]; ms|]. intros _ _. apply K.
Qed.
Lemma readline_ok st w b : Wh w -> FfOk st -> Msgs (fst (read_line st w b)) /\
  forall st' d k, snd (read_line st w b) = Ok (st', d, k) -> FfOk st'.
Proof.
  intros H F. unfold read_line. split.
  - apply wms_bind; [unfold decode_line; destruct (utf8_decode b); cbn [fst wret]; ms|]. intros s _.
    apply wms_bind; [unfold ctrl_msgs; cbn [fst]; ms|]. intros _ _. apply wms_bind; [now apply line_ok|]. intros [st' s'] _.
    apply wms_bind; [now apply comment_ok|]. intros [d k] _. constructor.
  - intros st' d k E. apply wbind_snd in E as (s & _ & E). apply wbind_snd in E as (? & _ & E). apply wbind_snd in E as ([st1 s1] & E1 & E).
    apply wbind_snd in E as ([d1 k1] & _ & E). cbn in E. injection E as <- _ _. now apply (proj2 (line_ok st w s H F) _ _ E1).
Qed.
Lemma mk_ctx_ok n t c b w : Wh w -> Msgs (fst (mk_ctx n t c b w)) /\ c_where (snd (mk_ctx n t c b w)) = w.
Proof. intros H. unfold mk_ctx. cbn [fst snd c_where]. split; [ms|easy]. Qed.
Lemma mk_var_ok n t s b w : Wh w -> Msgs (fst (mk_varset n t s b w)) /\ v_where (snd (mk_varset n t s b w)) = w.
Proof.
  intros H. unfold mk_varset. cbn zeta.
  destruct (str_eqb _ (L "=>")); [destruct (str_eqb s (L " => "))|destruct (str_eqb _ (L "=")); [destruct (str_eqb s (L "="))|]];
  destruct n as [|x n]; try (destruct (isblank x); [destruct (str_eqb _ (L "same"))|]); cbn [fst snd v_where]; split; try easy; ms.
Qed.
Lemma classify_ok w d c ms e : Wh w -> classify w d c = Some (ms, e) -> Msgs ms /\ e_where e = w.
Proof.
  intros H. unfold classify.
  repeat match goal with |- context [match re_match ?r ?d with _ => _ end] => destruct (re_match r d) as [g|] end; try discriminate.
  - destruct (mk_ctx _ _ _ _ _) eqn:E. intros [= <- <-]. pose proof (mk_ctx_ok (nth_seg 2 g) (nth_seg 6 g) c (nth_seg 0 g) w H) as K. now rewrite E in K.
  - destruct (mk_ctx _ _ _ _ _) eqn:E. intros [= <- <-]. pose proof (mk_ctx_ok (nth_seg 2 g) [] c (nth_seg 0 g) w H) as K. now rewrite E in K.
  - match goal with |- context [mk_varset ?a ?b ?x ?y ?z] => pose proof (mk_var_ok a b x y z H) as K; destruct (mk_varset a b x y z) end.
    intros [= <- <-]. exact K.
  - match goal with |- context [mk_varset ?a ?b ?x ?y ?z] => pose proof (mk_var_ok a b x y z H) as K; destruct (mk_varset a b x y z) end.
    intros [= <- <-]. exact K.
  - intros [= <- <-]. split; [constructor|easy].
Qed.
Lemma bad_ok w t : Wh w -> P [LMsg (bad_line w t)] (Ok tt).
Proof. intros H. apply P1; [easy|site|discriminate|discriminate|discriminate|]. now eexists. Qed.
Lemma pp_ok w d : Wh w -> Msgs (fst (preprocessor w d)).
Proof.
  intros H. unfold preprocessor. cbn zeta. generalize (lstrip_p isspace d). intros text.
  assert (HX : forall c, P [LMsg (Msg W_PP_EXEC w None [(L "cmd", AStr c)])] (Ok tt)).
  { intros c. apply P1; [easy|site|discriminate|discriminate|discriminate|]. now eexists. }
  assert (K1 : forall n t (x : ppact), (n = true \/ n = false) -> Msgs (fst (((if n then [msg0 W_WSH_BOL w] else []) ++ [bad_line w t], x) : list msg * ppact))).
  { intros n t x _. cbn [fst]. apply Forall_app. split; [ms|]. constructor; [now apply bad_ok|constructor]. }
  set (ms0 := if _ : bool then [msg0 W_WSH_BOL w] else []).
  assert (K0 : Msgs ms0) by (unfold ms0; ms).
  assert (KB : forall t (x : ppact), Msgs (fst (ms0 ++ [bad_line w t], x))).
  { intros t x. cbn [fst]. apply Forall_app. split; [easy|]. constructor; [now apply bad_ok|constructor]. }
  set (q := if _ : bool then _ else _). destruct q as [cmd rest]. destruct rest as [[|c rest]|]; try apply KB.
  destruct (32 <? c); [apply KB|]. destruct (lstrip_p _ _) as [|a r']; [apply KB|].
  set (ms1 := if _ : bool then [msg0 W_WSH_CTRL w] else []). assert (KM1 : Msgs ms1) by (unfold ms1; ms).
  set (z := match _ with Some z => z | None => a end). clearbody z ms0 ms1.
  assert (KX : forall ms2 arg, Msgs ms2 -> Msgs (fst (if str_eqb cmd (L "#exec") then
          ((ms0 ++ ms1 ++ ms2) ++ [Msg W_PP_EXEC w None [(L "cmd", AStr arg)]], PPnone)
        else if str_eqb cmd (L "#include") then (ms0 ++ ms1 ++ ms2, PPinclude arg true)
        else if str_eqb cmd (L "#tryinclude") then (ms0 ++ ms1 ++ ms2, PPinclude arg false)
        else (ms0 ++ ms1 ++ ms2, PPnone)))).
  { intros ms2 arg KM2. assert (KA : Msgs (ms0 ++ ms1 ++ ms2)) by (apply Forall_app; split; [easy|apply Forall_app; now split]).
    destruct (str_eqb _ _); [cbn [fst]; apply Forall_app; split; [easy|constructor; [apply HX|constructor]]|].
    destruct (str_eqb _ _); [exact KA|]. destruct (str_eqb _ _); exact KA. }
  destruct (_ && _); [apply KX; constructor|]. destruct (_ && _); [apply KX; constructor|]. destruct (_ || _); apply KX; [ms|constructor].
Qed.
Lemma parseline_ok w d k : Wh w -> Msgs (fst (parse_line w d k)) /\ forall e, snd (parse_line w d k) = PElem e -> e_where e = w.
Proof.
  intros H. unfold parse_line. cbn zeta. destruct (classify w d _) as [[ms0 e]|] eqn:E.
  - apply classify_ok in E as [E1 E2]; [|easy]. cbn [fst snd]. split; [easy|]. now intros ? [= <-].
  - assert (KB : Msgs (fst ([bad_line w d], PAct PPnone)) /\ forall e, snd ([bad_line w d], PAct PPnone) = PElem e -> e_where e = w).
    { split; [constructor; [now apply bad_ok|constructor]|easy]. }
    destruct (lstrip_p isspace d) as [|c r]; [exact KB|].
    assert (KP : Msgs (fst (let (ms, a) := preprocessor w d in (ms, PAct a))) /\ forall e, snd (let (ms, a) := preprocessor w d in (ms, PAct a)) = PElem e -> e_where e = w).
    { pose proof (pp_ok w d H) as K. destruct (preprocessor w d). now split. }
    destruct c as [|c]; [exact KB|]. do 6 (destruct c as [c|c|]; try exact KB; try exact KP).
Qed.
Lemma inc_ok w t b : Wh w -> Msgs (fst (do_include fs w t b)) /\ forall f, snd (do_include fs w t b) = Ok (Some f) ->
  exists x, fs (Config.f_name f) = Ok x /\ f_rest f = lines_of x /\ f_no f = 0.
Proof.
  intros H. unfold do_include, open_frame. destruct (fs (include_path w t)) as [x|e|] eqn:E; cbn [bind].
  - split; [constructor|]. cbn. intros f [= <-]. exists x. cbn. auto.
  - destruct e; (split; [|easy]); try constructor. destruct b; [|constructor]. constructor; [|constructor].
    apply P1; [easy|site|discriminate|discriminate|discriminate|]. now eexists.
  - split; [constructor|easy].
Qed.
Definition FrOk (f : frame) : Prop := exists b pre, fs (Config.f_name f) = Ok b /\ lines_of b = pre ++ f_rest f /\ f_no f = N.of_nat (length pre).
Lemma evmsgs ms : Msgs ms -> Forall EvOk (map EvMsg ms).
Proof. intros H. apply Forall_map. exact H. Qed.
Lemma read_ok fuel : forall stk ff, Forall FrOk stk -> FfOk ff -> Forall EvOk (fst (read fuel fs stk ff)).
Proof.
  clear P_hint P_none P_func P_appl P_head.
  induction fuel as [|n IH]; intros stk ff HS HF; cbn [read]; [constructor|].
  destruct HS as [|f stk HFr HS].
  - unfold ff_finish. pose proof (pop_ok (ff_info ff) None HF) as [K _].
    pose proof (wms_bind (ff_pop (ff_info ff) None) (fun _ => wret tt) K (fun _ _ => Forall_nil _)) as K'.
    destruct (wbind _ _) as [l r]. cbn [fst] in *. now apply evmsgs.
  - destruct f as [name no [|b bs]]; [now apply IH|]. cbn zeta.
    destruct HFr as (x & pre & E1 & E2 & E3). cbn [Config.f_name f_rest f_no] in *. subst no.
    pose proof (Wh_line name x pre b bs E1 E2) as HW. set (w := Where name (N.of_nat (length pre) + 1) b) in *.
    assert (HS1 : Forall FrOk (Frame name (N.of_nat (length pre) + 1) bs :: stk)).
    { constructor; [|easy]. exists x, (pre ++ [b]). cbn. rewrite <- app_assoc. split; [easy|]. split; [easy|]. rewrite app_length. cbn. lia. }
    destruct (readline_ok ff w b HW HF) as [K1 K2]. destruct (read_line ff w b) as [ms1 [[[ff' data] comment]|e|]]; cbn [fst snd] in *;
      try now apply evmsgs.
    specialize (K2 _ _ _ eq_refl). destruct (parseline_ok w data comment HW) as [K3 K4]. destruct (parse_line w data comment) as [ms2 p].
    cbn [fst snd] in *.
    assert (HP : Forall EvOk (map EvMsg ms1 ++ EvLine w data comment :: map EvMsg ms2)).
    { apply Forall_app. split; [now apply evmsgs|]. constructor; [exact HW|now apply evmsgs]. }
    destruct p as [e|[|target must]].
    + specialize (IH _ _ HS1 K2). destruct (read n fs _ ff'). cbn [fst] in *. apply Forall_app. split; [easy|]. constructor; [|easy].
      cbn. now rewrite (K4 e eq_refl).
    + specialize (IH _ _ HS1 K2). destruct (read n fs _ ff'). cbn [fst] in *. apply Forall_app. now split.
    + destruct (inc_ok w target must HW) as [K5 K6]. destruct (do_include fs w target must) as [ms3 [[f|]|e|]]; cbn [fst snd] in *.
      * specialize (K6 f eq_refl) as (y & F1 & F2 & F3).
        assert (HS2 : Forall FrOk (f :: Frame name (N.of_nat (length pre) + 1) bs :: stk)).
        { constructor; [|easy]. exists y, []. rewrite F2, F3. auto. }
        specialize (IH _ _ HS2 K2). destruct (read n fs _ ff'). cbn [fst] in *. apply Forall_app. split; [easy|]. apply Forall_app. split; [now apply evmsgs|easy].
      * specialize (IH _ _ HS1 K2). destruct (read n fs _ ff'). cbn [fst] in *. apply Forall_app. split; [easy|]. apply Forall_app. split; [now apply evmsgs|easy].
      * apply Forall_app. split; [easy|now apply evmsgs].
      * apply Forall_app. split; [easy|now apply evmsgs].
Qed.
Lemma parse_file_ok fuel name : Forall EvOk (fst (parse_file fuel fs name)).
Proof.
  unfold parse_file, open_frame. destruct (fs name) as [b|e|] eqn:E; cbn [bind]; try constructor. apply read_ok; [|constructor].
  constructor; [|constructor]. now exists b, [].
Qed.

Definition BlOk (b : VSpace.blank) : Prop := Wh (snd b).
Definition VcOk (v : vctx) : Prop := Forall BlOk (vc_blanks v).
Definition GrOk (g : list (bool * list VSpace.blank)) : Prop := Forall (fun x => Forall BlOk (snd x)) g.
Lemma add_blank_ok l b : BlOk b -> GrOk l -> GrOk (add_blank l b).
Proof.
  intros HB. induction 1 as [|[c g] r HG F IH]; cbn [add_blank]; [constructor; [constructor; [exact HB|constructor]|constructor]|].
  destruct r; [|now constructor]. destruct (Bool.eqb c (fst b)).
  - constructor; [|constructor]. cbn in *. apply Forall_app. auto.
  - constructor; [easy|]. constructor; [|constructor]. cbn. auto.
Qed.
Lemma group_ok bs : Forall BlOk bs -> GrOk (group_blanks bs).
Proof.
  unfold group_blanks. generalize (@Forall_nil _ (fun x : bool * list VSpace.blank => Forall BlOk (snd x))). fold (GrOk []). generalize (@nil (bool * list VSpace.blank)).
  intros l HL F. revert l HL. induction F as [|b bs HB F IH]; intros l HL; cbn; [easy|]. apply IH. now apply add_blank_ok.
Qed.
Lemma blanks_ev g : Forall BlOk g -> Forall EvOk (map ev_blank g).
Proof. intros F. apply Forall_map. eapply Forall_impl; [|exact F]. now intros [c w]. Qed.
Lemma last_opt_In {A} (l : list A) x : last_opt l = Some x -> In x l.
Proof.
  induction l as [|a l IH]; cbn; [easy|]. destruct l; [intros [= <-]; now left|]. intros H. right. now apply IH.
Qed.
Lemma last_ok {A} (Q : A -> Prop) l x : Forall Q l -> last_opt l = Some x -> Q x.
Proof. rewrite Forall_forall. intros F H. apply F. now apply last_opt_In. Qed.
Definition wsv (c : mcls) : Prop := c = H_WSV_CTX_BETWEEN \/ c = H_WSV_VARSET_BETWEEN \/ c = W_WSV_BOF \/ c = W_WSV_EOF.
Lemma wsv_ok c w : wsv c -> Wh w -> EvOk (EvMsg (msg0 c w)).
Proof. intros [->|[->|[->| ->]]] H; cbn; p0. Qed.
Lemma between_ok c n g : wsv c -> Forall BlOk (snd g) -> Forall EvOk (between_events c n g).
Proof.
  destruct g as [h bs]. cbn [snd]. intros HC F. unfold between_events. apply Forall_app. split; [|now apply blanks_ev].
  destruct (_ && _); [|constructor]. destruct (last_opt bs) eqn:E; [|constructor]. constructor; [|constructor]. apply wsv_ok; [easy|].
  apply (last_ok BlOk bs b F E).
Qed.
Lemma flat_ok c n g : wsv c -> GrOk g -> Forall EvOk (flat_map (between_events c n) g).
Proof. intros HC. induction 1 as [|x g HX F IH]; cbn; [constructor|]. apply Forall_app. split; [now apply between_ok|easy]. Qed.
Lemma flush_ok v w c n m : VcOk v -> Wh w -> wsv c -> Forall EvOk (flush_blanks v w c n m).
Proof.
  intros HV HW HC. unfold flush_blanks. cbn zeta. destruct (_ <? _)%nat.
  - constructor; [now apply wsv_ok|now apply blanks_ev].
  - pose proof (group_ok _ HV) as HG. destruct (vc_blanks v) eqn:EB; [constructor|]. rewrite <- EB in *. clear EB.
    destruct (vc_bof v); [|cbn; now apply flat_ok].
    destruct HG as [|[[] g] r HX HG]; [constructor|apply flat_ok; [easy|now constructor]|]. destruct g as [|b' g]; [apply flat_ok; [easy|now constructor]|].
    apply Forall_app. split; [|now apply flat_ok]. constructor; [|now apply blanks_ev]. apply wsv_ok; [unfold wsv; auto|].
    cbn in HX. inversion HX as [|? ? HB _]. exact HB.
Qed.
Lemma handle_ok v e : VcOk v -> Wh (e_where e) -> VcOk (fst (vctx_handle v e)) /\ Forall EvOk (snd (vctx_handle v e)).
Proof.
  intros HV HW. destruct e as [c w|c|x]; cbn [vctx_handle fst snd e_where] in *.
  - split; [|constructor]. unfold VcOk. cbn. apply Forall_app. split; [easy|]. constructor; [exact HW|constructor].
  - split; [constructor|]. apply Forall_app. split; [apply flush_ok; unfold wsv; auto|]. constructor; [exact HW|constructor].
  - split; [constructor|]. apply Forall_app. split; [apply flush_ok; unfold wsv; auto|]. constructor; [exact HW|constructor].
Qed.
Lemma eof_ok v r : VcOk v -> Forall EvOk (vctx_eof v r).
Proof.
  intros HV. unfold vctx_eof. cbn zeta. pose proof (group_ok _ HV) as HG. unfold VcOk in HV. destruct (vc_blanks v) as [|b bs]; [constructor|].
  assert (K : forall rest eb, GrOk rest -> Forall BlOk eb -> Forall EvOk (flat_map (between_events H_WSV_CTX_BETWEEN 2) rest ++
     (match eb, r with | _ :: _, true => map ev_blank eb ++ match last_opt (b :: bs) with Some b => [EvMsg (msg0 W_WSV_EOF (snd b))] | None => [] end | _, _ => [] end))).
  { intros rest eb H1 H2. apply Forall_app. split; [apply flat_ok; [unfold wsv; auto|easy]|]. destruct eb; [constructor|]. destruct r; [|constructor].
    apply Forall_app. split; [now apply blanks_ev|]. destruct (last_opt (b :: bs)) eqn:E; [|constructor]. constructor; [|constructor].
    apply wsv_ok; [unfold wsv; auto|]. apply (last_ok BlOk _ _ HV E). }
  destruct (last_opt (group_blanks (b :: bs))) as [[[] g]|] eqn:E; try exact (K _ [] HG (Forall_nil _)). refine (K _ g _ _).
  - unfold GrOk in *. rewrite Forall_forall in *. intros x HX. apply HG. clear - HX. revert HX. generalize (group_blanks (b :: bs)). intros l.
    induction l as [|a l IH]; cbn; [easy|]. destruct l; [easy|]. intros [<-|HX]; [now left|right; now apply IH].
  - apply (last_ok _ _ _ HG E).
Qed.
Lemma vpop_ok l f : Forall VcOk l -> Forall EvOk (fst (vstack_pop l f)) /\ Forall VcOk (snd (vstack_pop l f)).
Proof.
  induction 1 as [|v l HV F IH]; cbn [vstack_pop]; [split; constructor|]. destruct (str_eqb _ _); [split; [constructor|now constructor]|].
  destruct (vstack_pop l f). cbn [fst snd] in *. split; [|easy]. apply Forall_app. split; [now apply eof_ok|easy].
Qed.
Lemma vhandle_ok l e : Forall VcOk l -> Wh (e_where e) -> Forall EvOk (fst (vstack_handle l e)) /\ Forall VcOk (snd (vstack_handle l e)).
Proof.
  intros F H. unfold vstack_handle. cbn zeta.
  assert (K : forall evs l1, Forall EvOk evs -> Forall VcOk l1 ->
    Forall EvOk (fst (match l1 with v :: r => let (v', evs') := vctx_handle v e in (evs ++ evs', v' :: r) | [] => (evs, []) end)) /\
    Forall VcOk (snd (match l1 with v :: r => let (v', evs') := vctx_handle v e in (evs ++ evs', v' :: r) | [] => (evs, []) end))).
  { intros evs l1 H1 H2. destruct H2 as [|v r HV H2]; [split; [easy|constructor]|]. destruct (handle_ok v e HV H) as [K1 K2].
    destruct (vctx_handle v e). cbn [fst snd] in *. split; [apply Forall_app; now split|now constructor]. }
  destruct (existsb _ _).
  - destruct (vpop_ok l (w_file (e_where e)) F) as [K1 K2]. destruct (vstack_pop l _). now apply K.
  - refine (K [] (_ :: l) (Forall_nil _) _). constructor; [constructor|easy].
Qed.
Lemma veof_ok l : Forall VcOk l -> forall b, Forall EvOk (vstack_eof l b).
Proof. induction 1 as [|v l HV F IH]; intros b; cbn [vstack_eof]; [constructor|]. apply Forall_app. split; [now apply eof_ok|apply IH]. Qed.
Lemma vsw_ok evs : Forall EvOk evs -> forall l, Forall VcOk l -> Forall EvOk (fst (vsw l evs)) /\ Forall VcOk (snd (vsw l evs)).
Proof.
  induction 1 as [|ev evs HE F IH]; intros l HL; cbn [vsw]; [split; [constructor|easy]|]. destruct ev as [w d k|m|e].
  - specialize (IH l HL). destruct (vsw l evs). cbn [fst snd] in *. split; [now constructor|easy].
  - specialize (IH l HL). destruct (vsw l evs). cbn [fst snd] in *. split; [now constructor|easy].
  - destruct (vhandle_ok l e HL HE) as [K1 K2]. destruct (vstack_handle l e) as [out l']. cbn [fst snd] in *. specialize (IH l' K2).
    destruct (vsw l' evs). cbn [fst snd] in *. split; [apply Forall_app; now split|easy].
Qed.
Lemma stream_ok fuel name : Forall EvOk (fst (vsw_stream (parse_file fuel fs name))).
Proof.
  unfold vsw_stream. destruct (vsw_ok _ (parse_file_ok fuel name) [] (Forall_nil _)) as [K1 K2].
  destruct (vsw [] (fst (parse_file fuel fs name))) as [out l]. cbn [fst snd] in *. destruct (snd (parse_file fuel fs name)) as [[]|e|]; cbn [fst]; try easy.
  apply Forall_app. split; [easy|now apply veof_ok].
Qed.

Theorem all_dialplan fuel name : inv (parse_dialplan U FT AT fuel fs name) /\
  forall d, snd (parse_dialplan U FT AT fuel fs name) = Ok d -> inv (walk_jump_destinations d).
Proof.
  destruct (inv_parse fuel fs name (stream_ok fuel name)) as [K1 K2]. split; [easy|]. intros d E. now apply inv_walk, K2.
Qed.
Theorem all_odbc fuel name : inv (mw (load_func_odbc fuel fs name)).
Proof. apply inv_odbc, stream_ok. Qed.

(* ---- the same with the VoIPGRID parsers ---- *)
Lemma vgraw_ok st w b : Wh w -> FfOk st -> Msgs (fst (vg_raw st w b)) /\ forall st' s, snd (vg_raw st w b) = Ok (st', s) -> FfOk st'.
Proof.
  intros H F. unfold vg_raw. split.
  - apply wms_bind; [unfold decode_line; destruct (utf8_decode b); cbn [fst wret]; ms|]. intros s _.
    apply wms_bind; [unfold ctrl_msgs; cbn [fst]; ms|]. intros _ _. now apply line_ok.
  - intros st' s E. apply wbind_snd in E as (s0 & _ & E). apply wbind_snd in E as (? & _ & E). now apply (proj2 (line_ok st w s0 H F) _ _ E).
Qed.
Lemma vgline_ok w s : Wh w -> Msgs (fst (vg_line w s)).
Proof.
  intros H. assert (K : forall s, Msgs (fst (vg_split s w))).
  { intros s0. unfold vg_split. destruct s0; [constructor|]. cbn zeta.
    generalize (firstn (vg_scan [] (n :: s0)) (n :: s0)) (skipn (vg_scan [] (n :: s0)) (n :: s0)). intros d k.
    unfold move_middle_space. cbn [fst]. destruct k, (last_opt d); ms. }
  unfold vg_line. destruct (last_opt s); [|apply K]. destruct (isblank n); [|apply K].
  specialize (K (rstrip_p isblank s)). destruct (vg_split _ _). cbn [fst] in *. constructor; [p0|exact K].
Qed.
Definition PvOk (prev : option (loc * str * str)) : Prop := match prev with Some p => Wh (fst (fst p)) | None => True end.
Lemma vggive_ok prev : PvOk prev -> Forall EvOk (fst (vg_give_opt fs prev)) /\ forall l, snd (vg_give_opt fs prev) = Ok l -> Forall FrOk l.
Proof.
  clear P_hint P_none P_func P_appl P_head.
  destruct prev as [[[w data] comment]|]; cbn [vg_give_opt PvOk fst]; [|intros _; split; [constructor|intros l [= <-]; constructor]].
  intros HW. unfold vg_give. destruct (parseline_ok w data comment HW) as [K3 K4]. destruct (parse_line w data comment) as [ms2 p].
  cbn [fst snd] in *. assert (HP : Forall EvOk (EvLine w data comment :: map EvMsg ms2)) by (constructor; [exact HW|now apply evmsgs]).
  destruct p as [e|[|target must]].
  - cbn [fst snd]. split; [|intros l [= <-]; constructor]. apply Forall_app. split; [easy|]. constructor; [|constructor]. cbn. now rewrite (K4 e eq_refl).
  - cbn [fst snd]. split; [easy|intros l [= <-]; constructor].
  - destruct (inc_ok w target must HW) as [K5 K6]. destruct (do_include fs w target must) as [ms3 r]. cbn [fst snd] in *. split.
    + apply Forall_app. split; [easy|now apply evmsgs].
    + destruct r as [[f|]|e|]; cbn [bind]; intros l [= <-]; [|constructor]. specialize (K6 f eq_refl) as (y & F1 & F2 & F3).
      constructor; [|constructor]. exists y, []. rewrite F2, F3. auto.
Qed.
Lemma vgloop_ok fuel : forall stk ff prev, Forall FrOk stk -> FfOk ff -> PvOk prev -> Forall EvOk (fst (vg_loop fuel fs stk ff prev)).
Proof.
  clear P_hint P_none P_func P_appl P_head.
  induction fuel as [|n IH]; intros stk ff prev HS HF HV; cbn [vg_loop]; [constructor|].
  destruct (vggive_ok prev HV) as [G1 G2].
  destruct HS as [|f stk HFr HS].
  - unfold ff_finish. pose proof (pop_ok (ff_info ff) None HF) as [K _].
    pose proof (wms_bind (ff_pop (ff_info ff) None) (fun _ => wret tt) K (fun _ _ => Forall_nil _)) as K'.
    destruct (wbind _ _) as [l r]. cbn [fst] in *. destruct r as [u|e|]; try now apply evmsgs.
    destruct (vg_give_opt fs prev) as [l2 g]. cbn [fst] in *. apply Forall_app. split; [now apply evmsgs|easy].
  - destruct f as [name no [|b bs]]; [now apply IH|]. cbn zeta.
    destruct HFr as (x & pre & E1 & E2 & E3). cbn [Config.f_name f_rest f_no] in *. subst no.
    pose proof (Wh_line name x pre b bs E1 E2) as HW. set (w := Where name (N.of_nat (length pre) + 1) b) in *.
    assert (HS1 : Forall FrOk (Frame name (N.of_nat (length pre) + 1) bs :: stk)).
    { constructor; [|easy]. exists x, (pre ++ [b]). cbn. rewrite <- app_assoc. split; [easy|]. split; [easy|]. rewrite app_length. cbn. lia. }
    destruct (vgraw_ok ff w b HW HF) as [K1 K2]. destruct (vg_raw ff w b) as [ms1 [[ff' s]|e|]]; cbn [fst snd] in *;
      try now apply evmsgs.
    specialize (K2 _ _ eq_refl). apply evmsgs in K1. pose proof (vgline_ok w s HW) as K3.
    destruct (if starts_blank s then prev else None) as [[[w0 d0] c0]|] eqn:EB.
    + assert (prev = Some (w0, d0, c0)) as EP by (destruct (starts_blank s); [easy|discriminate EB]). rewrite EP in HV. cbn in HV.
      destruct (vg_line w s) as [ms2 dc]. cbn [fst] in K3.
      specialize (IH _ _ (Some (w0, d0 ++ fst dc, c0 ++ snd dc)) HS1 K2 HV). destruct (vg_loop n fs _ ff' _). cbn [fst] in *.
      rewrite !map_app. repeat (apply Forall_app; split); try easy; try now apply evmsgs.
      apply evmsgs. destruct d0; [constructor; [p0|constructor]|constructor].
    + destruct (vg_give_opt fs prev) as [l1 g1]. cbn [fst snd] in *. destruct g1 as [fr1|e|]; try (cbn [fst]; apply Forall_app; now split).
      specialize (G2 _ eq_refl). destruct (vg_line w s) as [ms2 [data comment]]. cbn [fst] in K3. apply evmsgs in K3.
      destruct (startswith [35] data).
      * pose proof (vggive_ok (Some (w, data, comment)) HW) as [G3 G4]. cbn [vg_give_opt] in G3, G4.
        destruct (vg_give fs (w, data, comment)) as [l2 g2]. cbn [fst snd] in *. destruct g2 as [fr2|e|];
          try (cbn [fst]; repeat (apply Forall_app; split); easy).
        specialize (G4 _ eq_refl). assert (Forall FrOk (fr2 ++ fr1 ++ Frame name (N.of_nat (length pre) + 1) bs :: stk)) as HS2
          by (repeat (apply Forall_app; split; try easy)).
        specialize (IH _ _ None HS2 K2 I). destruct (vg_loop n fs _ ff' _). cbn [fst] in *. repeat (apply Forall_app; split); easy.
      * assert (Forall FrOk (fr1 ++ Frame name (N.of_nat (length pre) + 1) bs :: stk)) as HS2 by (apply Forall_app; now split).
        specialize (IH _ _ (Some (w, data, comment)) HS2 K2 HW). destruct (vg_loop n fs _ ff' _). cbn [fst] in *. repeat (apply Forall_app; split); easy.
Qed.
Lemma vgfile_ok fuel name : Forall EvOk (fst (vg_parse_file fuel fs name)).
Proof.
  unfold vg_parse_file, open_frame. destruct (fs name) as [b|e|] eqn:E; cbn [bind]; try constructor. apply vgloop_ok; [|constructor|exact I].
  constructor; [|constructor]. now exists b, [].
Qed.
Lemma vgstream_ok fuel name : Forall EvOk (fst (vsw_stream (vg_parse_file fuel fs name))).
Proof.
  unfold vsw_stream. destruct (vsw_ok _ (vgfile_ok fuel name) [] (Forall_nil _)) as [K1 K2].
  destruct (vsw [] (fst (vg_parse_file fuel fs name))) as [out l]. cbn [fst snd] in *. destruct (snd (vg_parse_file fuel fs name)) as [[]|e|]; cbn [fst]; try easy.
  apply Forall_app. split; [easy|now apply veof_ok].
Qed.
Lemma remove_Forall (Q : dctx -> Prop) n l : Forall Q l -> Forall Q (remove_ctx n l).
Proof. induction 1 as [|x l HX F IH]; cbn; [constructor|]. destruct (str_eqb _ _); [easy|now constructor]. Qed.
Lemma inv_vgcontext d c : Wh (c_where c) -> PlanOk d -> inv (vg_on_context d c) /\ forall d', snd (vg_on_context d c) = Ok d' -> PlanOk d'.
Proof.
  intros H HP. unfold vg_on_context. destruct (_ && _); [split; [apply inv_nil|easy]|]. destruct (_ && _); [split; [apply inv_nil|easy]|].
  destruct (find_ctx _ _); [|now apply inv_context]. apply inv_context; [easy|]. destruct HP as (G & GL & C & J).
  repeat (split; [easy|]). split; [|easy]. cbn. now apply remove_Forall.
Qed.
Lemma inv_vgelement d e : Wh (e_where e) -> PlanOk d -> inv (vg_on_element U FT AT d e) /\ forall d', snd (vg_on_element U FT AT d e) = Ok d' -> PlanOk d'.
Proof.
  intros H HP. unfold vg_on_element. cbn zeta.
  set (m := match e with ECtx c => vg_on_context d c | EVar v => on_varset U FT AT d v | EEmpty _ _ => mret d end).
  assert (K : inv m /\ forall d', snd m = Ok d' -> PlanOk d').
  { unfold m. destruct e; [split; [go|cbn; now intros d' [= <-]]|now apply inv_vgcontext|now apply inv_varset]. }
  destruct m as [l [d1|x|]]; [exact K| |exact K]. destruct K as [K _]. split; [|easy]. unfold inv in *. cbn in *. now apply P_pe with x.
Qed.
Lemma inv_vgstream evs o : Forall EvOk evs -> forall d, PlanOk d ->
  inv (vg_dp_stream U FT AT d evs o) /\ forall d', snd (vg_dp_stream U FT AT d evs o) = Ok d' -> PlanOk d'.
Proof.
  induction 1 as [|ev evs HE F IH]; intros d HP; cbn [vg_dp_stream].
  - split; [go|]. cbn. intros d'. destruct o; cbn; try easy. now intros [= <-].
  - destruct ev as [w a b|m|e]; [now apply IH| |].
    + split.
      * apply inv_bind'; [exact HE|]. intros _. now apply IH.
      * intros d' E. apply mbind_snd in E as (? & _ & E). now apply (proj2 (IH d HP)).
    + destruct (inv_vgelement d e HE HP) as [K1 K2]. split.
      * apply inv_bind; [exact K1|]. intros d1 E1. now apply IH, K2.
      * intros d' E. apply mbind_snd in E as (d1 & E1 & E). now apply (proj2 (IH d1 (K2 _ E1))).
Qed.
Theorem all_vg_dialplan fuel name : inv (vg_parse_dialplan U FT AT fuel fs name) /\
  forall d, snd (vg_parse_dialplan U FT AT fuel fs name) = Ok d -> inv (walk_jump_destinations d).
Proof.
  pose proof (vgstream_ok fuel name) as F. unfold vg_parse_dialplan. destruct (vsw_stream (vg_parse_file fuel fs name)) as [evs o]. cbn [fst] in F.
  assert (I0 : PlanOk dp_init) by (repeat split; try easy; constructor).
  destruct (inv_vgstream evs o F dp_init I0) as [K1 K2]. split.
  - apply inv_bind; [exact K1|]. intros d E. apply inv_bind'; [now apply inv_complete, K2|]. intros _. go.
  - intros d E. apply mbind_snd in E as (d1 & E1 & E). apply mbind_snd in E as (? & _ & E). cbn in E. injection E as <-. now apply inv_walk, K2.
Qed.
Theorem all_vg_odbc fuel name : inv (mw (vg_load_func_odbc fuel fs name)).
Proof.
  pose proof (vgstream_ok fuel name) as F. unfold vg_load_func_odbc. destruct (vsw_stream (vg_parse_file fuel fs name)) as [evs o]. cbn [fst] in F.
  destruct (inv_fostream evs o F [] (Forall_nil _)) as [K1 K2]. apply winv_bind; [exact K1|]. intros st E.
  apply inv_fofin. apply Forall_rev. now apply K2.
Qed.
End Traverse.
