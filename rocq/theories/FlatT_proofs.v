(* Proofs for C61: lines without line ends in them. *)
From Coq Require Import ZifyBool ZifyN ZifyNat.
From Verif Require Import Base Utf8 PyStr Regex Defines FileRd Config VSpace Var VarFun AppM Dialplan FuncOdbc Check Spec_Annotate Annotate_proofs Spec_Run Report Spec_Report Report_proofs
  Flat_proofs FlatM_proofs FlatD_proofs FlatR_proofs.

(* ---- func_odbc.conf ---- *)
Definition WOk {A} (m : W A) (R : A -> Prop) : Prop := Forall MsgOk (fst m) /\ forall a, snd m = Ok a -> R a.
Lemma wok_ret {A} (a : A) (R : A -> Prop) : R a -> WOk (wret a) R.
Proof. intros H. split; [constructor|]. now intros x [= <-]. Qed.
Lemma wok_exn {A} e (R : A -> Prop) : WOk (wexn e) R.
Proof. split; [constructor|easy]. Qed.
Lemma wok_lift {A} (r : res A) (R : A -> Prop) : (forall a, r = Ok a -> R a) -> WOk (wlift r) R.
Proof. intros H. split; [constructor|exact H]. Qed.
Lemma wok_bind {A B} (m : W A) (f : A -> W B) (R : A -> Prop) (S : B -> Prop) : WOk m R -> (forall a, R a -> WOk (f a) S) -> WOk (wbind m f) S.
Proof.
  destruct m as [l [a| |]]; intros [H1 H2] F; cbn [fst snd] in *; (split; [|try easy]).
  - cbn. destruct (F a (H2 a eq_refl)) as [F1 _]. apply Forall_app. now split.
  - cbn. destruct (F a (H2 a eq_refl)) as [_ F2]. exact F2.
  - exact H1.
  - exact H1.
Qed.
Lemma wok_emit c w prev args (R : unit -> Prop) : NL (w_file w) -> FieldsOk c args -> R tt -> WOk (emit c w prev args) R.
Proof.
  intros W F HR. unfold emit. assert (K : WOk ([Msg c w prev args], format_ok (mfields c) args) R).
  { split; [constructor; [now split|constructor]|]. now intros []. }
  destruct (mdupe c), prev; try exact K. split; [constructor|easy].
Qed.
Ltac wsay := apply wok_emit; [assumption|fields|try exact I].
Ltac wseq R := apply (wok_bind _ _ R); [|let a := fresh "a" in let H := fresh "HA" in intros a H].
Definition FoOk (o : ofunc) : Prop := NL (w_file (of_where o)).
Lemma check_order_ok l v : NL (w_file (v_where v)) -> WOk (check_order l v) T0.
Proof.
  intros H. unfold check_order. destruct (pos_of _ _) as [n|]; [|wseq (fun _ : unit => True); [unfold key_arg; wsay|now apply wok_ret]].
  destruct l as [|u l]; [now apply wok_ret|]. wseq (fun _ : list nat => True); [now apply wok_lift|]. destruct (existsb _ _).
  - destruct (filter _ _); [apply wok_exn|]. wseq (fun _ : unit => True); [unfold key_arg; wsay|now apply wok_ret].
  - wseq (fun _ : unit => True); [|now apply wok_ret]. destruct (last_opt a) as [m|]; [|now apply wok_ret]. destruct (_ <? _)%nat; [unfold key_arg; wsay|now apply wok_ret].
Qed.
Lemma fo_add_ok o v : FoOk o -> NL (w_file (v_where v)) -> WOk (fo_add o v) FoOk.
Proof.
  intros F H. unfold fo_add. wseq (fun _ : bool => True); [now apply check_order_ok|]. destruct a; [|now apply wok_ret].
  wseq (fun _ : unit => True); [|now apply wok_ret]. destruct (smem _ _); [|now apply wok_ret].
  wseq (fun _ : unit => True); [destruct (smem _ _); [wsay|now apply wok_ret]|]. destruct (endswith _ _); [wsay|now apply wok_ret].
Qed.
Lemma fo_context_ok st c : Forall FoOk st -> CtxOk c -> WOk (fo_context st c) (Forall FoOk).
Proof.
  intros F [C1 C2]. unfold fo_context. wseq (fun _ : unit => True); [destruct (fname_ok _); [now apply wok_ret|wsay]|].
  wseq (fun _ : unit => True); [destruct (c_templates c); [now apply wok_ret|wsay]|]. apply wok_ret. now constructor.
Qed.
Lemma fo_varset_ok st v : Forall FoOk st -> VarOk v -> WOk (fo_varset st v) (Forall FoOk).
Proof.
  intros F [V1 V2]. unfold fo_varset. wseq (fun _ : unit => True); [destruct (v_arrow v) as [[]|]; [wsay|now apply wok_ret|apply wok_exn]|].
  destruct F as [|o r HO F]; [wseq (fun _ : unit => True); [wsay|apply wok_ret; constructor]|]. wseq FoOk; [now apply fo_add_ok|]. apply wok_ret. now constructor.
Qed.
Lemma fo_element_ok st e : Forall FoOk st -> ElemOk e -> WOk (fo_element st e) (Forall FoOk).
Proof.
  intros F E. unfold fo_element. cbv zeta.
  assert (K : WOk (match e with ECtx c => fo_context st c | EVar v => fo_varset st v | EEmpty _ _ => wret st end) (Forall FoOk)).
  { destruct e; [now apply wok_ret|now apply fo_context_ok|now apply fo_varset_ok]. }
  destruct (match e with ECtx c => fo_context st c | EVar v => fo_varset st v | EEmpty _ _ => wret st end) as [l [a|x|]]; try exact K.
  split; [apply K|easy].
Qed.
Lemma fo_stream_ok evs o : Forall EvOk evs -> forall st, Forall FoOk st -> WOk (fo_stream st evs o) (Forall FoOk).
Proof.
  induction 1 as [|e evs He H IH]; intros st D; cbn [fo_stream].
  - apply wok_lift. destruct o; cbn [bind]; try easy. now intros ? [= <-].
  - destruct e; [auto| |].
    + wseq (fun _ : unit => True); [split; [constructor; [exact He|constructor]|easy]|auto].
    + wseq (Forall FoOk); [now apply fo_element_ok|auto].
Qed.
Lemma fo_finish_ok os : Forall FoOk os -> WOk (fo_finish os) T0.
Proof.
  induction 1 as [|o os HO H IH]; cbn [fo_finish]; [now apply wok_ret|]. destruct (any_read_write o).
  - wseq (fun _ : finfo => True); [now apply wok_lift|]. wseq (fun _ : list finfo => True); [exact IH|now apply wok_ret].
  - unfold FoOk in HO. wseq (fun _ : unit => True); [wsay|exact IH].
Qed.
Lemma odbc_ok fuel fs name : NL name -> WOk (load_func_odbc fuel fs name) T0.
Proof.
  intros N. unfold load_func_odbc. pose proof (stream_ok fs fuel name N) as S. destruct (vsw_stream (parse_file fuel fs name)) as [evs o]. cbn [fst] in S.
  wseq (Forall FoOk); [now apply fo_stream_ok|]. apply fo_finish_ok. now apply Forall_rev.
Qed.
Lemma mok_mw {A} (m : W A) R : WOk m R -> MOk (mw m) R.
Proof. intros [H1 H2]. split; [|exact H2]. unfold mw. destruct m as [l r]. cbn [fst snd] in *. apply Forall_map. exact H1. Qed.

(* ---- whole runs ---- *)
Section Runs.
Variable U : uni.
Variable FT : ftable.
Variable AT : atable.
Variable there : str -> bool.
Variable fuel : nat.
Variable fs : fsys.
Lemma parse_dialplan_ok FT' name : NL name -> MOk (parse_dialplan U FT' AT fuel fs name) DOk.
Proof.
  intros N. unfold parse_dialplan. pose proof (stream_ok fs fuel name N) as S. destruct (vsw_stream (parse_file fuel fs name)) as [evs o]. cbn [fst] in S.
  seq DOk; [apply dp_stream_ok; [easy|split; constructor]|]. seq (fun _ : unit => True); [now apply on_complete_ok|now apply mok_ret].
Qed.
Lemma check_run_ok arg name : NL name -> OOk (fun a => NL a) arg -> MOk (check_run U FT AT there fuel fs arg name) T0.
Proof.
  intros N A. unfold check_run. seq DOk; [|now apply walk_ok]. unfold show_run. seq (fun _ : list finfo => True); [|now apply parse_dialplan_ok].
  unfold load_odbc. destruct arg as [[|c a]|]; [now apply mok_ret| |].
  - apply mok_mw. now apply odbc_ok.
  - cbv zeta. destruct (there _); [|now apply mok_ret]. apply mok_mw, odbc_ok. apply join_ok; [now apply dirname_ok|nlit].
Qed.
End Runs.
Lemma bg_ok l : forall c, Forall LevOk l -> Forall LevOk (snd (resolve_bg c l)).
Proof.
  induction l as [|e l IH]; intros c H; cbn [resolve_bg snd]; [constructor|]. inversion H as [|? ? H1 H2]; subst. destruct e as [m|v w|k|k|name w].
  1,2,3,4: specialize (IH c H2); destruct (resolve_bg c l) as [c' r']; cbn [snd] in *; now constructor.
  assert (K : Forall MsgOk (snd (bg_use c name w))).
  { unfold bg_use. cbv zeta. cbn [snd]. destruct (str_eqb _ _); [constructor|]. constructor; [|constructor]. split; [exact H1|fields]. }
  destruct (bg_use c name w) as [c1 ms]. specialize (IH c1 H2). destruct (resolve_bg c1 l) as [c' r']. cbn [snd] in *. apply Forall_app. split; [|easy]. apply Forall_map. exact K.
Qed.
Lemma run_msgs_ok c l : Forall LevOk l -> Forall MsgOk (run_msgs c l).
Proof.
  intros H. apply (bg_ok l c) in H. unfold run_msgs. revert H. generalize (snd (resolve_bg c l)). intros k. unfold log_msgs.
  induction 1 as [|e k He H IH]; cbn [flat_map]; [constructor|]. destruct e; cbn [app]; try exact IH. now constructor.
Qed.

(* ---- the text ---- *)
Section Text.
Variable printable : N -> bool.
Variable addr : nat -> N.
Lemma plain_nl t : Forall (Plain printable) t -> NL t.
Proof. apply Forall_impl. unfold Plain. intros c H. lia. Qed.
Lemma pyrepr_ok s : NL (pyrepr printable s).
Proof. apply plain_nl. apply (quoted_plain printable s). now apply quoted_iff. Qed.
Lemma hexstr_ok n : NL (hexstr n).
Proof. destruct (hexstr_hex n) as [H _]. eapply Forall_impl; [|exact (hex_plain printable _ _ H)]. cbn. intros c. lia. Qed.
Lemma parts_ok l : Forall rp_ok l -> forall k, NL (fst (parts_text printable addr k l)).
Proof.
  induction 1 as [|x l Hx H IH]; intros k; cbn [parts_text fst]; [constructor|]. destruct x; cbn [fst]; apply nl_app; (split; [|apply IH]); [exact Hx|apply pyrepr_ok|apply hexstr_ok].
Qed.
Lemma arg_text_ok k b a x : AOk b a -> arg_text printable addr k b a = Ok x -> NL (fst x).
Proof.
  destruct a as [s|z| |s r|r|r]; cbn [AOk arg_text]; intros H.
  - intros [= <-]. cbn [fst]. destruct b; [apply pyrepr_ok|]. now destruct H.
  - intros [= <-]. apply nl_zstr.
  - intros [= <-]. nlit.
  - destruct H as [H1 H2]. destruct b; [intros [= <-]; now apply parts_ok|]. destruct s; cbn [bind]; try easy. intros [= <-]. cbn [fst]. destruct H2 as [|H2]; [easy|]. now apply H2.
  - intros [= <-]. now apply parts_ok.
  - intros [= <-]. cbn [fst]. destruct b; [apply pyrepr_ok|now apply parts_ok].
Qed.
Definition PcOk (args : list (str * arg)) (p : piece) : Prop := match p with Txt s => NL s | Fld f b => OOk (AOk b) (lookup f args) end.
Lemma format_nl ps args : Forall (PcOk args) ps -> forall k x, format printable addr k ps args = Ok x -> NL (fst x).
Proof.
  induction 1 as [|p ps Hp H IH]; intros k x; cbn [format]; [intros [= <-]; constructor|]. destruct p as [s|f b]; cbn [PcOk] in Hp.
  - destruct (format _ _ k ps args) as [y| |] eqn:E; cbn [bind]; try easy. intros [= <-]. cbn [fst]. apply nl_app. split; [easy|]. now apply (IH k y).
  - destruct (lookup f args) as [a|]; [|easy]. cbn [OOk] in Hp. destruct (arg_text _ _ k b a) as [y| |] eqn:E; cbn [bind]; try easy.
    destruct (format _ _ (snd y) ps args) as [z| |] eqn:F; cbn [bind]; try easy. intros [= <-]. cbn [fst]. apply nl_app. split; [now apply (arg_text_ok k b a)|now apply (IH (snd y) z)].
Qed.
Lemma words_ok k m x : MsgOk m -> words printable addr k m = Ok x -> NL (fst x).
Proof.
  intros [_ F]. apply format_nl. unfold FieldsOk in F. revert F. rewrite <- (proj2 (proj2 (template_ok (m_cls m)))).
  assert (T : Forall (fun p => match p with Txt s => NL s | _ => True end) (pieces (mtemplate (m_cls m)))).
  { destruct (m_cls m); vm_compute; repeat constructor; discriminate. }
  induction T as [|p ps Hp T IH]; [constructor|]. destruct p as [s|f b]; cbn [fields flat_map app]; intros F; (constructor; [|apply IH]); try easy.
  - now inversion F.
  - now inversion F.
Qed.
End Text.

Lemma nl_num num n : Numeral num n -> NL num.
Proof. intros H. rewrite (numeral_fun _ _ H _ (nstr_numeral n)). apply nl_nstr. Qed.
Lemma line_nl pr m t : MsgOk m -> Line pr m t -> exists l, t = l ++ [10] /\ NL l.
Proof.
  intros M (num & body & N & W & ->). exists (w_file (m_where m) ++ L ":" ++ num ++ L " " ++ mname (m_cls m) ++ L ": " ++ body).
  split; [now rewrite <- !app_assoc|]. apply words_iff in W as (a & k & k' & W). apply (words_ok pr a) in W; [|easy]. destruct M as [M _].
  repeat (apply nl_app; split); try easy; try nlit; [now apply (nl_num _ _ N)|]. destruct (m_cls m); nlit.
Qed.
Lemma lines_nl pr ms t : Forall MsgOk ms -> Lines pr ms t ->
  exists ls, Forall2 (fun m l => Line pr m (l ++ [10]) /\ ~ In 10 l) ms ls /\ t = flat_map (fun l => l ++ [10]) ls.
Proof.
  intros H. induction 1 as [|m ms t u HL HU IH]; [exists []; now split|]. inversion H; subst. destruct IH as (ls & F & ->); [easy|].
  destruct (line_nl pr m t) as (l & -> & N); [easy|easy|]. exists (l :: ls). split; [|reflexivity]. constructor; [|easy]. split; [easy|now apply nl_in].
Qed.
Lemma printed_ok env ms : Forall MsgOk ms -> Forall MsgOk (printed env ms).
Proof. unfold printed. rewrite !Forall_forall. intros H m I. apply filter_In in I as [I _]. auto. Qed.
Lemma in_nl s : ~ In 10 s -> NL s.
Proof. apply nl_in. Qed.
Theorem check_lines pr U FT AT there fuel fs env arg name t : ~ In 10 name -> (forall a, arg = Some a -> ~ In 10 a) ->
  Lines pr (p_printed (dialplan_check U FT AT there fuel fs env arg name)) t ->
  exists ls, Forall2 (fun m l => Line pr m (l ++ [10]) /\ ~ In 10 l) (p_printed (dialplan_check U FT AT there fuel fs env arg name)) ls /\
    t = flat_map (fun l => l ++ [10]) ls.
Proof.
  intros N A. apply lines_nl. apply printed_ok, run_msgs_ok. apply check_run_ok; [now apply nl_in|]. destruct arg as [a|]; [|exact I]. apply nl_in. now apply A.
Qed.
Theorem odbc_lines pr fuel fs env name t : ~ In 10 name ->
  Lines pr (p_printed (odbc_check fuel fs env name)) t ->
  exists ls, Forall2 (fun m l => Line pr m (l ++ [10]) /\ ~ In 10 l) (p_printed (odbc_check fuel fs env name)) ls /\
    t = flat_map (fun l => l ++ [10]) ls.
Proof.
  intros N. apply lines_nl. apply printed_ok, run_msgs_ok. apply (mok_mw _ (fun _ => True)), odbc_ok. now apply nl_in.
Qed.
Lemma count_none l : ~ In 10 l -> count_occ N.eq_dec l 10 = 0%nat.
Proof. apply count_occ_not_In. Qed.
Lemma ends_count {A} (P : A -> str -> Prop) ms ls : Forall2 (fun m l => P m l /\ ~ In 10 l) ms ls ->
  count_occ N.eq_dec (flat_map (fun l => l ++ [10]) ls) 10 = length ms.
Proof.
  induction 1 as [|m l ms ls [_ H] F IH]; [easy|]. cbn [flat_map length]. rewrite !count_occ_app, IH, (count_none l H). reflexivity.
Qed.
