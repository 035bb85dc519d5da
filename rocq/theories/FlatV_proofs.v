(* Proofs for C69: lines without line ends in them, for the VoIPGRID commands. *)
From Verif Require Import Base Utf8 PyStr Regex Defines FileRd Config VSpace Var VarFun AppM Dialplan FuncOdbc Check Spec_Run Report Spec_Report Report_proofs
  Flat_proofs FlatM_proofs FlatD_proofs FlatR_proofs FlatT_proofs Vg VgRead VgPlan VgCheck VgWhole.
From Verif Require VgRead_proofs Vg_proofs File_proofs Include_proofs Spec_File Spec_Vg.

Section Read.
Variable fs : fsys.
Definition KOk (k : option (loc * str * str)) : Prop := match k with Some (w, d, _) => NL (w_file w) /\ NL d | None => True end.
Lemma move_ok d k w : NL (w_file w) -> Msgs (fst (move_middle_space d k w)).
Proof.
  intros H. assert (M : MsgOk (msg0 W_WSH_COMMENT w)) by now apply P0. unfold move_middle_space. destruct k, (last_opt d); cbn [fst];
    repeat match goal with |- Msgs (if ?b then _ else _) => destruct b end; repeat (constructor; try exact M).
Qed.
Lemma vg_line_ok w s : NL (w_file w) -> NL s -> Msgs (fst (vg_line w s)) /\ NL (fst (snd (vg_line w s))).
Proof.
  intros H N. assert (X : forall s, Msgs (fst (vg_split s w))).
  { intros s0. unfold vg_split. destruct s0; [constructor|]. cbv zeta. now apply move_ok. }
  split.
  - unfold vg_line. destruct (last_opt s) as [c|]; [|apply X]. destruct (isblank c); [|apply X]. specialize (X (rstrip_p isblank s)).
    destruct (vg_split _ w) as [ms r]. cbn [fst] in *. constructor; [now apply P0|exact X].
  - destruct (vg_line w s) as [l [d k]] eqn:E. cbn [fst snd]. apply Vg_proofs.part_iff in E. apply nl_in. apply (VgRead_proofs.part_no_nl _ _ _ _ _ E). now apply nl_in.
Qed.
Lemma raw_ok ff w b : NL (w_file w) -> FfOk ff -> Include_proofs.nl_last b -> Msgs (fst (vg_raw ff w b)) /\
  forall ff' s, snd (vg_raw ff w b) = Ok (ff', s) -> FfOk ff' /\ NL s.
Proof.
  intros H F N. unfold vg_raw. split.
  - apply wms_bind.
    + unfold decode_line. destruct (utf8_decode b); cbn [fst wret]; repeat (constructor; try now apply P0).
    + intros s _. apply wms_bind; [unfold ctrl_msgs; cbn [fst]; destruct (existsb _ _); repeat (constructor; try now apply P0)|]. intros _ _. now apply line_ok.
  - intros ff' s E. apply wbind_snd in E as (t & ED & E). apply wbind_snd in E as (? & _ & E). split; [now apply (proj2 (line_ok ff w t H F) _ _ E)|].
    destruct (ff_line ff w t) as [l r] eqn:EF. cbn [snd] in E. subst r. pose proof (File_proofs.ff_line_ends _ _ _ _ _ _ EF) as ->.
    destruct (decode_line w b) as [l1 r1] eqn:ED1. cbn [snd] in ED. subst r1. apply File_proofs.decode_line_decoded in ED1 as [D _].
    destruct (File_proofs.strip_eol_ends t) as [e He]. apply nl_in. exact (VgRead_proofs.ends_no_nl b t _ e N D He).
Qed.
Lemma give_ok w d k : NL (w_file w) -> NL d -> Forall EvOk (fst (vg_give fs (w, d, k))) /\ forall fr, snd (vg_give fs (w, d, k)) = Ok fr -> Forall FrOk fr.
Proof.
  intros H N. unfold vg_give. destruct (parseline_ok w d k H N) as (K1 & K2 & K3). destruct (parse_line w d k) as [ms a]. cbn [fst snd] in *.
  assert (P : Forall EvOk (EvLine w d k :: map EvMsg ms)) by (constructor; [exact I|now apply evmsgs]).
  destruct a as [e|[|t must]].
  - cbn [fst snd]. split; [|now intros fr [= <-]]. change (EvLine w d k :: map EvMsg ms ++ [EvElem e]) with ((EvLine w d k :: map EvMsg ms) ++ [EvElem e]).
    apply Forall_app. split; [exact P|]. constructor; [exact (K2 e eq_refl)|constructor].
  - cbn [fst snd]. split; [exact P|now intros fr [= <-]].
  - destruct (inc_ok fs w t must H (K3 _ _ eq_refl)) as [K5 K6]. destruct (do_include fs w t must) as [ms3 r]. cbn [fst snd] in *. split.
    + change (EvLine w d k :: map EvMsg ms ++ map EvMsg ms3) with ((EvLine w d k :: map EvMsg ms) ++ map EvMsg ms3).
      apply Forall_app. split; [exact P|now apply evmsgs].
    + intros fr E. destruct r as [[f|]|e|]; cbn [bind] in E; try discriminate E; injection E as <-; constructor; [now apply K6|constructor].
Qed.
Lemma give_opt_ok k : KOk k -> Forall EvOk (fst (vg_give_opt fs k)) /\ forall fr, snd (vg_give_opt fs k) = Ok fr -> Forall FrOk fr.
Proof. destruct k as [[[w d] c]|]; cbn [KOk vg_give_opt]; [intros [H N]; now apply give_ok|]. intros _. split; [constructor|now intros fr [= <-]]. Qed.
Lemma step_ok k w s : KOk k -> NL (w_file w) -> NL s -> Forall EvOk (fst (VgRead_proofs.step fs k w s)) /\
  forall k' fr, snd (VgRead_proofs.step fs k w s) = Ok (k', fr) -> KOk k' /\ Forall FrOk fr.
Proof.
  intros HK H N. unfold VgRead_proofs.step. destruct (vg_line_ok w s H N) as [L1 L2]. destruct (vg_line w s) as [ms [d c]]. cbn [fst snd] in *.
  destruct (if starts_blank s then k else None) as [[[w0 d0] c0]|] eqn:E.
  - assert (K0 : KOk (Some (w0, d0, c0))) by (destruct (starts_blank s); [now rewrite E in HK|discriminate E]). destruct K0 as [K1 K2]. cbn [fst snd]. split.
    + apply evmsgs. apply Forall_app. split; [exact L1|]. destruct d0; repeat (constructor; try now apply P0).
    + intros k' fr [= <- <-]. split; [|constructor]. split; [exact K1|]. apply nl_app. now split.
  - destruct (give_opt_ok k HK) as [G1 G2]. destruct (vg_give_opt fs k) as [l1 [fr1|e|]]; cbn [fst snd] in *; try (split; [exact G1|discriminate]).
    specialize (G2 fr1 eq_refl). assert (LM : Forall EvOk (map EvMsg ms)) by now apply evmsgs. destruct (startswith [35] d).
    + destruct (give_ok w d c H L2) as [G3 G4]. destruct (vg_give fs (w, d, c)) as [l2 [fr2|e|]]; cbn [fst snd] in *;
        (split; [apply Forall_app; split; [exact G1|apply Forall_app; now split]|try discriminate]).
      intros k' fr [= <- <-]. split; [exact I|]. apply Forall_app. split; [now apply G4|exact G2].
    + cbn [fst snd]. split; [apply Forall_app; now split|]. intros k' fr [= <- <-]. now split.
Qed.
Lemma loop_ok fuel : forall stk ff k, Forall FrOk stk -> FfOk ff -> KOk k -> Forall EvOk (fst (vg_loop fuel fs stk ff k)).
Proof.
  induction fuel as [|n IH]; intros stk ff k HS HF HK; [constructor|]. destruct HS as [|f stk HFr HS].
  - cbn [vg_loop]. unfold ff_finish. pose proof (pop_ok (ff_info ff) None HF) as [K _].
    pose proof (wms_bind (ff_pop (ff_info ff) None) (fun _ => wret tt) K (fun _ _ => Forall_nil _)) as K'. destruct (wbind _ _) as [l r]. cbn [fst] in K'.
    destruct (give_opt_ok k HK) as [G1 _]. destruct (vg_give_opt fs k) as [l2 g]. cbn [fst] in G1.
    destruct r as [x|e|]; cbn [fst]; [apply Forall_app; split; [now apply evmsgs|exact G1]|now apply evmsgs|now apply evmsgs].
  - destruct f as [name no [|b bs]]; [now apply IH|]. rewrite VgRead_proofs.loop_step. cbv zeta.
    destruct HFr as (E1 & E2). cbn [Config.f_name f_rest] in *. inversion E2 as [|? ? E3 E4]; subst.
    set (w := Where name (no + 1) b). assert (HW : NL (w_file w)) by exact E1. destruct (raw_ok ff w b HW HF E3) as [R1 R2].
    destruct (vg_raw ff w b) as [ms [[ff' s]|e|]]; cbn [fst snd] in *; try now apply evmsgs. destruct (R2 ff' s eq_refl) as [HF' NS].
    destruct (step_ok k w s HK HW NS) as [S1 S2]. destruct (VgRead_proofs.step fs k w s) as [ev [[k' fr]|e|]]; cbn [fst snd] in *;
      (apply Forall_app; split; [now apply evmsgs|]); try exact S1. destruct (S2 k' fr eq_refl) as [HK' HFr']. apply Forall_app. split; [exact S1|].
    apply IH; [|exact HF'|exact HK']. apply Forall_app. split; [exact HFr'|]. constructor; [now split|exact HS].
Qed.
Lemma vg_parse_ok fuel name : NL name -> Forall EvOk (fst (vg_parse_file fuel fs name)).
Proof.
  intros N. unfold vg_parse_file, open_frame. destruct (fs name) as [b|e|]; cbn [bind]; try constructor. apply loop_ok; [|constructor|exact I].
  constructor; [|constructor]. split; [easy|apply FlatR_proofs.lines_nl].
Qed.
Lemma vg_stream_ok fuel name : NL name -> Forall EvOk (fst (vsw_stream (vg_parse_file fuel fs name))).
Proof.
  intros HN. unfold vsw_stream. destruct (vsw_ok _ (vg_parse_ok fuel name HN) [] (Forall_nil _)) as [K1 K2].
  destruct (vsw [] (fst (vg_parse_file fuel fs name))) as [out l]. cbn [fst snd] in *. destruct (snd (vg_parse_file fuel fs name)) as [[]|e|]; cbn [fst]; try easy.
  apply Forall_app. split; [easy|now apply veof_ok].
Qed.
End Read.

Lemma remove_ok n l : Forall COk l -> Forall COk (remove_ctx n l).
Proof. induction 1 as [|x l Hx H IH]; cbn [remove_ctx]; [constructor|]. destruct (str_eqb _ _); [easy|now constructor]. Qed.
Lemma vg_context_ok d c : DOk d -> CtxOk c -> MOk (vg_on_context d c) DOk.
Proof.
  intros D C. unfold vg_on_context. destruct (_ && _); [apply mok_exn|]. destruct (_ && _); [apply mok_exn|]. destruct (find_ctx _ _); [|now apply on_context_ok].
  apply on_context_ok; [|easy]. destruct D as [D1 D2]. split; [now apply remove_ok|easy].
Qed.
Lemma vg_element_ok U FT AT d e : DOk d -> ElemOk e -> MOk (vg_on_element U FT AT d e) DOk.
Proof.
  intros D E. unfold vg_on_element. cbv zeta.
  assert (K : MOk (match e with ECtx c => vg_on_context d c | EVar v => on_varset U FT AT d v | EEmpty _ _ => mret d end) DOk).
  { destruct e; [now apply mok_ret|now apply vg_context_ok|now apply on_varset_ok]. }
  destruct (match e with ECtx c => vg_on_context d c | EVar v => on_varset U FT AT d v | EEmpty _ _ => mret d end) as [l [a|x|]]; try exact K.
  split; [apply K|easy].
Qed.
Lemma vg_dp_ok U FT AT evs o : Forall EvOk evs -> forall d, DOk d -> MOk (vg_dp_stream U FT AT d evs o) DOk.
Proof.
  induction 1 as [|e evs He H IH]; intros d D; cbn [vg_dp_stream].
  - apply mok_lift. destruct o; cbn [bind]; try easy. now intros ? [= <-].
  - destruct e; [auto| |].
    + seq (fun _ : unit => True); [now apply mok_log|auto].
    + seq DOk; [now apply vg_element_ok|auto].
Qed.
Lemma vg_odbc_ok fuel fs name : NL name -> WOk (vg_load_func_odbc fuel fs name) T0.
Proof.
  intros N. unfold vg_load_func_odbc. pose proof (vg_stream_ok fs fuel name N) as S. destruct (vsw_stream (vg_parse_file fuel fs name)) as [evs o]. cbn [fst] in S.
  wseq (Forall FoOk); [now apply fo_stream_ok|]. apply fo_finish_ok. now apply Forall_rev.
Qed.
Lemma vg_plan_ok U FT AT fuel fs name : NL name -> MOk (vg_parse_dialplan U FT AT fuel fs name) DOk.
Proof.
  intros N. unfold vg_parse_dialplan. pose proof (vg_stream_ok fs fuel name N) as S. destruct (vsw_stream (vg_parse_file fuel fs name)) as [evs o]. cbn [fst] in S.
  seq DOk; [apply vg_dp_ok; [easy|split; constructor]|]. seq (fun _ : unit => True); [now apply on_complete_ok|now apply mok_ret].
Qed.
Lemma vg_run_ok U FT AT there fuel fs arg name : NL name -> OOk (fun a => NL a) arg -> MOk (vg_check_run U FT AT there fuel fs arg name) T0.
Proof.
  intros N A. unfold vg_check_run. seq (fun _ : list finfo => True).
  - unfold vg_load_odbc. destruct arg as [[|c a]|]; [now apply mok_ret| |].
    + apply mok_mw. now apply vg_odbc_ok.
    + cbv zeta. destruct (there _); [|now apply mok_ret]. apply mok_mw, vg_odbc_ok. apply join_ok; [now apply dirname_ok|nlit].
  - seq DOk; [now apply vg_plan_ok|now apply walk_ok].
Qed.
Theorem vg_check_lines pr U FT AT there fuel fs env arg name t : ~ In 10 name -> (forall a, arg = Some a -> ~ In 10 a) ->
  Lines pr (p_printed (vg_dialplan_check U FT AT there fuel fs env arg name)) t ->
  exists ls, Forall2 (fun m l => Line pr m (l ++ [10]) /\ ~ In 10 l) (p_printed (vg_dialplan_check U FT AT there fuel fs env arg name)) ls /\
    t = flat_map (fun l => l ++ [10]) ls.
Proof.
  intros N A. apply FlatT_proofs.lines_nl. apply printed_ok, run_msgs_ok. apply vg_run_ok; [now apply nl_in|]. destruct arg as [a|]; [|exact I]. apply nl_in. now apply A.
Qed.
Theorem vg_odbc_lines pr fuel fs env name t : ~ In 10 name ->
  Lines pr (p_printed (vg_odbc_check fuel fs env name)) t ->
  exists ls, Forall2 (fun m l => Line pr m (l ++ [10]) /\ ~ In 10 l) (p_printed (vg_odbc_check fuel fs env name)) ls /\
    t = flat_map (fun l => l ++ [10]) ls.
Proof.
  intros N. apply FlatT_proofs.lines_nl. apply printed_ok, run_msgs_ok. apply (mok_mw _ (fun _ => True)), vg_odbc_ok. now apply nl_in.
Qed.
