(* Proofs for C71: what vg ident-scan and vg func_odbc-annotate print. *)
From Verif Require Import Base PyStr Defines Var VarFun AppM FileRd Config VSpace Vg VgRead FuncOdbc Annotate Dialplan Commands Spec_VarFun Spec_Dialplan Spec_Commands
  Commands_proofs Spec_CmdLs CmdLs_proofs Spec_FuncOdbc FuncOdbc_proofs Spec_Annotate Annotate_proofs IdentScan Spec_Ident Ident_proofs Spec_Run Run_proofs
  Whole_proofs Dialplan_proofs DialplanK_proofs Spec_IdentRun IdentRun_proofs Spec_VSpace VSpace_proofs VgCheck Spec_VgPlan Spec_VgCheck Spec_VgWhole VgWhole_proofs VgIdent Spec_VgIdent.
From Verif Require VgCheck_proofs.
From Coq Require Import Permutation Sorted.

(* ---- the sections that stay ---- *)
Lemma kept_names fr h : map dc_name (kept_contexts fr h) = filter (stays fr) (opened h).
Proof.
  assert (EN : map dc_name (contexts h) = opened h) by (unfold contexts; rewrite map_map; cbn [dc_name]; apply map_id).
  unfold kept_contexts. rewrite <- EN. clear EN. induction (contexts h) as [|c l IH]; [easy|]. cbn [map filter]. destruct (stays fr (dc_name c)); cbn [map]; now rewrite IH.
Qed.
Lemma follows_same U fr h d : VgCheck_proofs.Follows U fr h d ->
  map dc_name (kept_contexts fr h) = map dc_name (dp_ctxs d) /\ forall s, all_labels (contexts h) s <-> In s (g_labels (dp_glob d)).
Proof.
  intros FO. split; [now rewrite kept_names, (VgCheck_proofs.follows_names U fr h d FO)|].
  destruct FO as (d' & I & _ & _ & _ & EL & _). intros s. rewrite (proj2 (contexts_same U h d' I)), EL, <- (proj1 (inv_labels U h d' I) s).
  unfold all_label. now rewrite smem_In.
Qed.
Lemma follows_once U fr h d : VgCheck_proofs.Follows U fr h d -> NoDup (map dc_name (dp_ctxs d)).
Proof. intros FO. rewrite (VgCheck_proofs.follows_names U fr h d FO). apply NoDup_filter, opened_nodup. Qed.
Lemma vg_scan_ctxs U isupper islower dist verbose installed c c' (lab lab' : str -> Prop) log ls r : map dc_name c = map dc_name c' -> (forall s, lab s <-> lab' s) ->
  VgScan U isupper islower dist verbose installed c lab log ls r -> VgScan U isupper islower dist verbose installed c' lab' log ls r.
Proof.
  intros E A (ls1 & ls2 & -> & H1 & H2 & H3 & H4). exists ls1, ls2. split; [easy|]. split; [|split; [easy|split; [|easy]]].
  - intros V. destruct (H1 V) as (labels & N & S & I & W). exists labels. split; [easy|]. split; [easy|]. split; [intros s; now rewrite I, A|].
    now apply (listing_ctxs _ c).
  - intros V. destruct (H3 V) as (ids & st & isdigit & D & N & I & W). exists ids, st, isdigit. split; [easy|]. split; [easy|]. split; [|easy].
    intros x. rewrite I. unfold VgIdentifier. now rewrite E, A.
Qed.

Section Command.
Variable U : uni.
Variable FT : ftable.
Variable AT : atable.
Hypothesis HU : AsciiOk U.
Variables isupper islower : str -> bool.
Variable dist : str -> str -> nat.
Notation lower := (u_lower U).
Notation VgIdentSays := (VgIdentSays U FT AT isupper islower dist).
Notation VgScan := (VgScan U isupper islower dist).
Notation vg_ident_scan := (vg_ident_scan U FT AT isupper islower dist).
Notation Lab d := (fun s => In s (g_labels (dp_glob d))).

Lemma vg_scan_spec labiter iditer : SetOrder labiter -> SetOrder iditer -> forall verbose installed fuel fs name log d ls st,
  vg_parse_dialplan U FT AT fuel fs name = (log, Ok d) -> vg_ident_scan labiter iditer verbose installed fuel fs name = (ls, st) ->
  VgScan verbose installed (dp_ctxs d) (Lab d) log ls st.
Proof.
  intros LI SI verbose installed fuel fs name log d ls st P. unfold VgIdent.vg_ident_scan. rewrite P. intros H. clear P.
  destruct (LI (g_labels (dp_glob d))) as [ND SM].
  pose proof (sort_perm (fun a b => lt_name lower (fst a) (fst b)) (variables log)) as PV.
  pose proof (sort_perm (lt_name lower) (labiter (g_labels (dp_glob d)))) as PL.
  pose proof (sort_perm (lt_name lower) (map dc_name (dp_ctxs d))) as PC.
  assert (LST : VgListing lower (dp_ctxs d) (Lab d) log (print_names (L "Contexts encountered:") (sort_by (lt_name lower) (map dc_name (dp_ctxs d))) ++
    print_names (L "Labels encountered:") (sort_by (lt_name lower) (labiter (g_labels (dp_glob d)))) ++
    print_vars (sort_by (fun a b => lt_name lower (fst a) (fst b)) (variables log)))).
  { eexists. split; [|split; [|split; [|apply listing_with]]].
    - eapply Permutation_NoDup; [symmetry; exact PL|exact ND].
    - apply (ss_impl (le (lt_name lower))); [intros; now apply le_name|]. apply sort_sorted; [apply lt_name_asym|apply le_name_trans].
    - intros s. now rewrite (perm_in _ _ PL), SM. }
  set (vs := sort_by _ (variables log)) in *. set (lbs := sort_by _ (labiter _)) in *. set (cs := sort_by _ (map dc_name _)) in *.
  set (listing := print_names _ cs ++ _) in *.
  exists (if verbose then listing else []), (if installed then fst (print_distance lower isupper islower (str_isdigit U) dist (iditer (cs ++ lbs ++ map fst vs))) else []).
  split; [|split; [now intros ->|split; [now intros ->|split]]].
  - destruct installed; [|destruct verbose; injection H as <- <-; now rewrite ?app_nil_r].
    destruct (print_distance _ _ _ _ _ _); now injection H as <- <-.
  - intros ->. destruct (print_distance lower isupper islower (str_isdigit U) dist (iditer (cs ++ lbs ++ map fst vs))) as [ls2 s2] eqn:E.
    injection H as <- <-. exists (iditer (cs ++ lbs ++ map fst vs)), s2, (str_isdigit U). split; [apply digits_spec|]. split; [apply SI|]. split; [|split; [|easy]].
    + intros x. destruct (SI (cs ++ lbs ++ map fst vs)) as [_ SM']. rewrite SM', !in_app_iff. unfold VgIdentifier.
      rewrite (perm_in _ _ PC), (perm_in _ _ PL), (perm_in _ _ (Permutation_map fst PV)), SM, (vo_in _ _ (variables_ok log)). reflexivity.
    + cbn [fst]. apply distance_iff; [apply SI|easy].
  - intros ->. split; [easy|]. split; intros ->; now injection H as <- <-.
Qed.

Theorem vg_ident_complete verbose installed fs name ls r : VgIdentSays verbose installed fs name ls r ->
  exists fuel labiter iditer, SetOrder labiter /\ SetOrder iditer /\ vg_ident_scan labiter iditer verbose installed fuel fs name = (ls, r).
Proof.
  intros [evs fr h log ls' r' S P SC]. destruct (vg_stream_eventually _ _ _ _ S) as [k K]. specialize (K k (le_n k)).
  destruct (VgCheck_proofs.vg_plan_complete U FT AT HU k fs name evs fr h log K P) as (d & H & I). destruct (follows_same U fr h d I) as [EN EA].
  apply (vg_scan_ctxs _ _ _ _ _ _ _ _ _ _ _ _ _ EN EA) in SC. pose proof (follows_once U fr h d I) as NC.
  destruct SC as (ls1 & ls2 & -> & H1 & H2 & H3 & H4).
  assert (LB : exists o, NoDup o /\ (forall x, In x o <-> In x (g_labels (dp_glob d))) /\
     (verbose = true -> sort_by (lt_name lower) o = o /\ ListingWith lower (dp_ctxs d) log o ls1)).
  { destruct verbose.
    - destruct (H1 eq_refl) as (labels & N & SS & IL & W). exists labels. split; [easy|]. split; [easy|].
      intros _. split; [|easy]. apply sorted_id. eapply ss_impl; [|exact SS]. intros a b. apply le_name.
    - destruct (any_order (g_labels (dp_glob d))) as (o & N & IO). now exists o. }
  destruct LB as (o & NO & IO & W). set (lb := order_at (g_labels (dp_glob d)) o).
  set (cs := sort_by (lt_name lower) (map dc_name (dp_ctxs d))) in *.
  set (lbs := sort_by (lt_name lower) o) in *.
  set (vs := sort_by (fun a b => lt_name lower (fst a) (fst b)) (variables log)) in *.
  assert (IDS : forall x, In x (cs ++ lbs ++ map fst vs) <-> VgIdentifier (dp_ctxs d) (Lab d) log x).
  { intros x. rewrite !in_app_iff. unfold VgIdentifier, cs, lbs, vs.
    rewrite (perm_in _ _ (sort_perm (lt_name lower) (map dc_name (dp_ctxs d)))), (perm_in _ _ (sort_perm (lt_name lower) o)), IO.
    now rewrite (perm_in _ _ (Permutation_map fst (sort_perm (fun a b => lt_name lower (fst a) (fst b)) (variables log)))), (vo_in _ _ (variables_ok log)). }
  assert (DS : exists oi, NoDup oi /\ (forall x, In x oi <-> In x (cs ++ lbs ++ map fst vs)) /\
     (installed = true -> exists st, print_distance lower isupper islower (str_isdigit U) dist oi = (ls2, st) /\ r' = Ok st)).
  { destruct installed.
    - destruct (H3 eq_refl) as (ids & st & isdigit & D & N & II & DD & ->). exists ids. split; [easy|]. split; [intros x; now rewrite II, IDS|].
      intros _. exists st. split; [|easy]. apply distance_iff in DD; [|easy]. rewrite <- DD. symmetry. apply distance_ext. now apply digits_ext.
    - destruct (any_order (cs ++ lbs ++ map fst vs)) as (oi & N & IOI). now exists oi. }
  destruct DS as (oi & NOI & IOI & DS). set (di := order_at (cs ++ lbs ++ map fst vs) oi).
  exists k, lb, di. split; [now apply order_at_ok|]. split; [now apply order_at_ok|].
  unfold VgIdent.vg_ident_scan. rewrite H. unfold lb. rewrite order_at_same. fold cs lbs vs. unfold di. rewrite order_at_same.
  assert (LS : (if verbose then print_names (L "Contexts encountered:") cs ++ print_names (L "Labels encountered:") lbs ++ print_vars vs else []) = ls1).
  { destruct verbose; [|now rewrite H2]. destruct (W eq_refl) as [EO W']. rewrite EO.
    apply (listing_det lower (dp_ctxs d) log o); [easy|apply listing_with|easy]. }
  rewrite LS. destruct installed.
  - destruct (DS eq_refl) as (st & -> & ->). reflexivity.
  - destruct (H4 eq_refl) as (-> & V1 & V2). rewrite app_nil_r. destruct verbose; [now rewrite V1|now rewrite V2].
Qed.
Theorem vg_ident_sound labiter iditer : SetOrder labiter -> SetOrder iditer -> forall verbose installed fuel fs name ls r,
  vg_ident_scan labiter iditer verbose installed fuel fs name = (ls, r) ->
  VgIdentSays verbose installed fs name ls r \/
  (ls = [] /\ forall d, snd (vg_parse_dialplan U FT AT fuel fs name) <> Ok d /\ forall n, r <> Ok n).
Proof.
  intros LI SI verbose installed fuel fs name ls r H.
  destruct (vg_parse_dialplan U FT AT fuel fs name) as [log [d|e|]] eqn:P.
  - left. pose proof (vg_scan_spec labiter iditer LI SI _ _ _ _ _ _ _ _ _ P H) as SC.
    destruct (VgCheck_proofs.vg_plan_sound U FT AT HU fuel fs name log d P) as (evs & fr & h & E & PS & I). destruct (follows_same U fr h d I) as [EN EA].
    apply (Vi_intro _ _ _ _ _ _ _ _ _ _ evs fr h log); [apply vg_stream_iff; split; [easy|now exists fuel]|easy|].
    apply (vg_scan_ctxs _ _ _ _ _ _ (dp_ctxs d) _ (Lab d)); [easy|intros s; now rewrite EA|easy].
  - right. unfold VgIdent.vg_ident_scan in H. rewrite P in H. now injection H as <- <-.
  - right. unfold VgIdent.vg_ident_scan in H. rewrite P in H. now injection H as <- <-.
Qed.
Theorem vg_ident_iff verbose installed fs name ls n :
  VgIdentSays verbose installed fs name ls (Ok n) <->
  exists fuel labiter iditer, SetOrder labiter /\ SetOrder iditer /\ vg_ident_scan labiter iditer verbose installed fuel fs name = (ls, Ok n).
Proof.
  split; [apply vg_ident_complete|]. intros (fuel & lb & di & HL & HI & E). destruct (vg_ident_sound lb di HL HI _ _ _ _ _ _ _ E) as [H|[_ H]]; [easy|].
  exfalso. now apply (proj2 (H dp_init) n).
Qed.
Theorem vg_ident_det verbose installed fs name ls r ls' r' :
  (forall evs fr h log, VgStream fs name evs (Ok tt) -> VgPlanSays U FT AT evs fr h log ->
     forall a b, VgIdentifier (kept_contexts fr h) (all_labels (contexts h)) log a -> VgIdentifier (kept_contexts fr h) (all_labels (contexts h)) log b ->
     lower a = lower b -> a = b) ->
  VgIdentSays verbose installed fs name ls r -> VgIdentSays verbose installed fs name ls' r' -> ls = ls' /\ r = r'.
Proof.
  intros INJ [evs fr h log l0 r0 S P SC] [evs' fr' h' log' l1 r1 S' P' SC']. specialize (INJ evs fr h log S P).
  destruct (vg_stream_det _ _ _ _ _ _ S S') as [<- _].
  destruct (vg_stream_eventually _ _ _ _ S) as [k K]. specialize (K k (le_n k)).
  destruct (VgCheck_proofs.vg_plan_complete U FT AT HU k fs name evs fr h log K P) as (d & H & I).
  destruct (VgCheck_proofs.vg_plan_complete U FT AT HU k fs name evs fr' h' log' K P') as (d' & H' & I').
  rewrite H in H'. injection H' as <- <-.
  destruct (follows_same U fr h d I) as [EN EA]. destruct (follows_same U fr' h' d I') as [EN' EA'].
  assert (INJ' : forall a b, VgIdentifier (dp_ctxs d) (Lab d) log a -> VgIdentifier (dp_ctxs d) (Lab d) log b -> lower a = lower b -> a = b).
  { intros a b HA HB. apply INJ; unfold VgIdentifier in *; now rewrite EN, EA. }
  apply (vg_scan_ctxs _ _ _ _ _ _ _ _ _ _ _ _ _ EN EA) in SC. apply (vg_scan_ctxs _ _ _ _ _ _ _ _ _ _ _ _ _ EN' EA') in SC'.
  pose proof (follows_once U fr h d I) as NC.
  clear - SC SC' INJ' NC. destruct SC as (u1 & u2 & -> & H1 & H2 & H3 & H4), SC' as (v1 & v2 & -> & G1 & G2 & G3 & G4).
  assert (u1 = v1) as <-.
  { destruct verbose; [|now rewrite H2, G2]. destruct (H1 eq_refl) as (la & N & SS & IL & W), (G1 eq_refl) as (la' & N' & SS' & IL' & W').
    assert (la = la') as <-.
    { eapply sorted_unique; [exact SS|exact SS'|apply NoDup_Permutation; [easy|easy|]; intros x; now rewrite IL, IL'|].
      intros a b HA HB X Y. apply INJ'; [right; left; now apply IL|right; left; now apply IL|now apply strle_antisym]. }
    now apply (listing_det lower (dp_ctxs d) log la). }
  destruct installed.
  - destruct (H3 eq_refl) as (ids & st & isd & D & N & II & DD & ->), (G3 eq_refl) as (ids' & st' & isd' & D' & N' & II' & DD' & ->).
    apply distance_iff in DD, DD'; [|easy|easy].
    rewrite (distance_ext _ _ _ _ _ _ ids (digits_ext U isd D)) in DD. rewrite (distance_ext _ _ _ _ _ _ ids' (digits_ext U isd' D')) in DD'.
    rewrite (distance_same lower isupper islower (str_isdigit U) dist ids ids') in DD.
    + rewrite DD in DD'. now injection DD' as <- <-.
    + apply NoDup_Permutation; [easy|easy|]. intros x. now rewrite II, II'.
    + intros a b HA HB. apply INJ'; now apply II.
  - destruct (H4 eq_refl) as (-> & V1 & V2), (G4 eq_refl) as (-> & W1 & W2). split; [easy|]. destruct verbose; [now rewrite V1, W1|now rewrite V2, W2].
Qed.
End Command.

(* Where the readers give the same and no header is repeated. *)
Theorem vg_ident_same U FT AT isupper islower dist labiter iditer verbose installed fuel fuel' fs name :
  vsw_stream (vg_parse_file fuel fs name) = vsw_stream (parse_file fuel' fs name) ->
  NoDup (heads (elems (fst (vsw_stream (parse_file fuel' fs name))))) ->
  vg_ident_scan U FT AT isupper islower dist labiter iditer verbose installed fuel fs name =
  ident_scan U FT AT isupper islower dist labiter iditer verbose installed fuel' fs name.
Proof.
  intros E N. unfold vg_ident_scan, ident_scan, vg_parse_dialplan, parse_dialplan. rewrite E. destruct (vsw_stream (parse_file fuel' fs name)) as [evs o].
  now rewrite (VgCheck_proofs.streams_same U FT AT evs o N).
Qed.

(* ---- func_odbc-annotate ---- *)
Lemma give_arrows fs p : Arrows (elems (fst (vg_give fs p))).
Proof.
  destruct p as [[w data] comment]. unfold vg_give. destruct (parse_line w data comment) as [ms a] eqn:EP.
  assert (HM : forall l : list msg, elems (map EvMsg l) = []) by (intros l; induction l; easy).
  assert (EA : forall a b, elems (a ++ b) = elems a ++ elems b) by (intros; apply flat_map_app).
  destruct a as [e|[|target must]].
  - intros v. cbn [fst]. rewrite EA. change (elems (EvLine w data comment :: map EvMsg ms)) with (elems (map EvMsg ms)). rewrite HM. intros [->|[]].
    now apply parse_line_arrow in EP.
  - intros v. cbn [fst]. change (elems (EvLine w data comment :: map EvMsg ms)) with (elems (map EvMsg ms)). now rewrite HM.
  - destruct (do_include fs w target must) as [ms3 r]. intros v. cbn [fst]. rewrite EA.
    change (elems (EvLine w data comment :: map EvMsg ms)) with (elems (map EvMsg ms)). now rewrite !HM.
Qed.
Lemma arrows_app a b : Arrows (elems a) -> Arrows (elems b) -> Arrows (elems (a ++ b)).
Proof. intros A B v. unfold elems. rewrite flat_map_app. intros H. apply in_app_or in H as [H|H]; [now apply A|now apply B]. Qed.
Lemma msgs_arrows (l : list msg) : Arrows (elems (map EvMsg l)).
Proof. intros v. now induction l. Qed.
Lemma loop_arrows fs : forall fuel stk ff prev, Arrows (elems (fst (vg_loop fuel fs stk ff prev))).
Proof.
  induction fuel as [|n IH]; intros stk ff prev; cbn [vg_loop]; [easy|]. destruct stk as [|[name no [|b bs]] stk]; [| |].
  - destruct (ff_finish ff) as [ms [u|e|]]; try apply msgs_arrows. pose proof (fun p => give_arrows fs p) as G. unfold vg_give_opt.
    destruct prev as [p|]; [specialize (G p); destruct (vg_give fs p)|]; cbn [fst] in *; apply arrows_app; try apply msgs_arrows; easy.
  - apply IH.
  - destruct (vg_raw ff (Where name (no + 1) b) b) as [ms [[ff' s]|e|]]; [|apply msgs_arrows..].
    assert (GO : Arrows (elems (fst (vg_give_opt fs prev)))) by (destruct prev; [apply give_arrows|easy]).
    destruct (if starts_blank s then prev else None) as [[[w0 d0] c0]|].
    + destruct (vg_line (Where name (no + 1) b) s) as [ms2 dc].
      match goal with |- context [vg_loop n fs ?a ?b ?c] => pose proof (IH a b c) as K; destruct (vg_loop n fs a b c) as [l o] end.
      cbn [fst] in *. repeat apply arrows_app; try apply msgs_arrows; easy.
    + destruct (vg_give_opt fs prev) as [l1 [fr1|e|]]; [|cbn [fst] in *; apply arrows_app; [apply msgs_arrows|easy]..].
      destruct (vg_line (Where name (no + 1) b) s) as [ms2 [data comment]]. destruct (startswith [35] data).
      * pose proof (give_arrows fs (Where name (no + 1) b, data, comment)) as G2. destruct (vg_give fs (Where name (no + 1) b, data, comment)) as [l2 [fr2|e|]];
          [|cbn [fst] in *; repeat apply arrows_app; try apply msgs_arrows; easy..].
        match goal with |- context [vg_loop n fs ?a ?b ?c] => pose proof (IH a b c) as K; destruct (vg_loop n fs a b c) as [l o] end.
        cbn [fst] in *. repeat apply arrows_app; try apply msgs_arrows; easy.
      * match goal with |- context [vg_loop n fs ?a ?b ?c] => pose proof (IH a b c) as K; destruct (vg_loop n fs a b c) as [l o] end.
        cbn [fst] in *. repeat apply arrows_app; try apply msgs_arrows; easy.
Qed.
Lemma vg_file_arrows fuel fs name : Arrows (elems (fst (vsw_stream (vg_parse_file fuel fs name)))).
Proof.
  intros v I. assert (A : Arrows (elems (fst (vg_parse_file fuel fs name)))).
  { unfold vg_parse_file. destruct (open_frame fs name) as [f|e|]; try easy. apply loop_arrows. }
  apply A. clear A. unfold elems in *. apply in_flat_map in I as (e & I & I2). apply in_flat_map. exists e. split; [|easy].
  destruct e as [| |e']; try easy. destruct I2 as [->|[]].
  assert (J : In (EvElem (EVar v)) (filter essential (fst (vsw_stream (vg_parse_file fuel fs name))))) by now apply filter_In.
  rewrite (proj1 (ess_stream _)) in J. now apply filter_In in J.
Qed.

Section Annotate.
Variable installed : bool.
Variable fmt : str -> str.
Variable parse : str -> list (list sqltok).
Notation Says := (VgAnnotates installed fmt parse).
Notation run := (vg_annotate installed fmt parse).
Lemma queries_ends qs ls r : WritesQueries installed fmt parse qs ls r -> r <> Hang.
Proof. induction 1; easy. Qed.
Lemma writes_ends os ls r : Writes installed fmt parse os ls r -> r <> Hang.
Proof. induction 1; easy. Qed.
(* The run on a file that can be opened. *)
Lemma vg_annotate_run fuel fs name b evs o : fs name = Ok b -> vsw_stream (vg_parse_file fuel fs name) = (evs, o) ->
  exists os l, FileRule (elems evs) os l /\
  run fuel fs name = match o with
    | Ok _ => (Preamble ++ fst (annotate_all installed fmt parse os), snd (annotate_all installed fmt parse os))
    | Exn e => (Preamble, Exn e)
    | Hang => (Preamble, Hang) end.
Proof.
  intros EF ES. pose proof (vg_file_arrows fuel fs name) as A. unfold vg_annotate. unfold open_frame at 1. rewrite EF. cbn [bind olift obind].
  rewrite ES in *. cbn [fst] in A. destruct (steps_pre (elems evs) A) as (os & l & E & R & G).
  pose proof (fo_stream_total evs o [] _ E A) as T. cbn [snd] in T. rewrite T. clear T.
  exists os, l. split; [easy|]. destruct o as [[]|e|]; cbn [bind olift obind app]; [|easy..].
  rewrite rev_involutive. destruct (annotate_all installed fmt parse os) as [ls' r']. reflexivity.
Qed.
Lemma vg_annotate_eventually fs name ls r : Says fs name ls r -> Eventually (fun fuel => run fuel fs name = (ls, r)).
Proof.
  intros [e E|b evs e E S|evs os l ls' r' S R W].
  - exists 0%nat. intros fuel _. unfold vg_annotate, open_frame. now rewrite E.
  - destruct (vg_stream_eventually _ _ _ _ S) as [k K]. exists k. intros fuel LE. now destruct (vg_annotate_run fuel fs name b evs _ E (K fuel LE)) as (os & l & _ & ->).
  - destruct (vg_stream_eventually _ _ _ _ S) as [k K]. exists k. intros fuel LE. specialize (K fuel LE).
    destruct (fs name) as [b|e|] eqn:E.
    + destruct (vg_annotate_run fuel fs name b evs _ E K) as (os' & l2 & R' & ->). destruct (FileRule_fun _ _ _ _ _ R R') as [<- _].
      apply (all_iff _ _ _ _ _ _ R) in W. now rewrite W.
    + exfalso. unfold vg_parse_file, open_frame in K. rewrite E in K. cbn in K. discriminate K.
    + exfalso. unfold vg_parse_file, open_frame in K. rewrite E in K. cbn in K. discriminate K.
Qed.
Theorem vg_annotate_iff fs name ls r : Says fs name ls r <-> r <> Hang /\ exists fuel, run fuel fs name = (ls, r).
Proof.
  split.
  - intros H. split; [destruct H; try easy; now apply writes_ends in H1|]. destruct (vg_annotate_eventually _ _ _ _ H) as [k K]. exists k. now apply K.
  - intros (N & fuel & H). destruct (fs name) as [b|e|] eqn:E.
    + destruct (vsw_stream (vg_parse_file fuel fs name)) as [evs o] eqn:K. destruct (vg_annotate_run fuel fs name b evs _ E K) as (os & l & R & H').
      rewrite H in H'. destruct o as [[]|e|].
      * destruct (annotate_all installed fmt parse os) as [ls' r'] eqn:EA. injection H' as -> ->.
        apply (Va_whole _ _ _ _ _ evs os l); [apply vg_stream_iff; split; [easy|now exists fuel]|easy|]. now apply (all_iff _ _ _ _ _ _ R).
      * injection H' as -> ->. apply (Va_fails _ _ _ _ _ b evs); [easy|]. apply vg_stream_iff. split; [easy|now exists fuel].
      * injection H' as -> ->. easy.
    + unfold vg_annotate, open_frame in H. rewrite E in H. injection H as <- <-. now constructor.
    + unfold vg_annotate, open_frame in H. rewrite E in H. now injection H as <- <-.
Qed.
Theorem vg_annotate_det fs name ls r ls' r' : Says fs name ls r -> Says fs name ls' r' -> ls = ls' /\ r = r'.
Proof.
  intros H H'. apply vg_annotate_eventually in H as [k K], H' as [k' K'].
  specialize (K (k + k')%nat ltac:(lia)). specialize (K' (k + k')%nat ltac:(lia)). rewrite K in K'. now injection K' as <- <-.
Qed.
Theorem vg_annotate_same fuel fuel' fs name : vsw_stream (vg_parse_file fuel fs name) = vsw_stream (parse_file fuel' fs name) ->
  run fuel fs name = annotate installed fmt parse fuel' fs name.
Proof. intros E. unfold vg_annotate, annotate. now rewrite E. Qed.
End Annotate.
