(* C60: the rules of Spec_Reader.v against the reader. *)
From Verif Require Import Base PyStr Utf8 Defines FileRd Config VSpace Spec_File Spec_Config Spec_Include Spec_VSpace Spec_Reader
  File_proofs Config_proofs Include_proofs VSpace_proofs VSpaceMsg_proofs.

(* ---- lines ---- *)
Lemma yields_fun w b lf s evs p lf' s' evs' p' : LineYields w b lf s evs p -> LineYields w b lf' s' evs' p' ->
  s = s' /\ (lf = lf' -> evs = evs') /\ p = p'.
Proof.
  intros [d k bf af kd ms q R K Q] [d' k' bf' af' kd' ms' q' R' K' Q'].
  destruct (LineRead_fun _ _ _ _ _ _ _ _ _ _ _ _ R R') as (<- & <- & <- & <- & <-).
  rewrite <- (LineKind_fun _ _ _ K K') in Q'. destruct (LineResult_fun _ _ _ _ _ _ _ _ Q Q') as [<- <-].
  split; [easy|]. split; [now intros <-|easy].
Qed.
Lemma format_fun f s d d' : Format f s d -> Format f s d' -> d = d'.
Proof. intros H H'. inversion H; subst; inversion H'; now subst. Qed.
Lemma step_fun name f n pend b f1 evs p f1' evs' p' : LineStep name f n pend b f1 evs p -> LineStep name f n pend b f1' evs' p' ->
  f1 = f1' /\ evs = evs' /\ p = p'.
Proof.
  intros [w s dos e q -> F Y] [w' s' dos' e' q' -> F' Y'].
  destruct (yields_fun _ _ _ _ _ _ _ _ _ _ Y Y') as (<- & E & <-). rewrite <- (format_fun _ _ _ _ F F') in *. now rewrite E.
Qed.
Lemma step_decoded name f n pend b f1 evs p : LineStep name f n pend b f1 evs p -> exists s, Spec_File.Decoded b s.
Proof. intros [w s dos e q _ _ [d k bf af kd ms q' R _ _]]. exists s. now destruct R as (? & ? & ? & ? & ? & ? & ? & ? & D & _). Qed.
Lemma step_length name f n pend b f1 evs p : LineStep name f n pend b f1 evs p -> (1 <= length evs)%nat.
Proof. intros [w s dos e q _ _ [d k bf af kd ms q' _ _ _]]. rewrite app_length. cbn. lia. Qed.
Lemma target_fun name t p p' : Target name t p -> Target name t p' -> p = p'.
Proof. rewrite !Target_iff. congruence. Qed.

Lemma says_det fs name f n pend bs evs r : FileSays fs name f n pend bs evs r ->
  forall evs' r', FileSays fs name f n pend bs evs' r' -> evs = evs' /\ r = r'.
Proof.
  induction 1 as [name n|name dos l n pend|name f n pend b bs ND|name f n pend b bs f1 evs p rest r LS NI H IH
    |name f n pend b bs f1 evs t must p c ls sub pend1 rest r LS T Ef Ln Hs IHs H IH
    |name f n pend b bs f1 evs t must p c ls sub e LS T Ef Ln Hs IHs
    |name f n pend b bs f1 evs t must p rest r LS T Ef H IH|name f n pend b bs f1 evs t must p e LS T Ef NE];
  intros evs' r' H'; inversion H'; subst; try easy;
  try (match goal with N : forall s, ~ Spec_File.Decoded b s, X : LineStep _ _ _ _ b _ _ _ |- _ => destruct (step_decoded _ _ _ _ _ _ _ _ X) as [s D]; now destruct (N s) end);
  match goal with X : LineStep _ _ _ _ b _ _ _ |- _ => lazymatch X with LS => fail | _ => destruct (step_fun _ _ _ _ _ _ _ _ _ _ _ LS X) as (<- & <- & EP) end end;
  try (exfalso; eapply NI; exact EP); try (match goal with N : forall t must, ?q <> PAct (PPinclude t must) |- _ => exfalso; eapply N; symmetry; exact EP end);
  try (injection EP as <- <-; match goal with X : Target _ _ _ |- _ => lazymatch X with T => fail | _ => pose proof (target_fun _ _ _ _ T X); subst p; clear X end end);
  try (match goal with X : fs _ = _ |- _ => lazymatch X with Ef => fail | _ => rewrite Ef in X; try discriminate X; try (injection X as X; subst) end end);
  try (match goal with X : Lines _ _ |- _ => lazymatch X with Ln => fail | _ => pose proof (Lines_fun _ _ Ln _ X); subst end end);
  try (match goal with X : FileSays _ _ None 0 [] _ _ _ |- _ => lazymatch X with Hs => fail | _ => destruct (IHs _ _ X) as [<- E]; try discriminate E; injection E as <- end end);
  try (match goal with X : FileSays _ _ _ (n + 1) _ _ _ _ |- _ => lazymatch X with H => fail | _ => destruct (IH _ _ X) as [<- <-] end end); try easy; try congruence.
Qed.

(* ---- the state of the line end checks ---- *)
Definition ent (name : str) (dos : bool) (l : loc * str) : ffent := FFent name (Some dos) (Some (has_lf (snd l))) (fst l).
Definition State (ff : ffst) (base : list ffent) (name : str) (f : fmt) (pend : list msg) : Prop :=
  sync ff /\ ~ In name (map fe_name base) /\
  match f with
  | None => pend = [] /\ ff_info ff = base
  | Some (dos, l) => exists P, ff_info ff = P ++ ent name dos l :: base /\ Forall complete P /\ disj (name :: map fe_name base) P /\ pm P = pend
  end.
Definition Closed (ff : ffst) (base : list ffent) (pend : list msg) : Prop :=
  sync ff /\ exists P, ff_info ff = P ++ base /\ Forall complete P /\ disj (map fe_name base) P /\ pm P = pend.

Lemma LineRead_raw w b s d k bf af : LineRead w b s d k bf af -> RawLine b d k.
Proof.
  intros (body & e & text & bl & bare & l1 & l2 & l3 & D & He & Eb & B & N & C & _).
  now exists s, body, e, text, bl, bare.
Qed.
Definition Fresh (ff : ffst) (base : list ffent) (name : str) (f : fmt) : Prop :=
  exists dos l, f = Some (dos, l) /\ sync ff /\ ~ In name (map fe_name base) /\ ff_info ff = ent name dos l :: base.
Lemma fresh_state ff base name f : Fresh ff base name f -> State ff base name f [].
Proof. intros (dos & l & -> & Sy & N & E). split; [easy|]. split; [easy|]. exists []. repeat split; try easy; constructor. Qed.
Lemma ff_step ff base name f pend n b s dos : State ff base name f pend -> Format f s dos ->
  let w := Where name (n + 1) b in
  exists ff', Fresh ff' base name (Some (dos, (w, s))) /\ ff_line ff w s = (pend ++ line_msgs dos w s, Ok (ff', strip_eol s)).
Proof.
  intros (Sy & Nn & K) F w. destruct ff as [info d0]. destruct F as [s|dos [w0 s0] s]; cbn [ff_info] in K.
  - destruct K as [-> ->]. cbn [List.app]. rewrite (ff_line_new base d0 w s) by easy. eexists. split; [|reflexivity].
    eexists. exists (w, s). now repeat split.
  - destruct K as (P & -> & C & D & <-). rewrite (ff_line_known P (ent name dos (w0, s0)) base d0 w s dos); try easy.
    + eexists. split; [|reflexivity]. eexists. exists (w, s). now repeat split.
    + unfold disj in D. rewrite Forall_forall in *. intros x I E. apply (D x I). now left.
Qed.
Lemma step_run ff base name f n pend b f' evs p : State ff base name f pend -> nl_last b -> LineStep name f n pend b f' evs p ->
  let w := Where name (n + 1) b in
  exists ff' ms d k, Fresh ff' base name f' /\ read_line ff w b = (ms, Ok (ff', d, k)) /\ line_evs ms w d k = evs /\ snd (parse_line w d k) = p.
Proof.
  intros St Nb H. cbv zeta. destruct H as [w s dos evs p -> F [d k bf af kd ms p' R K Q]].
  destruct (ff_step _ _ _ _ _ n b s dos St F) as (ff' & St' & E). cbv zeta in E.
  exists ff', (bf ++ (pend ++ line_msgs dos (Where name (n + 1) b) s) ++ af), d, k. split; [easy|].
  split. { apply read_line_iff. exists s, bf. eexists. exists af, (strip_eol s). split; [easy|]. split; [exact E|easy]. }
  pose proof (RawLine_no_nl _ _ _ (LineRead_raw _ _ _ _ _ _ _ R) Nb) as N1.
  destruct (parse_line_spec (Where name (n + 1) b) d k N1) as (k2 & K2 & R2). rewrite <- (LineKind_fun _ _ _ K K2) in R2.
  destruct (LineResult_fun _ _ _ _ _ _ _ _ R2 Q) as [E1 E2]. unfold line_evs. rewrite E1, E2.
  split; [|easy]. now destruct p'.
Qed.

(* The size of what a file gives.  A file is larger than what it includes. *)
Definition Size (fs : str -> res bytes) (a : str) (m : nat) : Prop :=
  forall c ls E r, fs a = Ok c -> Lines c ls -> FileSays fs a None 0 [] ls E r -> (m <= length E)%nat.
Lemma size_less fs a m m' : Size fs a m -> (m' <= m)%nat -> Size fs a m'.
Proof. intros H L c ls E r E1 E2 E3. specialize (H c ls E r E1 E2 E3). lia. Qed.
Lemma size_self fs p c ls sub r : fs p = Ok c -> Lines c ls -> FileSays fs p None 0 [] ls sub r -> Size fs p (length sub).
Proof.
  intros Ef Ln H c' ls' E r' Ef' Ln' H'. rewrite Ef in Ef'. injection Ef' as <-. rewrite <- (Lines_fun _ _ Ln _ Ln') in H'.
  now destruct (says_det _ _ _ _ _ _ _ _ H _ _ H') as [<- _].
Qed.
Lemma state_closed ff base name dos l pend : ~ In name (map fe_name base) ->
  Closed ff (ent name dos l :: base) pend -> State ff base name (Some (dos, l)) pend.
Proof. intros N (Sy & P & E & C & D & M). split; [easy|]. split; [easy|]. now exists P. Qed.
(* going into an included file *)
Lemma child_state fs ff base name f p c ls sub r m : Fresh ff base name f -> Size fs name m -> (forall a, In a (map fe_name base) -> Size fs a (S m)) ->
  (length sub < m)%nat -> fs p = Ok c -> Lines c ls -> FileSays fs p None 0 [] ls sub r ->
  State ff (ff_info ff) p None [] /\ Size fs p (length sub) /\ forall a, In a (map fe_name (ff_info ff)) -> Size fs a (S (length sub)).
Proof.
  intros (dos & l & -> & Sy & N & E) Sz Sb Lt Ef Ln H.
  assert (Sb' : forall a, In a (map fe_name (ff_info ff)) -> Size fs a (S (length sub))).
  { rewrite E. intros a [<-|I]; [apply (size_less _ _ _ _ Sz); lia|apply (size_less _ _ _ _ (Sb a I)); lia]. }
  split; [|split; [now apply (size_self fs p c ls sub r)|easy]]. split; [easy|]. split; [|easy].
  intros I. specialize (Sb' p I c ls sub r Ef Ln H). lia.
Qed.

Lemma file_run fs name f n pend bs evs r : FileSays fs name f n pend bs evs r -> Forall nl_last bs ->
  forall ff base, State ff base name f pend -> Size fs name (length evs) -> (forall a, In a (map fe_name base) -> Size fs a (S (length evs))) ->
  match r with
  | inl pend' => exists k ff', Closed ff' base pend' /\ forall fuel stk,
      read (k + fuel) fs (Frame name n bs :: stk) ff = (evs ++ fst (read fuel fs stk ff'), snd (read fuel fs stk ff'))
  | inr e => exists k, forall fuel stk, read (k + fuel) fs (Frame name n bs :: stk) ff = (evs, Exn e)
  end.
Proof.
  induction 1 as [name n|name dos l n pend|name f n pend b bs ND|name f n pend b bs f1 evs p rest r LS NI H IH
    |name f n pend b bs f1 evs t must p c ls sub pend1 rest r LS T Ef Ln Hs IHs H IH
    |name f n pend b bs f1 evs t must p c ls sub e LS T Ef Ln Hs IHs
    |name f n pend b bs f1 evs t must p rest r LS T Ef H IH|name f n pend b bs f1 evs t must p e LS T Ef NE]; intros NL ff base St Sz Sb.
  - destruct St as (Sy & Nn & _ & E). exists 1%nat, ff. split.
    + split; [easy|]. exists []. repeat split; try easy; constructor.
    + intros fuel stk. cbn. now destruct (read fuel fs stk ff).
  - destruct St as (Sy & Nn & P & E & C & D & M). exists 1%nat, ff. split.
    + split; [easy|]. exists (P ++ [ent name dos l]). rewrite <- app_assoc. split; [easy|].
      destruct (is_ent_end (ent name dos l) name dos (Some l)) as (E1 & E2 & _); [now destruct l|].
      split; [apply Forall_app; split; [easy|now constructor]|]. split.
      * apply Forall_app. split; [|now constructor]. unfold disj in D. rewrite Forall_forall in *. intros x I I2. apply (D x I). now right.
      * unfold pm. rewrite flat_map_app. fold (pm P). rewrite M. cbn [flat_map]. now rewrite E1, app_nil_r.
    + intros fuel stk. cbn. now destruct (read fuel fs stk ff).
  - exists 1%nat. intros fuel stk. cbn [plus read]. unfold read_line, decode_line.
    assert (NU : forall s, ~ Utf8 s b) by (intros s X; apply (ND s); now left).
    destruct (decode_line_other (Where name (n + 1) b) b NU) as (D1 & D2 & D3 & D4). unfold decode_line in *.
    destruct (utf8_decode b) as [s|eu|] eqn:EU; [now apply utf8_decode_iff, NU in EU| |];
      cbn [fst snd wbind] in *; (destruct (cp1252_decode b) as [s|e|] eqn:EC;
        [destruct (ND s); right; split; [easy|]; now apply D2|destruct (proj1 (D3 e) eq_refl) as [-> _]; reflexivity|easy]).
  - inversion NL as [|? ? Nb Nbs]; subst. destruct (step_run ff base name f n pend b f1 evs p St Nb LS) as (ff1 & ms & d & k & St1 & E & Le & P).
    rewrite app_length in Sz, Sb.
    assert (Sz' : Size fs name (length rest)) by (apply (size_less _ _ _ _ Sz); lia).
    assert (Sb' : forall a, In a (map fe_name base) -> Size fs a (S (length rest))) by (intros a I; apply (size_less _ _ _ _ (Sb a I)); lia).
    specialize (IH Nbs ff1 base (fresh_state _ _ _ _ St1) Sz' Sb').
    assert (STEP : forall m stk, read (S m) fs (Frame name n (b :: bs) :: stk) ff =
       (evs ++ fst (read m fs (Frame name (n + 1) bs :: stk) ff1), snd (read m fs (Frame name (n + 1) bs :: stk) ff1))).
    { intros m stk. rewrite (step_line _ _ _ _ _ _ _ _ _ _ _ _ E). rewrite Le. cbv zeta. rewrite P.
      destruct p as [el|[|t must]]; [easy|easy|]. now destruct (NI t must). }
    destruct r as [pend'|e].
    + destruct IH as (k1 & ff2 & C & IH). exists (S k1), ff2. split; [easy|]. intros fuel stk. cbn [plus]. rewrite STEP, IH. cbn [fst snd]. now rewrite app_assoc.
    + destruct IH as (k1 & IH). exists (S k1). intros fuel stk. cbn [plus]. now rewrite STEP, IH.
  - inversion NL as [|? ? Nb Nbs]; subst. destruct (step_run ff base name f n pend b f1 evs _ St Nb LS) as (ff1 & ms & d & k & St1 & E & Le & P).
    pose proof (step_length _ _ _ _ _ _ _ _ LS) as Len. rewrite !app_length in Sz, Sb.
    destruct (child_state fs ff1 base name f1 p c ls sub (inl pend1) _ St1 Sz Sb ltac:(lia) Ef Ln Hs) as (St2 & Sz2 & Sb2).
    destruct (IHs (Lines_nl _ _ Ln) ff1 (ff_info ff1) St2 Sz2 Sb2) as (k1 & ff2 & C & R1).
    assert (St3 : State ff2 base name f1 pend1).
    { destruct St1 as (dos & l & -> & Sy & N & EI). rewrite EI in C. now apply state_closed. }
    assert (Sz' : Size fs name (length rest)) by (apply (size_less _ _ _ _ Sz); lia).
    assert (Sb' : forall a, In a (map fe_name base) -> Size fs a (S (length rest))) by (intros a I; apply (size_less _ _ _ _ (Sb a I)); lia).
    specialize (IH Nbs ff2 base St3 Sz' Sb').
    assert (STEP : forall m stk, read (S (k1 + m)) fs (Frame name n (b :: bs) :: stk) ff =
       (evs ++ sub ++ fst (read m fs (Frame name (n + 1) bs :: stk) ff2), snd (read m fs (Frame name (n + 1) bs :: stk) ff2))).
    { intros m stk. rewrite (step_line _ _ _ _ _ _ _ _ _ _ _ _ E). rewrite Le. cbv zeta. rewrite P, (Target_path _ _ _ T), Ef.
      rewrite (Lines_fun _ _ (lines_of_Lines c) _ Ln), R1. easy. }
    destruct r as [pend'|e].
    + destruct IH as (k2 & ff3 & C3 & IH). exists (S (k1 + k2)), ff3. split; [easy|]. intros fuel stk. cbn [plus]. rewrite <- Nat.add_assoc, STEP, IH. cbn [fst snd]. now rewrite !app_assoc.
    + destruct IH as (k2 & IH). exists (S (k1 + k2)). intros fuel stk. cbn [plus]. now rewrite <- Nat.add_assoc, STEP, IH.
  - inversion NL as [|? ? Nb Nbs]; subst. destruct (step_run ff base name f n pend b f1 evs _ St Nb LS) as (ff1 & ms & d & k & St1 & E & Le & P).
    pose proof (step_length _ _ _ _ _ _ _ _ LS) as Len. rewrite !app_length in Sz, Sb.
    destruct (child_state fs ff1 base name f1 p c ls sub (inr e) _ St1 Sz Sb ltac:(lia) Ef Ln Hs) as (St2 & Sz2 & Sb2).
    destruct (IHs (Lines_nl _ _ Ln) ff1 (ff_info ff1) St2 Sz2 Sb2) as (k1 & R1).
    exists (S k1). intros fuel stk. cbn [plus]. rewrite (step_line _ _ _ _ _ _ _ _ _ _ _ _ E). rewrite Le. cbv zeta. rewrite P, (Target_path _ _ _ T), Ef.
    now rewrite (Lines_fun _ _ (lines_of_Lines c) _ Ln), R1.
  - inversion NL as [|? ? Nb Nbs]; subst. destruct (step_run ff base name f n pend b f1 evs _ St Nb LS) as (ff1 & ms & d & k & St1 & E & Le & P).
    rewrite !app_length in Sz, Sb.
    assert (Sz' : Size fs name (length rest)) by (apply (size_less _ _ _ _ Sz); lia).
    assert (Sb' : forall a, In a (map fe_name base) -> Size fs a (S (length rest))) by (intros a I; apply (size_less _ _ _ _ (Sb a I)); lia).
    specialize (IH Nbs ff1 base (fresh_state _ _ _ _ St1) Sz' Sb').
    assert (STEP : forall m stk, read (S m) fs (Frame name n (b :: bs) :: stk) ff =
       (evs ++ (if must then [EvMsg (Msg W_PP_INCLUDE_MISSING (Where name (n + 1) b) None [(L "filename", AStr t)])] else [])
        ++ fst (read m fs (Frame name (n + 1) bs :: stk) ff1), snd (read m fs (Frame name (n + 1) bs :: stk) ff1))).
    { intros m stk. rewrite (step_line _ _ _ _ _ _ _ _ _ _ _ _ E). rewrite Le. cbv zeta. rewrite P, (Target_path _ _ _ T), Ef. now destruct must. }
    destruct r as [pend'|e].
    + destruct IH as (k1 & ff2 & C & IH). exists (S k1), ff2. split; [easy|]. intros fuel stk. cbn [plus]. rewrite STEP, IH. cbn [fst snd]. now rewrite !app_assoc.
    + destruct IH as (k1 & IH). exists (S k1). intros fuel stk. cbn [plus]. now rewrite STEP, IH.
  - inversion NL as [|? ? Nb Nbs]; subst. destruct (step_run ff base name f n pend b f1 evs _ St Nb LS) as (ff1 & ms & d & k & St1 & E & Le & P).
    exists 1%nat. intros fuel stk. cbn [plus]. rewrite (step_line _ _ _ _ _ _ _ _ _ _ _ _ E). rewrite Le. cbv zeta. rewrite P, (Target_path _ _ _ T), Ef.
    destruct e; easy.
Qed.

(* ---- every ended run has its derivation ---- *)
Lemma Decoded_same b s : Spec_File.Decoded b s <-> Spec_Include.Decoded b s.
Proof. reflexivity. Qed.
Lemma step_exists name f n pend b ff ms ff' d k : nl_last b -> ff_good ff ->
  read_line ff (Where name (n + 1) b) b = (ms, Ok (ff', d, k)) ->
  exists f' evs, f' <> None /\ LineStep name f n pend b f' evs (snd (parse_line (Where name (n + 1) b) d k)).
Proof.
  intros Nb G E. apply read_line_iff in E as (s & bf & lf & af & body & R & _ & _).
  set (w := Where name (n + 1) b) in *.
  assert (F : exists dos, Format f s dos) by (destruct f as [[dos l]|]; eexists; constructor). destruct F as [dos F].
  pose proof (RawLine_no_nl _ _ _ (LineRead_raw _ _ _ _ _ _ _ R) Nb) as N1.
  destruct (parse_line_spec w d k N1) as (kd & K & Q).
  exists (Some (dos, (w, s))). eexists. split; [discriminate|]. apply (Lt_line _ _ _ _ _ w s dos); [reflexivity|exact F|].
  apply (Li_line _ _ _ _ d k bf af kd (fst (parse_line w d k))); [exact R|exact K|exact Q].
Qed.
Lemma read_says fs : forall fuel name n bs stk ff evs o, ff_good ff -> Forall nl_last bs ->
  read fuel fs (Frame name n bs :: stk) ff = (evs, o) -> o <> Hang -> forall f pend, (f = None -> pend = []) ->
  exists evs1 r, FileSays fs name f n pend bs evs1 r /\
    (forall p, r = inl p -> exists fuel' ff' evs', (fuel' < fuel)%nat /\ ff_good ff' /\ read fuel' fs stk ff' = (evs', o)).
Proof.
  intros fuel. induction fuel as [fuel IH] using (well_founded_induction Wf_nat.lt_wf). intros name n bs stk ff evs o G NL E NH f pend Fp.
  destruct fuel as [|m]; [injection E as _ <-; easy|]. destruct bs as [|b bs].
  { assert (X : exists r, FileSays fs name f n pend [] [] r).
    { destruct f as [[dos l]|]; [eexists; constructor|]. rewrite (Fp eq_refl). eexists; constructor. }
    destruct X as [r X]. exists [], r. split; [easy|]. intros p _. cbn in E. exists m, ff, evs. split; [lia|easy]. }
  inversion NL as [|? ? Nb Nbs]; subst.
  destruct (line_cases (Where name (n + 1) b) b) as [[ND _]|(d & k & R & X)].
  { eexists. exists (inr UnicodeDecodeError). split; [now apply Fy_undecodable|discriminate]. }
  destruct (X ff G) as (ms & ff1 & Er & G1 & _). rewrite (step_line _ _ _ _ _ _ _ _ _ _ _ _ Er) in E. cbv zeta in E.
  destruct (step_exists name f n pend b ff ms ff1 d k Nb G Er) as (f1 & evs1 & NF & LS).
  assert (NX : forall m2 ff2 evs2 pend', (m2 <= m)%nat -> ff_good ff2 -> read m2 fs (Frame name (n + 1) bs :: stk) ff2 = (evs2, o) ->
     exists rest r, FileSays fs name f1 (n + 1) pend' bs rest r /\
       forall p, r = inl p -> exists fuel' ff' evs', (fuel' < S m)%nat /\ ff_good ff' /\ read fuel' fs stk ff' = (evs', o)).
  { intros m2 ff2 evs2 pend' L2 G2 E2. destruct (IH m2 ltac:(lia) name (n + 1) bs stk ff2 evs2 o G2 Nbs E2 NH f1 pend') as (rest & r & S1 & S2); [easy|].
    exists rest, r. split; [easy|]. intros p Ep. destruct (S2 p Ep) as (m3 & ff3 & evs3 & L3 & G3 & E3). exists m3, ff3, evs3. split; [lia|easy]. }
  destruct (snd (parse_line (Where name (n + 1) b) d k)) as [el|[|t must]] eqn:P.
  - injection E as _ E. destruct (read m fs (Frame name (n + 1) bs :: stk) ff1) as [e2 o2] eqn:E2. cbn [snd] in E. subst o2.
    destruct (NX m ff1 e2 [] (le_n m) G1 E2) as (rest & r & S1 & S2). exists (evs1 ++ rest), r. split; [|exact S2].
    apply (Fy_plain _ _ _ _ _ _ _ f1 evs1 (PElem el)); [easy|discriminate|easy].
  - injection E as _ E. destruct (read m fs (Frame name (n + 1) bs :: stk) ff1) as [e2 o2] eqn:E2. cbn [snd] in E. subst o2.
    destruct (NX m ff1 e2 [] (le_n m) G1 E2) as (rest & r & S1 & S2). exists (evs1 ++ rest), r. split; [|exact S2].
    apply (Fy_plain _ _ _ _ _ _ _ f1 evs1 (PAct PPnone)); [easy|discriminate|easy].
  - destruct (Target_exists name t) as [p T]. rewrite (Target_path _ _ _ T) in E. destruct (fs p) as [c|e|] eqn:Ef.
    + injection E as _ E. destruct (read m fs (Frame p 0 (lines_of c) :: Frame name (n + 1) bs :: stk) ff1) as [e2 o2] eqn:E2. cbn [snd] in E. subst o2.
      pose proof (lines_of_Lines c) as Ln.
      destruct (IH m ltac:(lia) p 0 (lines_of c) _ ff1 e2 o G1 (Lines_nl _ _ Ln) E2 NH None [] ltac:(easy)) as (sub & r1 & S1 & S2). destruct r1 as [pend'|e].
      * destruct (S2 pend' eq_refl) as (m3 & ff3 & evs3 & L3 & G3 & E3).
        destruct (NX m3 ff3 evs3 pend' ltac:(lia) G3 E3) as (rest & r & S3 & S4). exists (evs1 ++ sub ++ rest), r. split; [|exact S4].
        now apply (Fy_include _ _ _ _ _ _ _ f1 evs1 t must p c (lines_of c) sub pend').
      * exists (evs1 ++ sub), (inr e). split; [|discriminate]. now apply (Fy_include_fails _ _ _ _ _ _ _ f1 evs1 t must p c (lines_of c) sub).
    + assert (D : e = OSError \/ e <> OSError) by (destruct e; auto; right; discriminate). destruct D as [->|D].
      * injection E as _ E. destruct (read m fs (Frame name (n + 1) bs :: stk) ff1) as [e2 o2] eqn:E2. cbn [snd] in E. subst o2.
        destruct (NX m ff1 e2 [] (le_n m) G1 E2) as (rest & r & S1 & S2). eexists. exists r. split; [|exact S2].
        apply (Fy_missing _ _ _ _ _ _ _ f1 evs1 t must p rest r); easy.
      * exists evs1, (inr e). split; [|discriminate]. now apply (Fy_unopened _ _ _ _ _ _ _ f1 evs1 t must p).
    + injection E as _ <-. easy.
Qed.

Lemma closed_finish ff pend : Closed ff [] pend -> ff_finish ff = (pend, Ok tt).
Proof.
  intros (_ & P & E & C & _ & <-). rewrite app_nil_r in E. unfold ff_finish. rewrite E, ff_pop_all by easy. cbn. now rewrite app_nil_r.
Qed.
Lemma init_state name : State ff_init [] name None [].
Proof. split; [exact I|]. split; [intros []|easy]. Qed.
Lemma reader_complete fs name evs o : ReaderSays fs name evs o -> o <> Hang /\ exists k, forall fuel, (k <= fuel)%nat -> parse_file fuel fs name = (evs, o).
Proof.
  unfold parse_file, open_frame. intros [c ls es pend Ef Ln H|c ls es e Ef Ln H|e Ef]; (split; [discriminate|]); rewrite Ef; cbn [bind].
  - pose proof (file_run _ _ _ _ _ _ _ _ H (Lines_nl _ _ Ln) ff_init [] (init_state name) (size_self _ _ _ _ _ _ Ef Ln H) ltac:(intros a [])) as K.
    cbn beta iota in K. destruct K as (k & ff & C & R). exists (k + 1)%nat. intros fuel Lf. replace fuel with (k + S (fuel - k - 1))%nat by lia.
    rewrite (Lines_fun _ _ (lines_of_Lines c) _ Ln), R. cbn [read]. rewrite (closed_finish _ _ C). reflexivity.
  - pose proof (file_run _ _ _ _ _ _ _ _ H (Lines_nl _ _ Ln) ff_init [] (init_state name) (size_self _ _ _ _ _ _ Ef Ln H) ltac:(intros a [])) as K.
    cbn beta iota in K. destruct K as (k & R). exists k. intros fuel Lf. replace fuel with (k + (fuel - k))%nat by lia.
    now rewrite (Lines_fun _ _ (lines_of_Lines c) _ Ln), R.
  - exists O. reflexivity.
Qed.
Theorem reader_iff fs name evs o : ReaderSays fs name evs o <-> o <> Hang /\ exists fuel, parse_file fuel fs name = (evs, o).
Proof.
  split.
  - intros H. destruct (reader_complete _ _ _ _ H) as (N & k & K). split; [easy|]. exists k. now apply K.
  - intros (NH & fuel & E). assert (X : exists evs' o', ReaderSays fs name evs' o').
    { pose proof E as E0. unfold parse_file, open_frame in E0. destruct (fs name) as [c|e|] eqn:Ef; cbn [bind] in E0.
      - destruct (read_says fs fuel name 0 (lines_of c) [] ff_init evs o init_good (Lines_nl _ _ (lines_of_Lines c)) E0 NH None [] ltac:(easy)) as (es & r & S1 & _).
        destruct r as [pend|e]; eexists; eexists; [now apply (Ry_ok _ _ c (lines_of c) es pend (Ef) (lines_of_Lines c))|now apply (Ry_fails _ _ c (lines_of c) es e Ef (lines_of_Lines c))].
      - eexists; eexists. exact (Ry_unopened _ _ _ Ef).
      - injection E0 as _ <-. easy. }
    destruct X as (evs' & o' & X). destruct (reader_complete _ _ _ _ X) as (N & k & K).
    specialize (K (fuel + k)%nat ltac:(lia)). rewrite parse_mono in K by (now rewrite E). rewrite E in K. now injection K as -> ->.
Qed.
