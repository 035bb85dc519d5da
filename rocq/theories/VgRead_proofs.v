(* C67: the rules of Spec_VgRead.v against the reader. *)
From Verif Require Import Base PyStr Utf8 Defines FileRd Config Vg VgRead Spec_File Spec_Config Spec_Include Spec_Reader Spec_Vg Spec_VgRead
  File_proofs Config_proofs Include_proofs Reader_proofs Vg_proofs.

(* ---- the rules are deterministic ---- *)
Lemma numbered_fun name n bs ws : Numbered name n bs ws -> forall ws', Numbered name n bs ws' -> ws = ws'.
Proof. induction 1; intros ws' H'; inversion H'; subst; [easy|]. f_equal. auto. Qed.
Lemma filelines_fun fs p ws ws' : FileLines fs p ws -> FileLines fs p ws' -> ws = ws'.
Proof.
  intros (c & ls & E & Ln & Nu) (c' & ls' & E' & Ln' & Nu'). rewrite E in E'. injection E' as <-.
  rewrite <- (Lines_fun _ _ Ln _ Ln') in Nu'. now apply (numbered_fun _ _ _ _ Nu).
Qed.
Lemma given_fun fs x evs r evs' r' : Given fs x evs r -> Given fs x evs' r' -> evs = evs' /\ r = r'.
Proof.
  intros H H'. destruct H as [w d k kd ms p K R NI|w d k kd ms t must p ls K R T F|w d k kd ms t must p K R T F|w d k kd ms t must p e K R T F NE];
  inversion H' as [w1 d1 k1 kd1 ms1 p1 K1 R1 NI1|w1 d1 k1 kd1 ms1 t1 must1 p1 ls1 K1 R1 T1 F1|w1 d1 k1 kd1 ms1 t1 must1 p1 K1 R1 T1 F1|w1 d1 k1 kd1 ms1 t1 must1 p1 e1 K1 R1 T1 F1 NE1];
  subst; rewrite <- (LineKind_fun _ _ _ K K1) in R1; destruct (LineResult_fun _ _ _ _ _ _ _ _ R R1) as [<- EP]; subst;
  try (exfalso; eapply NI; reflexivity); try (exfalso; eapply NI1; reflexivity); try easy;
  injection EP as <- <-; rewrite (target_fun _ _ _ _ T T1) in *; try easy;
  try (split; [easy|]; f_equal; eapply filelines_fun; eassumption);
  try (destruct F as (c & l1 & F & _)); try (destruct F1 as (c1 & l2 & F1 & _)); try congruence; split; congruence.
Qed.
Lemma kept_fun fs x evs r evs' r' : KeptGiven fs x evs r -> KeptGiven fs x evs' r' -> evs = evs' /\ r = r'.
Proof. intros [|y e q G] H'; inversion H'; subst; [easy|]. eapply given_fun; eassumption. Qed.
Lemma next_fun fs kept w s evs r evs' r' : Next fs kept w s evs r -> Next fs kept w s evs' r' -> evs = evs' /\ r = r'.
Proof.
  intros H H'.
  assert (NC : forall x, kept = Some x -> begins_blank s -> continues kept s) by (intros x -> B; now split).
  destruct H as [w0 d0 k0 d k l b E B V W|d k l e f NN G V NP|d k l e f e2 f2 NN G V P G2|e x NN G|d k l e f e2 x NN G V P G2];
  inversion H' as [w1 d1 k1 d' k' l' b' E' B' V' W'|d' k' l' e' f' NN' G' V' NP'|d' k' l' e' f' e2' f2' NN' G' V' P' G2'|e' x' NN' G'|d' k' l' e' f' e2' x' NN' G' V' P' G2'];
  subst; try (exfalso; apply NN; eapply NC; [reflexivity|easy]); try (exfalso; apply NN'; eapply NC; [reflexivity|easy]);
  try (match goal with A : KeptGiven _ _ _ _, B : KeptGiven _ _ _ _ |- _ => lazymatch A with B => fail | _ => destruct (kept_fun _ _ _ _ _ _ A B) as [<- EK]; try discriminate EK; injection EK as EK; subst end end);
  try easy;
  try (destruct (part_fun _ _ _ _ _ _ _ _ V V') as (<- & <- & <-)); try contradiction;
  try (match goal with A : Given _ _ _ _, B : Given _ _ _ _ |- _ => lazymatch A with B => fail | _ => destruct (given_fun _ _ _ _ _ _ A B) as [<- EK]; try discriminate EK; injection EK as EK; subst end end);
  try easy.
  injection E' as <- <- <-. now rewrite (File_proofs.when_fun _ _ _ _ _ W W').
Qed.
Lemma text_fun w t s l t' s' l' : TextOf w t s l -> TextOf w t' s' l' -> t = t' /\ s = s' /\ l = l'.
Proof.
  intros [t0 b e l1 l2 D E W1 W2] [t0' b' e' l1' l2' D' E' W1' W2'].
  rewrite <- (Include_proofs.Decoded_fun _ _ _ D D') in *. destruct (Ends_unique _ _ _ _ _ E E') as [<- _].
  now rewrite (File_proofs.when_fun _ _ _ _ _ W1 W1'), (File_proofs.when_fun _ _ _ _ _ W2 W2').
Qed.
Lemma text_decoded w t s l : TextOf w t s l -> exists t, Spec_File.Decoded (w_text w) t.
Proof. intros [t0 b e l1 l2 D _ _ _]. now exists t0. Qed.
Lemma split_fun n (a : list begun) g r : Forall (fun x => g_name x <> n) a -> g_name g = n -> forall a' g' r', Forall (fun x => g_name x <> n) a' -> g_name g' = n ->
  a ++ g :: r = a' ++ g' :: r' -> a = a' /\ g = g' /\ r = r'.
Proof.
  induction a as [|x a IH]; intros F E a' g' r' F' E' H; destruct a' as [|y a']; cbn [List.app] in H.
  - now injection H as -> ->.
  - injection H as -> _. now inversion F'.
  - injection H as -> _. now inversion F.
  - injection H as -> H. inversion F; inversion F'; subst. now destruct (IH H3 eq_refl a' g' r') as (-> & -> & ->).
Qed.
Lemma split_not n (a : list begun) g r : g_name g = n -> ~ Forall (fun x => g_name x <> n) (a ++ g :: r).
Proof. intros E F. apply Forall_app in F as [_ F]. now inversion F. Qed.
Lemma line_end_fun st w t ms st' ms2 st2 : LineEnd st w t ms st' -> LineEnd st w t ms2 st2 -> ms = ms2 /\ st' = st2.
Proof.
  intros [a g r E F G|dos F E] [a' g' r' E' F' G'|dos' F' E']; try (subst; now apply split_not in F); try (subst; now apply split_not in F').
  - rewrite E in E'. now destruct (split_fun _ _ _ _ F G _ _ _ F' G' E') as (<- & <- & <-).
  - now subst.
Qed.
Lemma goes_fun fs st kept todo text evs o : Goes fs st kept todo text evs o -> forall text' evs' o', Goes fs st kept todo text' evs' o' ->
  text = text' /\ evs = evs' /\ o = o'.
Proof.
  induction 1 as [st kept evs u G|st kept evs e G|st kept w todo ND|st kept w todo t s l ms st1 evs kept1 found text rest o T LE N1 H IH|st kept w todo t s l ms st1 evs e T LE N1];
  intros text' evs' o' H'; inversion H' as [st' kept' e1 u' G'|st' kept' e1 e' G'|st' kept' w' todo' ND'|st' kept' w' todo' t' s' l' ms' st1' e1 kept1' found' text1 rest' o1 T' LE' N1' H1|st' kept' w' todo' t' s' l' ms' st1' e1 e' T' LE' N1'];
  subst;
  try (match goal with A : forall s, ~ Spec_File.Decoded _ s, B : TextOf _ _ _ _ |- _ => destruct (text_decoded _ _ _ _ B) as [z Z]; now destruct (A z) end);
  try (destruct (kept_fun _ _ _ _ _ _ G G') as [<- EK]; try discriminate EK; injection EK as EK; now subst); try easy;
  destruct (text_fun _ _ _ _ _ _ _ T T') as (<- & <- & <-); destruct (line_end_fun _ _ _ _ _ _ _ LE LE') as [<- <-]; destruct (next_fun _ _ _ _ _ _ _ _ N1 N1') as [<- EN]; try discriminate EN.
  - injection EN as <- <-. now destruct (IH _ _ _ H1) as (<- & <- & <-).
  - injection EN as <-. easy.
Qed.

(* ---- the model, one step at a time ---- *)
Fixpoint number (name : str) (n : N) (bs : list bytes) : list loc :=
  match bs with [] => [] | b :: r => Where name (n + 1) b :: number name (n + 1) r end.
Lemma numbered_iff name bs : forall n ws, Numbered name n bs ws <-> ws = number name n bs.
Proof.
  induction bs as [|b bs IH]; intros n ws; cbn [number].
  - split; [now inversion 1|intros ->; constructor].
  - split; [inversion 1; subst; f_equal; now apply IH|intros ->; constructor; now apply IH].
Qed.
Definition lines_in (f : frame) : list loc := number (f_name f) (f_no f) (f_rest f).
Definition todo (stk : list frame) : list loc := flat_map lines_in stk.
Definition fine (stk : list frame) : Prop := Forall (fun f => Forall nl_last (f_rest f)) stk.
Definition kfine (k : option item) : Prop := match k with Some (_, d, _) => no_nl d | None => True end.

Lemma give_spec fs w d k : no_nl d ->
  match snd (vg_give fs (w, d, k)) with
  | Ok fr => Given fs (w, d, k) (fst (vg_give fs (w, d, k))) (inl (todo fr)) /\ fine fr
  | Exn e => Given fs (w, d, k) (fst (vg_give fs (w, d, k))) (inr e)
  | Hang => True
  end.
Proof.
  intros N1. destruct (parse_line_spec w d k N1) as (kd & K & R). unfold vg_give.
  destruct (parse_line w d k) as [ms a]. cbn [fst snd] in R. destruct a as [e|[|t must]]; cbn [fst snd].
  - split; [|constructor]. apply (Gi_plain fs w d k kd ms (PElem e)); easy.
  - split; [|constructor]. rewrite <- (app_nil_r (map EvMsg ms)). apply (Gi_plain fs w d k kd ms (PAct PPnone)); easy.
  - unfold do_include, open_frame, include_path. destruct (Target_exists (w_file w) t) as [p T]. rewrite (Target_path _ _ _ T).
    destruct (fs p) as [c|e|] eqn:Ef; cbn [bind fst snd].
    + rewrite app_nil_r. split.
      * unfold todo. cbn [flat_map]. rewrite app_nil_r. apply (Gi_found fs w d k kd ms t must p); try easy.
        exists c, (lines_of c). split; [easy|]. split; [apply lines_of_Lines|]. now apply numbered_iff.
      * constructor; [|constructor]. exact (Lines_nl _ _ (lines_of_Lines c)).
    + assert (D : e = OSError \/ e <> OSError) by (destruct e; auto; right; discriminate). destruct D as [->|D].
      * cbn [fst snd bind]. split; [|constructor]. 
        replace (map EvMsg (if must then [Msg W_PP_INCLUDE_MISSING w None [(L "filename", AStr t)]] else []))
          with (if must then [EvMsg (Msg W_PP_INCLUDE_MISSING w None [(L "filename", AStr t)])] else []) by now destruct must.
        now apply (Gi_missing fs w d k kd ms t must p).
      * assert (X : Given fs (w, d, k) (EvLine w d k :: map EvMsg ms) (inr e)) by now apply (Gi_fails fs w d k kd ms t must p).
        destruct e; try easy; cbn [fst snd bind]; now rewrite app_nil_r.
    + easy.
Qed.
Lemma kept_spec fs (prev : option (loc * str * str)) : kfine prev ->
  match snd (vg_give_opt fs prev) with
  | Ok fr => KeptGiven fs prev (fst (vg_give_opt fs prev)) (inl (todo fr)) /\ fine fr
  | Exn e => KeptGiven fs prev (fst (vg_give_opt fs prev)) (inr e)
  | Hang => True
  end.
Proof.
  destruct prev as [[[w d] k]|]; intros H; unfold vg_give_opt.
  - pose proof (give_spec fs w d k H) as G. destruct (snd (vg_give fs (w, d, k))); try easy; [split; [|easy]|]; now constructor.
  - split; constructor.
Qed.

Definition step (fs : fsys) (prev : option (loc * str * str)) (w : loc) (s : str) : list event * res (option (loc * str * str) * list frame) :=
  let (ms2, dc) := vg_line w s in
  match (if starts_blank s then prev else None) with
  | Some (w0, d0, c0) =>
    (map EvMsg (ms2 ++ match d0 with [] => [msg0 W_WSH_BOL w] | _ => [] end), Ok (Some (w0, d0 ++ fst dc, c0 ++ snd dc), []))
  | None =>
    match vg_give_opt fs prev with
    | (l1, Ok fr1) =>
      if startswith [35] (fst dc) then
        match vg_give fs (w, fst dc, snd dc) with
        | (l2, Ok fr2) => (l1 ++ map EvMsg ms2 ++ l2, Ok (None, fr2 ++ fr1))
        | (l2, Exn e) => (l1 ++ map EvMsg ms2 ++ l2, Exn e)
        | (l2, Hang) => (l1 ++ map EvMsg ms2 ++ l2, Hang)
        end
      else (l1 ++ map EvMsg ms2, Ok (Some (w, fst dc, snd dc), fr1))
    | (l1, Exn e) => (l1, Exn e)
    | (l1, Hang) => (l1, Hang)
    end
  end.
Lemma loop_step n fs name no b bs stk ff prev : vg_loop (S n) fs (Frame name no (b :: bs) :: stk) ff prev =
  let w := Where name (no + 1) b in
  match vg_raw ff w b with
  | (ms, Ok (ff', s)) =>
    match step fs prev w s with
    | (evs, Ok (prev', fr)) =>
      let r := vg_loop n fs (fr ++ Frame name (no + 1) bs :: stk) ff' prev' in (map EvMsg ms ++ evs ++ fst r, snd r)
    | (evs, Exn e) => (map EvMsg ms ++ evs, Exn e)
    | (evs, Hang) => (map EvMsg ms ++ evs, Hang)
    end
  | (ms, Exn e) => (map EvMsg ms, Exn e)
  | (ms, Hang) => (map EvMsg ms, Hang)
  end.
Proof.
  cbv zeta. cbn [vg_loop]. destruct (vg_raw ff (Where name (no + 1) b) b) as [ms [[ff' s]| |]]; try easy.
  unfold step. destruct (vg_line (Where name (no + 1) b) s) as [ms2 [d k]]. cbn [fst snd].
  destruct (if starts_blank s then prev else None) as [[[w0 d0] c0]|].
  - cbn [List.app]. destruct (vg_loop n fs _ ff' _) as [l o]. cbn [fst snd]. rewrite !map_app, <- !app_assoc. reflexivity.
  - destruct (vg_give_opt fs prev) as [l1 [fr1| |]]; try easy. destruct (startswith [35] d).
    + destruct (vg_give fs (Where name (no + 1) b, d, k)) as [l2 [fr2| |]]; try easy.
      rewrite <- (app_assoc fr2). destruct (vg_loop n fs _ ff' None) as [l o]. cbn [fst snd]. now rewrite <- !app_assoc.
    + destruct (vg_loop n fs _ ff' _) as [l o]. cbn [fst snd]. now rewrite <- !app_assoc.
Qed.
Lemma todo_app a b : todo (a ++ b) = todo a ++ todo b.
Proof. apply flat_map_app. Qed.
Lemma part_no_nl w s d k l : VgPart w s d k l -> no_nl s -> no_nl d.
Proof. intros V N1. destruct (part_text _ _ _ _ _ V) as (bl & -> & _). unfold no_nl in *. intros I. apply N1, in_or_app. now left. Qed.
Lemma no_nl_app a b : no_nl a -> no_nl b -> no_nl (a ++ b).
Proof. unfold no_nl. intros A B I. apply in_app_or in I. tauto. Qed.
Lemma step_spec fs (prev : option (loc * str * str)) w s : kfine prev -> no_nl s ->
  match snd (step fs prev w s) with
  | Ok (prev', fr) => Next fs prev w s (fst (step fs prev w s)) (inl (prev', todo fr)) /\ kfine prev' /\ fine fr
  | Exn e => Next fs prev w s (fst (step fs prev w s)) (inr e)
  | Hang => True
  end.
Proof.
  intros Kf Ns. unfold step. destruct (vg_line w s) as [l [d k]] eqn:EV. pose proof (proj2 (part_iff w s d k l) EV) as V.
  pose proof (part_no_nl _ _ _ _ _ V Ns) as Nd. cbn [fst snd].
  destruct (if starts_blank s then prev else None) as [[[w0 d0] c0]|] eqn:EB.
  - destruct (starts_blank s) eqn:B; [|discriminate]. subst prev. apply blank_iff in B. cbn [fst snd]. split; [|split].
    + apply (Nx_continued fs _ w s w0 d0 c0 d k l); try easy. destruct d0; [now left|right; easy].
    + now apply no_nl_app.
    + constructor.
  - assert (NC : ~ continues prev s).
    { intros [A B]. apply blank_iff in B. rewrite B in EB. now apply A. }
    pose proof (kept_spec fs prev Kf) as G. destruct (vg_give_opt fs prev) as [l1 [fr1|e|]]; cbn [fst snd] in *; try easy.
    + destruct G as [G F1]. destruct (startswith [35] d) eqn:P.
      * apply pp_iff in P. pose proof (give_spec fs w d k Nd) as G2. destruct (vg_give fs (w, d, k)) as [l2 [fr2|e|]]; cbn [fst snd] in *; try easy.
        -- destruct G2 as [G2 F2]. rewrite todo_app. split; [now apply (Nx_pp fs prev w s d k l)|]. split; [easy|]. now apply Forall_app.
        -- now apply (Nx_pp_fails fs prev w s d k l l1 (todo fr1)).
      * split; [|easy]. apply (Nx_kept fs prev w s d k l l1 (todo fr1)); try easy. rewrite <- pp_iff. now rewrite P.
    + now apply Nx_fails.
Qed.

(* ---- the messages about line ends ---- *)
Lemma ends_no_nl b s d e : nl_last b -> Spec_File.Decoded b s -> Ends s d e -> no_nl d.
Proof.
  intros N1 D En. apply (Decoded_nl b s) in N1; [|easy]. destruct N1 as (l & Nl & E). unfold no_nl. inversion En as [y Ey|y Hy Ey|y Hy Ey]; subst.
  - destruct E as [E|E].
    + exfalso. apply Nl. rewrite <- E. apply in_or_app. right. cbn. tauto.
    + intros I. apply Nl. change [13; 10] with ([13] ++ [10]) in E. rewrite app_assoc in E.
      apply app_inj_tail in E as [E _]. rewrite <- E. apply in_or_app. tauto.
  - destruct E as [E|E].
    + exfalso. apply Nl. rewrite <- E. apply in_or_app. right. cbn. tauto.
    + apply app_inj_tail in E as [-> _]. easy.
  - destruct E as [->|E]; [easy|]. now apply Hy in E.
Qed.
(* the entries of the model for the files that were begun *)
Definition ent (g : begun) : ffent := FFent (g_name g) (Some (g_dos g)) (Some (has_lf (g_text g))) (g_where g).
Definition View (ff : ffst) (st : list begun) : Prop := ff_info ff = map ent st /\ sync ff.
Lemma ent_complete st : Forall complete (map ent st).
Proof. induction st; constructor; easy. Qed.
Lemma ent_over st : pm (map ent st) = over st.
Proof.
  unfold pm, over. induction st as [|g st IH]; [easy|]. cbn [map flat_map]. rewrite IH. f_equal.
  unfold ff_pop1, ent. cbn [fe_dos fe_lf fe_where]. pose proof (eol_cases (g_text g)) as H. unfold end_msgs.
  destruct (eol_of (g_text g)), (g_dos g); destruct H as (_ & -> & _); easy.
Qed.
Lemma ent_names n st : Forall (fun x => g_name x <> n) st -> Forall (fun x => fe_name x <> n) (map ent st).
Proof. induction 1; constructor; easy. Qed.
Lemma begun_dec n (st : list begun) : Forall (fun x => g_name x <> n) st \/ exists a g r, st = a ++ g :: r /\ Forall (fun x => g_name x <> n) a /\ g_name g = n.
Proof.
  induction st as [|x st IH]; [left; constructor|]. destruct (str_eqb_spec (g_name x) n) as [E|E].
  - right. exists [], x, st. repeat split; [constructor|easy].
  - destruct IH as [F|(a & g & r & -> & F & G)]; [left; now constructor|]. right. exists (x :: a), g, r. repeat split; [now constructor|easy].
Qed.
Lemma ff_line_view ff st w t : View ff st -> exists ms ff' st', ff_line ff w t = (ms, Ok (ff', strip_eol t)) /\ LineEnd st w t ms st' /\ View ff' st'.
Proof.
  intros [E Sy]. destruct ff as [info d0]. cbn [ff_info] in E. subst info. destruct (begun_dec (w_file w) st) as [F|(a & g & r & -> & F & G)].
  - eexists _, _, _. split; [apply ff_line_new|].
    + intros I1. apply in_map_iff in I1 as (e & En & I1). apply in_map_iff in I1 as (g & <- & I1). rewrite Forall_forall in F. now apply (F g I1).
    + split; [apply Le_first; [exact F|reflexivity]|]. now split.
  - rewrite map_app in *. cbn [map] in *. eexists _, _, _.
    split; [apply (ff_line_known (map ent a) (ent g) (map ent r) d0 w t (g_dos g)); [apply ent_complete|now apply ent_names|easy|easy|exact Sy]|].
    rewrite ent_over. split; [now apply (Le_again _ w t a g r)|]. now split.
Qed.
Lemma ff_finish_view ff st : View ff st -> ff_finish ff = (over st, Ok tt).
Proof. intros [E _]. unfold ff_finish. rewrite E, ff_pop_all by apply ent_complete. cbn. now rewrite app_nil_r, ent_over. Qed.
Lemma raw_spec ff st name n b : View ff st -> nl_last b -> let w := Where name n b in
  (exists ff' st' t s l ms, vg_raw ff w b = (l ++ ms, Ok (ff', s)) /\ TextOf w t s l /\ LineEnd st w t ms st' /\ View ff' st' /\ no_nl s)
  \/ (forall s, ~ Spec_File.Decoded b s) /\ vg_raw ff w b = ([msg0 E_FILE_UTF8_BAD w], Exn UnicodeDecodeError).
Proof.
  intros G Nb w. unfold vg_raw. destruct (decode_line w b) as [l1 r] eqn:ED.
  destruct r as [s|e|].
  - left. pose proof (proj1 (decode_line_decoded _ _ _ _) ED) as [D W1]. cbn [wbind].
    destruct (ff_line_view ff st w s G) as (lf & ff' & st' & EF & LE & G'). rewrite EF.
    destruct (strip_eol_ends s) as [e He]. pose proof (ctrl_msgs_when w s) as W2.
    exists ff', st', s, (strip_eol s), (l1 ++ ctrl_msgs w s), lf. split; [cbn; now rewrite <- app_assoc|]. split; [now apply (Tx_text w s (strip_eol s) e)|].
    split; [easy|]. split; [easy|now apply (ends_no_nl b s _ e)].
  - right. destruct (utf8_dec b) as [[s U]|U]; [rewrite (decode_line_utf8 w b s U) in ED; discriminate|].
    destruct (decode_line_other w b U) as (D1 & D2 & D3 & D4). rewrite ED in *. cbn [fst snd wbind] in *.
    destruct (proj1 (D3 e) eq_refl) as [-> Un]. subst l1. split; [|easy].
    intros s [X|[_ X]]; [now apply (U s)|]. now apply D2 in X.
  - exfalso. destruct (utf8_dec b) as [[s U]|U]; [rewrite (decode_line_utf8 w b s U) in ED; discriminate|].
    destruct (decode_line_other w b U) as (D1 & D2 & D3 & D4). rewrite ED in D4. now apply D4.
Qed.

(* ---- the whole run ---- *)
Lemma loop_goes fs : forall fuel stk ff st prev evs o, View ff st -> fine stk -> kfine prev -> vg_loop fuel fs stk ff prev = (evs, o) -> o <> Hang ->
  exists text, Goes fs st prev (todo stk) text evs o.
Proof.
  induction fuel as [|n IH]; intros stk ff st prev evs o G F K E NH; [injection E as _ <-; easy|].
  destruct stk as [|[name no [|b bs]] stk].
  - cbn [vg_loop] in E. rewrite (ff_finish_view ff st G) in E.
    pose proof (kept_spec fs prev K) as S1. destruct (vg_give_opt fs prev) as [l [fr|e|]]; cbn [fst snd bind] in *; injection E as <- <-; try easy.
    + destruct S1 as [S1 _]. exists []. now apply (Go_end fs st prev l (todo fr)).
    + exists []. now apply Go_end_fails.
  - inversion F as [|? ? _ Fs]; subst. exact (IH stk ff st prev evs o G Fs K E NH).
  - inversion F as [|? ? Fb Fs]; subst. cbn [f_rest] in Fb. inversion Fb as [|? ? Nb Nbs]; subst.
    rewrite loop_step in E. cbv zeta in E. change (todo (Frame name no (b :: bs) :: stk)) with (Where name (no + 1) b :: todo (Frame name (no + 1) bs :: stk)).
    set (w := Where name (no + 1) b) in *. destruct (raw_spec ff st name (no + 1) b G Nb) as [(ff' & st' & t & s & l & ms & ER & T & LE & G' & Ns)|(ND & ER)]; fold w in ER.
    2: { rewrite ER in E. injection E as <- <-. exists []. now apply Go_undecodable. }
    fold w in T, LE. rewrite ER in E. pose proof (step_spec fs prev w s K Ns) as S1. destruct (step fs prev w s) as [ev [[prev' fr]|e|]]; cbn [fst snd] in *.
    + destruct S1 as (S1 & K' & F'). destruct (vg_loop n fs (fr ++ Frame name (no + 1) bs :: stk) ff' prev') as [l2 o2] eqn:E2. cbn [fst snd] in E. injection E as <- <-.
      destruct (IH (fr ++ Frame name (no + 1) bs :: stk) ff' st' prev' l2 o2) as [text H]; try easy.
      { apply Forall_app. split; [easy|]. constructor; easy. }
      rewrite todo_app in H. exists ((w, s) :: text). now apply (Go_line fs st prev w _ t s l ms st' ev prev' (todo fr)).
    + injection E as <- <-. exists [(w, s)]. now apply (Go_line_fails fs st prev w _ t s l ms st' ev e).
    + injection E as _ <-. easy.
Qed.
Lemma skip_empty fs stk w t : todo stk = w :: t -> exists k name no b bs stk', w = Where name (no + 1) b /\ t = todo (Frame name (no + 1) bs :: stk') /\
  (fine stk -> fine (Frame name no (b :: bs) :: stk')) /\ forall fuel ff prev, vg_loop (k + fuel) fs stk ff prev = vg_loop fuel fs (Frame name no (b :: bs) :: stk') ff prev.
Proof.
  induction stk as [|[name no [|b bs]] stk IH]; intros E; [discriminate| |].
  - destruct (IH E) as (k & name1 & no1 & b1 & bs1 & stk1 & E1 & E2 & F1 & R1). exists (S k), name1, no1, b1, bs1, stk1. split; [easy|]. split; [easy|].
    split; [intros F; inversion F; now apply F1|]. intros fuel ff prev. exact (R1 fuel ff prev).
  - injection E as <- <-. exists O, name, no, b, bs, stk. repeat split; easy.
Qed.
Lemma loop_end fs stk : todo stk = [] -> forall ff prev, exists k, vg_loop k fs stk ff prev = vg_loop 1 fs [] ff prev.
Proof.
  induction stk as [|[name no [|b bs]] stk IH]; intros E ff prev; [now exists 1%nat| |discriminate].
  destruct (IH E ff prev) as [k R]. exists (S k). exact R.
Qed.
Lemma give_ends fs w d k evs r : no_nl d -> Given fs (w, d, k) evs r -> snd (vg_give fs (w, d, k)) <> Hang.
Proof.
  intros N1 G. destruct (parse_line_spec w d k N1) as (kd & K & R). unfold vg_give.
  destruct (parse_line w d k) as [ms a]. cbn [fst snd] in R. destruct a as [e|[|t must]]; cbn [fst snd]; try discriminate.
  assert (X : forall p, Target (w_file w) t p -> fs p <> Hang).
  { intros p T Ef. inversion G as [w1 d1 k1 kd1 ms1 p1 K1 R1 NI1|w1 d1 k1 kd1 ms1 t1 must1 p1 ls1 K1 R1 T1 F1|w1 d1 k1 kd1 ms1 t1 must1 p1 K1 R1 T1 F1|w1 d1 k1 kd1 ms1 t1 must1 p1 e1 K1 R1 T1 F1 NE1];
    subst; rewrite <- (LineKind_fun _ _ _ K K1) in R1; destruct (LineResult_fun _ _ _ _ _ _ _ _ R R1) as [_ EP]; [eapply NI1; symmetry; exact EP| | |];
    injection EP as <- <-; rewrite (target_fun _ _ _ _ T T1) in Ef; try (destruct F1 as (c1 & l2 & F1 & _)); congruence. }
  unfold do_include, open_frame, include_path. destruct (Target_exists (w_file w) t) as [p T]. rewrite (Target_path _ _ _ T). specialize (X p T).
  destruct (fs p) as [c|e|]; [|now destruct e|easy]. cbn [bind fst snd]. discriminate.
Qed.
Lemma kept_ends fs (prev : option (loc * str * str)) evs r : kfine prev -> KeptGiven fs prev evs r -> snd (vg_give_opt fs prev) <> Hang.
Proof.
  intros K G. destruct prev as [[[w d] c]|]; [|easy]. inversion G as [|x e0 r0 G0]; subst. cbn [vg_give_opt]. exact (give_ends fs w d c _ _ K G0).
Qed.
Lemma step_ends fs (prev : option (loc * str * str)) w s evs r : kfine prev -> no_nl s -> Next fs prev w s evs r -> snd (step fs prev w s) <> Hang.
Proof.
  intros K Ns H. unfold step. destruct (vg_line w s) as [l [d k]] eqn:EV. pose proof (proj2 (part_iff w s d k l) EV) as V.
  pose proof (part_no_nl _ _ _ _ _ V Ns) as Nd. cbn [fst snd].
  destruct (if starts_blank s then prev else None) as [[[w0 d0] c0]|] eqn:EB; [discriminate|].
  assert (NC : ~ continues prev s) by (intros [A B]; apply blank_iff in B; rewrite B in EB; now apply A).
  assert (X : exists e1 r1, KeptGiven fs prev e1 r1).
  { destruct H as [w0 d0 k0 d' k' l' b E B V' W|d' k' l' e f NN G V' NP|d' k' l' e f e2 f2 NN G V' P G2|e x NN G|d' k' l' e f e2 x NN G V' P G2]; eauto.
    exfalso. apply NC. subst. now split. }
  destruct X as (e1 & r1 & X). pose proof (kept_ends fs prev e1 r1 K X) as NH. pose proof (kept_spec fs prev K) as SP.
  destruct (vg_give_opt fs prev) as [l1 [fr1|e|]]; cbn [snd fst] in *; try discriminate; [|easy]. destruct SP as [SP _].
  destruct (startswith [35] d) eqn:P; [|discriminate]. apply pp_iff in P.
  assert (Y : exists e2 r2, Given fs (w, d, k) e2 r2).
  { destruct H as [w0 d0 k0 d' k' l' b E B V' W|d' k' l' e f NN G V' NP|d' k' l' e f e2 f2 NN G V' P' G2|e x NN G|d' k' l' e f e2 x NN G V' P' G2];
    try (destruct (part_fun _ _ _ _ _ _ _ _ V V') as (<- & <- & <-)); eauto.
    - exfalso. apply NC. subst. now split.
    - contradiction.
    - destruct (kept_fun _ _ _ _ _ _ SP G) as [_ EE]. discriminate EE. }
  destruct Y as (e2 & r2 & Y). pose proof (give_ends fs w d k e2 r2 Nd Y) as NH2.
  destruct (vg_give fs (w, d, k)) as [l2 [fr2|e|]]; cbn [snd] in *; try discriminate; easy.
Qed.
Lemma goes_loop fs st kept t text evs o : Goes fs st kept t text evs o -> forall stk ff, t = todo stk -> View ff st -> fine stk -> kfine kept ->
  exists fuel, snd (vg_loop fuel fs stk ff kept) <> Hang.
Proof.
  assert (END : forall kept evs r stk ff st, KeptGiven fs kept evs r -> [] = todo stk -> View ff st -> kfine kept -> exists fuel, snd (vg_loop fuel fs stk ff kept) <> Hang).
  { intros kept0 evs0 r stk ff st0 G E GG K. destruct (loop_end fs stk (eq_sym E) ff kept0) as [k R]. exists k. rewrite R. cbn [vg_loop].
    rewrite (ff_finish_view ff st0 GG). pose proof (kept_ends fs kept0 evs0 r K G) as NH.
    destruct (vg_give_opt fs kept0) as [l [|e|]]; cbn in *; congruence. }
  induction 1 as [st kept evs u G|st kept evs e G|st kept w t ND|st kept w t tx s l ms st1 evs kept1 found text rest o T LE N1 H IH|st kept w t tx s l ms st1 evs e T LE N1];
  intros stk ff E GG F K; try (now apply (END kept evs _ stk ff st G));
  symmetry in E; destruct (skip_empty fs stk w t E) as (k & name & no & b & bs & stk1 & -> & -> & F1 & R1); specialize (F1 F);
  inversion F1 as [|? ? Fb Fs]; subst; cbn [f_rest] in Fb; inversion Fb as [|? ? Nb Nbs]; subst;
  destruct (raw_spec ff st name (no + 1) b GG Nb) as [(ff' & st2 & tx' & s' & l' & ms' & ER & T' & LE' & G' & Ns)|(ND' & ER)].
  - destruct (text_decoded _ _ _ _ T') as [z Z]. now destruct (ND z).
  - exists (k + 1)%nat. rewrite R1, loop_step. cbv zeta. rewrite ER. discriminate.
  - destruct (text_fun _ _ _ _ _ _ _ T T') as (<- & <- & <-). destruct (line_end_fun _ _ _ _ _ _ _ LE LE') as [<- <-]. pose proof (step_ends fs kept _ s _ _ K Ns N1) as NH.
    pose proof (step_spec fs kept (Where name (no + 1) b) s K Ns) as SP. destruct (step fs kept (Where name (no + 1) b) s) as [ev [[prev' fr]|e|]] eqn:ES; cbn [fst snd] in *; [| |easy].
    + destruct SP as (SP & K' & F'). destruct (next_fun _ _ _ _ _ _ _ _ N1 SP) as [<- EN]. injection EN as -> ->.
      destruct (IH (fr ++ Frame name (no + 1) bs :: stk1) ff') as [fuel NF]; try easy.
      { now rewrite todo_app. } { apply Forall_app. split; [easy|]. constructor; easy. }
      exists (k + S fuel)%nat. rewrite R1, loop_step. cbv zeta. rewrite ER, ES. exact NF.
    + exists (k + 1)%nat. rewrite R1, loop_step. cbv zeta. rewrite ER, ES. discriminate.
  - destruct (text_decoded _ _ _ _ T) as [z Z]. now destruct (ND' z).
  - destruct (text_fun _ _ _ _ _ _ _ T T') as (<- & <- & <-). destruct (line_end_fun _ _ _ _ _ _ _ LE LE') as [<- <-]. pose proof (step_ends fs kept _ s _ _ K Ns N1) as NH.
    pose proof (step_spec fs kept (Where name (no + 1) b) s K Ns) as SP. destruct (step fs kept (Where name (no + 1) b) s) as [ev [[prev' fr]|e0|]] eqn:ES; cbn [fst snd] in *; [| |easy].
    + destruct SP as (SP & K' & F'). now destruct (next_fun _ _ _ _ _ _ _ _ N1 SP) as [<- EN].
    + exists (k + 1)%nat. rewrite R1, loop_step. cbv zeta. rewrite ER, ES. discriminate.
  - destruct (text_decoded _ _ _ _ T) as [z Z]. now destruct (ND' z).
Qed.
Lemma init_fine fs c name : fs name = Ok c -> fine [Frame name 0 (lines_of c)] /\ FileLines fs name (todo [Frame name 0 (lines_of c)]).
Proof.
  intros E. split; [constructor; [exact (Lines_nl _ _ (lines_of_Lines c))|constructor]|].
  exists c, (lines_of c). split; [easy|]. split; [apply lines_of_Lines|]. apply numbered_iff. unfold todo. cbn [flat_map]. now rewrite app_nil_r.
Qed.
Lemma reads_fun fs name text evs o text' evs' o' : VgReads fs name text evs o -> VgReads fs name text' evs' o' -> text = text' /\ evs = evs' /\ o = o'.
Proof.
  intros [ws t e q F G|e E] H'; inversion H' as [ws' t' e' q' F' G'|e' E']; subst.
  - rewrite <- (filelines_fun _ _ _ _ F F') in G'. exact (goes_fun _ _ _ _ _ _ _ G _ _ _ G').
  - destruct F as (c & ls & X & _). congruence.
  - destruct F' as (c & ls & X & _). congruence.
  - repeat split; congruence.
Qed.
Lemma init_view : View ff_init [].
Proof. now split. Qed.
Lemma reads_ex fs name fuel evs o : vg_parse_file fuel fs name = (evs, o) -> o <> Hang -> exists text, VgReads fs name text evs o.
Proof.
  unfold vg_parse_file, open_frame. intros E NH. destruct (fs name) as [c|e|] eqn:Ef; cbn [bind] in E.
  - destruct (init_fine fs c name Ef) as [F FL]. destruct (loop_goes fs fuel _ ff_init [] None evs o init_view F I E NH) as [text G].
    exists text. now apply (Vr_file fs name _ text _ _ FL).
  - injection E as <- <-. exists []. now apply Vr_unopened.
  - injection E as _ <-. easy.
Qed.
Theorem vg_reads_iff fs name evs o : (exists text, VgReads fs name text evs o) <->
  o <> Hang /\ exists fuel, vg_parse_file fuel fs name = (evs, o).
Proof.
  split.
  - intros [text H]. assert (X : exists fuel, snd (vg_parse_file fuel fs name) <> Hang).
    { unfold vg_parse_file, open_frame. destruct H as [ws t e q F G|e E].
      - pose proof F as F0. destruct F as (c & ls & Ef & Ln & Nu). rewrite Ef. cbn [bind].
        destruct (init_fine fs c name Ef) as [Fi FL]. rewrite (filelines_fun _ _ _ _ F0 FL) in G.
        exact (goes_loop fs [] None _ _ _ _ G _ ff_init eq_refl init_view Fi I).
      - exists O. rewrite E. discriminate. }
    destruct X as [fuel X]. destruct (vg_parse_file fuel fs name) as [evs' o'] eqn:E. cbn [snd] in X.
    destruct (reads_ex _ _ _ _ _ E X) as [text' H']. destruct (reads_fun _ _ _ _ _ _ _ _ H H') as (_ & -> & ->).
    split; [easy|]. now exists fuel.
  - intros (NH & fuel & E). exact (reads_ex _ _ _ _ _ E NH).
Qed.

(* ---- the given lines are the lines that were read, unfolded ---- *)
Lemma given_app a b : given (a ++ b) = given a ++ given b.
Proof. apply flat_map_app. Qed.
Lemma given_msgs ms : given (map EvMsg ms) = [].
Proof. induction ms; [easy|exact IHms]. Qed.
Lemma given_given fs x evs r : Given fs x evs r -> given evs = [x].
Proof.
  intros H. destruct H as [w d k kd ms p K R NI|w d k kd ms t must p ls K R T F|w d k kd ms t must p K R T F|w d k kd ms t must p e K R T F NE];
  unfold given; cbn [flat_map List.app]; fold (given (map EvMsg ms)); rewrite ?flat_map_app; fold (given (map EvMsg ms)); rewrite given_msgs; try easy; [now destruct p|now destruct must].
Qed.
Lemma given_kept fs (x : option (loc * str * str)) evs r : KeptGiven fs x evs r -> given evs = match x with Some p => [p] | None => [] end.
Proof. intros [|y e q G]; [easy|exact (given_given _ _ _ _ G)]. Qed.

Lemma remarks_app a b : remarks (a ++ b) = remarks a ++ remarks b.
Proof. apply flat_map_app. Qed.
Lemma remarks_msgs ms : remarks (map EvMsg ms) = filter remark ms.
Proof. induction ms as [|m ms IH]; [easy|]. cbn [map remarks flat_map filter]. fold (remarks (map EvMsg ms)). rewrite IH. now destruct (remark m). Qed.
Lemma some_if_remark b m : remark m = false -> filter remark (some_if b m) = [].
Proof. intros H. destruct b; cbn [some_if filter]; [now rewrite H|easy]. Qed.
Lemma result_remark w d c kd ms p : LineResult w d c kd ms p -> filter remark ms = [].
Proof.
  intros P. inversion P; subst; try easy.
  - unfold header_msgs. rewrite filter_app, !some_if_remark; easy.
  - unfold sep_msgs, indent_msgs. rewrite filter_app. destruct arrow; now rewrite !some_if_remark.
  - rewrite filter_app, some_if_remark by easy.
    match goal with X : DirResult _ _ _ _ |- _ => inversion X; subst end; [|easy].
    rewrite !filter_app, !some_if_remark by easy. now destruct k.
Qed.
Lemma given_remarks fs x evs r : Given fs x evs r -> remarks evs = [].
Proof.
  intros H. destruct H as [w d k kd ms p K R NI|w d k kd ms t must p ls K R T F|w d k kd ms t must p K R T F|w d k kd ms t must p e K R T F NE];
  unfold remarks; cbn [flat_map List.app]; rewrite ?flat_map_app; fold (remarks (map EvMsg ms)); rewrite remarks_msgs, (result_remark _ _ _ _ _ _ R); try easy;
  [now destruct p|now destruct must].
Qed.
Lemma kept_remarks fs x evs r : KeptGiven fs x evs r -> remarks evs = [].
Proof. intros [|y e q G]; [easy|exact (given_remarks _ _ _ _ G)]. Qed.
Lemma over_remarks st : filter remark (over st) = [].
Proof.
  unfold over. induction st as [|g st IH]; [easy|]. cbn [flat_map]. rewrite filter_app, IH, app_nil_r. unfold end_msgs.
  now destruct (g_dos g), (eol_of (g_text g)).
Qed.
Lemma line_end_remarks st w t ms st' : LineEnd st w t ms st' -> filter remark ms = [].
Proof.
  assert (X : forall dos, filter remark (line_msgs dos w t) = []) by (intros dos; unfold line_msgs; now destruct dos, (eol_of t)).
  intros [a g r E F G|dos F E]; [|apply X]. now rewrite filter_app, over_remarks, X.
Qed.
Lemma text_remarks w t s l : TextOf w t s l -> filter remark l = [].
Proof. intros [t0 b e l1 l2 D E [[_ ->]|[_ ->]] [[_ ->]|[_ ->]]]; easy. Qed.
Lemma goes_vg_read fs st (kept : option (loc * str * str)) t text evs o : Goes fs st kept t text evs o -> o = Ok tt ->
  exists l, vg_read kept text = (l, given evs) /\ remarks evs = filter remark l.
Proof.
  induction 1 as [st kept evs u G|st kept evs e G|st kept w t ND|st kept w t tx s l ms st1 evs kept1 found text rest o T LE N1 H IH|st kept w t tx s l ms st1 evs e T LE N1]; intros Eo; try discriminate Eo.
  - exists []. cbn [vg_read]. rewrite given_app, remarks_app, given_msgs, remarks_msgs, over_remarks, (given_kept _ _ _ _ G). split; [easy|]. exact (kept_remarks _ _ _ _ G).
  - destruct (IH Eo) as (l1 & E1 & R1). rewrite !given_app, !remarks_app, remarks_msgs, given_msgs, filter_app, (text_remarks _ _ _ _ T), (line_end_remarks _ _ _ _ _ LE). cbn [List.app vg_read].
    unfold item in *.
    inversion N1 as [w0 d0 k0 d k lv b EK B V W|d k lv e f NN G V NP|d k lv e f e2 f2 NN G V P G2| |]; subst; unfold item in *; rewrite (proj1 (part_iff _ _ _ _ _) V).
    + rewrite (proj2 (blank_iff s) B). rewrite E1. eexists. split; [rewrite given_msgs; reflexivity|].
      rewrite remarks_msgs, R1, !filter_app. rewrite app_assoc. f_equal. f_equal. f_equal.
      destruct W as [[-> ->]|[Nd ->]]; [easy|]. now destruct d0.
    + assert (EB : (if starts_blank s then kept else None) = None).
      { destruct (starts_blank s) eqn:B; [|easy]. destruct kept; [|easy]. exfalso. apply NN. split; [easy|now apply blank_iff]. }
      rewrite EB. assert (P : startswith [35] d = false) by (destruct (startswith [35] d) eqn:P; [now apply pp_iff in P|easy]). rewrite P, E1.
      eexists. split; [rewrite given_app, given_msgs, app_nil_r, (given_kept _ _ _ _ G); reflexivity|].
      now rewrite remarks_app, remarks_msgs, (kept_remarks _ _ _ _ G), R1, filter_app.
    + assert (EB : (if starts_blank s then kept else None) = None).
      { destruct (starts_blank s) eqn:B; [|easy]. destruct kept; [|easy]. exfalso. apply NN. split; [easy|now apply blank_iff]. }
      rewrite EB. rewrite (proj2 (pp_iff d) P), E1.
      eexists. split; [rewrite !given_app, given_msgs, (given_kept _ _ _ _ G), (given_given _ _ _ _ G2), <- app_assoc; reflexivity|].
      now rewrite !remarks_app, remarks_msgs, (kept_remarks _ _ _ _ G), (given_remarks _ _ _ _ G2), R1, filter_app, app_nil_r.
Qed.
Theorem reads_unfold fs name text evs : VgReads fs name text evs (Ok tt) -> exists l, Unfolds text (given evs) l /\ remarks evs = filter remark l.
Proof.
  intros H. inversion H as [ws t e q F G|]; subst. destruct (goes_vg_read _ _ _ _ _ _ _ G eq_refl) as (l & E & R). exists l. split; [now apply vg_iff|easy].
Qed.
Lemma within_app {A} (a b c : list A) : Within (a ++ b) c -> Within b c.
Proof.
  intros H. remember (a ++ b) as x eqn:E. revert a E. induction H as [l|x u v H IH|x u v H IH]; intros a E.
  - symmetry in E. apply app_eq_nil in E as [_ ->]. constructor.
  - destruct a as [|y a]; cbn in E.
    + subst b. now constructor.
    + injection E as -> ->. constructor. now apply (IH a).
  - constructor. now apply (IH a).
Qed.
Lemma goes_within fs st kept t text evs o : Goes fs st kept t text evs o -> o = Ok tt -> Within t (map fst text).
Proof.
  induction 1 as [st kept evs u G|st kept evs e G|st kept w t ND|st kept w t tx s l ms st1 evs kept1 found text rest o T LE N1 H IH|st kept w t tx s l ms st1 evs e T LE N1]; intros Eo; try discriminate Eo.
  - constructor.
  - cbn [map fst]. constructor. apply (within_app found). now apply IH.
Qed.
Theorem reads_all fs name text evs ws : VgReads fs name text evs (Ok tt) -> FileLines fs name ws -> Within ws (map fst text).
Proof.
  intros H F. inversion H as [ws' t e q F' G|]; subst. rewrite (filelines_fun _ _ _ _ F F'). now apply (goes_within _ _ _ _ _ _ _ G).
Qed.

(* ---- files are read in place if no include is behind blanks ---- *)
Definition NotPP (kept : option item) : Prop := match kept with Some (_, d, _) => ~ IsPP d | None => True end.
Lemma result_directive w d c kd ms t must : LineResult w d c kd ms (PAct (PPinclude t must)) -> kd = KDirective.
Proof. now inversion 1. Qed.
Lemma given_none fs w d k evs found : (LineKind d KDirective -> IsPP d) -> ~ IsPP d -> Given fs (w, d, k) evs (inl found) -> found = [].
Proof.
  intros H N1 G. inversion G as [w1 d1 k1 kd1 ms1 p1 K1 R1 NI1|w1 d1 k1 kd1 ms1 t1 must1 p1 ls1 K1 R1 T1 F1| |]; subst; try easy.
  exfalso. rewrite (result_directive _ _ _ _ _ _ _ R1) in K1. auto.
Qed.
Lemma blank_not_pp w s d k l : VgPart w s d k l -> begins_blank s -> ~ IsPP d.
Proof. intros V (c & r & -> & C) [x ->]. destruct (part_text _ _ _ _ _ V) as (bl & E & _). injection E as -> _. now destruct C. Qed.
Lemma continued_not_pp w s d0 d k l : VgPart w s d k l -> begins_blank s -> ~ IsPP d0 -> ~ IsPP (d0 ++ d).
Proof.
  intros V B N1 [x E]. destruct d0 as [|c d0]; [|injection E as -> _; apply N1; now exists d0]. apply (blank_not_pp _ _ _ _ _ V B). now exists x.
Qed.
Lemma goes_in_place fs st kept t text evs o : Goes fs st kept t text evs o -> o = Ok tt -> NotPP kept ->
  (forall w d k, In (w, d, k) (given evs) -> LineKind d KDirective -> IsPP d) -> InPlace fs t text.
Proof.
  induction 1 as [st kept evs u G|st kept evs e G|st kept w t ND|st kept w t tx s l mse st1 evs kept1 found text rest o T LE N1 H IH|st kept w t tx s l mse st1 evs e T LE N1]; intros Eo NK HD; try discriminate Eo.
  - constructor.
  - rewrite !given_app, given_msgs in HD. cbn [List.app] in HD.
    assert (HD2 : forall w d k, In (w, d, k) (given rest) -> LineKind d KDirective -> IsPP d) by (intros w1 d1 k1 I1; apply HD with w1 k1, in_or_app; now right).
    assert (HD1 : forall w d k, In (w, d, k) (given evs) -> LineKind d KDirective -> IsPP d) by (intros w1 d1 k1 I1; apply HD with w1 k1, in_or_app; now left).
    assert (KN : forall e f, KeptGiven fs kept e (inl f) -> (forall x, In x (given e) -> In x (given evs)) -> f = []).
    { intros e f G Sub. inversion G as [|[[w1 d1] k1] e1 r1 G1]; subst; [easy|]. apply (given_none fs w1 d1 k1 e f); try easy.
      apply (HD1 w1 d1 k1). apply Sub. rewrite (given_given _ _ _ _ G1). now left. }
    inversion N1 as [w0 d0 k0 d k lv b EK B V W|d k lv e f NN G V NP|d k lv e f e2 f2 NN G V P G2| |]; subst.
    + apply Ip_line.
      * intros lines (d' & k' & l' & kd & ms & t' & must & p & V' & P & _). now apply (blank_not_pp _ _ _ _ _ V' B).
      * apply IH; try easy. now apply (continued_not_pp _ _ _ _ _ _ V B).
    + apply Ip_line.
      * intros lines (d' & k' & l' & kd & ms & t' & must & p & V' & P & _). destruct (part_fun _ _ _ _ _ _ _ _ V V') as (<- & _). contradiction.
      * rewrite (KN e found G) in IH by (intros x I1; rewrite given_app; apply in_or_app; now left). now apply IH.
    + rewrite (KN e f G) in * by (intros x I1; rewrite given_app; apply in_or_app; now left). rewrite app_nil_r in *.
      assert (IP : InPlace fs (f2 ++ t) text) by (apply IH; easy).
      assert (NI : (forall kd ms t' must p lines, LineKind d kd -> LineResult w d (nonempty k) kd ms (PAct (PPinclude t' must)) ->
                      Target (w_file w) t' p -> ~ FileLines fs p lines) -> forall lines, ~ Includes fs w s lines).
      { intros X lines (d' & k' & l' & kd & ms & t' & must & p & V' & _ & K & R & Tg & F). destruct (part_fun _ _ _ _ _ _ _ _ V V') as (<- & <- & _). now apply (X _ _ _ _ _ lines K R Tg). }
      inversion G2 as [w1 d1 k1 kd1 ms1 p1 K1 R1 NI1|w1 d1 k1 kd1 ms1 t1 must1 p1 ls1 K1 R1 T1 F1|w1 d1 k1 kd1 ms1 t1 must1 p1 K1 R1 T1 F1|]; subst.
      * apply Ip_line; [apply NI|exact IP]. intros kd ms t' must p lines K R _ _. rewrite <- (LineKind_fun _ _ _ K1 K) in R.
        destruct (LineResult_fun _ _ _ _ _ _ _ _ R1 R) as [_ E]. now apply NI1 in E.
      * apply (Ip_include fs w s f2); [|exact IP]. now exists d, k, lv, kd1, ms1, t1, must1, p1.
      * apply Ip_line; [apply NI|exact IP]. intros kd ms t' must p lines K R Tg (c & ls & F & _). rewrite <- (LineKind_fun _ _ _ K1 K) in R.
        destruct (LineResult_fun _ _ _ _ _ _ _ _ R1 R) as [_ E]. injection E as <- <-. rewrite (target_fun _ _ _ _ T1 Tg) in F1. congruence.
Qed.
Theorem reads_in_place fs name text evs ws : VgReads fs name text evs (Ok tt) -> FileLines fs name ws ->
  (forall w d k, In (w, d, k) (given evs) -> LineKind d KDirective -> IsPP d) -> InPlace fs ws text.
Proof.
  intros H F HD. inversion H as [ws' t e q F' G|]; subst. rewrite (filelines_fun _ _ _ _ F F'). now apply (goes_in_place _ _ _ _ _ _ _ G).
Qed.
