(* Proofs for C66: the lines that are rewritten. *)
From Coq Require Import ZifyBool ZifyN ZifyNat Permutation Sorting.Sorted.
From Verif Require Import Base PyStr Utf8 Defines FileRd Config VSpace Pattern VarFun AppM Dialplan Commands Mutator MakeCanon
  Spec_Pattern Spec_VarFun Spec_Dialplan Spec_File Spec_Config Spec_VSpace Spec_Include Spec_Reader Spec_Log Spec_Run Spec_Mutator Spec_MakeCanon MakeCanon_proofs.
From Verif Require Whole_proofs Reader_proofs VSpace_proofs Pattern_proofs Utf8_proofs File_proofs Mutator_proofs Include_proofs.
Import Spec_File.

(* ---- parts of lists ---- *)
Inductive Sub {A} : list A -> list A -> Prop :=
| Sub_nil : Sub [] []
| Sub_skip x k l : Sub k l -> Sub k (x :: l)
| Sub_take x k l : Sub k l -> Sub (x :: k) (x :: l).
Lemma sub_none {A} (l : list A) : Sub [] l.
Proof. induction l; now constructor. Qed.
Lemma sub_app {A} (a b c d : list A) : Sub a b -> Sub c d -> Sub (a ++ c) (b ++ d).
Proof. induction 1; intros H2; cbn [app]; [easy|now constructor; auto|apply Sub_take; auto]. Qed.
Lemma sub_in {A} (a b : list A) x : Sub a b -> In x a -> In x b.
Proof. induction 1; cbn [In]; intros I; [easy|right; auto|destruct I; [now left|right; auto]]. Qed.
Lemma sub_sorted {A} (R : A -> A -> Prop) a b : Sub a b -> StronglySorted R b -> StronglySorted R a.
Proof.
  induction 1 as [|x k l H IH|x k l H IH]; intros S; [easy| |]; inversion S as [|? ? S1 S2]; subst; auto.
  constructor; [auto|]. rewrite Forall_forall in *. intros y I. apply S2. eapply sub_in; eassumption.
Qed.
Lemma sub_trans {A} (b c : list A) : Sub b c -> forall a, Sub a b -> Sub a c.
Proof.
  induction 1 as [|x k l H IH|x k l H IH]; intros a S; [easy|apply Sub_skip; auto|]. inversion S; subst; [apply Sub_skip; auto|apply Sub_take; auto].
Qed.

(* ---- lines and variables ---- *)
Definition var_lines (f : str) (evs : list event) : list N :=
  flat_map (fun ev => match ev with EvElem (EVar v) => if str_eqb (w_file (v_where v)) f then [w_line (v_where v)] else [] | _ => [] end) evs.
Lemma read_app f a b : lines_read f (a ++ b) = lines_read f a ++ lines_read f b.
Proof. apply flat_map_app. Qed.
Lemma var_app f a b : var_lines f (a ++ b) = var_lines f a ++ var_lines f b.
Proof. apply flat_map_app. Qed.
Lemma read_msgs f ms : lines_read f (map EvMsg ms) = [].
Proof. now induction ms. Qed.
Lemma var_msgs f ms : var_lines f (map EvMsg ms) = [].
Proof. now induction ms. Qed.
Lemma read_ess f evs : lines_read f (filter essential evs) = lines_read f evs.
Proof.
  unfold lines_read. induction evs as [|[w d k|m|e] evs IH]; cbn [filter essential]; [easy|cbn [flat_map]; now rewrite IH| |]; destruct (negb _); exact IH.
Qed.
Lemma var_ess f evs : var_lines f (filter essential evs) = var_lines f evs.
Proof.
  unfold var_lines. induction evs as [|[w d k|m|e] evs IH]; cbn [filter essential]; [easy|exact IH|destruct (negb _); exact IH|].
  destruct e; cbn [is_blank negb flat_map app]; [exact IH|exact IH|now rewrite IH].
Qed.
Lemma stream_reader fs name evs : StreamOf fs name evs (Ok tt) -> exists es, ReaderSays fs name es (Ok tt) /\ filter essential evs = filter essential es.
Proof.
  intros H. apply Whole_proofs.stream_iff in H as (_ & fuel & E). pose proof (VSpace_proofs.ess_stream (parse_file fuel fs name)) as [K1 K2]. rewrite E in K1, K2. cbn [fst snd] in K1, K2.
  destruct (parse_file fuel fs name) as [es o] eqn:P. cbn [fst snd] in K1, K2. exists es. split; [|easy]. apply Reader_proofs.reader_iff. split; [easy|]. exists fuel. now rewrite P, K2.
Qed.

(* ---- one line ---- *)
Definition AssignLine (v : varset) : Prop := exists b s d k before after key sep bl,
  b = w_text (v_where v) /\ LineRead (v_where v) b s d k before after /\ Assign d key sep (v_value v) (match v_arrow v with Some x => x | None => false end) /\
  VarName key bl (v_variable v).
Lemma step_events name f n pend b f' evs p : LineStep name f n pend b f' evs p ->
  (forall g, lines_read g evs = if str_eqb name g then [n + 1] else []) /\
  (forall g, Sub (var_lines g evs) (lines_read g evs)) /\
  (forall v, In (EvElem (EVar v)) evs -> v_where v = Where name (n + 1) b /\ AssignLine v).
Proof.
  intros [w s dos es p0 EW F Y]. clear f' evs p. rename p0 into p. destruct Y as [d k before after kd ms p LR LK RS].
  assert (EP : forall v, p = PElem (EVar v) -> v_where v = w /\ AssignLine v).
  { intros v EP. destruct RS; try discriminate EP. injection EP as <-. split; [easy|]. inversion LK; subst.
    eexists b, s, d, k, before, after, key, sep, bl. cbn. split; [reflexivity|]. split; [eassumption|]. split; eassumption. }
  assert (LRd : forall g, lines_read g (map EvMsg (before ++ (pend ++ line_msgs dos w s) ++ after) ++ EvLine w d k :: map EvMsg ms ++ elem_ev p) = if str_eqb name g then [n + 1] else []).
  { intros g. rewrite read_app, read_msgs. cbn [app]. change (EvLine w d k :: map EvMsg ms ++ elem_ev p) with ([EvLine w d k] ++ map EvMsg ms ++ elem_ev p).
    rewrite !read_app, read_msgs. subst w. cbn [lines_read flat_map w_file w_line app]. destruct p; cbn; now destruct (str_eqb name g). }
  split; [exact LRd|]. split.
  - intros g. rewrite LRd, var_app, var_msgs. cbn [app]. change (EvLine w d k :: map EvMsg ms ++ elem_ev p) with ([EvLine w d k] ++ map EvMsg ms ++ elem_ev p).
    rewrite !var_app, var_msgs. cbn [var_lines flat_map app]. destruct p as [[| |v]|]; try apply sub_none. destruct (EP v eq_refl) as [EV _]. cbn [elem_ev var_lines flat_map].
    rewrite EV. subst w. cbn [w_file w_line]. destruct (str_eqb name g); cbn; [apply Sub_take|]; constructor.
  - intros v I. rewrite <- EW. apply EP. apply in_app_iff in I as [I|[I|I]]; [apply in_map_iff in I as (m & X & _); discriminate X|discriminate I|].
    apply in_app_iff in I as [I|I]; [apply in_map_iff in I as (m & X & _); discriminate X|]. destruct p as [e|]; [|easy]. destruct I as [[= ->]|[]]. easy.
Qed.
Lemma missing_none f (must : bool) m : lines_read f (if must then [EvMsg m] else []) = [] /\ var_lines f (if must then [EvMsg m] else []) = [].
Proof. now destruct must. Qed.
Lemma missing_in (must : bool) m v : ~ In (EvElem (EVar v)) (if must then [EvMsg m] else []).
Proof. destruct must; cbn; [intros [X|[]]; discriminate X|easy]. Qed.

(* ---- files ---- *)
Lemma file_sub fs g name f n pend bs evs r : FileSays fs name f n pend bs evs r -> Sub (var_lines g evs) (lines_read g evs).
Proof.
  induction 1 as [| | |? ? ? ? ? ? ? ? ? ? ? LS _ _ IH|? ? ? ? ? ? ? ? ? ? ? ? ? ? ? ? ? LS _ _ _ _ IH1 _ IH2|? ? ? ? ? ? ? ? ? ? ? ? ? ? ? LS _ _ _ _ IH
    |? ? ? ? ? ? ? ? ? must ? ? ? LS _ _ _ IH|? ? ? ? ? ? ? ? ? ? ? ? LS]; try (cbn; apply sub_none).
  - destruct (step_events _ _ _ _ _ _ _ _ LS) as (_ & S & _). rewrite read_app, var_app. now apply sub_app.
  - destruct (step_events _ _ _ _ _ _ _ _ LS) as (_ & S & _). rewrite !read_app, !var_app. apply sub_app; [easy|now apply sub_app].
  - destruct (step_events _ _ _ _ _ _ _ _ LS) as (_ & S & _). rewrite !read_app, !var_app. now apply sub_app.
  - destruct (step_events _ _ _ _ _ _ _ _ LS) as (_ & S & _). rewrite !read_app, !var_app. apply sub_app; [easy|]. destruct must; cbn; easy.
  - now destruct (step_events _ _ _ _ _ _ _ _ LS) as (_ & S & _).
Qed.
(* where variables come from *)
Definition FromLine (fs : str -> res bytes) (v : varset) : Prop :=
  (exists content ls pre post, fs (w_file (v_where v)) = Ok content /\ Lines content ls /\ ls = pre ++ w_text (v_where v) :: post /\
     w_line (v_where v) = N.of_nat (length pre) + 1) /\ AssignLine v.
Lemma file_from fs name f n pend bs evs r : FileSays fs name f n pend bs evs r -> forall content pre, fs name = Ok content -> Lines content (pre ++ bs) ->
  n = N.of_nat (length pre) -> forall v, In (EvElem (EVar v)) evs -> FromLine fs v.
Proof.
  assert (ST : forall name f n pend b bs f' evs p content pre v, LineStep name f n pend b f' evs p -> fs name = Ok content -> Lines content (pre ++ b :: bs) ->
    n = N.of_nat (length pre) -> In (EvElem (EVar v)) evs -> FromLine fs v).
  { intros nm f0 n0 pend0 b bs0 f' evs0 p content pre v LS O LN EN I. destruct (step_events _ _ _ _ _ _ _ _ LS) as (_ & _ & K). destruct (K v I) as [W A]. split; [|easy].
    rewrite W. cbn [w_file w_text w_line]. exists content, (pre ++ b :: bs0), pre, bs0. subst n0. easy. }
  assert (NX : forall content pre (b : bytes) bs, Lines content (pre ++ b :: bs) -> Lines content ((pre ++ [b]) ++ bs)) by (intros content pre b bs0 H; now rewrite <- app_assoc).
  assert (LN : forall (pre : list bytes) b, N.of_nat (length pre) + 1 = N.of_nat (length (pre ++ [b]))) by (intros pre b; rewrite app_length; cbn; lia).
  induction 1 as [| |? ? ? ? b bs ND|? ? ? ? b ? ? ? ? ? ? LS _ _ IH|? ? ? ? b ? ? ? ? ? ? c ls ? ? ? ? LS _ O1 L1 _ IH1 _ IH2|? ? ? ? b ? ? ? ? ? ? c ls ? ? LS _ O1 L1 _ IH
    |? ? ? ? b ? ? ? ? must ? ? ? LS _ _ _ IH|? ? ? ? b ? ? ? ? ? ? ? LS]; intros content pre O L1' EN v I; subst; try (destruct I; fail); try (destruct I as [X|[]]; discriminate X).
  - apply in_app_iff in I as [I|I]; [eapply ST; eauto|]. eapply (IH content (pre ++ [b])); eauto.
  - apply in_app_iff in I as [I|I]; [eapply ST; eauto|]. apply in_app_iff in I as [I|I]; [now eapply (IH1 c [])|]. eapply (IH2 content (pre ++ [b])); eauto.
  - apply in_app_iff in I as [I|I]; [eapply ST; eauto|]. now eapply (IH c []).
  - apply in_app_iff in I as [I|I]; [eapply ST; eauto|]. apply in_app_iff in I as [I|I]; [now elim (missing_in _ _ _ I)|]. eapply (IH content (pre ++ [b])); eauto.
  - eapply ST; eauto.
Qed.
(* every pass over a file starts with its first line *)
Lemma file_first fs g name f n pend bs evs r : FileSays fs name f n pend bs evs r -> lines_read g evs = [] \/ In 1 (lines_read g evs) \/ g = name /\ 0 < n.
Proof.
  assert (ST : forall name f n pend b f' evs p rest, LineStep name f n pend b f' evs p -> (lines_read g rest = [] \/ In 1 (lines_read g rest) \/ g = name) ->
    lines_read g (evs ++ rest) = [] \/ In 1 (lines_read g (evs ++ rest)) \/ g = name /\ 0 < n).
  { intros nm f0 n0 pend0 b f' evs0 p rest LS H. destruct (step_events _ _ _ _ _ _ _ _ LS) as (K & _ & _). rewrite read_app, K.
    destruct (str_eqb_spec nm g) as [->|N].
    - destruct (N.eq_dec n0 0) as [->|NZ]; [right; left; now left|right; right; split; [easy|lia]].
    - cbn [app]. destruct H as [H|[H|H]]; [now left|right; now left|now elim N]. }
  induction 1 as [| | |? ? ? ? ? ? ? ? ? ? ? LS _ _ IH|? ? ? ? ? ? ? ? ? ? ? ? ? ? ? ? ? LS _ _ _ _ IH1 _ IH2|? ? ? ? ? ? ? ? ? ? ? ? ? ? ? LS _ _ _ _ IH
    |? ? ? ? ? ? ? ? ? must ? ? ? LS _ _ _ IH|? ? ? ? ? ? ? ? ? ? ? ? LS]; try now left.
  - eapply ST; [eassumption|]. tauto.
  - eapply ST; [eassumption|]. rewrite read_app. destruct IH1 as [->|[H|[_ H]]]; [|right; left; apply in_or_app; now left|lia]. cbn [app]. tauto.
  - eapply ST; [eassumption|]. destruct IH as [H|[H|[_ H]]]; [now left|right; now left|lia].
  - eapply ST; [eassumption|]. rewrite read_app. rewrite (proj1 (missing_none _ _ _)). cbn [app]. tauto.
  - rewrite <- (app_nil_r evs). eapply ST; [eassumption|]. now left.
Qed.
Lemma nodup_app {A} (a b : list A) : NoDup (a ++ b) -> NoDup a /\ NoDup b /\ forall x, In x a -> ~ In x b.
Proof.
  induction a as [|x a IH]; cbn [app]; intros H; [repeat split; [constructor|easy|easy]|]. inversion H as [|? ? H1 H2]; subst. destruct (IH H2) as (I1 & I2 & I3).
  split; [constructor; [|easy]; intros I; apply H1, in_or_app; now left|]. split; [easy|]. intros y [<-|I]; [intros I'; apply H1, in_or_app; now right|now apply I3].
Qed.
Lemma file_sorted fs g name f n pend bs evs r : FileSays fs name f n pend bs evs r -> NoDup (lines_read g evs) -> (g = name -> 0 < n -> ~ In 1 (lines_read g evs)) ->
  StronglySorted N.lt (lines_read g evs) /\ (g = name -> Forall (fun i => n < i) (lines_read g evs)).
Proof.
  assert (ST : forall name f n pend b f' evs p rest, LineStep name f n pend b f' evs p -> NoDup (lines_read g (evs ++ rest)) -> (g = name -> 0 < n -> ~ In 1 (lines_read g (evs ++ rest))) ->
    (NoDup (lines_read g rest) -> (g = name -> ~ In 1 (lines_read g rest)) ->
       StronglySorted N.lt (lines_read g rest) /\ (g = name -> Forall (fun i => n + 1 < i) (lines_read g rest))) ->
    StronglySorted N.lt (lines_read g (evs ++ rest)) /\ (g = name -> Forall (fun i => n < i) (lines_read g (evs ++ rest)))).
  { intros nm f0 n0 pend0 b f' evs0 p rest LS. destruct (step_events _ _ _ _ _ _ _ _ LS) as (K & _ & _). rewrite read_app, K. clear K.
    destruct (str_eqb_spec nm g) as [->|N]; cbn [app]; intros ND N1 H.
    - inversion ND as [|? ? D1 D2]; subst. destruct H as [S F].
      + easy.
      + intros _ I. destruct (N.eq_dec n0 0) as [->|NZ]; [easy|]. apply (N1 eq_refl); [lia|now right].
      + specialize (F eq_refl). split.
        * constructor; [easy|]. eapply Forall_impl; [|exact F]. cbn. lia.
        * intros _. constructor; [lia|]. eapply Forall_impl; [|exact F]. cbn. lia.
    - destruct H as [S F]; [easy|intros E; now elim N|]. split; [easy|]. intros E. now elim N. }
  induction 1 as [| | |? ? ? ? ? ? ? ? ? ? ? LS _ _ IH|nm ? n0 ? ? ? ? ? ? ? p ? ? ? ? ? ? LS _ _ _ FS1 IH1 FS2 IH2|nm ? n0 ? ? ? ? ? ? ? p ? ? ? ? LS _ _ _ FS IH
    |? ? ? ? ? ? ? ? ? must ? ? ? LS _ _ _ IH|? ? ? ? ? ? ? ? ? ? ? ? LS]; intros ND N1; try (split; [constructor|intros; constructor]).
  - eapply ST; try eassumption. intros D M. apply IH; [easy|]. intros E _. now apply M.
  - eapply ST; try eassumption. clear ND N1. rewrite read_app. intros D M. destruct (nodup_app _ _ D) as (D1 & D2 & D3).
    assert (E1 : lines_read g sub = [] \/ In 1 (lines_read g sub) /\ g <> nm).
    { destruct (file_first _ g _ _ _ _ _ _ _ FS1) as [E|[I|[_ X]]]; [now left| |lia]. right. split; [easy|]. intros E. apply (M E), in_or_app. now left. }
    destruct E1 as [E1|[I NE]].
    + rewrite E1 in *. cbn [app] in *. apply IH2; [easy|]. intros E _. now apply M.
    + assert (E2 : lines_read g rest = []).
      { destruct (file_first _ g _ _ _ _ _ _ _ FS2) as [E|[I2|[X _]]]; [easy|now elim (D3 1)|easy]. }
      rewrite E2, app_nil_r. destruct IH1 as [S _]; [easy|intros _ X; lia|]. split; [easy|]. intros E. now elim NE.
  - eapply ST; try eassumption. clear ND N1. intros D M. destruct (file_first _ g _ _ _ _ _ _ _ FS) as [E|[I|[_ X]]]; [rewrite E; split; [constructor|intros; constructor]| |lia].
    destruct IH as [S _]; [easy|intros _ X; lia|]. split; [easy|]. intros E. now elim (M E).
  - eapply ST; try eassumption. rewrite read_app, (proj1 (missing_none _ _ _)). cbn [app]. intros D M. apply IH; [easy|]. intros E _. now apply M.
  - rewrite <- (app_nil_r evs) in ND, N1 |- *. eapply ST; [exact LS|exact ND|exact N1|]. intros _ _. split; [constructor|intros; constructor].
Qed.

(* ---- hints and lines ---- *)
Section Plan.
Variable U : uni.
Lemma hints_sub f evs ms : HintsOf U evs ms -> Sub (map (fun m => w_line (m_where m)) (filter (fun m => str_eqb (w_file (m_where m)) f) ms)) (var_lines f evs).
Proof.
  induction 1 as [|ev evs ms _ IH|v m evs ms HF _ IH]; [constructor| |].
  - change (ev :: evs) with ([ev] ++ evs). rewrite var_app. apply (sub_app []); [apply sub_none|exact IH].
  - destruct HF as (pat & prio & label & text & p & _ & _ & _ & _ & ->). cbn [filter m_where var_lines flat_map].
    destruct (str_eqb _ _); cbn [map app m_where]; [now apply Sub_take|exact IH].
Qed.
Lemma hints_nums f l is : Hints f l is -> map (fun x => fst x + 1) is = map (fun m => w_line (m_where m)) (filter (fun m => str_eqb (w_file (m_where m)) f) (hint_msgs l)).
Proof.
  induction 1 as [|m p x n a b l is H F W A E1 E2 _ IH|e l is N _ IH]; [easy| |].
  - change (LMsg m :: l) with ([LMsg m] ++ l). rewrite hint_app. apply is_hint_iff in H. unfold hint_msgs at 1. cbn [log_msgs flat_map app filter]. rewrite H. cbn [app filter].
    rewrite F, str_eqb_refl. cbn [map fst]. now rewrite W, IH.
  - change (e :: l) with ([e] ++ l). rewrite hint_app, IH. destruct e as [m| | | |]; try reflexivity. unfold hint_msgs at 2. cbn [log_msgs flat_map app filter].
    destruct (is_hint m) eqn:E; [|easy]. cbn [app filter]. destruct (str_eqb_spec (w_file (m_where m)) f) as [X|_]; [|easy]. apply is_hint_iff in E. now elim (N m eq_refl E).
Qed.
Lemma hints_from f l is n a b : Hints f l is -> In (n, (a, b)) is -> exists m p x, In m (hint_msgs l) /\ w_file (m_where m) = f /\ w_line (m_where m) = n + 1 /\
  m_args m = [(L "pat", AStr p); (L "expected", AStr x)] /\ Utf8 p a /\ Utf8 x b.
Proof.
  induction 1 as [|m p x n' a' b' l is H F W A E1 E2 _ IH|e l is N _ IH]; [easy| |].
  - change (LMsg m :: l) with ([LMsg m] ++ l). rewrite hint_app. intros [E|I].
    + injection E as -> -> ->. exists m, p, x. split; [|easy]. apply in_or_app. left. apply in_hints; [now left|easy].
    + destruct (IH I) as (m' & p' & x' & I' & K). exists m', p', x'. split; [apply in_or_app; now right|easy].
  - intros I. destruct (IH I) as (m' & p' & x' & I' & K). exists m', p', x'. split; [|easy]. change (e :: l) with ([e] ++ l). rewrite hint_app. apply in_or_app. now right.
Qed.
Lemma hint_var evs ms m : HintsOf U evs ms -> In m ms -> exists v, In (EvElem (EVar v)) evs /\ HintFor U v m.
Proof.
  induction 1 as [|ev evs ms _ IH|v m' evs ms HF _ IH]; intros I; [easy| |].
  - destruct (IH I) as (v & J & K). exists v. split; [now right|easy].
  - destruct I as [<-|I]; [exists v; split; [now left|easy]|]. destruct (IH I) as (v' & J & K). exists v'. split; [now right|easy].
Qed.
Variable FT : ftable.
Variable AT : atable.
Hypothesis HU : AsciiOk U.
Variable fs : str -> res bytes.
Variable name : str.
Variable evs : list event.
Variable h : list hev.
Variable log : list lev.
Hypothesis HS : StreamOf fs name evs (Ok tt).
Hypothesis HP : PlanSays U FT AT evs h log.
Lemma sorted_map_plus (is : list (N * (bytes * bytes))) : StronglySorted N.lt (map (fun x => fst x + 1) is) -> Ascending is.
Proof.
  unfold Ascending. induction is as [|x is IH]; cbn [map]; intros S; constructor; inversion S as [|? ? S1 S2]; subst; [auto|].
  rewrite Forall_map in *. eapply Forall_impl; [|exact S2]. cbn. lia.
Qed.
Theorem once f is : Hints f log is -> NoDup (lines_read f evs) -> Ascending is.
Proof.
  intros H ND. destruct (stream_reader _ _ _ HS) as (es & R & E). pose proof (plan_hints U FT AT HU _ _ _ _ _ HS HP) as HO.
  apply sorted_map_plus. rewrite (hints_nums _ _ _ H). apply (sub_sorted _ _ _ (hints_sub f _ _ HO)).
  rewrite <- (read_ess f evs), E, read_ess in ND. rewrite <- (var_ess f evs), E, var_ess. inversion R as [content ls es0 pend O LN FS| |]; subst.
  rewrite read_app, read_msgs, app_nil_r in ND. rewrite var_app, var_msgs, app_nil_r. apply (sub_sorted _ _ _ (file_sub _ f _ _ _ _ _ _ _ FS)).
  apply (file_sorted _ f _ _ _ _ _ _ _ FS ND). intros _ X. lia.
Qed.
Theorem from_line f is n a b : Hints f log is -> In (n, (a, b)) is -> exists v pat body prio label text p,
  FromLine fs v /\ w_file (v_where v) = f /\ w_line (v_where v) = n + 1 /\ v_variable v = L "exten" /\ v_value v = pat ++ 44 :: body /\ BodyText U body prio label text /\
  ~ In 44 pat /\ pat <> [] /\ mk_pattern pat = Ok p /\ is_canonical p = false /\ Utf8 pat a /\ Utf8 (canonical (pv p)) b.
Proof.
  intros H I. pose proof (plan_hints U FT AT HU _ _ _ _ _ HS HP) as HO. destruct (hints_from _ _ _ _ _ _ H I) as (m & p' & x' & J & F & W & A & E1 & E2).
  destruct (hint_var _ _ _ HO J) as (v & JV & (pat & prio & label & text & p & LT & NE & MP & NC & ->)). cbn [m_where m_args] in *. injection A as <- <-.
  destruct LT as [(VE & N44 & body & VV & BT)|(_ & X & _)]; [|easy].
  exists v, pat, body, prio, label, text, p. split; [|repeat split; easy].
  destruct (stream_reader _ _ _ HS) as (es & R & E). assert (JE : In (EvElem (EVar v)) (filter essential evs)) by now apply filter_In.
  rewrite E in JE. apply filter_In in JE as [JE _]. inversion R as [content ls es0 pend O LN FS| |]; subst. apply in_app_iff in JE as [JE|JE]; [|apply in_map_iff in JE as (? & X & _); discriminate X].
  now apply (file_from fs name None 0 [] ls es0 (inl pend) FS content []).
Qed.
End Plan.
