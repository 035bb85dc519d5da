(* C57: the reading of substitutions, with all that is said. *)
From Coq Require Import ZifyBool ZifyN ZifyNat.
From Verif Require Import Base PyStr Defines Var VarFun AppM Spec_Var Spec_VarFun Spec_App Spec_Args Spec_Crash Spec_Subst
  Var_proofs Balance_proofs Match_proofs VarFun_proofs Round_proofs Slice_proofs App_proofs Tok_proofs AppT_proofs Loader_proofs
  Args_proofs Crash_proofs CrashV_proofs.

Lemma memit_say c w args : mdupe c = false -> format_ok (mfields c) args = Ok tt -> memit c w args = (say c w args, Ok tt).
Proof. intros Hd Hf. unfold memit, mw, emit. rewrite Hd, Hf. reflexivity. Qed.
Lemma targ_shown t s : str_of t = Ok s -> arg_ok false (targ t) = Ok tt.
Proof. destruct t; cbn [targ arg_ok]; try easy; now intros ->. Qed.
Lemma shown_targ t u : arg_ok false (targ t) = Ok u -> exists s, str_of t = Ok s.
Proof.
  assert (K : forall x : res str, (let! _ := x in Ok tt) = Ok u -> exists s, x = Ok s) by (intros [s| |]; [eauto|easy|easy]).
  destruct t; cbn [targ arg_ok]; try apply K. intros _. now eexists.
Qed.
(* messages with the one field data or name *)
Lemma memit_data c w t s : mdupe c = false -> mfields c = [(L "data", false)] -> str_of t = Ok s ->
  memit c w [(L "data", targ t)] = (say c w [(L "data", targ t)], Ok tt).
Proof.
  intros Hd Hf Hs. apply memit_say; [easy|]. rewrite Hf. cbn [format_ok lookup]. rewrite str_eqb_refl, (targ_shown _ _ Hs). reflexivity.
Qed.
Lemma memit_data_inv c w t l u : mdupe c = false -> mfields c = [(L "data", false)] ->
  memit c w [(L "data", targ t)] = (l, Ok u) -> l = say c w [(L "data", targ t)] /\ exists s, str_of t = Ok s.
Proof.
  intros Hd Hf H. split; [now apply memit_ok in H|]. unfold memit, mw, emit in H. rewrite Hd, Hf in H. cbn [format_ok lookup] in H.
  rewrite str_eqb_refl in H. cbn [fst snd] in H. destruct (arg_ok false (targ t)) as [x| |] eqn:E; [|easy|easy]. now apply shown_targ in E.
Qed.

Lemma lift_bind {A B} (a : A) (f : A -> M B) : mbind (mlift (Ok a)) f = f a.
Proof. unfold mbind, mlift. now destruct (f a). Qed.

Lemma bind_ext {A B} (m : M A) (f g : A -> M B) : (forall a, f a = g a) -> mbind m f = mbind m g.
Proof. intros H. destruct m as [l [a| |]]; cbn; [now rewrite H|easy|easy]. Qed.

Section Tables.
Variable U : uni.
Variable FT : ftable.
Variable w : loc.
Hypothesis HU : AsciiOk U.

(* ---- numbers ---- *)
Lemma dv_app a c : forall acc, digits_val U acc (a ++ [c]) =
  let! n := digits_val U acc a in match u_decimal U c with Some d => Ok (n * 10 + d) | None => Exn ValueError end.
Proof.
  induction a as [|x a IH]; intros acc; cbn [app digits_val bind].
  - now destruct (u_decimal U c).
  - destruct (u_decimal U x); [apply IH|easy].
Qed.
Lemma decimal_iff s n : Decimal U s n <-> digits_val U 0 s = Ok n.
Proof.
  split.
  - induction 1 as [|s n c d H IH Hc]; [easy|]. now rewrite dv_app, IH, Hc.
  - revert n. induction s as [|c s IH] using rev_ind; intros n H; [injection H as <-; constructor|].
    rewrite dv_app in H. destruct (digits_val U 0 s) as [m| |]; [|easy|easy]. cbn [bind] in H.
    destruct (u_decimal U c) eqn:E; [|easy]. injection H as <-. constructor; [now apply IH|easy].
Qed.
Lemma digittext_iff s : sisdigit U s = true <-> DigitText U s.
Proof.
  unfold sisdigit, DigitText. rewrite andb_true_iff, forallb_forall, Forall_forall. destruct (str_eqb s []) eqn:E.
  - apply str_eqb_eq in E. subst. split; [intros [? _]; easy|intros [? _]; easy].
  - apply str_eqb_neq in E. tauto.
Qed.
Lemma minus_nodigit : u_isdigit U 45 = false.
Proof. destruct (u_isdigit U 45) eqn:E; [|easy]. apply (HU 45) in E; lia. Qed.
Lemma numbertext_iff s : int_like U s = true <-> NumberText U s.
Proof.
  unfold int_like, NumberText. rewrite orb_true_iff, digittext_iff. split; (intros [H|H]; [now left|right]).
  - destruct s as [|c r]; [easy|]. destruct (N.eq_dec c 45) as [->|Hc]; [exists r; split; [easy|now apply digittext_iff]|].
    exfalso. revert H. clear - Hc. destruct c as [|p]; [easy|]. do 6 (destruct p; try easy).
  - destruct H as (r & -> & H). now apply digittext_iff.
Qed.
Lemma int_of_other c r : c <> 45 -> int_of U (c :: r) = let! n := digits_val U 0 (c :: r) in Ok (Z.of_N n).
Proof. intros Hc. unfold int_of. destruct c as [|p]; [easy|]. do 6 (destruct p; try easy). Qed.
Lemma number_iff s z : NumberText U s -> (int_of U s = Ok z <-> Number U s z).
Proof.
  intros H. destruct s as [|c r]; [destruct H as [[H _]|(? & ? & _)]; easy|]. destruct (N.eq_dec c 45) as [->|Hc].
  - assert (Hr : DigitText U r).
    { destruct H as [[_ H]|(r' & [= <-] & H)]; [|easy]. inversion H; subst. rewrite minus_nodigit in *. discriminate. }
    cbn [int_of]. split.
    + destruct (digits_val U 0 r) as [n| |] eqn:E; [|easy|easy]. intros [= <-]. apply decimal_iff in E. now constructor.
    + intros HN. inversion HN as [s' n [_ HF] HD|s' n HT HD]; subst.
      * inversion HF; subst. rewrite minus_nodigit in *. discriminate.
      * apply decimal_iff in HD. now rewrite HD.
  - assert (Hr : DigitText U (c :: r)) by (destruct H as [H|(r' & [= -> _] & _)]; easy).
    rewrite int_of_other by easy. split.
    + destruct (digits_val U 0 (c :: r)) as [n| |] eqn:E; [|easy|easy]. intros [= <-]. apply decimal_iff in E. now constructor.
    + intros HN. inversion HN as [s' n _ HD|s' n HT HD]; subst; [|easy]. apply decimal_iff in HD. now rewrite HD.
Qed.
Lemma number_text s z : Number U s z -> NumberText U s.
Proof. intros [s' n H _|s' n H _]; [now left|right; eauto]. Qed.
Lemma number_fun s z z' : Number U s z -> Number U s z' -> z = z'.
Proof. intros H H'. pose proof (number_text _ _ H) as HT. apply (number_iff _ _ HT) in H, H'. congruence. Qed.

(* ---- offset and length ---- *)
Lemma q_text a o : Quantity U (map Ch a) o -> (exists z, o = Some (NI z) /\ Number U a z) \/ (o = None /\ ~ NumberText U a).
Proof.
  intros H. inversion H as [a' z H1 E|a' H1 E|s v t H1 H2 E]; subst.
  - apply map_Ch_inj in E. subst. left. eauto.
  - apply map_Ch_inj in E. subst. right. eauto.
  - now apply chars_no_va in H1.
Qed.
Lemma q_vars s v o : In (Va v) s -> Quantity U s o -> exists t, o = Some (NV t) /\ Canon t s.
Proof. intros Hv H. inversion H; subst; try now apply chars_no_va in Hv. eauto. Qed.
Lemma q_fun s o o' : Quantity U s o -> Quantity U s o' -> o = o'.
Proof.
  intros H H'. destruct (all_chars s) as [[a ->]|[v Hv]].
  - apply q_text in H as [(z & -> & Hz)|(-> & Hz)], H' as [(z' & -> & Hz')|(-> & Hz')]; [|now apply number_text in Hz|now apply number_text in Hz'|easy].
    now rewrite (number_fun _ _ _ Hz Hz').
  - destruct (q_vars _ _ _ Hv H) as (t & -> & HC), (q_vars _ _ _ Hv H') as (t' & -> & HC'). now rewrite (Canon_fun _ _ _ HC HC').
Qed.
Lemma not_str t s v : Canon t s -> In (Va v) s -> forall x, t <> TS x.
Proof. intros HC Hv x ->. apply Canon_elems in HC. rewrite elems_str in HC. subst. now apply chars_no_va in Hv. Qed.

Lemma pair_inv {A} (l l' : list lev) (a b : A) : @eq (M A) (l, Ok a) (l', Ok b) <-> l' = l /\ b = a.
Proof. split; [now intros [= <- <-]|now intros [-> ->]]. Qed.
Lemma emit_start : memit E_VAR_SUBSTR_START w [(L "start", ANone)] = (bad_start w, Ok tt).
Proof. reflexivity. Qed.
Lemma emit_length a : arg_ok false a = Ok tt -> memit E_VAR_SUBSTR_LENGTH w [(L "length", a)] = (bad_length w a, Ok tt).
Proof. intros H. apply memit_say; [easy|]. cbn [mfields format_ok lookup]. rewrite str_eqb_refl, H. reflexivity. Qed.

Lemma start_iff t s len lg r : Canon t s -> (sl_start U (Some t) len w = (lg, Ok r) <->
  (exists o, Quantity U s (Some o) /\ lg = [] /\ r = (Some o, len)) \/ (Quantity U s None /\ lg = bad_start w /\ r = (None, None))).
Proof.
  intros HC. destruct (all_chars s) as [[a ->]|[v Hv]].
  - rewrite (canon_text _ _ _ HC eq_refl). cbn [sl_start]. destruct (int_like U a) eqn:E.
    + apply numbertext_iff in E. split.
      * destruct (int_of U a) as [z| |] eqn:Ez; [|easy|easy]. cbn [mlift mbind mret fst snd app]. rewrite pair_inv. intros [-> ->].
        left. exists (NI z). split; [|easy]. constructor. now apply number_iff.
      * intros [(o & Hq & -> & ->)|(Hq & _)].
        -- apply q_text in Hq as [(z & [= ->] & Hz)|(? & _)]; [|easy]. apply number_iff in Hz; [|easy]. rewrite Hz. reflexivity.
        -- apply q_text in Hq as [(z & ? & _)|(_ & Hq)]; easy.
    + assert (Hn : ~ NumberText U a) by (rewrite <- numbertext_iff; congruence). rewrite emit_start. cbn [mbind mret fst snd]. rewrite app_nil_r, pair_inv. split.
      * intros [-> ->]. right. split; [now constructor|easy].
      * intros [(o & Hq & _)|(_ & -> & ->)]; [|easy]. apply q_text in Hq as [(z & _ & Hq)|(? & _)]; [|easy]. now apply number_text in Hq.
  - assert (E : sl_start U (Some t) len w = ([], Ok (Some (NV t), len))).
    { destruct t; try reflexivity. exfalso. now apply (not_str _ _ _ HC Hv s0). }
    rewrite E, pair_inv. split.
    + intros [-> ->]. left. exists (NV t). split; [|easy]. now apply (Qu_var U s v).
    + intros [(o & Hq & -> & ->)|(Hq & _)].
      * destruct (q_vars _ _ _ Hv Hq) as (t' & [= ->] & HC'). now rewrite (Canon_fun _ _ _ HC HC').
      * destruct (q_vars _ _ _ Hv Hq) as (t' & ? & _). easy.
Qed.

Inductive Len (k : list elem) (o : num tok) : list lev -> option (num tok) * option (num tok) -> Prop :=
| Ln_both z y : Quantity U k (Some (NI y)) -> o = NI z -> LengthMakesSense z y -> Len k o [] (Some o, Some (NI y))
| Ln_senseless z y : Quantity U k (Some (NI y)) -> o = NI z -> ~ LengthMakesSense z y -> Len k o (bad_length w ANone) (Some o, None)
| Ln_zero t : Quantity U k (Some (NI 0%Z)) -> o = NV t -> Len k o (bad_length w ANone) (Some o, None)
| Ln_bad x : k = map Ch x -> ~ NumberText U x -> Len k o (bad_length w (AStr x)) (None, None)
| Ln_var t : Quantity U k (Some (NV t)) -> Len k o [] (Some o, Some (NV t)).

Lemma length_iff o t k lg r : Canon t k -> (sl_length U (Some o) (Some t) w = (lg, Ok r) <-> Len k o lg r).
Proof.
  intros HC. destruct (all_chars k) as [[a ->]|[v Hv]].
  - rewrite (canon_text _ _ _ HC eq_refl). cbn [sl_length]. destruct (int_like U a) eqn:E.
    + apply numbertext_iff in E.
      assert (K : forall y, Number U a y ->
        ((do* bad <- (if (y =? 0)%Z then mret true else match o with NI st => mret ((st <? 0)%Z && (- y <=? st)%Z) | _ => mexn TypeError end);
          if bad then do* _ <- memit E_VAR_SUBSTR_LENGTH w [(L "length", ANone)]; mret (Some o, None) else mret (Some o, Some (NI y))) = (lg, Ok r)
         <-> Len (map Ch a) o lg r)).
      { intros y Hy. rewrite (emit_length ANone eq_refl).
        assert (Hq : Quantity U (map Ch a) (Some (NI y))) by now constructor. split.
        - intros H. destruct (y =? 0)%Z eqn:E0.
          + cbn [mbind mret fst snd app] in H. apply pair_inv in H as [-> ->]. replace y with 0%Z in * by lia.
            destruct o as [z|t']; [apply (Ln_senseless _ _ z 0); try easy; unfold LengthMakesSense; lia|now apply (Ln_zero _ _ t')].
          + destruct o as [z|t']; [|easy]. cbn [mbind mret fst snd app] in H. destruct ((z <? 0)%Z && (- y <=? z)%Z) eqn:E1.
            * cbn [mbind mret fst snd app] in H. apply pair_inv in H as [-> ->]. apply (Ln_senseless _ _ z y); try easy. unfold LengthMakesSense. lia.
            * cbn [mret fst snd] in H. apply pair_inv in H as [-> ->]. apply (Ln_both _ _ z y); try easy. unfold LengthMakesSense. lia.
        - intros H. inversion H as [z y' H1 H2 H3|z y' H1 H2 H3|t' H1 H2|x H1 H2|t' H1]; subst.
          + assert (y' = y) as -> by (pose proof (q_fun _ _ _ Hq H1); congruence). unfold LengthMakesSense in H3.
            replace (y =? 0)%Z with false by lia. cbn [mbind mret fst snd app].
            replace ((z <? 0)%Z && (- y <=? z)%Z) with false by lia. reflexivity.
          + assert (y' = y) as -> by (pose proof (q_fun _ _ _ Hq H1); congruence). unfold LengthMakesSense in H3.
            destruct (y =? 0)%Z eqn:E0; [reflexivity|]. cbn [mbind mret fst snd app].
            replace ((z <? 0)%Z && (- y <=? z)%Z) with true by lia. reflexivity.
          + assert (y = 0)%Z as -> by (pose proof (q_fun _ _ _ Hq H1); congruence). reflexivity.
          + apply map_Ch_inj in H1. subst x. easy.
          + pose proof (q_fun _ _ _ Hq H1). congruence. }
      destruct (int_of U a) as [y| |] eqn:Ey.
      * rewrite lift_bind. apply K. now apply number_iff.
      * split; [easy|]. intros H. exfalso.
        inversion H as [z y' H1 H2 H3|z y' H1 H2 H3|t' H1 H2|x H1 H2|t' H1]; subst;
          try (apply q_text in H1 as [(z' & _ & H1)|[? _]]; [|easy]; apply number_iff in H1; [congruence|easy]).
        apply map_Ch_inj in H1. subst. easy.
      * exfalso. now apply (int_of_nohang U a).
    + assert (Hn : ~ NumberText U a) by (rewrite <- numbertext_iff; congruence).
      rewrite (emit_length (AStr a) eq_refl). cbn [mbind mret fst snd]. rewrite app_nil_r, pair_inv. split.
      * intros [-> ->]. now apply (Ln_bad _ _ a).
      * intros H. inversion H as [z y' H1 H2 H3|z y' H1 H2 H3|t' H1 H2|x H1 H2|t' H1]; subst;
          try (apply q_text in H1 as [(z' & _ & H1)|[? _]]; [now apply number_text in H1|easy]).
        apply map_Ch_inj in H1. now subst.
  - assert (E : sl_length U (Some o) (Some t) w = ([], Ok (Some o, Some (NV t)))).
    { destruct t; try reflexivity. exfalso. now apply (not_str _ _ _ HC Hv s). }
    rewrite E, pair_inv. split.
    + intros [-> ->]. apply Ln_var. now apply (Qu_var U k v).
    + intros H. inversion H as [z y' H1 H2 H3|z y' H1 H2 H3|t' H1 H2|x H1 H2|t' H1]; subst;
        try (destruct (q_vars _ _ _ Hv H1) as (t1 & ? & _); discriminate).
      * now apply chars_no_va in Hv.
      * destruct (q_vars _ _ _ Hv H1) as (t1 & [= ->] & HC'). now rewrite (Canon_fun _ _ _ HC HC').
Qed.

(* ---- name:offset:length ---- *)
Definition fin (v : tok) (z : option (num tok) * option (num tok)) : M (tok * option (num tok) * option (num tok)) :=
  match fst z, snd z with
  | Some (NI 0%Z), None =>
    do* _ <- memit E_VAR_SUBSTR_START w [(L "start", ANone)]; mret (v, None, None)
  | st, ln => mret (v, st, ln)
  end.
Definition slice_body (data : tok) (parts : list tok) : M (tok * option (num tok) * option (num tok)) :=
  do* x <- (match parts with
            | [v; s] => mret (v, Some s, None)
            | [v; s; l] => mret (v, Some s, Some l)
            | v :: _ => do* _ <- memit E_VAR_SUBSTR_ARGS w [(L "data", targ data)]; mret (v, None, None)
            | [] => mexn IndexError
            end);
  let '(v, s, l) := x in
  do* y <- sl_start U s l w;
  do* z <- sl_length U (fst y) (snd y) w;
  fin v z.
Lemma split_slice_body data : split_slice U data w = do* parts <- mlift (vsplit 58 None data); slice_body data parts.
Proof. reflexivity. Qed.

Lemma fin_alone v o lg x : fin v (Some o, None) = (lg, Ok x) <-> exists o', Alone w o o' lg /\ x = (v, o', None).
Proof.
  assert (G : o = NI 0%Z \/ (o <> NI 0%Z /\ fin v (Some o, None) = mret (v, Some o, None))).
  { destruct o as [[| |]|]; [now left|right; easy|right; easy|right; easy]. }
  destruct G as [->|[Hn ->]].
  - unfold fin. cbn [fst snd]. rewrite emit_start. cbn [mbind mret fst snd]. rewrite app_nil_r, pair_inv. split.
    + intros [-> ->]. exists None. split; [now constructor|easy].
    + intros (o' & H & ->). inversion H; subst; easy.
  - unfold mret. rewrite pair_inv. split.
    + intros [-> ->]. exists (Some o). split; [now constructor|easy].
    + intros (o' & H & ->). inversion H; subst; easy.
Qed.
Lemma fin_other v st ln lg x : (st = None \/ ln <> None) -> fin v (st, ln) = (lg, Ok x) <-> lg = [] /\ x = (v, st, ln).
Proof.
  intros H. assert (E : fin v (st, ln) = mret (v, st, ln)).
  { destruct H as [->|H]; [reflexivity|]. unfold fin. cbn [fst snd]. destruct st as [[[| |]|]|], ln; easy. }
  rewrite E. unfold mret. apply pair_inv.
Qed.

Inductive Sub2 (data : tok) : list (list elem) -> option (num tok) -> option (num tok) -> list lev -> Prop :=
| S2_off s o o' l : Quantity U s (Some o) -> Alone w o o' l -> Sub2 data [s] o' None l
| S2_badoff s more : (length more <= 1)%nat -> Quantity U s None -> Sub2 data (s :: more) None None (bad_start w)
| S2_badlen s x o : Quantity U s (Some o) -> ~ NumberText U x -> Sub2 data [s; map Ch x] None None (bad_length w (AStr x))
| S2_senseless s k z y o' l : Quantity U s (Some (NI z)) -> Quantity U k (Some (NI y)) ->
    ~ LengthMakesSense z y -> Alone w (NI z) o' l -> Sub2 data [s; k] o' None (bad_length w ANone ++ l)
| S2_zero s k t : Quantity U s (Some (NV t)) -> Quantity U k (Some (NI 0%Z)) ->
    Sub2 data [s; k] (Some (NV t)) None (bad_length w ANone)
| S2_both s k z y : Quantity U s (Some (NI z)) -> Quantity U k (Some (NI y)) ->
    LengthMakesSense z y -> Sub2 data [s; k] (Some (NI z)) (Some (NI y)) []
| S2_var s k o t : Quantity U s (Some o) -> Quantity U k (Some (NV t)) -> Sub2 data [s; k] (Some o) (Some (NV t)) []
| S2_args ps x : length ps <> 1%nat -> length ps <> 2%nat -> str_of data = Ok x ->
    Sub2 data ps None None (say E_VAR_SUBSTR_ARGS w [(L "data", targ data)]).
Lemma substring_iff data il n o l lg : Substring U w data il n o l lg <-> exists ps, Split 58 None il (n :: ps) /\ Sub2 data ps o l lg.
Proof.
  split.
  - intros H; inversion H; subst; eexists; (split; [eassumption|]); econstructor; eassumption.
  - intros (ps & HS & H); inversion H; subst; econstructor; eassumption.
Qed.

Lemma ret_bind {A B} (a : A) (f : A -> M B) : mbind (mret a) f = f a.
Proof. unfold mbind, mret. now destruct (f a). Qed.
Lemma bind_eq {A B} (m : M A) (f : A -> M B) l b :
  mbind m f = (l, Ok b) <-> exists l1 a l2, m = (l1, Ok a) /\ f a = (l2, Ok b) /\ l = l1 ++ l2.
Proof.
  split; [apply mbind_ok|]. intros (l1 & a & l2 & -> & H & ->). unfold mbind. now rewrite H.
Qed.
Lemma data_iff c t lg u : mdupe c = false -> mfields c = [(L "data", false)] ->
  memit c w [(L "data", targ t)] = (lg, Ok u) <-> lg = say c w [(L "data", targ t)] /\ exists s, str_of t = Ok s.
Proof.
  intros Hd Hf. split; [now apply memit_data_inv|]. intros [-> [s Hs]]. destruct u. eapply memit_data; eassumption.
Qed.

Lemma sub2_args data ps o l lg : Sub2 data ps o l lg -> length ps <> 1%nat -> length ps <> 2%nat ->
  o = None /\ l = None /\ lg = say E_VAR_SUBSTR_ARGS w [(L "data", targ data)] /\ exists x, str_of data = Ok x.
Proof. intros H L1 L2; inversion H; subst; cbn in L1, L2; try lia. eauto. Qed.
Notation canons ps := (Forall (fun t => Canon t (elems t)) ps) (only parsing).
Lemma body_iff data p ps lg v o l : canons ps ->
  slice_body data (p :: ps) = (lg, Ok (v, o, l)) <-> v = p /\ Sub2 data (map elems ps) o l lg.
Proof.
  intros HC.
  assert (A : length ps <> 1%nat -> length ps <> 2%nat ->
    (do* _ <- memit E_VAR_SUBSTR_ARGS w [(L "data", targ data)]; mret (p, @None (num tok), @None (num tok))) = (lg, Ok (v, o, l))
    <-> v = p /\ Sub2 data (map elems ps) o l lg).
  { intros L1 L2. rewrite bind_eq. split.
    - intros (l1 & a & l2 & H1 & H2 & ->). apply data_iff in H1 as [-> [x Hx]]; [|easy|easy]. unfold mret in H2. injection H2 as <- <- <- <-.
      rewrite app_nil_r. split; [easy|]. apply (S2_args data (map elems ps) x); rewrite ?map_length; easy.
    - intros [-> H]. apply sub2_args in H as (-> & -> & -> & [x Hx]); [|now rewrite map_length|now rewrite map_length].
      exists (say E_VAR_SUBSTR_ARGS w [(L "data", targ data)]), tt, []. split; [apply data_iff; eauto|]. split; [easy|]. now rewrite app_nil_r. }
  destruct ps as [|s [|k [|? ?]]].
  - rewrite <- A by easy. unfold slice_body. rewrite mbind_assoc. cbn [sl_start sl_length]. match goal with |- ?a = _ <-> ?b = _ => replace a with b; [reflexivity|] end. apply bind_ext. intros a. now rewrite !ret_bind.
  - unfold slice_body. rewrite ret_bind. inversion HC as [|? ? Hs _]; subst. rewrite bind_eq. split.
    + intros (l1 & y & l2 & H1 & H2 & ->). apply start_iff with (s := elems s) in H1; [|easy].
      destruct H1 as [(q & Hq & -> & ->)|(Hq & -> & ->)]; cbn [fst snd sl_length] in H2; rewrite ret_bind in H2.
      * apply fin_alone in H2 as (o' & Ha & E). injection E as -> -> ->. split; [easy|]. cbn [app map]. now apply (S2_off data _ q).
      * apply fin_other in H2 as [-> E]; [|now left]. injection E as -> -> ->. rewrite app_nil_r. split; [easy|]. cbn [map]. constructor; [cbn; lia|easy].
    + intros [-> H]. cbn [map] in H. inversion H as [s' q o' l' Hq Ha|s' more Hm Hq| | | | | |ps' x K1 K2 K3 K4]; subst.
      * exists [], (Some q, None), lg. split; [apply (start_iff s (elems s)); [easy|left; eauto]|]. split; [|easy].
        cbn [fst snd sl_length]. rewrite ret_bind. apply fin_alone. eauto.
      * exists (bad_start w), (None, None), []. split; [apply (start_iff s (elems s)); [easy|right; easy]|]. split; [|now rewrite app_nil_r].
        cbn [fst snd sl_length]. rewrite ret_bind. now apply fin_other; [left|].
      * now cbn in K1.
  - unfold slice_body. rewrite ret_bind. inversion HC as [|? ? Hs HC']; subst. inversion HC' as [|? ? Hk _]; subst. rewrite bind_eq. split.
    + intros (l1 & y & l2 & H1 & H2 & ->). apply start_iff with (s := elems s) in H1; [|easy].
      destruct H1 as [(q & Hq & -> & ->)|(Hq & -> & ->)]; cbn [fst snd] in H2.
      * apply bind_eq in H2 as (l3 & z & l4 & H2 & H3 & ->). apply length_iff with (k := elems k) in H2; [|easy]. cbn [app map].
        inversion H2 as [z' y' K1 K2 K3|z' y' K1 K2 K3|t' K1 K2|x K1 K2|t' K1]; subst.
        -- apply fin_other in H3 as [-> E]; [|now right]. injection E as -> -> ->. split; [easy|]. now apply S2_both.
        -- apply fin_alone in H3 as (o' & Ha & E). injection E as -> -> ->. split; [easy|]. now apply (S2_senseless data _ _ z' y').
        -- apply fin_alone in H3 as (o' & Ha & E). injection E as -> -> ->. split; [easy|]. inversion Ha; subst; [easy|]. rewrite app_nil_r. now apply S2_zero.
        -- apply fin_other in H3 as [-> E]; [|now left]. injection E as -> -> ->. split; [easy|]. rewrite app_nil_r, K1. now apply (S2_badlen data _ x q).
        -- apply fin_other in H3 as [-> E]; [|now right]. injection E as -> -> ->. split; [easy|]. now apply S2_var.
      * cbn [sl_length] in H2. rewrite ret_bind in H2. apply fin_other in H2 as [-> E]; [|now left]. injection E as -> -> ->. rewrite app_nil_r.
        split; [easy|]. cbn [map]. constructor; [cbn; lia|easy].
    + intros [-> H]. cbn [map] in H.
      assert (G : forall q lg1 z lg2, Quantity U (elems s) (Some q) -> Len (elems k) q lg1 z -> fin p z = (lg2, Ok (p, o, l)) -> lg = lg1 ++ lg2 ->
        exists l1 a l2, sl_start U (Some s) (Some k) w = (l1, Ok a) /\ (do* z0 <- sl_length U (fst a) (snd a) w; fin p z0) = (l2, Ok (p, o, l)) /\ lg = l1 ++ l2).
      { intros q lg1 z lg2 Hq HL Hf ->. exists [], (Some q, Some k), (lg1 ++ lg2). split; [apply (start_iff s (elems s)); [easy|left; eauto]|].
        split; [|easy]. cbn [fst snd]. apply bind_eq. exists lg1, z, lg2. split; [now apply (length_iff q k (elems k))|easy]. }
      inversion H as [|s' more Hm Hq|s' x q Hq Hx|s' k' z y o' l' Hq Hy Hn Ha|s' k' t Hq Hy|s' k' z y Hq Hy Hn|s' k' q t Hq Hy|ps' x K1 K2 K3 K4]; subst.
      * exists (bad_start w), (None, None), []. split; [apply (start_iff s (elems s)); [easy|right; easy]|]. split; [|now rewrite app_nil_r].
        cbn [fst snd sl_length]. rewrite ret_bind. now apply fin_other; [left|].
      * eapply G; [exact Hq|apply (Ln_bad _ _ x); [easy|exact Hx]|apply fin_other; [now left|easy]|now rewrite app_nil_r].
      * eapply G; [exact Hq|now apply (Ln_senseless _ _ z y)|apply fin_alone; eauto|easy].
      * eapply G; [exact Hq|now apply (Ln_zero _ _ t)|apply fin_alone; exists (Some (NV t)); split; [now constructor|easy]|now rewrite app_nil_r].
      * eapply G; [exact Hq|now apply (Ln_both _ _ z y)|apply fin_other; [now right|easy]|easy].
      * eapply G; [exact Hq|now apply (Ln_var _ _ t)|apply fin_other; [now right|easy]|easy].
      * now cbn in K2.
  - rewrite <- A by (cbn; lia). unfold slice_body. rewrite mbind_assoc. cbn [sl_start sl_length]. match goal with |- ?a = _ <-> ?b = _ => replace a with b; [reflexivity|] end. apply bind_ext. intros a. now rewrite !ret_bind.
Qed.

(* ---- brackets ---- *)
Lemma infix_open c s : s <> [] -> is_infix (c :: s) (L "({[") = existsb (str_eqb (c :: s)) [L "({"; L "{["; L "({["].
Proof.
  intros H. change (L "({[") with [40; 123; 91]. change (L "({") with [40; 123]. change (L "{[") with [123; 91]. 
  destruct s as [|d [|e s]]; [easy| |]; cbn [is_infix startswith existsb str_eqb];
  repeat match goal with |- context [?a =? ?b] => destruct (N.eqb_spec a b); subst; cbn [andb orb] end; try easy; try lia; now destruct s.
Qed.
End Tables.
