(* C29: which offsets and lengths are accepted. *)
From Coq Require Import ZifyBool ZifyN ZifyNat.
From Verif Require Import Base PyStr Defines Var VarFun Spec_Var Spec_VarFun Var_proofs Balance_proofs
  Match_proofs VarFun_proofs Round_proofs.

Section S.
Variable U : uni.
Hypothesis HU : AsciiOk U.

Lemma digits_val_app a c : forall acc n, digits_val U acc a = Ok n ->
  digits_val U acc (a ++ [c]) = match u_decimal U c with Some d => Ok (n * 10 + d) | None => Exn ValueError end.
Proof.
  induction a as [|x a IH]; intros acc n H; cbn in *.
  - injection H as ->. now destruct (u_decimal U c).
  - destruct (u_decimal U x); [|easy]. now apply IH.
Qed.

Lemma dec_ascii d : d < 10 -> u_isdigit U (48 + d) = true /\ u_decimal U (48 + d) = Some d.
Proof. intros H. destruct (HU (48 + d)) as [H1 H2]; [lia|]. split; [apply H1|apply H2]; lia. Qed.

Lemma Digits_val s n : Digits s n -> s <> [] /\ forallb (u_isdigit U) s = true /\
  digits_val U 0 s = Ok n /\ Forall (fun c => c <> 45) s.
Proof.
  induction 1 as [d Hd|s n d Hs (IH0 & IH1 & IH2 & IH3) Hd]; destruct (dec_ascii d Hd) as [E1 E2].
  - cbn. rewrite E1, E2. repeat split; try easy. constructor; [lia|constructor].
  - repeat split.
    + now destruct s.
    + rewrite forallb_app, IH1. cbn. now rewrite E1.
    + rewrite (digits_val_app _ _ _ _ IH2). now rewrite E2.
    + apply Forall_app. split; [easy|]. constructor; [lia|constructor].
Qed.

Lemma val_Digits s : s <> [] -> Forall (fun c => c < 128) s -> forallb (u_isdigit U) s = true ->
  exists n, Digits s n.
Proof.
  induction s as [|c s IH] using rev_ind; [easy|]. intros _ Ha Hd.
  apply Forall_app in Ha as [Ha Hc]. inversion Hc; subst. rewrite forallb_app in Hd.
  apply andb_prop in Hd as [Hd Hdc]. cbn in Hdc. rewrite Bool.andb_true_r in Hdc.
  apply HU in Hdc; [|easy]. replace c with (48 + (c - 48)) by lia.
  destruct s as [|x s].
  - exists (c - 48). apply Di_one. lia.
  - destruct (IH ltac:(easy) Ha Hd) as [n Hn]. exists (n * 10 + (c - 48)). apply Di_snoc; [easy|lia].
Qed.

Lemma Literal_int a z : Literal a z -> int_like U a = true /\ int_of U a = Ok z.
Proof.
  intros [s n H|s n H]; destruct (Digits_val s n H) as (H0 & H1 & H2 & H3).
  - destruct s as [|c s]; [easy|]. inversion H3; subst. split.
    + unfold int_like, sisdigit. rewrite H1. reflexivity.
    + rewrite int_of_pos by easy. now rewrite H2.
  - split.
    + unfold int_like. unfold sisdigit at 2. rewrite H1. destruct s; [easy|]. cbn.
      now rewrite Bool.orb_true_r.
    + rewrite int_of_neg, H2. reflexivity.
Qed.

Lemma int_Literal a : Forall (fun c => c < 128) a -> int_like U a = true -> exists z, Literal a z.
Proof.
  intros Ha H. destruct (int_like_cases U HU a H) as [(c & r & -> & Hc & Hd)|(c & r & -> & Hd)].
  - destruct (val_Digits (c :: r)) as [n Hn]; try easy. exists (Z.of_N n). now constructor.
  - inversion Ha; subst. destruct (val_Digits (c :: r)) as [n Hn]; try easy. exists (- Z.of_N n)%Z. now constructor.
Qed.

Lemma Literal_fun a z z' : Literal a z -> Literal a z' -> z = z'.
Proof.
  intros H H'. apply Literal_int in H as [_ H]. apply Literal_int in H' as [_ H']. congruence.
Qed.

(* ---- reports ---- *)
Definition classes (l : list lev) : list mcls := map m_cls (log_msgs l).

Lemma ssplit_no c s : ~ In c s -> ssplit c None s = [s].
Proof.
  induction s as [|x s IH]; intros H; [easy|]. cbn. replace (x =? c) with false.
  - cbn. rewrite IH; [easy|]. intros Hi. apply H. now right.
  - symmetry. apply N.eqb_neq. intros ->. apply H. now left.
Qed.
Lemma ssplit_cons c a s : ~ In c a -> ssplit c None (a ++ c :: s) = a :: ssplit c None s.
Proof.
  induction a as [|x a IH]; intros H.
  - cbn. now rewrite N.eqb_refl.
  - cbn [app ssplit]. replace (x =? c) with false.
    + cbn [andb]. rewrite IH; [easy|]. intros Hi. apply H. now right.
    + symmetry. apply N.eqb_neq. intros ->. apply H. now left.
Qed.

Lemma split_two n a w : ~ In 58 n -> ~ In 58 a ->
  split_slice U (TS (n ++ 58 :: a)) w =
  do* y <- sl_start U (Some (TS a)) None w;
  do* z <- sl_length U (fst y) (snd y) w;
  match fst z, snd z with
  | Some (NI 0%Z), None =>
    do* _ <- memit E_VAR_SUBSTR_START w [(L "start", ANone)]; mret (TS n, None, None)
  | st, ln => mret (TS n, st, ln)
  end.
Proof.
  intros Hn Ha. unfold split_slice. cbn [vsplit]. rewrite ssplit_cons, (ssplit_no _ a) by easy.
  cbn [map mlift]. unfold mbind at 1. cbn [app]. unfold mbind at 1. cbn. 
  match goal with |- (fst ?x, snd ?x) = _ => now destruct x end.
Qed.

Lemma split_three n a b w : ~ In 58 n -> ~ In 58 a -> ~ In 58 b ->
  split_slice U (TS (n ++ 58 :: a ++ 58 :: b)) w =
  do* y <- sl_start U (Some (TS a)) (Some (TS b)) w;
  do* z <- sl_length U (fst y) (snd y) w;
  match fst z, snd z with
  | Some (NI 0%Z), None =>
    do* _ <- memit E_VAR_SUBSTR_START w [(L "start", ANone)]; mret (TS n, None, None)
  | st, ln => mret (TS n, st, ln)
  end.
Proof.
  intros Hn Ha Hb. unfold split_slice. cbn [vsplit].
  rewrite ssplit_cons, (ssplit_cons _ a), (ssplit_no _ b) by easy.
  cbn [map mlift]. unfold mbind at 1. cbn [app]. unfold mbind at 1. cbn.
  match goal with |- (fst ?x, snd ?x) = _ => now destruct x end.
Qed.

Lemma emit_START w l : memit E_VAR_SUBSTR_START w [(L "start", l)] =
  ([LMsg (Msg E_VAR_SUBSTR_START w None [(L "start", l)])], format_ok (mfields E_VAR_SUBSTR_START) [(L "start", l)]).
Proof. reflexivity. Qed.

Definition num_of (x : option Z) : option (num tok) := option_map NI x.
Definition good_off (a : str) (b : option str) : str := match b with Some b => 58 :: b | None => [] end.

Lemma slice_report n a b w : ~ In 58 n -> ~ In 58 a -> (forall x, b = Some x -> ~ In 58 x) ->
  Forall (fun c => c < 128) a -> (forall x, b = Some x -> Forall (fun c => c < 128) x) ->
  exists cs zo zl, SliceReport a b cs zo zl /\
    classes (fst (split_slice U (TS (n ++ 58 :: a ++ good_off a b)) w)) = cs /\
    snd (split_slice U (TS (n ++ 58 :: a ++ good_off a b)) w) = Ok (TS n, num_of zo, num_of zl).
Proof.
  intros Hn Ha Hb Aa Ab.
  assert (NL : forall x, Forall (fun c => c < 128) x -> int_like U x = false -> forall z, ~ Literal x z).
  { intros x _ Ex z Hz. apply Literal_int in Hz as [Hz _]. congruence. }
  destruct b as [b|]; cbn [good_off].
  - rewrite split_three by auto. specialize (Ab b eq_refl).
    unfold sl_start. destruct (int_like U a) eqn:Ea.
    2:{ exists [E_VAR_SUBSTR_START], None, None. split; [apply SR_bad_off; auto|split; reflexivity]. }
    destruct (int_Literal a Aa Ea) as [z Hz]. destruct (Literal_int a z Hz) as [_ Ez].
    rewrite Ez. cbn [mlift mbind mret app fst snd]. unfold sl_length.
    destruct (int_like U b) eqn:Eb.
    2:{ exists [E_VAR_SUBSTR_LENGTH], None, None. split; [eapply SR_bad_len; eauto|split; reflexivity]. }
    destruct (int_Literal b Ab Eb) as [y Hy]. destruct (Literal_int b y Hy) as [_ Ey].
    rewrite Ey. cbn [mlift mbind mret app fst snd].
    destruct ((y =? 0)%Z || ((z <? 0)%Z && (- y <=? z)%Z))%bool eqn:Bad.
    + assert (NS : ~ LengthMakesSense z y) by (unfold LengthMakesSense; lia).
      assert (EB : (if (y =? 0)%Z then mret true else mret ((z <? 0)%Z && (- y <=? z)%Z)) = mret true).
      { destruct (y =? 0)%Z; [easy|]. cbn in Bad. now rewrite Bad. }
      rewrite EB. cbn [mbind mret app fst snd].
      destruct (Z.eq_dec z 0) as [->|Hz0].
      * exists [E_VAR_SUBSTR_LENGTH; E_VAR_SUBSTR_START], None, None.
        split; [eapply SR_senseless0; eauto|split; reflexivity].
      * exists [E_VAR_SUBSTR_LENGTH], (Some z), None. split; [eapply SR_senseless; eauto|].
        cbn. destruct z; [easy| |]; split; reflexivity.
    + assert (NS : LengthMakesSense z y) by (unfold LengthMakesSense; lia).
      assert (EB : (if (y =? 0)%Z then mret true else mret ((z <? 0)%Z && (- y <=? z)%Z)) = mret false).
      { destruct (y =? 0)%Z; [easy|]. cbn in Bad. now rewrite Bad. }
      rewrite EB. cbn [mbind mret app fst snd].
      exists [], (Some z), (Some y). split; [now apply SR_ok|].
      destruct z; split; reflexivity.
  - rewrite app_nil_r, split_two by auto.
    unfold sl_start. destruct (int_like U a) eqn:Ea.
    2:{ exists [E_VAR_SUBSTR_START], None, None. split; [apply SR_bad_off; auto|split; reflexivity]. }
    destruct (int_Literal a Aa Ea) as [z Hz]. destruct (Literal_int a z Hz) as [_ Ez].
    rewrite Ez. cbn [mlift mbind mret app fst snd sl_length].
    destruct (Z.eq_dec z 0) as [->|Hz0].
    + exists [E_VAR_SUBSTR_START], None, None. split; [now apply SR_zero|split; reflexivity].
    + exists [], (Some z), None. split; [now apply SR_off|]. destruct z; [easy| |]; split; reflexivity.
Qed.

Lemma report_sense a b cs z y : SliceReport a b cs (Some z) (Some y) -> LengthMakesSense z y.
Proof. now inversion 1. Qed.

Lemma sense_endpos z y : LengthMakesSense z y -> exists e, slice_endpos z y = Ok e.
Proof.
  unfold LengthMakesSense, slice_endpos. intros [H1 H2].
  destruct (y =? 0)%Z eqn:E1; [lia|]. destruct (y <? 0)%Z eqn:E2; [eauto|].
  destruct (z <? 0)%Z eqn:E3; [|eauto]. destruct (z + y <? 0)%Z eqn:E4; [eauto|lia].
Qed.

Lemma report_fun a b cs zo zl cs' zo' zl' : SliceReport a b cs zo zl -> SliceReport a b cs' zo' zl' ->
  cs = cs' /\ zo = zo' /\ zl = zl'.
Proof.
  intros H H'; inversion H; subst; inversion H'; subst; try easy;
    repeat match goal with
    | H1 : Literal ?a ?z, H2 : Literal ?a ?z' |- _ =>
      assert_fails (constr_eq z z'); pose proof (Literal_fun a z z' H1 H2); subst; try easy
    | H1 : forall z, ~ Literal ?a z, H2 : Literal ?a _ |- _ => now apply H1 in H2
    end; try easy; tauto.
Qed.

(* ---- the whole substitution ---- *)
Variable FT : ftable.
Lemma find_end_plain i r : (forall c, In c i -> c <> 36 /\ c <> 123 /\ c <> 125) ->
  find_end 123 125 1 (i ++ 125 :: r) = Some (i, r, false).
Proof.
  induction i as [|c i IH]; intros H; [reflexivity|]. destruct (H c (or_introl eq_refl)) as (H1 & H2 & H3).
  cbn [app find_end]. replace (c =? 36) with false by lia. replace (c =? 123) with false by lia.
  replace (c =? 125) with false by lia. rewrite IH; [easy|]. intros x Hx. apply H. now right.
Qed.

Lemma parse_one i w : (forall c, In c i -> c <> 36 /\ c <> 123 /\ c <> 125) ->
  parse_variables U FT (L "${" ++ i ++ L "}") w =
  do* v <- process_variable U FT (TS i) w; mret (vjoin [TS []; v; TS []]).
Proof.
  intros H. unfold parse_variables. change (L "${") with [36; 123]. change (L "}") with [125].
  cbn [app length parse_loop scan]. replace (36 =? 36) with true by reflexivity.
  replace (is_open 123) with true by reflexivity. cbn [close_of].
  replace (close_of 123) with 125 by reflexivity. rewrite find_end_plain by easy.
  replace (123 =? 123) with true by reflexivity. unfold mbind at 1. cbn [mret app].
  match goal with |- (fst ?x, snd ?x) = _ => transitivity x; [now destruct x|] end.
  reflexivity.
Qed.

Lemma vjoin_named v : Named v -> vjoin [TS []; v; TS []] = v.
Proof. now intros []. Qed.

Lemma legal_iff n : forallb legal_var_token n = true <-> LegalName n.
Proof.
  unfold LegalName. rewrite forallb_forall, Forall_forall. unfold legal_var_token, ascii_digit.
  split; intros H c Hc; specialize (H c Hc); lia.
Qed.

Lemma classes_app a b : classes (a ++ b) = classes a ++ classes b.
Proof. unfold classes, log_msgs. now rewrite flat_map_app, map_app. Qed.

Lemma variable_report n a b w cs zo zl :
  (forall c, In c (n ++ a ++ match b with Some x => x | None => [] end) ->
     ~ In c (L "${}(:") /\ c < 128) ->
  SliceReport a b cs zo zl ->
  exists l, parse_variables U FT (L "${" ++ (n ++ 58 :: a ++ good_off a b) ++ L "}") w =
    (l, Ok (match zo with None => TVar (TS n) | Some z => TSlice (TS n) z zl end)) /\
    (LegalName n -> classes l = cs) /\ (~ LegalName n -> classes l = cs ++ [E_VAR_BAD_TOKENS]).
Proof.
  intros Hc Hr.
  assert (Hn : forall c, In c n -> ~ In c (L "${}(:") /\ c < 128).
  { intros c H. apply Hc. apply in_app_iff. now left. }
  assert (Ha : forall c, In c a -> ~ In c (L "${}(:") /\ c < 128).
  { intros c H. apply Hc. apply in_app_iff. right. apply in_app_iff. now left. }
  assert (Hb : forall x c, b = Some x -> In c x -> ~ In c (L "${}(:") /\ c < 128).
  { intros x c -> H. apply Hc. apply in_app_iff. right. apply in_app_iff. now right. }
  set (i := n ++ 58 :: a ++ good_off a b) in *.
  assert (Hi : forall c, In c i -> c = 58 \/ ~ In c (L "${}(:")).
  { intros c H. unfold i in H. apply in_app_iff in H as [H|[H|H]]; [right; now apply Hn|now left|].
    apply in_app_iff in H as [H|H]; [right; now apply Ha|]. destruct b as [b|]; [|easy].
    destruct H as [H|H]; [now left|]. right. now apply (Hb b). }
  rewrite parse_one.
  2:{ intros c H. apply Hi in H as [->|H]; [easy|]. cbn in H. repeat split; intros ->; apply H; auto. }
  unfold process_variable.
  assert (E40 : tin 40 (TS i) = false).
  { destruct (tin 40 (TS i)) eqn:E; [|easy]. apply tin_In in E. rewrite elems_str in E.
    apply in_map_iff in E as (c & [= ->] & E). apply Hi in E as [E|E]; [easy|]. exfalso. apply E. cbn. auto 10. }
  assert (E58 : tin 58 (TS i) = true).
  { apply tin_In. rewrite elems_str. apply in_map. unfold i. apply in_app_iff. right. now left. }
  rewrite E40, E58. unfold process_slice.
  assert (H58 : ~ In 58 (L "${}(:") -> False) by (intros H; apply H; cbn; auto 10).
  destruct (slice_report n a b w) as (cs' & zo' & zl' & Hr' & Hcs & Hs).
  { intros H. now apply Hn in H as [H _]. }
  { intros H. now apply Ha in H as [H _]. }
  { intros x Hx H. now apply (Hb x) in H as [H _]. }
  { apply Forall_forall. intros c H. now apply Ha. }
  { intros x Hx. apply Forall_forall. intros c H. now apply (Hb x). }
  destruct (report_fun _ _ _ _ _ _ _ _ Hr' Hr) as (-> & -> & ->).
  fold i in Hcs, Hs. destruct (split_slice U (TS i) w) as [l0 r0]. cbn [fst snd] in Hcs, Hs. subst r0.
  cbn [mbind].
  assert (Cnt : exists l1, count_var n w = (l1, Ok tt) /\ (LegalName n -> classes l1 = []) /\
                 (~ LegalName n -> classes l1 = [E_VAR_BAD_TOKENS])).
  { unfold count_var. pose proof (legal_iff n) as HL. destruct (forallb legal_var_token n).
    - eexists. split; [reflexivity|]. split; [reflexivity|]. intros H. exfalso. now apply H, HL.
    - eexists. split; [reflexivity|]. split; [intros H; now apply HL in H|]. reflexivity. }
  destruct Cnt as (l1 & -> & Hl1 & Hl2). cbn [mbind fst snd].
  assert (Fin : forall v, Named v -> v = match zo with None => TVar (TS n) | Some z => TSlice (TS n) z zl end ->
    exists l, (l0 ++ (l1 ++ []) ++ [], Ok (vjoin [TS []; v; TS []])) = (l, Ok (match zo with None => TVar (TS n) | Some z => TSlice (TS n) z zl end)) /\
    (LegalName n -> classes l = cs) /\ (~ LegalName n -> classes l = cs ++ [E_VAR_BAD_TOKENS])).
  { intros v Hv <-. rewrite vjoin_named by easy. eexists. split; [reflexivity|].
    rewrite !app_nil_r, classes_app, Hcs. split; intros H.
    - rewrite Hl1 by easy. now rewrite app_nil_r.
    - now rewrite Hl2 by easy. }
  destruct zo as [z|].
  - destruct zl as [y|]; cbn [num_of option_map].
    + apply report_sense in Hr. destruct (sense_endpos z y Hr) as [e He].
      unfold mk_slice. rewrite He. cbn [bind mlift fst snd mbind mret app].
      destruct (Fin (TSlice (TS n) z (Some y)) ltac:(constructor) eq_refl) as (l & El & Hl).
      exists l. split; [|exact Hl]. rewrite <- El. repeat rewrite app_nil_r. reflexivity.
    + unfold mk_slice. cbn [bind mlift fst snd mbind mret app].
      destruct (Fin (TSlice (TS n) z None) ltac:(constructor) eq_refl) as (l & El & Hl).
      exists l. split; [|exact Hl]. rewrite <- El. repeat rewrite app_nil_r. reflexivity.
  - cbn [num_of option_map bind mlift fst snd mbind mret app].
    destruct (Fin (TVar (TS n)) ltac:(constructor) eq_refl) as (l & El & Hl).
    exists l. split; [|exact Hl]. rewrite <- El. repeat rewrite app_nil_r. reflexivity.
Qed.
End S.

(* formatting never trips over an accepted slice *)
Lemma slice_format_total env n z zl v a b cs : SliceReport a b cs (Some z) zl -> env n = Some v ->
  exists r, tformat env (TSlice (TS n) z zl) = Ok r.
Proof.
  intros Hr Hv. cbn. rewrite Hv. cbn. destruct zl as [y|]; [|eauto].
  apply report_sense in Hr. destruct (sense_endpos z y Hr) as [e ->]. cbn. eauto.
Qed.

Lemma emit_exn d w c k e : snd (memit c w [(k, targ d)]) = Exn e ->
  e = TypeError \/ e = KeyError \/ e = AttributeError.
Proof.
  unfold memit, mw, emit. destruct (mdupe c); cbn [snd]; [intros [= <-]; auto|].
  induction (mfields c) as [|[f b] r IH]; cbn [format_ok]; [easy|].
  cbn [lookup]. destruct (str_eqb f k); [|intros [= <-]; auto].
  assert (HA : forall x, arg_ok b (targ d) = Exn x -> x = AttributeError).
  { intros x Hx. pose proof (str_of_exn d) as HS. destruct d; cbn [targ arg_ok] in Hx; try easy;
    (destruct b; [easy|]); match type of Hx with (let! _ := ?g in _) = _ => destruct g eqn:Eg end;
    cbn in Hx; try easy; injection Hx as <-; now apply HS. }
  destruct (arg_ok b (targ d)) eqn:Ea; cbn [bind]; [exact IH| |easy].
  intros [= <-]. right. right. now apply HA.
Qed.

(* no assertion trips over a slice, whatever the data *)
Lemma process_slice_no_assert U d w : snd (process_slice U d w) <> Exn AssertionError.
Proof.
  intros H. unfold process_slice in H.
  destruct (split_slice U d w) as [l [[[v st] ln]|e|]] eqn:E; cbn [mbind snd] in H; [|injection H as ->|easy].
  - destruct (match v with TS s => count_var s w | _ => mret tt end) as [l1 [x|e|]] eqn:E1; cbn [mbind snd] in H.
    + assert (HL : forall z y, st = Some (NI z) -> ln = Some (NI y) -> LengthMakesSense z y).
      { intros z y -> ->. unfold split_slice in E. apply mbind_ok in E as (l2 & parts & l3 & _ & E & _).
        apply mbind_ok in E as (l4 & x2 & l5 & _ & E & _). destruct x2 as [[v2 s2] n2].
        apply mbind_ok in E as (l6 & y2 & l7 & _ & E & _). apply mbind_ok in E as (l8 & z2 & l9 & E8 & E & _).
        assert (Hz2 : z2 = (Some (NI z), Some (NI y))).
        { clear - E. destruct z2 as [a b]. cbn [fst snd] in E.
          destruct a as [[[]|]|], b as [[]|]; try (unfold mret in E; congruence).
          apply mbind_ok in E as (? & ? & ? & _ & E & _). unfold mret in E. congruence. }
        subst z2. unfold sl_length in E8. destruct (snd y2) as [[s| | | | | | |]|]; unfold mret in E8; try congruence.
        destruct (int_like U s).
        - apply mbind_ok in E8 as (? & q & ? & _ & E8 & _). apply mbind_ok in E8 as (? & bad & ? & Eb & E8 & _).
          destruct bad.
          + apply mbind_ok in E8 as (? & ? & ? & _ & E8 & _). unfold mret in E8. congruence.
          + unfold mret in E8. assert (fst y2 = Some (NI z) /\ q = y) as [Hf ->] by (split; congruence).
            rewrite Hf in Eb.
            unfold mret in Eb. unfold LengthMakesSense. destruct (y =? 0)%Z eqn:Ey; [congruence|].
            assert (((z <? 0)%Z && (- y <=? z)%Z)%bool = false) by congruence. lia.
        - apply mbind_ok in E8 as (? & ? & ? & _ & E8 & _). unfold mret in E8. congruence. }
      destruct st as [[z|t]|]; try easy.
      destruct ln as [[y|t]|]; try easy.
      destruct (sense_endpos z y (HL z y eq_refl eq_refl)) as [e He].
      cbn in H. rewrite He in H. easy.
    + destruct v; try easy.
      assert (Hc : snd (count_var s w) = Ok tt) by (unfold count_var; destruct (forallb _ _); reflexivity).
      rewrite E1 in Hc. easy.
    + easy.
  - assert (E' : snd (split_slice U d w) = Exn AssertionError) by now rewrite E.
    clear E. revert E'. unfold split_slice.
    assert (NB : forall A B (m : M A) (f : A -> M B), snd m <> Exn AssertionError ->
       (forall a, snd (f a) <> Exn AssertionError) -> snd (mbind m f) <> Exn AssertionError).
    { intros A B [l0 [a|e|]] f H1 H2; cbn in *; auto; congruence. }
    assert (RB : forall A B (m : res A) (f : A -> res B), m <> Exn AssertionError ->
       (forall a, f a <> Exn AssertionError) -> (let! x := m in f x) <> Exn AssertionError).
    { intros A B [a|e|] f H1 H2; cbn in *; auto; congruence. }
    assert (IB : forall s, int_of U s <> Exn AssertionError).
    { assert (G : forall s acc, digits_val U acc s <> Exn AssertionError).
      { clear. induction s; intros; cbn; [easy|]. destruct (u_decimal U a); easy. }
      intros s. destruct s as [|c r]; [easy|]. destruct (N.eq_dec c 45) as [->|Hne].
      - rewrite int_of_neg. apply RB; [apply G|easy].
      - rewrite int_of_pos by easy. apply RB; [apply G|easy]. }
    assert (SA : forall t e, str_of t = Exn e -> e = AttributeError) by apply str_of_exn.
    apply NB; [destruct d; cbn; try easy; now destruct (truthy _)|]. intros parts. apply NB.
    { assert (TA : snd (memit E_VAR_SUBSTR_ARGS w [(L "data", targ d)]) <> Exn AssertionError).
      { intros Hx. apply emit_exn in Hx. intuition discriminate. }
      destruct parts as [|p [|q [|r [|? ?]]]]; try easy; apply NB; easy. }
    intros [[v s] n2]. apply NB.
    { unfold sl_start. destruct s as [[s| | | | | | |]|]; try easy. destruct (int_like U s).
      - apply NB; [apply IB|easy].
      - easy. }
    intros [st2 len2]. apply NB.
    { cbn [fst snd]. unfold sl_length. destruct len2 as [[s0| | | | | | |]|]; try easy.
      destruct (int_like U s0); [|easy]. apply NB; [apply IB|]. intros q. apply NB.
      - destruct (q =? 0)%Z; [easy|]. destruct st2 as [[]|]; easy.
      - intros []; easy. }
    intros [st3 ln3]. cbn [fst snd]. destruct st3 as [[[]|]|], ln3; easy.
Qed.
