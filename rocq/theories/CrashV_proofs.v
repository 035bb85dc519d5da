(* C23: which substitutions are read. *)
From Coq Require Import ZifyBool ZifyN ZifyNat.
From Verif Require Import Base PyStr Defines Var VarFun AppM Spec_Var Spec_VarFun Spec_App Spec_Args Spec_Crash
  Var_proofs Balance_proofs Match_proofs VarFun_proofs Round_proofs Slice_proofs App_proofs Tok_proofs AppT_proofs Loader_proofs Args_proofs Crash_proofs.

Section Tables.
Variable U : uni.
Variable FT : ftable.
Hypothesis HU : AsciiOk U.
Hypothesis HUF : lookup (L "unknown") FT <> None.

Lemma fine_pair {A} l (m : M A) : fine (l, snd m) <-> fine m.
Proof. rewrite !fine_snd. easy. Qed.

Definition AsciiL (l : list elem) : Prop := forall c, In (Ch c) l -> c < 128.
Lemma ascii_sub l m : (forall c, In (Ch c) m -> In (Ch c) l) -> AsciiL l -> AsciiL m.
Proof. intros H Hl c Hc. apply Hl, H, Hc. Qed.
Lemma ascii_text a : AsciiL (map Ch a) -> Forall (fun c => c < 128) a.
Proof. intros H. apply Forall_forall. intros c Hc. apply H. now apply in_map. Qed.

Lemma text_novar a s v : s = map Ch a -> ~ In (Va v) s.
Proof. intros ->. apply chars_no_va. Qed.
Lemma Off_text a o : Off (map Ch a) o -> (exists z, o = Some (NI z) /\ Literal a z) \/ (o = None /\ forall z, ~ Literal a z).
Proof.
  intros H. inversion H as [a' z H1 E|a' H1 E|s v t H1 H2 E]; subst.
  - apply map_Ch_inj in E. subst. left. eauto.
  - apply map_Ch_inj in E. subst. right. eauto.
  - now apply chars_no_va in H1.
Qed.
Lemma Off_vars s v o : In (Va v) s -> Off s o -> exists t, o = Some (NV t) /\ Canon t s.
Proof. intros Hv H. inversion H; subst; try now apply chars_no_va in Hv. eauto. Qed.

Lemma start_off t s len w : Canon t s -> AsciiL s ->
  (exists o, Off s (Some o) /\ sl_start U (Some t) len w = ([], Ok (Some o, len))) \/
  (Off s None /\ exists l, sl_start U (Some t) len w = (l, Ok (None, None))).
Proof.
  intros HC HA. destruct (all_chars s) as [[a ->]|[v Hv]].
  - rewrite (canon_text _ _ a HC eq_refl). cbn [sl_start]. destruct (int_like U a) eqn:Ea.
    + destruct (int_Literal U HU a (ascii_text _ HA) Ea) as [z Hz]. destruct (Literal_int U HU a z Hz) as [_ ->].
      left. exists (NI z). split; [now constructor|easy].
    + right. split; [apply Of_bad; intros z Hz; apply (Literal_int U HU) in Hz as [Hz _]; congruence|]. now eexists.
  - left. exists (NV t). split; [now apply Of_var with v|]. apply (canon_var_str _ _ _ HC) in Hv. now destruct t.
Qed.

Definition bad_len (start : option (num tok)) (l : Z) : M bool :=
  if (l =? 0)%Z then mret true
  else match start with
       | Some (NI st) => mret ((st <? 0)%Z && (- l <=? st)%Z)
       | _ => mexn TypeError
       end.
Lemma length_off o t s w : Canon t s -> AsciiL s ->
  (Off s None /\ exists l, sl_length U (Some o) (Some t) w = (l, Ok (None, None))) \/
  (exists y, Off s (Some (NI y)) /\
     ((exists z, o = NI z /\ LengthMakesSense z y /\ sl_length U (Some o) (Some t) w = ([], Ok (Some o, Some (NI y)))) \/
      (exists z, o = NI z /\ ~ LengthMakesSense z y /\ exists l, sl_length U (Some o) (Some t) w = (l, Ok (Some o, None))) \/
      (exists v, o = NV v /\ y = 0%Z /\ exists l, sl_length U (Some o) (Some t) w = (l, Ok (Some o, None))) \/
      (exists v, o = NV v /\ y <> 0%Z /\ ~ fine (sl_length U (Some o) (Some t) w)))) \/
  (Off s (Some (NV t)) /\ sl_length U (Some o) (Some t) w = ([], Ok (Some o, Some (NV t)))).
Proof.
  intros HC HA. destruct (all_chars s) as [[a ->]|[v Hv]].
  - rewrite (canon_text _ _ a HC eq_refl). cbn [sl_length]. destruct (int_like U a) eqn:Ea.
    + destruct (int_Literal U HU a (ascii_text _ HA) Ea) as [y Hy]. destruct (Literal_int U HU a y Hy) as [_ ->].
      right. left. exists y. split; [now constructor|]. unfold mlift. cbn [mbind].
      destruct (y =? 0)%Z eqn:Ey.
      * apply Z.eqb_eq in Ey. destruct o as [z|v].
        -- right. left. exists z. split; [easy|]. split; [unfold LengthMakesSense; lia|]. now eexists.
        -- right. right. left. exists v. split; [easy|]. split; [easy|]. now eexists.
      * apply Z.eqb_neq in Ey. destruct o as [z|v].
        -- cbn [mret mbind]. destruct ((z <? 0)%Z && (- y <=? z)%Z) eqn:Eb.
           ++ right. left. exists z. split; [easy|]. split; [unfold LengthMakesSense; lia|]. now eexists.
           ++ left. exists z. split; [easy|]. split; [unfold LengthMakesSense; lia|]. easy.
        -- right. right. right. exists v. split; [easy|]. split; [easy|]. now intros (? & ? & ?).
    + left. split; [apply Of_bad; intros z Hz; apply (Literal_int U HU) in Hz as [Hz _]; congruence|]. now eexists.
  - right. right. split; [now apply Of_var with v|]. apply (canon_var_str _ _ _ HC) in Hv. now destruct t.
Qed.

Lemma split_parts data il : Canon data il -> (forall v, il <> [Va v]) ->
  exists p ps, vsplit 58 None data = Ok (p :: ps) /\ Split 58 None il (map elems (p :: ps)) /\ Forall (fun t => Canon t (elems t)) (p :: ps).
Proof.
  intros HC Hv. pose proof (Canon_shallow _ _ HC) as Hs. pose proof (canon_not_named _ _ HC Hv) as Hn.
  destruct (vsplit_Split 58 None data Hs Hn) as (ps & E & HS). rewrite (Canon_elems _ _ HC) in HS.
  pose proof (vsplit_canon _ _ _ _ _ HC Hn E) as HF. destruct ps as [|p ps]; [inversion HS|]. now exists p, ps.
Qed.
Lemma split_in c max l ls : Split c max l ls -> forall p e, In p ls -> In e p -> In e l.
Proof.
  induction 1 as [max l H|l|max a l ls H1 H2 H IH]; intros p e Hp He.
  - now destruct Hp as [<-|[]].
  - now destruct Hp as [<-|[]].
  - apply in_app_iff. destruct Hp as [<-|Hp]; [now left|]. right. right. now apply (IH p).
Qed.

Lemma whole_end (o : option (num tok)) : o <> Some (NI 0%Z) -> Whole o o.
Proof. destruct o as [[z|t]|]; intros H; constructor. congruence. Qed.

Lemma slice_exact data il w : Canon data il -> TameData il -> AsciiL il -> (forall v, il <> [Va v]) ->
  (exists l v n o y, split_slice U data w = (l, Ok (v, o, y)) /\ Canon v n /\ SliceOf il n o y /\ ~ SliceFails il) \/
  (~ fine (split_slice U data w) /\ SliceFails il).
Proof.
  intros HC HT HA Hone. destruct (split_parts _ _ HC Hone) as (p & ps & Ev & HS & HF).
  assert (HAp : forall t, In t (p :: ps) -> AsciiL (elems t)).
  { intros t Ht. eapply ascii_sub; [|exact HA]. intros c Hc. apply (split_in _ _ _ _ HS (elems t)); [now apply in_map|easy]. }
  unfold split_slice. rewrite Ev. unfold mlift at 1 2. cbn [mbind fst snd].
  inversion HF as [|? ? Cp HF']; subst. cbn [map] in HS.
  destruct ps as [|s [|l0 [|x ps]]].
  - left. assert (fine (memit E_VAR_SUBSTR_ARGS w [(L "data", targ data)])) as (l & [] & ->).
    { apply fine_emit; [reflexivity|reflexivity|repeat constructor]. apply tame_garg. now rewrite (Canon_elems _ _ HC). }
    eexists _, p, (elems p), None, None. split; [reflexivity|]. split; [easy|]. split; [eapply So_args; [exact HS|easy|easy]|].
    intros (n & s & l' & t & y & H & _). pose proof (Split_fun _ _ _ _ HS _ H) as E. discriminate E.
  - cbn [mret mbind fst snd]. inversion HF' as [|? ? Cs _]; subst.
    assert (NF : ~ SliceFails il) by (intros (n & s' & l' & t & y & H & _); pose proof (Split_fun _ _ _ _ HS _ H) as E; discriminate E).
    destruct (start_off s (elems s) None w Cs (HAp s ltac:(now right; left))) as [(o & Ho & ->)|(Ho & l & ->)]; cbn [mbind fst snd sl_length mret].
    + destruct (match o with NI 0%Z => true | _ => false end) eqn:E0.
      * destruct o as [[| |]|]; try discriminate. left. eexists _, p, (elems p), None, None. split; [reflexivity|]. split; [easy|].
        split; [eapply So_off; [exact HS|exact Ho|constructor]|easy].
      * left. exists [], p, (elems p), (Some o), None. split; [destruct o as [[| |]|]; try discriminate; reflexivity|]. split; [easy|].
        split; [eapply So_off; [exact HS|exact Ho|]; apply whole_end; intros [= ->]; discriminate|easy].
    + left. eexists _, p, (elems p), None, None. split; [reflexivity|]. split; [easy|].
      split; [eapply So_off; [exact HS|exact Ho|constructor]|easy].
  - cbn [mret mbind fst snd]. inversion HF' as [|? ? Cs HF'']; subst. inversion HF'' as [|? ? Cl _]; subst.
    assert (NF : forall o, Off (elems s) o -> forall y, Off (elems l0) y ->
       ((forall t, o <> Some (NV t)) \/ (forall z, y = Some (NI z) -> z = 0%Z)) -> ~ SliceFails il).
    { intros o Ho y Hy Hor (n & s' & l' & t & y' & H & H1 & H2 & H3). pose proof (Split_fun _ _ _ _ HS _ H) as E. injection E as <- <- <-.
      destruct (all_chars (elems s)) as [[a Ea]|[v Hv]].
      - rewrite Ea in H1. apply Off_text in H1 as [(? & [=] & _)|([=] & _)].
      - destruct (Off_vars _ _ _ Hv Ho) as (t' & -> & _). destruct Hor as [Hor|Hor]; [now apply (Hor t')|].
        destruct (all_chars (elems l0)) as [[a Ea]|[v' Hv']].
        + rewrite Ea in H2, Hy. apply Off_text in H2 as [(z & [= <-] & Hz)|([=] & _)].
          apply Off_text in Hy as [(z & -> & Hz')|(_ & Hz')]; [|now apply (Hz' _ Hz)]. apply H3. apply (Literal_fun U HU) with (1:=Hz') in Hz. subst z. now apply Hor.
        + destruct (Off_vars _ _ _ Hv' H2) as (? & [=] & _). }
    destruct (start_off s (elems s) (Some l0) w Cs (HAp s ltac:(now right; left))) as [(o & Ho & ->)|(Ho & l & ->)]; cbn [mbind fst snd].
    2:{ cbn [sl_length mret mbind fst snd]. left. eexists _, p, (elems p), None, None. split; [reflexivity|]. split; [easy|].
        split; [eapply So_badoff; [exact HS|exact Ho]|]. intros (n & s' & l' & t & y' & H & H1 & _). pose proof (Split_fun _ _ _ _ HS _ H) as E. injection E as <- <- <-.
        destruct (all_chars (elems s)) as [[a Ea]|[v Hv]]; [|destruct (Off_vars _ _ _ Hv Ho) as (? & [=] & _)].
        rewrite Ea in H1. apply Off_text in H1 as [(? & [=] & _)|([=] & _)]. }
    destruct (length_off o l0 (elems l0) w Cl (HAp l0 ltac:(now right; right; left))) as
      [(Hy & l & ->)|[(y & Hy & [(z & -> & Hs & ->)|[(z & -> & Hs & l & ->)|[(v & -> & Hs & l & ->)|(v & -> & Hs & Hf)]]])|(Hy & ->)]].
    + left. eexists _, p, (elems p), None, None. split; [reflexivity|]. split; [easy|]. split; [eapply So_badlen; [exact HS|exact Ho|exact Hy]|].
      eapply NF; [exact Ho|exact Hy|]. right. now intros z [=].
    + left. cbn [mbind fst snd]. eexists _, p, (elems p), (Some (NI z)), (Some (NI y)). split; [destruct z; reflexivity|]. split; [easy|]. split; [eapply So_both; [exact HS|exact Ho|exact Hy|exact Hs]|].
      eapply NF; [exact Ho|exact Hy|]. left. now intros t [=].
    + left. cbn [mbind fst snd]. destruct (Z.eq_dec z 0) as [->|Hz].
      * eexists _, p, (elems p), None, None. split; [reflexivity|]. split; [easy|]. split; [eapply So_senseless; [exact HS|exact Ho|exact Hy|exact Hs|constructor]|].
        eapply NF; [exact Ho|exact Hy|]. left. now intros t [=].
      * eexists _, p, (elems p), (Some (NI z)), None. split; [destruct z; [easy| |]; reflexivity|]. split; [easy|].
        split; [eapply So_senseless; [exact HS|exact Ho|exact Hy|exact Hs|now constructor]|]. eapply NF; [exact Ho|exact Hy|]. left. now intros t [=].
    + left. cbn [mbind fst snd]. subst y. eexists _, p, (elems p), (Some (NV v)), None. split; [reflexivity|]. split; [easy|].
      split; [eapply So_zero; [exact HS|exact Ho|exact Hy]|]. eapply NF; [exact Ho|exact Hy|]. right. now intros z [= <-].
    + right. split; [|now exists (elems p), (elems s), (elems l0), v, y]. intros H. apply (proj1 (fine_pair _ _)) in H. apply fine_bind_inv in H as (l & x & H & _). apply Hf. now exists l, x.
    + left. cbn [mbind fst snd]. eexists _, p, (elems p), (Some o), (Some (NV l0)). split; [destruct o as [[| |]|]; reflexivity|]. split; [easy|].
      split; [eapply So_dyn; [exact HS|exact Ho|exact Hy]|]. eapply NF; [exact Ho|exact Hy|]. right. now intros z [=].
  - left. assert (fine (memit E_VAR_SUBSTR_ARGS w [(L "data", targ data)])) as (l & [] & ->).
    { apply fine_emit; [reflexivity|reflexivity|repeat constructor]. apply tame_garg. now rewrite (Canon_elems _ _ HC). }
    eexists _, p, (elems p), None, None. split; [reflexivity|]. split; [easy|]. split; [eapply So_args; [exact HS|easy|easy]|].
    intros (n & s' & l' & t & y & H & _). pose proof (Split_fun _ _ _ _ HS _ H) as E. discriminate E.
Qed.

(* ---- uniqueness ---- *)
Lemma Off_fun s o o' : Off s o -> Off s o' -> o = o'.
Proof.
  intros H H'. destruct (all_chars s) as [[a ->]|[v Hv]].
  - apply Off_text in H as [(z & -> & Hz)|(-> & Hz)], H' as [(z' & -> & Hz')|(-> & Hz')]; [|now apply Hz' in Hz|now apply Hz in Hz'|easy].
    now rewrite (Literal_fun U HU _ _ _ Hz Hz').
  - destruct (Off_vars _ _ _ Hv H) as (t & -> & HC). destruct (Off_vars _ _ _ Hv H') as (t' & -> & HC'). now rewrite (Canon_fun _ _ _ HC HC').
Qed.
Lemma Whole_fun o x y : Whole o x -> Whole o y -> x = y.
Proof. intros [| |z H|t] H'; inversion H'; subst; try easy. Qed.
Ltac uniq := repeat match goal with
  | H : Split 58 None ?il ?a, H' : Split 58 None ?il ?b |- _ =>
      let E := fresh "E" in pose proof (Split_fun _ _ _ _ H _ H') as E; clear H'; (discriminate E || (injection E; clear E; intros; subst) || idtac)
  | H : Off ?s ?a, H' : Off ?s ?b |- _ =>
      let E := fresh "E" in pose proof (Off_fun _ _ _ H H') as E; clear H'; (discriminate E || (injection E; clear E; intros; subst) || subst)
  | H : Whole ?s ?a, H' : Whole ?s ?b |- _ => pose proof (Whole_fun _ _ _ H H'); clear H'; subst
  end.
Lemma SliceOf_fun il n o l n' o' l' : SliceOf il n o l -> SliceOf il n' o' l' -> n = n' /\ o = o' /\ l = l'.
Proof.
  intros H H'; inversion H; subst; inversion H'; subst; uniq; cbn in *; try easy; try (exfalso; eauto; fail).
Qed.
Lemma slice_nofail il n o l : SliceOf il n o l -> ~ SliceFails il.
Proof. intros H (n' & s & l' & t & y & H1 & H2 & H3 & H4). inversion H; subst; uniq; try easy. Qed.
Lemma FuncCut_fun il f a t f' a' t' : FuncCut il f a t -> FuncCut il f' a' t' -> f = f' /\ a = a' /\ t = t'.
Proof.
  assert (K : forall (a b a' b' : list elem) x, a ++ x :: b = a' ++ x :: b' -> ~ In x b -> ~ In x b' -> a = a' /\ b = b').
  { intros a0 b0 a0' b0' x E H1 H2. apply (f_equal (@rev elem)) in E. rewrite !rev_app_distr in E. cbn [rev] in E. rewrite <- !app_assoc in E. cbn [app] in E.
    apply split_unique in E as [E1 E2]; [|now rewrite <- in_rev|now rewrite <- in_rev].
    apply (f_equal (@rev elem)) in E1, E2. now rewrite !rev_involutive in *. }
  intros [f0 a0 t0 E H1 H2|f0 a0 E H1 H2] [f1 a1 t1 E' H1' H2'|f1 a1 E' H1' H2']; rewrite E in E'; apply split_unique in E' as [-> E']; try easy.
  - apply K in E' as [-> ->]; easy.
  - exfalso. apply H2'. rewrite <- E'. apply in_app_iff. right. now left.
  - exfalso. apply H2. rewrite E'. apply in_app_iff. right. now left.
Qed.
Lemma slice_nil n o l : SliceOf [] n o l -> n = [].
Proof. assert (H : Split 58 None [] [[]]) by (constructor; easy). intros H'. inversion H'; subst; uniq; easy. Qed.
Lemma TailOf_fun t o l o' l' : TailOf t o l -> TailOf t o' l' -> o = o' /\ l = l'.
Proof.
  intros H H'. inversion H as [E|c n o0 l0 HS|o0 l0 E HS]; inversion H' as [E'|c' n' o1 l1 HS'|o1 l1 E' HS']; subst; try easy;
    try (apply slice_nil in HS; discriminate HS); try (apply slice_nil in HS'; discriminate HS');
    destruct (SliceOf_fun _ _ _ _ _ _ _ HS HS') as (E0 & -> & ->); easy.
Qed.
Lemma tail_nofail t o l : TailOf t o l -> ~ SliceFails t.
Proof.
  intros [->|c n o0 l0 H|o0 l0 E H]; [|now apply slice_nofail in H|now apply slice_nofail in H].
  intros (n & s & l' & x & y & H & _). assert (H' : Split 58 None [] [[]]) by (constructor; easy). pose proof (Split_fun _ _ _ _ H _ H') as E. discriminate E.
Qed.
Lemma VarOf_fun n o l v v' : VarOf n o l v -> VarOf n o l v' -> v = v'.
Proof. intros H H'; inversion H; subst; inversion H'; subst; easy. Qed.
Lemma FuncVal_fun f a o l v v' : FuncVal f a o l v -> FuncVal f a o l v' -> v = v'.
Proof. intros H H'; inversion H; subst; inversion H'; subst; easy. Qed.
Lemma cut_paren il f a t : FuncCut il f a t -> In (Ch 40) il.
Proof. intros [f0 a0 t0 E _ _|f0 a0 E _ _]; rewrite E; apply in_app_iff; right; now left. Qed.
Lemma Sub_fun il o v v' : Sub U FT il o v -> Sub U FT il o v' -> v = v'.
Proof.
  intros H H'.
  inversion H as [t0 H1 H2|t0 H1 H2 H3 H4|n0 t0 o1 l w0 H1 H2 H3 H4 H5 H6|f fi args a tail o1 l w0 H1 H2 H3 H4 H5 H6 H7 H8 H9]; subst;
  inversion H' as [t0' H1' H2'|t0' H1' H2' H3' H4'|n0' t0' o1' l' w0' H1' H2' H3' H4' H5' H6'|f' fi' args' a' tail' o1' l' w0' H1' H2' H3' H4' H5' H6' H7' H8' H9']; subst;
    try (now apply cut_paren in H1); try (now apply cut_paren in H1'); try easy.
  - now rewrite (Canon_fun _ _ _ H1 H1').
  - now rewrite (Canon_fun _ _ _ H1 H1').
  - destruct (SliceOf_fun _ _ _ _ _ _ _ H3 H3') as (-> & -> & ->). rewrite (Canon_fun _ _ _ H4 H4') in *. eapply VarOf_fun; eassumption.
  - destruct (FuncCut_fun _ _ _ _ _ _ _ H1 H1') as (E & -> & ->). apply map_Ch_inj in E. subst.
    destruct (TailOf_fun _ _ _ _ _ H4 H4') as (-> & ->). rewrite (Canon_fun _ _ _ H8 H8') in *. eapply FuncVal_fun; eassumption.
Qed.
Lemma Sub_nofail il v : Sub U FT il 123 v -> ~ SubFails U FT il.
Proof.
  intros H H'. destruct H' as [E1 E2|args0 E|f0 v0 args0 E E1 E2|f0 args0 tail0 E E1 E2|f0 fi0 args0 tail0 o0 l0 E E1 E2 E3 E4 E5 E6].
  - destruct E2 as (n & s & l' & t & y & E2). assert (In (Ch 58) il).
    { destruct E2 as (E2 & _). inversion E2; subst. apply in_app_iff. right. now left. }
    inversion H as [|t0 H1 H2 H3 H4|n0 t0 o l v0 H1 H2 H3 H4 H5|f fi args a tail o l v0 H1]; subst; try easy.
    + eapply slice_nofail; [exact H3|]. now exists n, s, l', t, y.
    + now apply cut_paren in H1.
  - assert (H40 : In (Ch 40) il) by (subst; now left).
    inversion H as [|t0 H1 H2 H3 H4|n0 t0 o l v0 H1 H2 H3 H4 H5|f fi args a tail o l v0 H1 H2]; subst; try easy.
    assert (E : map Ch f = []); [|now destruct f]. destruct H1 as [f1 a1 t1 E G3 G4|f1 a1 E G3 G4]; destruct f1; try easy; injection E as <- _; destruct G3; now left.
  - assert (H40 : In (Ch 40) il) by (subst; apply in_app_iff; right; now left).
    inversion H as [|t0 H1 H2 H3 H4|n0 t0 o l w0 H1 H2 H3 H4 H5|f fi args a tail o l w0 H1 H2]; subst; try easy.
    assert (E : map Ch f = f0).
    { inversion H1 as [f1 a1 t1 E H3' H4'|f1 a1 E H3' H4']; subst; apply split_unique in E as [-> _]; easy. }
    rewrite <- E in E2. now apply chars_no_va in E2.
  - pose proof (cut_paren _ _ _ _ E) as H40.
    inversion H as [|t0 H1 H2 H3 H4|n0 t0 o l w0 H1 H2 H3 H4 H5|f fi args a tail o l w0 H1 H2 H3 H4]; subst; try easy.
    destruct (FuncCut_fun _ _ _ _ _ _ _ H1 E) as (_ & -> & ->). now apply tail_nofail in H4.
  - pose proof (cut_paren _ _ _ _ E) as H40.
    inversion H as [|t0 H1 H2 H3 H4|n0 t0 o l w0 H1 H2 H3 H4 H5|f fi args a tail o l w0 H1 H2 H3 H4 H5 H6 H7]; subst; try easy.
    destruct (FuncCut_fun _ _ _ _ _ _ _ H1 E) as (Ef & -> & ->). apply map_Ch_inj in Ef. subst f0.
    rewrite (funcof_fun _ _ _ _ _ H5 E4) in *. easy.
Qed.
Lemma Sub_noodd il o v : Sub U FT il o v -> ~ SubOdd U FT il o.
Proof.
  intros H H'.
  inversion H as [t0 H1 H2|t0 H1 H2 H3 H4|n0 t0 o1 l w0 H1 H2 H3 H4 H5 H6|f fi args a tail o1 l w0 H1 H2 H3 H4 H5 H6 H7 H8 H9]; subst;
  inversion H' as [o' E|l' E E1|f' args' x E|f' fi' args' tail' E E1 E2 E3]; subst; try easy;
    try (now apply cut_paren in H1); try (now apply cut_paren in E).
  - apply H4. now left.
  - assert (exists ps, Split 58 None (Ch 58 :: l') ([] :: ps)) as (ps & HS).
    { assert (K : forall l0 : list elem, exists ls, Split 58 None l0 ls).
      { intros l0. induction l0 as [|e l0 (ls & IH)]; [exists [[]]; now constructor|].
        destruct (match e with Ch c => N.eqb c 58 | _ => false end) eqn:E.
        - destruct e as [c|]; [|easy]. apply N.eqb_eq in E. subst c. exists ([] :: ls). apply (Sp_next 58 None [] l0 ls); easy.
        - assert (Hne : e <> Ch 58) by (intros ->; discriminate). inversion IH; subst.
          + exists [e :: l0]. constructor. now intros [|].
          + eexists. apply (Sp_next 58 None (e :: a) _ ls0); [easy|now intros [|]|easy]. }
      destruct (K l') as (ls & HK). exists ls. now apply (Sp_next 58 None [] l' ls). }
    apply H5. inversion H3; subst; uniq; easy.
  - destruct (FuncCut_fun _ _ _ _ _ _ _ H1 E) as (_ & _ & ->). now apply (H3 x).
  - destruct (FuncCut_fun _ _ _ _ _ _ _ H1 E) as (Ef & -> & ->). apply map_Ch_inj in Ef. subst f'.
    rewrite (funcof_fun _ _ _ _ _ H5 E1) in *. now apply H6.
Qed.

(* ---- one substitution ---- *)
Lemma its_item data its : (forall x, In x its -> In x (items data)) -> Forall Item its.
Proof. intros H. apply Forall_forall. intros x Hx. pose proof (items_Item data) as HI. rewrite Forall_forall in HI. apply HI. now apply H. Qed.
Lemma strjoin_its data its : (forall x, In x its -> In x (items data)) -> Parts (strjoin its) (map el its).
Proof.
  intros H. apply its_item in H. rewrite <- (items_flat its H). apply strjoin_parts. eapply Forall_impl; [|exact H]. apply Item_part.
Qed.
Lemma part_flatish t : Part t -> Flatish t.
Proof. intros [H|(c & s & ->)]; [now right|left; eauto]. Qed.
Lemma text_its s its : (forall x, In x its -> In x (items (TS s))) ->
  map Ch (flat_map (fun i => match i with TS s => s | _ => [] end) its) = map el its.
Proof.
  induction its as [|x its IH]; [easy|]. intros Hin. cbn [flat_map map]. rewrite map_app, IH by (intros; apply Hin; now right).
  specialize (Hin x (or_introl eq_refl)). cbn [items] in Hin. unfold chars in Hin. apply in_map_iff in Hin as (c & <- & _). easy.
Qed.
Lemma join_canon data its : (forall x, In x its -> In x (items data)) -> Canon (vjoin (sl_items (slice_of data its))) (map el its).
Proof.
  intros H. pose proof (strjoin_its _ _ H) as HP. pose proof HP as HP'. apply Parts_iff in HP' as (HF & _ & HE).
  assert (K : Canon (vjoin (sl_items (match strjoin its with [x] => SlTok x | l => SlList l end))) (map el its)).
  { rewrite <- HE. destruct (strjoin its) as [|x [|y r]]; cbn [sl_items].
    - apply (canon_vjoin []). constructor.
    - cbn [flat_map]. rewrite app_nil_r, <- (flat_items x). apply canon_vjoin. eapply Forall_impl; [apply part_flatish|apply items_part].
    - apply canon_vjoin. eapply Forall_impl; [apply part_flatish|exact HF]. }
  unfold slice_of. destruct data as [s| | | | | | |]; try exact K. cbn [sl_items].
  rewrite <- (text_its s its H), <- elems_str, <- flat_items. apply canon_vjoin. eapply Forall_impl; [apply part_flatish|apply items_part].
Qed.
Lemma slice_text data its f : (forall x, In x its -> In x (items data)) -> map el its = map Ch f -> f <> [] ->
  slice_of data its = SlTok (TS f).
Proof.
  intros H E Hf. pose proof (strjoin_its _ _ H) as HP. rewrite E in HP.
  assert (Es : strjoin its = [TS f]).
  { apply (Parts_fun _ _ _ HP). exists. - constructor; [right; destruct f; [easy|eauto]|constructor].
    - split; [intros [|? [|? ?]] x y b; discriminate|]. exists [map Ch f]. split; [repeat constructor|]. cbn. now rewrite app_nil_r. }
  unfold slice_of. rewrite Es. destruct data as [s| | | | | | |]; try easy. do 2 f_equal. apply map_Ch_inj. now rewrite (text_its s its H).
Qed.
Lemma slice_none data : sl_truthy (slice_of data []) = false.
Proof. now destruct data. Qed.
Lemma slice_vars data its v f : (forall x, In x its -> In x (items data)) -> In (Va v) (map el its) -> slice_of data its <> SlTok (TS f).
Proof.
  intros H Hv E. pose proof (strjoin_its _ _ H) as HP. unfold slice_of in E.
  destruct data as [s| | | | | | |]; try (destruct (strjoin its) as [|x [|y r]]; [easy| |easy]; injection E as ->; apply Parts_iff in HP as (_ & _ & HP); rewrite <- HP in Hv;
    cbn [flat_map] in Hv; rewrite app_nil_r, elems_str in Hv; now apply chars_no_va in Hv).
  rewrite <- (text_its s its H) in Hv. now apply chars_no_va in Hv.
Qed.

Lemma fine_base_tok t args w : Canon t args -> TameData args -> fine (base_call (SlTok t) w).
Proof.
  intros HC HT. unfold base_call. destruct (balance_any (sl_items (SlTok t))) as [-> | ->]; [apply fine_ret|]. cbn [is_value_error].
  assert (E : sl_str (SlTok t) = Ok tt).
  { cbn [sl_str]. destruct (tame_str t) as [s ->]; [|easy]. now rewrite (Canon_elems _ _ HC). }
  apply fine_bind; [now apply (fine_lift _ tt)|]. intros _ [] _. apply fine_emit; [reflexivity|reflexivity|].
  repeat constructor. cbn [sl_arg]. destruct (str_of t); now intros [].
Qed.
Lemma call_read fi a args w : Canon a args -> TameData args -> (f_kind fi = FSet -> ~ ByName args) ->
  (fine (call_func U FT fi (SlTok a) w) /\ ~ ArgFails U FT args (f_kind fi)) \/
  (~ fine (call_func U FT fi (SlTok a) w) /\ ArgFails U FT args (f_kind fi)).
Proof.
  intros HC HT HB. pose proof (fine_base_tok a args w HC HT) as Hb. unfold call_func. set (k := S (sl_size (SlTok a))). cbn [func_call].
  destruct (f_kind fi) eqn:Ek.
  - left. split; [exact Hb|]. intros H. inversion H.
  - destruct (assign_exact U FT HUF (func_call U FT k)) with (data := a) (dl := args) (w := w) as [[H1 H2]|[H1 H2]]; auto.
    + unfold k. eauto.
    + left. split; [apply fine_bind; [exact H1|easy]|]. intros H. inversion H. easy.
    + right. split; [|now constructor]. intros H. apply fine_bind_inv in H as (l & x & H & _). apply H1. now exists l, x.
  - destruct (all_chars args) as [[s ->]|[v Hv]].
    + left. split; [|intros H; inversion H as [|v Hv]; now apply chars_no_va in Hv]. apply fine_bind; [exact Hb|]. intros _ _ _.
      rewrite (canon_text _ _ s HC eq_refl). unfold count_var. apply fine_bind; [|intros _ _ _; apply fine_log].
      destruct (forallb _ _); [apply fine_ret|]. apply fine_emit; [reflexivity|reflexivity|repeat constructor; now intros []].
    + right. split; [|now apply Af_count with v]. intros H. apply fine_bind_inv in H as (l & x & _ & (l' & y & H)).
      apply (canon_var_str _ _ _ HC) in Hv. now destruct a.
  - left. split; [|intros H; inversion H]. apply fine_bind; [|intros _ _ _; exact Hb].
    destruct a as [s| | | | | | |]; try apply fine_ret. destruct (smem _ _); [apply fine_ret|].
    apply fine_emit; [reflexivity|reflexivity|repeat constructor; now intros []].
Qed.

Lemma slice_value il n o l f a : SliceOf il n o l -> exists v, read_result f a o l = Ok v /\ FuncVal f a o l v.
Proof.
  intros H. assert (K : o = None \/ exists x, o = Some x) by (destruct o; eauto). destruct K as [->|[x ->]]; [eexists; split; [reflexivity|constructor]|].
  cbn [read_result]. exists (TFuncS f a x l). split; [|constructor]. unfold mk_func_slice.
  destruct l as [[y|t]|]; try easy. assert (exists z, x = NI z /\ LengthMakesSense z y) as (z & -> & Hs) by (inversion H; subst; eauto).
  destruct (sense_endpos z y Hs) as [e ->]; easy.
Qed.

Lemma read_exact data il w : Canon data il -> TameData il -> AsciiL il -> In (Ch 40) il -> ~ SubOdd U FT il 123 ->
  (exists l v, process_read U FT data w = (l, Ok v) /\ Sub U FT il 123 v) \/
  (~ fine (process_read U FT data w) /\ SubFails U FT il).
Proof.
  intros HC HT HA H40 HO. pose proof (Canon_elems _ _ HC) as El. unfold process_read.
  destruct (cut_first 40 (items data)) as [[before after]|] eqn:Ec.
  2:{ apply cut_first_none in Ec; [|apply items_Item]. exfalso. apply Ec. unfold elems in El. now rewrite El. }
  destruct (cut_first_some _ _ _ _ Ec (items_Item data)) as (x & Ei & Ex & Hn).
  assert (Eil : il = map el before ++ Ch 40 :: map el after). { rewrite <- El. unfold elems. rewrite Ei, map_app. cbn [map]. now rewrite Ex. }
  assert (Hb : forall y, In y before -> In y (items data)) by (intros y Hy; rewrite Ei; apply in_app_iff; now left).
  assert (Ha : forall y, In y after -> In y (items data)) by (intros y Hy; rewrite Ei; apply in_app_iff; right; now right).
  destruct (all_chars (map el before)) as [[f Ef]|[v Hv]].
  2:{ right. split; [|eapply Sx_dynamic; eauto]. intros H. destruct (negb _); [now destruct H as (? & ? & ?)|].
      apply fine_bind_inv in H as (l & [a t] & _ & H). apply fine_bind_inv in H as (l2 & sl & _ & H).
      destruct (slice_of data before) as [[s| | | | | | |]|m] eqn:Es; try (apply fine_bind_inv in H as (? & ? & _ & (? & ? & H)); discriminate H).
      - now apply (slice_vars data before v s Hb Hv).
      - now destruct H as (? & ? & ?). }
  destruct f as [|c f].
  { destruct before; [|discriminate]. rewrite slice_none. cbn [negb]. right. split; [now intros (? & ? & ?)|]. eapply Sx_nofunc. exact Eil. }
  rewrite (slice_text data before (c :: f) Hb Ef ltac:(easy)). cbn [sl_truthy]. 
  assert (truthy (TS (c :: f)) = true) as -> by (apply truthy_elems; now rewrite elems_str). cbn [negb].
  assert (exists l a t al tl, (match cut_last 41 after with
                  | Some (a, t) => mret (vjoin (sl_items (slice_of data a)), vjoin (sl_items (slice_of data t)))
                  | None => do* _ <- memit E_FUNC_PARENS w [(L "data", targ data)];
                            mret (vjoin (sl_items (slice_of data after)), TS [])
                  end) = (l, Ok (a, t)) /\ Canon a al /\ Canon t tl /\ FuncCut il (map Ch (c :: f)) al tl) as (l1 & a & t & al & tl & -> & Ca & Ct & Hcut).
  { destruct (cut_last 41 after) as [[a t]|] eqn:Ecl.
    - destruct (cut_last_some _ _ _ _ Ecl (its_item data after Ha)) as (y & Ea & Ey & Hny).
      exists [], (vjoin (sl_items (slice_of data a))), (vjoin (sl_items (slice_of data t))), (map el a), (map el t). split; [reflexivity|].
      split; [apply join_canon; intros z Hz; apply Ha; rewrite Ea; apply in_app_iff; now left|].
      split; [apply join_canon; intros z Hz; apply Ha; rewrite Ea; apply in_app_iff; right; now right|].
      rewrite <- Ef. apply Fc_closed; [|easy|easy]. rewrite Eil, Ea, map_app. cbn [map]. now rewrite Ey.
    - assert (fine (memit E_FUNC_PARENS w [(L "data", targ data)])) as (l & [] & ->).
      { apply fine_emit; [reflexivity|reflexivity|repeat constructor]. apply tame_garg. now rewrite El. }
      eexists _, _, (TS []), (map el after), []. split; [reflexivity|]. split; [now apply join_canon|]. split; [apply (Canon_TS [])|].
      rewrite <- Ef. apply Fc_open; [exact Eil|easy|]. clear - Ecl Ha HU HUF. 
      pose proof (its_item data after Ha) as HI. clear Ha. induction after as [|y after IH]; [easy|]. cbn [cut_last] in Ecl. inversion HI; subst.
      destruct (cut_last 41 after) as [[? ?]|]; [easy|]. destruct (tok_isc y 41) eqn:E; [easy|]. cbn [map In]. intros [H|H]; [|now apply IH].
      apply tok_isc_el in H; [congruence|easy]. }
  cbn [mbind]. assert (Hincl : forall e, In e al \/ In e tl -> In e il).
  { intros e He. inversion Hcut as [f0 a0 t0 E _ _|f0 a0 E _ _]; subst; rewrite E; apply in_app_iff; right; right.
    - apply in_app_iff. destruct He as [He|He]; [now left|right; now right].
    - destruct He as [He|He]; [easy|now destruct He]. }
  assert (HTt : TameData tl) by (eapply tame_sub; [|exact HT]; intros; apply Hincl; now right).
  assert (HTa : TameData al) by (eapply tame_sub; [|exact HT]; intros; apply Hincl; now left).
  assert (HAt : AsciiL tl) by (eapply ascii_sub; [|exact HA]; intros; apply Hincl; now right).
  assert (Hone : forall v, tl <> [Va v]) by (intros v ->; apply HO; eapply So_tail; exact Hcut).
  assert (G : (~ fine (if truthy t then
                   do* x <- split_slice U t w;
                   let '(v, st, ln) := x in
                   if truthy v then do* _ <- memit E_FUNC_TAIL w [(L "data", targ data)]; mret (None, None)
                   else mret (st, ln)
                 else mret (None, None)) /\ SliceFails tl) \/
              exists l2 o y, (if truthy t then
                   do* x <- split_slice U t w;
                   let '(v, st, ln) := x in
                   if truthy v then do* _ <- memit E_FUNC_TAIL w [(L "data", targ data)]; mret (None, None)
                   else mret (st, ln)
                 else mret (None, None)) = (l2, Ok (o, y)) /\ TailOf tl o y /\ forall g b, exists v, read_result g b o y = Ok v /\ FuncVal g b o y v).
  { destruct (truthy t) eqn:Et.
    2:{ apply falsy_elems in Et. rewrite (Canon_elems _ _ Ct) in Et. right. eexists _, None, None. split; [reflexivity|]. split; [now constructor|].
        intros g b. eexists. split; [reflexivity|constructor]. }
    apply truthy_elems in Et. rewrite (Canon_elems _ _ Ct) in Et.
    destruct (slice_exact t tl w Ct HTt HAt Hone) as [(l & v & n & o & y & -> & Cv & HS & _)|[H1 H2]].
    2:{ left. split; [|easy]. intros H. apply fine_bind_inv in H as (l & z & H & _). apply H1. now exists l, z. }
    right. cbn [mbind]. destruct (truthy v) eqn:Etv.
    - apply truthy_elems in Etv. rewrite (Canon_elems _ _ Cv) in Etv. destruct n as [|e n]; [easy|].
      assert (fine (memit E_FUNC_TAIL w [(L "data", targ data)])) as (l' & [] & ->).
      { apply fine_emit; [reflexivity|reflexivity|repeat constructor]. apply tame_garg. now rewrite El. }
      eexists _, None, None. split; [reflexivity|]. split; [eapply Ta_junk; exact HS|]. intros g b. eexists. split; [reflexivity|constructor].
    - apply falsy_elems in Etv. rewrite (Canon_elems _ _ Cv) in Etv. subst n. eexists _, o, y. split; [reflexivity|].
      split; [now apply Ta_slice|]. intros g b. eapply slice_value; exact HS. }
  destruct G as [[G1 G2]|(l2 & o & y & -> & Htl & HV)].
  { right. split; [|eapply Sx_tail; eauto]. intros H. apply (proj1 (fine_pair _ _)) in H. apply fine_bind_inv in H as (l & z & H & _). apply G1. now exists l, z. }
  cbn [mbind fst snd]. destruct (fine_func_check U FT HUF (c :: f) w) as (l3 & fi & Efc). rewrite Efc. apply func_check_report in Efc as (l4 & HF & _).
  assert (HBy : f_kind fi = FSet -> ~ ByName al) by (intros Hk HBn; apply HO; eapply So_set; eauto).
  cbn [mbind fst snd]. destruct (call_read fi a al w Ca HTa HBy) as [[(l5 & [] & ->) H2]|[H1 H2]].
  - left. destruct (HV (c :: f) a) as (v & -> & Hval). eexists _, v. split; [reflexivity|]. eapply Su_func; eauto. easy.
  - right. split; [|eapply Sx_call; eauto; easy]. intros H. apply (proj1 (fine_pair _ _)) in H.
    apply fine_bind_inv in H as (l & z & H & _). apply H1. now exists l, z.
Qed.

Lemma count_fine v w : fine (count_var v w).
Proof.
  unfold count_var. apply fine_bind; [|intros _ _ _; apply fine_log]. destruct (forallb _ _); [apply fine_ret|].
  apply fine_emit; [reflexivity|reflexivity|repeat constructor; now intros []].
Qed.
Lemma variable_exact data il w : Canon data il -> TameData il -> AsciiL il -> ~ SubOdd U FT il 123 ->
  (exists l v, process_variable U FT data w = (l, Ok v) /\ Sub U FT il 123 v) \/
  (~ fine (process_variable U FT data w) /\ SubFails U FT il).
Proof.
  intros HC HT HA HO. pose proof (Canon_elems _ _ HC) as El. unfold process_variable.
  assert (Hne : il <> []) by (intros ->; apply HO; now constructor).
  destruct (tin 40 data) eqn:E40; [apply tin_In in E40; rewrite El in E40; now apply read_exact|].
  assert (N40 : ~ In (Ch 40) il) by (rewrite <- El, <- tin_In; congruence).
  destruct (tin 58 data) eqn:E58.
  - apply tin_In in E58. rewrite El in E58.
    assert (Hone : forall v, il <> [Va v]) by (intros v ->; now destruct E58 as [|[]]).
    unfold process_slice. destruct (slice_exact data il w HC HT HA Hone) as [(l & v & n & o & y & -> & Cv & HS & HnF)|[H1 H2]].
    2:{ right. split; [|now constructor]. intros H. apply fine_bind_inv in H as (l & z & H & _). apply H1. now exists l, z. }
    left. cbn [mbind].
    assert (fine (match v with TS s => count_var s w | _ => mret tt end)) as (l' & [] & ->) by (destruct v; try apply fine_ret; apply count_fine).
    assert (Hn : n <> []).
    { intros ->. apply HO. assert (exists r, il = Ch 58 :: r) as (r & Er); [|now apply So_noname with r].
      assert (exists ps, Split 58 None il ([] :: ps)) as (ps & HSp) by (inversion HS; subst; eauto).
      inversion HSp; subst; [easy|]. cbn [app]. eauto. }
    cbn [mbind fst snd].
    assert (exists l'' v', (match o with
       | None => mret (TVar v)
       | Some (NI s) => match y with
                        | None => mlift (mk_slice v s None)
                        | Some (NI l0) => mlift (mk_slice v s (Some l0))
                        | Some (NV _) => mret (TDyn v (NI s) y)
                        end
       | Some (NV _ as s) => mret (TDyn v s y) end) = (l'', Ok v') /\ VarOf v o y v') as (l'' & v' & E & HVo).
    { inversion HS; subst; try (match goal with H : Whole _ _ |- _ => inversion H; subst end);
        try (destruct o0 as [z0|t0]); try (eexists [], _; split; [reflexivity|constructor]).
      destruct (sense_endpos z y0) as [e Ee]; [easy|]. exists [], (TSlice v z (Some y0)). split; [|constructor]. unfold mlift, mk_slice. now rewrite Ee. }
    eexists _, v'. split; [|eapply Su_slice; eauto].
    destruct o as [[s|t]|]; [destruct y as [[y|t]|]|..]; rewrite E; reflexivity.
  - assert (N58 : ~ In (Ch 58) il) by (rewrite <- El, <- tin_In; congruence). left.
    assert (fine (match data with TS s => count_var s w | _ => mret tt end)) as (l' & [] & ->) by (destruct data; try apply fine_ret; apply count_fine).
    eexists _, (TVar data). split; [reflexivity|]. now apply Su_var.
Qed.

(* ---- the values are tame ---- *)
Lemma canon_str t l : Canon t l -> TameData l -> exists s, str_of t = Ok s.
Proof. intros HC HT. apply tame_str. now rewrite (Canon_elems _ _ HC). Qed.
Lemma canon_hollow t l : Canon t l -> l <> [] -> ~ Flat t [].
Proof. intros HC Hl H. apply Hl. rewrite <- (Canon_elems _ _ HC). symmetry. now apply Flat_iff. Qed.
Lemma split_sub il ls p : Split 58 None il ls -> In p ls -> TameData il -> TameData p.
Proof. intros HS Hp HT. eapply tame_sub; [|exact HT]. intros v Hv. eapply split_in; eauto. Qed.
Definition num_str (x : num tok) : Prop := match x with NI _ => True | NV t => exists s, str_of t = Ok s end.
Definition opt_str (x : option (num tok)) : Prop := match x with Some y => num_str y | None => True end.
Lemma off_str s o : Off s o -> TameData s -> opt_str o.
Proof. intros H HT. inversion H; subst; cbn; try easy. eapply canon_str; eauto. Qed.
Lemma slice_str il n o l : SliceOf il n o l -> TameData il -> TameData n /\ opt_str o /\ opt_str l.
Proof.
  intros H HT.
  assert (K : forall ls p, Split 58 None il ls -> In p ls -> TameData p) by (intros ls p HS Hp; eapply split_sub; eauto).
  inversion H; subst; (split; [eapply K; [eassumption|now left]|]); split; try easy;
    repeat match goal with
    | HS : Split 58 None il [_; ?s; ?l0], Hs : Off ?s ?o0 |- _ => assert_fails (assert (opt_str o0) by assumption); assert (opt_str o0) by (eapply off_str; [exact Hs|]; eapply K; [exact HS|now right; left])
    | HS : Split 58 None il [_; ?s; ?l0], Hs : Off ?l0 ?o0 |- _ => assert_fails (assert (opt_str o0) by assumption); assert (opt_str o0) by (eapply off_str; [exact Hs|]; eapply K; [exact HS|now right; right; left])
    | HS : Split 58 None il [_; ?s], Hs : Off ?s ?o0 |- _ => assert_fails (assert (opt_str o0) by assumption); assert (opt_str o0) by (eapply off_str; [exact Hs|]; eapply K; [exact HS|now right; left])
    end; try easy; match goal with H : Whole _ _ |- _ => inversion H; subst; easy end.
Qed.
Lemma sub_tame il o v : Sub U FT il o v -> TameData il -> Tame v.
Proof.
  intros H HT. destruct H as [t H1 H2|t H1 H2 H3 H4|n t o l v H1 H2 H3 H4 H5 H6|f fi args a tail o l v H1 H2 H3 H4 H5 H6 H7 H8 H9].
  - destruct (canon_str _ _ H1 HT) as [s E]. split.
    + cbn [str_of]. assert (truthy t = true) as -> by (apply truthy_elems; now rewrite (Canon_elems _ _ H1)). rewrite E. eexists. reflexivity.
    + intros n Hn. inversion Hn; subst. eapply canon_hollow; eauto.
  - destruct (canon_str _ _ H1 HT) as [s E]. split.
    + cbn [str_of]. assert (truthy t = true) as -> by (apply truthy_elems; now rewrite (Canon_elems _ _ H1)). rewrite E. eexists. reflexivity.
    + intros n Hn. inversion Hn; subst. eapply canon_hollow; eauto.
  - destruct (slice_str _ _ _ _ H3 HT) as (Tn & So & Sl). destruct (canon_str _ _ H4 Tn) as [s E]. split.
    + destruct H6 as [|z|z y|t' l|z t']; cbn [str_of]; try (rewrite E; eexists; reflexivity).
      * assert (truthy t = true) as -> by (apply truthy_elems; now rewrite (Canon_elems _ _ H4)). rewrite E. eexists. reflexivity.
      * cbn in So. destruct So as [s1 E1]. rewrite E, E1. cbn [bind]. destruct l as [[y|t'']|]; cbn in Sl |- *; [eexists; reflexivity| |eexists; reflexivity].
        destruct Sl as [s2 E2]. rewrite E2. eexists. reflexivity.
      * cbn in Sl. destruct Sl as [s2 E2]. rewrite E, E2. eexists. reflexivity.
    + intros n0 Hn. destruct H6; inversion Hn; subst; eapply canon_hollow; eauto.
  - assert (Hincl : forall e, In e args \/ In e tail -> In e il).
    { intros e He. inversion H1 as [f0 a0 t0 E _ _|f0 a0 E _ _]; subst; apply in_app_iff; right; right.
      - apply in_app_iff. destruct He as [He|He]; [now left|right; now right].
      - destruct He as [He|He]; [easy|now destruct He]. }
    destruct (canon_str a args H8) as [s E]; [eapply tame_sub; [|exact HT]; intros; apply Hincl; now left|].
    assert (TT : TameData tail) by (eapply tame_sub; [|exact HT]; intros; apply Hincl; now right).
    assert (opt_str o /\ opt_str l) as [So Sl].
    { destruct H4 as [->|c n o0 l0 HS|o0 l0 _ HS]; [easy|easy|]. now apply slice_str in HS. }
    split; [|intros n Hn; destruct H9; inversion Hn].
    destruct H9 as [l|x l]; cbn [str_of]; rewrite E; [eexists; reflexivity|]. cbn [bind].
    assert (exists s', match x with NI z => Ok (zstr z) | NV v => str_of v end = Ok s') as [s1 ->] by (destruct x; cbn in So; eauto).
    cbn [bind]. destruct l as [[y|t'']|]; cbn in Sl |- *; [eexists; reflexivity| |eexists; reflexivity].
    destruct Sl as [s2 E2]. rewrite E2. eexists. reflexivity.
Qed.
Lemma sub_named il o v : Sub U FT il o v -> Named v.
Proof.
  intros [t H1 H2|t H1 H2 H3 H4|n t o0 l v0 H1 H2 H3 H4 H5 H6|f fi args a tail o0 l v0 H1 H2 H3 H4 H5 H6 H7 H8 H9].
  - constructor.
  - constructor.
  - destruct H6; constructor.
  - destruct H9; constructor.
Qed.
Lemma sub_opener il o v : Sub U FT il o v -> o = 123 \/ o = 91.
Proof. intros []; auto. Qed.

(* ---- whole texts ---- *)
Lemma closed_fun s pre o c rest i r i' r' : FirstOpen s pre o c rest -> ClosedBy o c rest i r -> ClosedBy o c rest i' r' -> i = i' /\ r = r'.
Proof.
  intros Ho Hc Hc'. assert (Hne : o <> c) by (destruct Ho as ([] & _); easy). apply closed_at_by in Hc. apply closed_at_by in Hc'.
  exact (closed_at_fun _ _ _ _ _ _ _ _ Hne Hc Hc').
Qed.
Ltac same := repeat match goal with
  | H : FirstOpen ?s _ _ _ _, H' : FirstOpen ?s _ _ _ _ |- _ =>
      destruct (first_open_fun _ _ _ _ _ _ _ _ _ H H') as (<- & <- & <- & <-); clear H'
  end; repeat match goal with
  | Ho : FirstOpen _ _ ?o ?c ?rest, H : ClosedBy ?o ?c ?rest _ _, H' : ClosedBy ?o ?c ?rest _ _ |- _ =>
      destruct (closed_fun _ _ _ _ _ _ _ _ _ Ho H H') as (<- & <-); clear H'
  end.
Lemma first_opens s pre o c rest : FirstOpen s pre o c rest -> Opens s.
Proof. intros (Ho & -> & _). now exists pre, o, c, rest. Qed.
Lemma Reads_fun s dl : Reads U FT s dl -> forall dl', Reads U FT s dl' -> dl = dl'.
Proof.
  induction 1 as [s Hn|s pre o c rest inner rest' il v rl Ho Hc Hi IHi Hs Hr IHr]; intros dl' H'.
  - inversion H' as [? Hn'|s' pre' o' c' rest0 inner' rest0' il' v' rl' Ho']; subst; [easy|]. now apply first_opens in Ho'.
  - inversion H' as [? Hn'|s' pre' o' c' rest0 inner' rest0' il' v' rl' Ho' Hc' Hi' Hs' Hr']; subst; [now apply first_opens in Ho|]. same.
    rewrite <- (IHi _ Hi') in Hs'. rewrite (Sub_fun _ _ _ _ Hs Hs'). now rewrite (IHr _ Hr').
Qed.

Definition Blocks (P : str -> Prop) : Prop := forall s, P s -> exists pre o c rest, FirstOpen s pre o c rest /\
  ((forall i r, ~ ClosedBy o c rest i r) \/
   exists inner rest' il, ClosedBy o c rest inner rest' /\ Reads U FT inner il /\ forall v, ~ Sub U FT il o v).
Lemma blocks_unclosed : Blocks Unclosed.
Proof. intros s (pre & o & c & rest & Ho & Hn). exists pre, o, c, rest. auto. Qed.
Lemma blocks_breaks : Blocks (Breaks U FT).
Proof.
  intros s (pre & c & rest & i & r & il & Ho & Hc & Hr & Hf & _). exists pre, 123, c, rest. split; [easy|]. right. exists i, r, il. repeat split; auto; try apply Hc.
  intros v Hv. now apply Sub_nofail in Hv.
Qed.
Lemma blocks_odd : Blocks (Odd U FT).
Proof.
  intros s (pre & o & c & rest & i & r & il & Ho & Hc & Hr & Hf). exists pre, o, c, rest. split; [easy|]. right. exists i, r, il. repeat split; auto; try apply Hc.
  intros v Hv. now apply Sub_noodd in Hv.
Qed.
Lemma reads_first P : Blocks P -> forall s dl, Reads U FT s dl -> ~ First U FT P s.
Proof.
  intros HB s dl H. induction H as [s Hn|s pre o c rest inner rest' il v rl Ho Hc Hi IHi Hs Hr IHr]; intros HF.
  - destruct HF as [s HP|s pre o c rest i r Ho _ _|s pre o c rest i r il v Ho _ _ _ _]; [|now apply first_opens in Ho|now apply first_opens in Ho].
    apply HB in HP as (pre & o & c & rest & Ho & _). now apply first_opens in Ho.
  - inversion HF as [? HP|? pre' o' c' rest0 i r Ho' Hc' HF'|? pre' o' c' rest0 i r il' v' Ho' Hc' Hi' Hs' HF']; subst.
    + apply HB in HP as (pre' & o' & c' & rest0 & Ho' & [Hno|(i & r & il' & Hc' & Hi' & Hno)]); same.
      * now apply (Hno inner rest').
      * rewrite (Reads_fun _ _ Hi' _ Hi) in Hno. now apply (Hno v).
    + same. easy.
    + same. easy.
Qed.
Lemma first_first P Q : Blocks P -> Blocks Q -> (forall s, P s -> ~ Q s) -> forall s, First U FT P s -> ~ First U FT Q s.
Proof.
  intros BP BQ HE s H. induction H as [s HP|s pre o c rest i r Ho Hc HF IH|s pre o c rest i r il v Ho Hc Hi Hs HF IH]; intros HQ.
  - inversion HQ as [? HP'|? pre' o' c' rest0 i r Ho' Hc' HF'|? pre' o' c' rest0 i r il' v' Ho' Hc' Hi' Hs' HF']; subst; [now apply (HE s)| |];
      apply BP in HP as (pre & o & c & rest & Ho & [Hno|(i0 & r0 & il0 & Hc & Hi & Hno)]); same.
    + now apply (Hno i r).
    + now apply (reads_first Q BQ _ _ Hi).
    + now apply (Hno i r).
    + rewrite (Reads_fun _ _ Hi' _ Hi) in Hs'. now apply (Hno v').
  - inversion HQ as [? HP'|? pre' o' c' rest0 i0 r0 Ho' Hc' HF'|? pre' o' c' rest0 i0 r0 il' v' Ho' Hc' Hi' Hs' HF']; subst.
    + apply BQ in HP' as (pre' & o' & c' & rest0 & Ho' & [Hno|(i0 & r0 & il0 & Hc' & Hi & Hno)]); same; [now apply (Hno i r)|].
      now apply (reads_first P BP _ _ Hi).
    + same. easy.
    + same. now apply (reads_first P BP _ _ Hi').
  - inversion HQ as [? HP'|? pre' o' c' rest0 i0 r0 Ho' Hc' HF'|? pre' o' c' rest0 i0 r0 il' v' Ho' Hc' Hi' Hs' HF']; subst.
    + apply BQ in HP' as (pre' & o' & c' & rest0 & Ho' & [Hno|(i0 & r0 & il0 & Hc' & Hi' & Hno)]); same; [now apply (Hno i r)|].
      rewrite (Reads_fun _ _ Hi' _ Hi) in Hno. now apply (Hno v).
    + same. now apply (reads_first Q BQ _ _ Hi).
    + same. easy.
Qed.
Lemma breaks_unclosed s : Breaks U FT s -> ~ Unclosed s.
Proof. intros (pre & c & rest & i & r & il & Ho & Hc & _) (pre' & o' & c' & rest' & Ho' & Hn). same. now apply (Hn i r). Qed.
Lemma odd_unclosed s : Odd U FT s -> ~ Unclosed s.
Proof. intros (pre & o & c & rest & i & r & il & Ho & Hc & _) (pre' & o' & c' & rest' & Ho' & Hn). same. now apply (Hn i r). Qed.
Lemma odd_breaks s : Odd U FT s -> ~ Breaks U FT s.
Proof.
  intros (pre & o & c & rest & i & r & il & Ho & Hc & Hi & Hodd) (pre' & c' & rest' & i' & r' & il' & Ho' & Hc' & Hi' & _ & Hno).
  same. now rewrite (Reads_fun _ _ Hi' _ Hi) in Hno.
Qed.

Lemma reads_elems s dl : Reads U FT s dl -> forall c, In (Ch c) dl -> In c s.
Proof.
  induction 1 as [s Hn|s pre o c rest inner rest' il v rl Ho Hc Hi IHi Hs Hr IHr]; intros x Hx.
  - now apply in_map_Ch in Hx.
  - destruct Ho as (_ & -> & _). destruct Hc as (-> & _). apply in_app_iff in Hx as [Hx|[Hx|Hx]]; [apply in_map_Ch in Hx; apply in_app_iff; now left|discriminate|].
    apply in_app_iff. right. right. right. apply in_app_iff. right. right. now apply IHr.
Qed.
Lemma loop_exact k : forall acc s w, (length s < k)%nat -> AsciiS s -> ~ First U FT (Odd U FT) s ->
  (exists dl l m, Reads U FT s dl /\ parse_loop U FT k acc s w = (l, Ok (vjoin (rev acc ++ m))) /\ Forall Flatish m /\
     flat_map elems m = dl /\ TameData dl) \/
  (First U FT Unclosed s /\ exists l, parse_loop U FT k acc s w = (l, Exn VarParseError)) \/
  (First U FT (Breaks U FT) s /\ exists l e, parse_loop U FT k acc s w = (l, Exn e) /\ e <> VarParseError).
Proof.
  induction k as [|k IH]; intros acc s w Hl HA HO; [lia|]. cbn [parse_loop].
  destruct (loop_cases s) as [[-> Hn]|(pre & x & rest & -> & Ho & Hcase)].
  { left. exists (map Ch s), [], [TS s]. split; [now constructor|]. split; [reflexivity|]. split; [constructor; [left; eauto|constructor]|].
    split; [cbn [flat_map]; now rewrite elems_str, app_nil_r|]. intros v Hv. now apply chars_no_va in Hv. }
  destruct Hcase as [[-> Hn]|(i & r & m & -> & Hc & Hm)].
  { right. left. split; [apply Fi_here; now exists pre, x, (close_of x), rest|]. eexists. reflexivity. }
  pose proof (closed_by_len _ _ _ _ _ Hc) as [Li Lr].
  assert (Ls : (length rest < length s)%nat) by (destruct Ho as (_ & -> & _); rewrite app_length; cbn; lia).
  assert (Ai : AsciiS i /\ AsciiS r).
  { unfold AsciiS in *. destruct Ho as (_ & -> & _). destruct Hc as (-> & _). apply Forall_app in HA as [_ HA]. inversion HA; subst. inversion H2; subst.
    apply Forall_app in H4 as [H4 H5]. now inversion H5. }
  destruct Ai as [Ai Ar].
  assert (Oi : ~ First U FT (Odd U FT) i) by (intros H; apply HO; eapply Fi_inner; eauto).
  (* the text inside *)
  assert (G : (exists il l d, Reads U FT i il /\ (if m then parse_loop U FT k [] i w else mret (TS i)) = (l, Ok d) /\ Canon d il /\ TameData il) \/
     (First U FT Unclosed i /\ exists l, (if m then parse_loop U FT k [] i w else mret (TS i)) = (l, Exn VarParseError)) \/
     (First U FT (Breaks U FT) i /\ exists l e, (if m then parse_loop U FT k [] i w else mret (TS i)) = (l, Exn e) /\ e <> VarParseError)).
  { destruct m.
    - destruct (IH [] i w ltac:(lia) Ai Oi) as [(il & l & m & HR & -> & HF & HE & HT)|[(HF & l & ->)|(HF & l & e & -> & Hne)]].
      + left. exists il, l, (vjoin m). split; [easy|]. split; [reflexivity|]. split; [rewrite <- HE; now apply canon_vjoin|easy].
      + right. left. eauto.
      + right. right. eauto 6.
    - left. exists (map Ch i), [], (TS i). split; [constructor; intros Hop; apply Hm in Hop; discriminate|]. split; [easy|]. split; [apply Canon_TS|].
      intros v Hv. now apply chars_no_va in Hv. }
  destruct G as [(il & l & d & HR & -> & Cd & HT)|[(HF & l & ->)|(HF & l & e & -> & Hne)]]; cbn [mbind].
  2:{ right. left. split; [eapply Fi_inner; eauto|]. eexists. reflexivity. }
  2:{ right. right. split; [eapply Fi_inner; eauto|]. eexists _, e. split; [reflexivity|easy]. }
  assert (So : ~ SubOdd U FT il x) by (intros H; apply HO; apply Fi_here; exists pre, x, (close_of x), rest, i, r, il; auto).
  assert (Al : AsciiL il). { intros c Hin. apply (reads_elems _ _ HR) in Hin. unfold AsciiS in Ai. rewrite Forall_forall in Ai. now apply Ai. }
  assert (Hopen : x = 123 \/ x = 91) by (destruct Ho as ([] & _); auto).
  assert (G : (exists l v, (if x =? 123 then process_variable U FT d w else mret (TExpr d)) = (l, Ok v) /\ Sub U FT il x v) \/
              (x = 123 /\ SubFails U FT il /\ exists l e, (if x =? 123 then process_variable U FT d w else mret (TExpr d)) = (l, Exn e) /\ e <> VarParseError)).
  { destruct Hopen as [-> | ->].
    - change (123 =? 123) with true. cbv iota. destruct (variable_exact d il w Cd HT Al So) as [(l' & v & E & Hs)|[H1 H2]]; [left; eauto|].
      right. split; [easy|]. split; [easy|]. destruct (process_variable U FT d w) as [l' [v|e|]] eqn:E.
      + exfalso. apply H1. now exists l', v.
      + exists l', e. split; [easy|]. intros ->. apply (nv_process_variable U FT d w). now rewrite E.
      + exfalso. apply (nh_process_variable U FT d w). now rewrite E.
    - change (91 =? 123) with false. cbv iota. left. eexists _, _. split; [reflexivity|]. constructor; [easy|]. intros ->. apply So. now constructor. }
  destruct G as [(l2 & v & -> & Hs)|(-> & Hsf & l2 & e & -> & Hne)]; cbn [mbind fst snd].
  2:{ right. right. split; [apply Fi_here; exists pre, (close_of 123), rest, i, r, il; auto|]. eexists _, e. split; [reflexivity|easy]. }
  assert (Or : ~ First U FT (Odd U FT) r) by (intros H; apply HO; eapply Fi_after; eauto).
  destruct (IH (v :: TS pre :: acc) r w ltac:(lia) Ar Or) as [(rl & l3 & m' & HRr & -> & HF & HE & HTr)|[(HF & l3 & ->)|(HF & l3 & e & -> & Hne)]].
  - left. exists (map Ch pre ++ Va v :: rl), (l ++ l2 ++ l3), (TS pre :: v :: m'). split; [eapply Rd_sub; eauto|].
    split; [cbn [fst snd rev]; now rewrite <- !app_assoc|]. pose proof (sub_named _ _ _ Hs) as Hnm.
    split; [constructor; [left; eauto|constructor; [now right|easy]]|].
    split; [cbn [flat_map]; now rewrite elems_str, elems_named, HE|].
    intros u Hu. apply in_app_iff in Hu as [Hu|[[= <-]|Hu]]; [now apply chars_no_va in Hu|eapply sub_tame; eauto|now apply HTr].
  - right. left. split; [eapply Fi_after; eauto|]. eexists. reflexivity.
  - right. right. split; [eapply Fi_after; eauto|]. eexists _, e. split; [reflexivity|easy].
Qed.

Lemma parse_exact s w : AsciiS s -> ~ First U FT (Odd U FT) s ->
  (exists dl l t, Reads U FT s dl /\ parse_variables U FT s w = (l, Ok t) /\ Canon t dl /\ TameData dl) \/
  (First U FT Unclosed s /\ exists l, parse_variables U FT s w = (l, Exn VarParseError)) \/
  (First U FT (Breaks U FT) s /\ exists l e, parse_variables U FT s w = (l, Exn e) /\ e <> VarParseError).
Proof.
  intros HA HO. unfold parse_variables. destruct (loop_exact (S (length s)) [] s w ltac:(lia) HA HO) as [(dl & l & m & HR & -> & HF & HE & HT)|H]; [left|now right].
  exists dl, l, (vjoin m). split; [easy|]. split; [reflexivity|]. split; [rewrite <- HE; now apply canon_vjoin|easy].
Qed.
Lemma parse_reads s dl w : AsciiS s -> Reads U FT s dl -> exists l t, parse_variables U FT s w = (l, Ok t) /\ Canon t dl /\ TameData dl.
Proof.
  intros HA HR. destruct (parse_exact s w HA (reads_first _ blocks_odd _ _ HR)) as [(dl' & l & t & HR' & E & HC & HT)|[(HF & _)|(HF & _)]].
  - rewrite (Reads_fun _ _ HR _ HR'). eauto.
  - now apply (reads_first _ blocks_unclosed _ _ HR) in HF.
  - now apply (reads_first _ blocks_breaks _ _ HR) in HF.
Qed.
Lemma parse_unclosed s w : AsciiS s -> First U FT Unclosed s -> exists l, parse_variables U FT s w = (l, Exn VarParseError).
Proof.
  intros HA HF. assert (HO : ~ First U FT (Odd U FT) s).
  { intros H. eapply (first_first _ _ blocks_odd blocks_unclosed odd_unclosed); eauto. }
  destruct (parse_exact s w HA HO) as [(dl' & l & t & HR' & _)|[(_ & H)|(H & _)]]; [|easy|].
  - now apply (reads_first _ blocks_unclosed _ _ HR') in HF.
  - exfalso. eapply (first_first _ _ blocks_breaks blocks_unclosed breaks_unclosed); eauto.
Qed.
Lemma parse_breaks s w : AsciiS s -> First U FT (Breaks U FT) s -> exists l e, parse_variables U FT s w = (l, Exn e) /\ e <> VarParseError.
Proof.
  intros HA HF. assert (HO : ~ First U FT (Odd U FT) s).
  { intros H. eapply (first_first _ _ blocks_odd blocks_breaks odd_breaks); eauto. }
  destruct (parse_exact s w HA HO) as [(dl' & l & t & HR' & _)|[(H & _)|(_ & H)]]; [| |easy].
  - now apply (reads_first _ blocks_breaks _ _ HR') in HF.
  - exfalso. eapply (first_first _ _ blocks_breaks blocks_unclosed breaks_unclosed); eauto.
Qed.
End Tables.
