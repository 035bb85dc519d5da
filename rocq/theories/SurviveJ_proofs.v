(* The jumps of a line that the linter survives can be made (C23). *)
From Verif Require Import Base Utf8 PyStr Defines Config Pattern Spec_Pattern Utf8_proofs Pattern_proofs Dialplan Spec_Dialplan Dialplan_proofs DialplanL_proofs
  Survive_proofs Var VarFun AppM Spec_Var Spec_VarFun Spec_App Spec_Args Spec_Crash Var_proofs VarFun_proofs Round_proofs Slice_proofs App_proofs Tok_proofs
  AppT_proofs Args_proofs Crash_proofs CrashV_proofs CrashA_proofs.

(* ---- examples of patterns ---- *)
Lemma example_ok raw p : mk_pattern raw = Ok p -> exists e, example (pv p) = Ok e.
Proof.
  unfold mk_pattern. destruct (parse raw) as [v| |] eqn:E; try easy. intros [= <-]. cbn [pv].
  destruct raw as [|c r]; [discriminate|]. destruct (N.eq_dec c 0x5f) as [->|Hc].
  - apply parse_pattern_inv in E as (b & _ & Ht & _). unfold example. rewrite Ht. eexists. reflexivity.
  - apply parse_literal_inv in E as (b & _ & Ht & Hv & _); [|easy]. unfold example. rewrite Ht, Hv. change (NOT_A_PATTERN =? NOT_A_PATTERN) with true. cbn iota.
    match goal with |- context [forallb ?f ?l] => replace (forallb f l) with true end; [eexists; reflexivity|].
    symmetry. apply forallb_forall. intros x Hx. apply in_map_iff in Hx as (y & <- & _). reflexivity.
Qed.

(* ---- format ---- *)
Definition Fmt (t : tok) : Prop := forall ex, (exists s, tformat (exten_env ex) t = Ok s) \/ tformat (exten_env ex) t = Exn KeyError.
Definition Pr (t : tok) : Prop := exists s, str_of t = Ok s.
Definition FmtE (x : elem) : Prop := match x with Ch c => c < 128 | Va v => Fmt v /\ Pr v end.

Lemma fmt_elems t : Forall FmtE (Var_proofs.elems t) -> Fmt t.
Proof.
  induction t using tok_ind2; intros HF; try (rewrite elems_named in HF by constructor; exact (proj1 (Forall_inv HF))).
  - intros ex. left. now exists s.
  - rewrite Var_proofs.elems_list in HF. intros ex. cbn [tformat].
    induction H as [|x l Hx Hl IH]; [left; now exists []|]. cbn [flat_map] in HF. apply Forall_app in HF as [H1 H2].
    destruct (Hx H1 ex) as [[a -> ]| -> ]; [|now right]. cbn [bind]. destruct (IH H2) as [[b E]|E]; rewrite E; [left; now eexists|now right].
Qed.
Lemma fmt_flat t l : Flat t l -> Forall FmtE l -> Fmt t.
Proof. intros H HF. apply fmt_elems. apply Flat_iff in H. now rewrite <- H. Qed.

Lemma pr_list l : Forall FmtE l -> exists s, etext l = Ok s.
Proof.
  induction 1 as [|x l Hx _ [s IH]]; [now exists []|]. cbn [etext]. rewrite IH. destruct x as [c|v]; [cbn [bind]; eauto|].
  destruct Hx as [_ [a ->]]. cbn [bind]. eauto.
Qed.
Lemma pr_elems t : Forall FmtE (Var_proofs.elems t) -> Pr t.
Proof. intros H. unfold Pr. rewrite str_of_elems. now apply pr_list. Qed.
Lemma pr_canon t l : Canon t l -> Forall FmtE l -> Pr t.
Proof. intros H HF. apply pr_elems. now rewrite (Canon_elems _ _ H). Qed.
Definition PrN (o : option (num tok)) : Prop := forall t, o = Some (NV t) -> Pr t.
Lemma prn_text o : PrN (Some o) -> exists a, num_text o = Ok a.
Proof. intros H. destruct o as [z|v]; cbn [num_text]; [eauto|]. now apply H. Qed.
Lemma prn_len o : PrN o -> exists a, len_text o = Ok a.
Proof. destruct o as [o|]; intros H; cbn [len_text]; [|eauto]. destruct (prn_text o H) as [a ->]. cbn [bind]. eauto. Qed.

Lemma env_func ex f a : exten_env ex (f ++ L "(" ++ a ++ L ")") = None.
Proof.
  unfold exten_env. destruct (str_eqb_spec (f ++ L "(" ++ a ++ L ")") (L "EXTEN")) as [E|]; [|easy].
  exfalso. assert (In 40 (L "EXTEN")) as H by (rewrite <- E; rewrite in_app_iff; right; now left).
  cbn in H. repeat destruct H as [H|H]; try discriminate H. destruct H.
Qed.
Lemma sense_endpos z y : LengthMakesSense z y -> exists e, slice_endpos z y = Ok e.
Proof.
  intros H. unfold LengthMakesSense in H. unfold slice_endpos.
  destruct (Z.eqb_spec y 0); [lia|]. destruct (Z.ltb_spec y 0); [eauto|].
  destruct (Z.ltb_spec z 0); [|eauto]. destruct (Z.ltb_spec (z + y) 0); [eauto|lia].
Qed.
Lemma forall_incl {A} (P : A -> Prop) l m : Forall P l -> (forall x, In x m -> In x l) -> Forall P m.
Proof. rewrite !Forall_forall. auto. Qed.
Lemma fmt_name t ex : Fmt t -> let r := let! k := tformat (exten_env ex) t in match exten_env ex k with Some v => Ok v | None => Exn KeyError end in
  (exists s, r = Ok s) \/ r = Exn KeyError.
Proof. intros H. destruct (H ex) as [[s -> ]| -> ]; [|now right]. cbn [bind]. destruct (exten_env ex s); [left; eauto|now right]. Qed.
Lemma slice_head il n o l : SliceOf il n o l -> forall x, In x n -> In x il.
Proof. intros H x Hx. destruct H; eapply split_in; try eassumption; now left. Qed.
Lemma slice_sense il n z y : SliceOf il n (Some (NI z)) (Some (NI y)) -> LengthMakesSense z y.
Proof. intros H. inversion H; subst; easy. Qed.
Lemma cut_args il f args tail : FuncCut il f args tail -> forall x, In x args -> In x il.
Proof. intros [f' a t -> _ _|f' a -> _ _] x Hx; apply in_app_iff; right; right; [apply in_app_iff; now left|easy]. Qed.

Lemma prn_z z : PrN (Some (NI z)). Proof. intros t H. discriminate H. Qed.
Lemma prn_none : PrN None. Proof. intros t H. discriminate H. Qed.
Lemma off_pr s o : Off s o -> Forall FmtE s -> PrN o.
Proof. intros [a z _|a _|s' v t _ HC] HF; [apply prn_z|apply prn_none|]. intros t' [= <-]. now apply (pr_canon t s'). Qed.
Lemma whole_pr o o' : Whole o o' -> PrN o -> PrN o'.
Proof. intros [| |z _|t]; auto using prn_z, prn_none. Qed.
Lemma slice_pr il n o l : SliceOf il n o l -> Forall FmtE il -> PrN o /\ PrN l.
Proof.
  intros H HF.
  assert (K : forall ps p q, Split 58 None il ps -> In p ps -> Off p q -> PrN q).
  { intros ps p q HS Hp HO. apply (off_pr p); [easy|]. eapply forall_incl; [exact HF|]. intros x Hx. eapply split_in; eauto. }
  destruct H as [s o o' HS HO HW|s l HS HO|s l o HS HO HL|s l z z' y HS HO HL HN HW|s l t HS HO HL|s l z y HS HO HL HN|s l o t HS HO HL|ps HS H1 H2];
    split; auto using prn_z, prn_none.
  - eapply whole_pr; [exact HW|]. eapply K; [exact HS| |exact HO]. cbn; auto.
  - eapply whole_pr; [exact HW|]. apply prn_z.
  - eapply K; [exact HS| |exact HO]. cbn; auto.
  - eapply K; [exact HS| |exact HO]. cbn; auto.
  - eapply K; [exact HS| |exact HL]. cbn; auto.
Qed.
Lemma cut_tail il f args tail : FuncCut il f args tail -> forall x, In x tail -> In x il.
Proof. intros [f' a t -> _ _|f' a -> _ _] x Hx; [|easy]. apply in_app_iff; right; right. apply in_app_iff; right; now right. Qed.

Section Tables.
Variable U : uni.
Variable FT : ftable.
Lemma sub_pr il o v : Sub U FT il o v -> Forall FmtE il -> Pr v.
Proof.
  intros H HF. destruct H as [t HC HN|t HC HN _ _|n t o l v _ _ HS HC HN HV|f fi args a tail o l v HC _ _ HTl _ _ _ Ha HV].
  - unfold Pr. cbn [str_of]. rewrite (flat_truthy _ _ (Canon_Flat _ _ HC) HN). destruct (pr_canon _ _ HC HF) as [s ->]. cbn [bind]. eauto.
  - unfold Pr. cbn [str_of]. rewrite (flat_truthy _ _ (Canon_Flat _ _ HC) HN). destruct (pr_canon _ _ HC HF) as [s ->]. cbn [bind]. eauto.
  - assert (Ht : Pr t). { eapply pr_canon; [exact HC|]. eapply forall_incl; [exact HF|]. eapply slice_head; eauto. }
    destruct (slice_pr _ _ _ _ HS HF) as [P1 P2]. destruct Ht as [s Es]. unfold Pr. destruct HV as [|z|z y|t' l|z t'].
    + cbn [str_of]. rewrite (flat_truthy _ _ (Canon_Flat _ _ HC) HN), Es. cbn [bind]. eauto.
    + cbn [str_of]. rewrite Es. cbn [bind]. eauto.
    + cbn [str_of]. rewrite Es. cbn [bind]. eauto.
    + rewrite str_of_dyn, Es. destruct (prn_text _ P1) as [x Ex], (prn_len _ P2) as [y Ey]. rewrite Ex, Ey. cbn [bind]. eauto.
    + rewrite str_of_dyn, Es. destruct (prn_text _ P1) as [x Ex], (prn_len _ P2) as [y Ey]. rewrite Ex, Ey. cbn [bind]. eauto.
  - assert (Hf : Pr a). { eapply pr_canon; [exact Ha|]. eapply forall_incl; [exact HF|]. eapply cut_args; eauto. }
    assert (HFt : Forall FmtE tail) by (eapply forall_incl; [exact HF|]; eapply cut_tail; eauto).
    assert (P : PrN o /\ PrN l) by (destruct HTl as [_|c n o l HS|o l _ HS]; [auto using prn_none|auto using prn_none|eapply slice_pr; eauto]).
    destruct P as [P1 P2]. destruct Hf as [s Es]. unfold Pr. destruct HV as [l|o l].
    + rewrite str_of_func, Es. cbn [bind]. eauto.
    + rewrite str_of_funcs, Es. destruct (prn_text _ P1) as [x Ex], (prn_len _ P2) as [y Ey]. rewrite Ex, Ey. cbn [bind]. eauto.
Qed.
Lemma sub_fmt il o v : Sub U FT il o v -> Forall FmtE il -> Fmt v.
Proof.
  intros H HF. destruct H as [t HC _|t HC _ _ _|n t o l v _ _ HS HC _ HV|f fi args a tail o l v HC _ _ _ _ _ _ Ha HV].
  - intros ex. apply fmt_name. eapply fmt_flat; [apply Canon_Flat, HC|easy].
  - intros ex. apply fmt_name. eapply fmt_flat; [apply Canon_Flat, HC|easy].
  - assert (Ht : Fmt t). { eapply fmt_flat; [apply Canon_Flat, HC|]. eapply forall_incl; [exact HF|]. eapply slice_head; eauto. }
    destruct HV as [|z|z y|t' l|z t']; try (intros ex; now apply fmt_name).
    + intros ex. cbn [tformat]. destruct (fmt_name t ex Ht) as [[s E]|E]; rewrite E; [left; eexists; reflexivity|now right].
    + intros ex. cbn [tformat]. destruct (fmt_name t ex Ht) as [[s E]|E]; rewrite E; [|now right].
      apply slice_sense in HS. destruct (sense_endpos _ _ HS) as [e Ee]. cbn [bind]. rewrite Ee. left. eexists; reflexivity.
  - assert (Hf : Fmt a). { eapply fmt_flat; [apply Canon_Flat, Ha|]. eapply forall_incl; [exact HF|]. eapply cut_args; eauto. }
    destruct HV as [l|o l]; intros ex; cbn [tformat]; right; destruct (Hf ex) as [[s -> ]| -> ]; try easy; cbn [bind]; now rewrite env_func.
Qed.
Lemma fmt_chars s : AsciiS s -> Forall FmtE (map Ch s).
Proof. intros H. apply Forall_map. exact H. Qed.
Lemma reads_fmt s dl : Reads U FT s dl -> AsciiS s -> Forall FmtE dl.
Proof.
  induction 1 as [s _|s pre o c rest inner rest' il v rl HO HC _ IH1 HS _ IH2]; intros HA; [now apply fmt_chars|].
  assert (Ai : AsciiS pre /\ AsciiS inner /\ AsciiS rest').
  { unfold AsciiS in *. destruct HO as (_ & -> & _). destruct HC as (-> & _). apply Forall_app in HA as [H0 HA]. 
    apply Forall_inv_tail, Forall_inv_tail, Forall_app in HA as [H1 H2]. apply Forall_inv_tail in H2. auto. }
  destruct Ai as (A1 & A2 & A3). apply Forall_app. split; [now apply fmt_chars|]. constructor; [|now apply IH2]. split; [eapply sub_fmt|eapply sub_pr]; eauto.
Qed.
Lemma data_fmt s dl : DataOf U FT s dl -> AsciiS s -> Forall FmtE dl.
Proof. intros [l H|_] HA; [now apply (reads_fmt s)|now apply fmt_chars]. Qed.

(* ---- destinations consist of what the arguments consist of ---- *)
Section In.
Variable P : elem -> Prop.
Hypothesis P44 : P (Ch 44).
Definition all_in (l : list tok) : Prop := Forall P (flat_map elems l).
Lemma in_cons x l : all_in (x :: l) <-> Forall P (elems x) /\ all_in l.
Proof. unfold all_in. cbn [flat_map]. now rewrite Forall_app. Qed.
Lemma in_app a b : all_in (a ++ b) <-> all_in a /\ all_in b.
Proof. unfold all_in. now rewrite flat_map_app, Forall_app. Qed.
Lemma in_each l : all_in l <-> Forall (fun t => Forall P (elems t)) l.
Proof. induction l as [|x l IH]; [split; constructor|]. rewrite in_cons, IH. split; [intros [? ?]; now constructor|intros H; now inversion H]. Qed.
Lemma in_rev l : all_in (rev l) <-> all_in l.
Proof. rewrite !in_each, !Forall_forall. setoid_rewrite <- in_rev. reflexivity. Qed.
Lemma in_items t : all_in (items t) <-> Forall P (elems t).
Proof. unfold all_in. now rewrite flat_items. Qed.
Lemma in_slice t its : all_in its -> all_in (sl_items (slice_of t its)).
Proof.
  intros H. assert (K : all_in (sl_items (match strjoin its with [x] => SlTok x | l => SlList l end))).
  { unfold strjoin. pose proof (Round_proofs.strjoin_elems its None) as E. cbn [List.app] in E. unfold all_in in *.
    destruct (strjoin_from None its) as [|x [|y r]]; cbn [sl_items]; [constructor| |now rewrite E].
    rewrite flat_items. cbn [flat_map] in E. rewrite app_nil_r in E. now rewrite E. }
  destruct t; try exact K. cbn [slice_of sl_items]. rewrite in_items, elems_str. clear K.
  induction its as [|x its IH]; [constructor|]. apply in_cons in H as [H1 H2]. cbn [flat_map]. rewrite map_app. apply Forall_app. split; [|now apply IH].
  destruct x; try constructor. now rewrite elems_str in H1.
Qed.
Lemma in_sep d dl rm l : forall b p q sk cur pend, all_in cur -> all_in pend -> all_in l ->
  Forall all_in (sep d dl rm b p q sk cur pend l).
Proof.
  induction l as [|x l IH]; intros b p q sk cur pend Hc Hp Hl; cbn [sep].
  - assert (F : all_in (cur ++ seq_slice d (rev pend))).
    { apply in_app. split; [easy|]. unfold seq_slice. destruct d; [apply in_slice|]; now apply in_rev. }
    now constructor.
  - assert (F : all_in (cur ++ seq_slice d (rev pend))).
    { apply in_app. split; [easy|]. unfold seq_slice. destruct d; [apply in_slice|]; now apply in_rev. }
    apply in_cons in Hl as [Hx Hl]. assert (Hp' : all_in (x :: pend)) by now apply in_cons.
    repeat match goal with |- context [if ?c then _ else _] => destruct c end; try (now apply IH); try (apply IH; [easy|constructor|easy]).
    constructor; [easy|]. apply IH; [constructor|constructor|easy].
Qed.
Lemma in_separate d dl rm : all_in (sl_items d) -> all_in (separate_args d dl rm).
Proof.
  intros H. apply in_each. unfold separate_args. rewrite Forall_map. eapply Forall_impl; [|apply in_sep; [constructor|constructor|exact H]].
  intros out Ho. cbn beta. rewrite squash_elems. exact Ho.
Qed.

Definition OptIn (o : option tok) : Prop := forall t, o = Some t -> Forall P (elems t).
Definition SlIn (s : sliced) : Prop := forall t, s = SlTok t -> Forall P (elems t).
Definition DestIn (d : dest) : Prop := OptIn (d_ctx d) /\ OptIn (d_ext d) /\ SlIn (d_prio d).
Lemma opt_none : OptIn None. Proof. intros t H. discriminate H. Qed.
Lemma opt_some t : Forall P (elems t) -> OptIn (Some t). Proof. now intros H x [= <-]. Qed.
Lemma sl_tok t : Forall P (elems t) -> SlIn (SlTok t). Proof. now intros H x [= <-]. Qed.
Hint Resolve opt_none opt_some sl_tok : core.

Lemma in_goto args d : all_in args -> goto_dest args = Ok d -> DestIn d.
Proof.
  intros H. apply in_each in H. unfold goto_dest. destruct args as [|a [|b [|c [|e [|? ?]]]]]; cbn; try easy;
    repeat match goal with H : Forall _ (_ :: _) |- _ => inversion H; clear H; subst end; intros [= <-]; repeat split; cbn; auto.
Qed.
Lemma in_prio p w l s : Forall P (elems p) -> gosub_prio p w = (l, Ok s) -> SlIn s.
Proof.
  intros H. unfold gosub_prio. destruct (cut_first 40 (items p)) as [[a b]|] eqn:E.
  - apply cut_first_sub in E as [x E]. intros G. apply mbind_ok in G as (? & ? & ? & _ & G & _). unfold mret in G. injection G as _ <-.
    rewrite <- in_items, E in H. apply in_app in H as [H _]. apply (in_slice p) in H. intros t Et. rewrite Et in H. cbn [sl_items] in H. now apply in_items.
  - intros [= _ <-]. auto.
Qed.
Lemma in_excess l : all_in l -> all_in (excess l).
Proof.
  destruct l as [|x l]; [easy|]. rewrite in_cons. intros [H1 H2]. cbn [excess]. apply in_cons. split; [easy|].
  induction l as [|y l IH]; [constructor|]. apply in_cons in H2 as [H2 H3]. cbn [flat_map]. apply in_app. split; [|now apply IH].
  apply in_cons. split; [constructor; [easy|constructor]|]. apply in_cons. split; [easy|constructor].
Qed.
Lemma in_firstn n l : all_in l -> all_in (firstn n l).
Proof. intros H. rewrite <- (firstn_skipn n l) in H. now apply in_app in H as [H _]. Qed.
Lemma in_skipn n l : all_in l -> all_in (skipn n l).
Proof. intros H. rewrite <- (firstn_skipn n l) in H. now apply in_app in H as [_ H]. Qed.
Lemma in_gosub name wd args w l d : all_in args -> gosub_dest name wd args w = (l, Ok d) -> DestIn d.
Proof.
  intros H G. unfold gosub_dest in G. apply mbind_ok in G as (l1 & jd & l2 & E & G & _).
  assert (HJ : all_in jd).
  { destruct (Nat.ltb 3 (length args)).
    - apply mbind_ok in E as (? & ? & ? & _ & E & _). unfold mret in E.
      assert (E' : firstn 2 args ++ [vjoin (excess (skipn 2 args))] = jd) by congruence. rewrite <- E'. apply in_app. split; [now apply in_firstn|].
      apply in_cons. split; [|constructor]. rewrite vjoin_elems. now apply in_excess, in_skipn.
    - unfold mret in E. now injection E as _ <-. }
  assert (HP : Forall OptIn (pad3 (map Some jd))).
  { unfold pad3. apply Forall_app. split; [apply Forall_forall; intros x Hx; apply repeat_spec in Hx as ->; auto|].
    rewrite Forall_map. apply in_each in HJ. eapply Forall_impl; [|exact HJ]. intros; now apply opt_some. }
  destruct (pad3 (map Some jd)) as [|c [|e [|[p|] [|? ?]]]]; try discriminate G.
  apply mbind_ok in G as (l3 & s & l4 & E2 & G & _). unfold mret in G. injection G as _ <-.
  inversion HP as [|? ? H1 HP1]; subst. inversion HP1 as [|? ? H2 HP2]; subst. inversion HP2 as [|? ? H3 _]; subst.
  repeat split; cbn; auto. eapply in_prio; [|exact E2]. now apply H3.
Qed.
Lemma in_mmap {A} (f : A -> M dest) l : (forall x m d, In x l -> f x = (m, Ok d) -> DestIn d) -> forall m ds, mmap f l = (m, Ok ds) -> Forall DestIn ds.
Proof.
  induction l as [|x l IH]; intros H m ds E; cbn [mmap] in E; [unfold mret in E; injection E as _ <-; constructor|].
  apply mbind_ok in E as (? & d & ? & E1 & E & _). apply mbind_ok in E as (? & ds' & ? & E2 & E & _). unfold mret in E. injection E as _ <-.
  constructor; [eapply H; [now left|exact E1]|]. eapply IH; [|exact E2]. intros y m0 d0 Hy Ey. apply (H y m0 d0); [now right|easy].
Qed.
Lemma in_branches name data w l c t f : Forall P (elems data) -> varcond_args name data w = (l, Ok (c, t, f)) ->
  forall sl, In sl (branches t f) -> all_in (sl_items sl).
Proof.
  intros HD H sl Hsl. unfold branches in Hsl. apply filter_In in Hsl as [Hsl _].
  assert (A44 : all_in (separate_args (SlTok data) 44 false)) by (apply in_separate; now apply in_items).
  assert (A63 : all_in (separate_args (SlTok data) 63 true)) by (apply in_separate; now apply in_items).
  unfold varcond_args, if_args in H. apply mbind_ok in H as (l1 & [[c1 t1] f1] & l2 & H1 & H & _).
  apply mbind_ok in H as (? & ? & ? & _ & H & _). unfold mret in H. injection H as _ _ -> ->.
  apply mbind_ok in H1 as (l3 & [[c2 t2] f2] & l4 & H1 & H & _).
  apply mbind_ok in H as (? & ? & ? & _ & H & _). apply mbind_ok in H as (? & ? & ? & _ & H & _).
  unfold mret in H. injection H as _ _ -> ->.
  destruct (separate_args (SlTok data) 63 true) as [|q0 [|act more]].
  - destruct (separate_args (SlTok data) 44 false) as [|y0 more]; [easy|]. apply mbind_ok in H1 as (? & ? & ? & _ & H & _).
    unfold mret in H. injection H as _ _ <- <-. destruct Hsl as [<-|[]]. cbn [sl_items]. now apply in_cons in A44 as [_ A44].
  - destruct (separate_args (SlTok data) 44 false) as [|y0 more]; [easy|]. apply mbind_ok in H1 as (? & ? & ? & _ & H & _).
    unfold mret in H. injection H as _ _ <- <-. destruct Hsl as [<-|[]]. cbn [sl_items]. now apply in_cons in A44 as [_ A44].
  - apply mbind_ok in H1 as (? & ? & ? & _ & H & _). apply in_cons in A63 as [_ A63]. apply in_cons in A63 as [A63 _].
    assert (A58 : all_in (separate_args (SlTok act) 58 false)) by (apply in_separate; now apply in_items).
    destruct (separate_args (SlTok act) 58 false) as [|t' [|f' r]]; [easy| |]; unfold mret in H; injection H as _ _ <- <-.
    + apply in_cons in A58 as [A58 _]. destruct Hsl as [<-|[]]. now apply in_items.
    + apply in_cons in A58 as [A58 A]. apply in_cons in A as [A _]. destruct Hsl as [<-|[<-|[]]]; now apply in_items.
Qed.
Lemma in_call nested a data w l ds : Forall P (elems data) -> app_call U FT nested a data w = (l, Ok ds) -> Forall DestIn ds.
Proof.
  intros HD H. assert (A44 : all_in (separate_args (SlTok data) 44 false)) by (apply in_separate; now apply in_items).
  unfold app_call in H. destruct (a_kind a).
  1,2: apply mbind_ok in H as (? & ? & ? & _ & H & _); unfold mret in H; injection H as _ <-; constructor.
  - apply mbind_ok in H as (? & args & ? & E & H & _). apply mbind_ok in E as (? & ? & ? & _ & E & _). unfold mret in E. injection E as _ <-.
    apply mbind_ok in H as (? & ? & ? & _ & H & _). apply mbind_ok in H as (? & d & ? & E & H & _). unfold mret in H. injection H as _ <-.
    unfold mlift in E. injection E as _ E. constructor; [|constructor]. eapply in_goto; eauto.
  - apply mbind_ok in H as (? & [[c t] f] & ? & E & H & _). eapply in_mmap; [|exact H]. cbn beta. intros sl m d Hs Ed.
    unfold mlift in Ed. injection Ed as _ Ed. eapply in_goto; [|exact Ed]. apply in_separate. eapply in_branches; eauto.
  - apply mbind_ok in H as (? & ? & ? & _ & H & _); unfold mret in H; injection H as _ <-; constructor.
  - apply mbind_ok in H as (? & ? & ? & _ & H & _); apply mbind_ok in H as (? & ? & ? & _ & H & _); unfold mret in H; injection H as _ <-; constructor.
  - apply mbind_ok in H as (? & [[c t] f] & ? & _ & H & _). apply mbind_ok in H as (? & ? & ? & _ & H & _); unfold mret in H; injection H as _ <-; constructor.
  - apply mbind_ok in H as (? & args & ? & E & H & _). apply mbind_ok in E as (? & ? & ? & _ & E & _). unfold mret in E. injection E as _ <-.
    apply mbind_ok in H as (? & ? & ? & _ & H & _). apply mbind_ok in H as (? & d & ? & E & H & _). unfold mret in H. injection H as _ <-.
    constructor; [|constructor]. eapply in_gosub; eauto.
  - apply mbind_ok in H as (? & [[c t] f] & ? & E & H & _). eapply in_mmap; [|exact H]. cbn beta. intros sl m d Hs Ed.
    eapply in_gosub; [|exact Ed]. apply in_separate. eapply in_branches; eauto.
  - apply mbind_ok in H as (? & ? & ? & E & H & _).
    apply mbind_ok in H as (? & ? & ? & _ & H & _). apply mbind_ok in H as (? & ? & ? & _ & H & _). unfold mret in H; injection H as _ <-; constructor.
Qed.
End In.

Variable AT : atable.
Hypothesis HU : AsciiOk U.
Hypothesis HUF : lookup (L "unknown") FT <> None.
Hypothesis HUA : lookup (L "unknown") AT <> None.

Lemma app_dests raw w l ds : AsciiS raw -> SafeApp U FT AT raw -> application U FT AT raw w = (l, Ok ds) -> Forall (DestIn FmtE) ds.
Proof.
  intros HA HS H. unfold application in H. apply application_report in H as (l1 & l2 & name & data & r & H1 & H2 & H).
  destruct r as [n|]; [|destruct H as [-> _]; constructor]. destruct H as (a & l3 & d & l4 & nest & l5 & Ha & _ & Hp & Hc & _).
  assert (HC : Called U raw n data) by (now exists w, l1, l2, name).
  assert (HD : exists dl, DataOf U FT data dl).
  { destruct HS as [HN|n' data' a' dl HC' _ HD _ _ _|n' data' a' dl bs HC' _ HD _ _ _|n' data' a' dl x c HC' _ HD _ _ _].
    - now apply called_nameless in HC.
    - destruct (called_fun U _ _ _ _ _ HC HC') as [-> ->]. eauto.
    - destruct (called_fun U _ _ _ _ _ HC HC') as [-> ->]. eauto.
    - destruct (called_fun U _ _ _ _ _ HC HC') as [-> ->]. eauto. }
  destruct HD as [dl HD]. pose proof (called_ascii U _ _ _ HC HA) as HAd.
  destruct (inner_exact U FT HU HUF n data w HAd (data_noodd U FT HU _ _ HD)) as [(dl' & d' & l' & HD' & Ep & HCn & _)|[_ Hf]].
  - rewrite Ep in Hp. injection Hp as _ <-. eapply (in_call FmtE); [|rewrite (Canon_elems _ _ HCn); eapply data_fmt; eauto|exact Hc]. cbn. lia.
  - exfalso. apply Hf. now exists l4, d.
Qed.
Lemma jump_ok name raw p w d : mk_pattern raw = Ok p -> DestIn FmtE d -> exists j, mk_jump U name p w d = Ok j.
Proof.
  intros Hp (_ & He & Hq). destruct (example_ok _ _ Hp) as [ex Ex]. unfold mk_jump. rewrite Ex. cbn [bind].
  assert (E : exists e, match d_ext d with
            | Some t => if truthy t then match t with TS _ => Ok t | _ => match tformat (exten_env ex) t with Ok s => Ok (TS s) | Exn KeyError => Ok t | Exn e => Exn e | Hang => Hang end end
              else Ok (TS ex)
            | None => Ok (TS ex)
            end = Ok e).
  { destruct (d_ext d) as [t|] eqn:Ed; [|eauto]. destruct (truthy t); [|eauto].
    destruct (fmt_elems t (He t eq_refl) ex) as [[s E]|E]; rewrite E; destruct t; eauto. }
  destruct E as [e E]. rewrite E. cbn [bind].
  assert (Q : exists q, match d_prio d with
            | SlTok (TS s) => if sisdigit U s then let! z := int_of U s in Ok (JInt z) else Ok (JTok (TS s))
            | SlTok t => Ok (JTok t)
            | SlList l => Ok (JList l)
            end = Ok q).
  { destruct (d_prio d) as [t|l] eqn:Eq; [|eauto]. destruct t; eauto. destruct (sisdigit U s) eqn:Es; [|eauto].
    specialize (Hq _ eq_refl). rewrite elems_str, Forall_map in Hq. apply (isdigit_ascii U HU s Hq) in Es as [Es1 Es2].
    destruct (int_ok U HU s Es1 Es2) as [z ->]. cbn [bind]. eauto. }
  destruct Q as [q ->]. cbn [bind]. eauto.
Qed.
Lemma jumps_ok name raw p w ds : mk_pattern raw = Ok p -> Forall (DestIn FmtE) ds -> exists js, mk_jumps U name p w ds = Ok js.
Proof.
  intros Hp. induction 1 as [|d ds Hd _ [js IH]]; [now exists []|]. destruct (jump_ok name raw p w d Hp Hd) as [j E]. cbn [mk_jumps]. rewrite E, IH. cbn [bind]. eauto.
Qed.
End Tables.
