(* Proofs for C61: what is read. *)
From Coq Require Import ZifyBool ZifyN ZifyNat.
From Verif Require Import Base Utf8 PyStr Regex Defines FileRd Config VSpace Var VarFun AppM Dialplan Spec_File Spec_Include File_proofs Regex_proofs Include_proofs Flat_proofs FlatM_proofs FlatD_proofs.
Section Read.
Variable fs : fsys.
Local Notation Wh := (fun w : loc => NL (w_file w)).
Definition Msgs (ms : list msg) : Prop := Forall MsgOk ms.
Lemma P0 c w : NL (w_file w) -> mfields c = [] -> MsgOk (msg0 c w).
Proof. intros H E. split; [easy|]. unfold FieldsOk. cbn [m_cls msg0]. rewrite E. constructor. Qed.
Ltac p0 := apply P0; [assumption|reflexivity].
Ltac ms := unfold Msgs; repeat (first [apply Forall_nil | apply Forall_app; split | apply Forall_cons; [p0|]
   | match goal with |- Forall _ (match ?x with _ => _ end) => destruct x end ]).
Lemma wbind_snd {A B} (m : W A) (f : A -> W B) b : snd (wbind m f) = Ok b -> exists a, snd m = Ok a /\ snd (f a) = Ok b.
Proof. destruct m as [l [a|e|]]; cbn; try easy. intros H. now exists a. Qed.
Lemma wms_bind {A B} (m : W A) (f : A -> W B) : Msgs (fst m) -> (forall a, snd m = Ok a -> Msgs (fst (f a))) -> Msgs (fst (wbind m f)).
Proof. destruct m as [l [a|e|]]; cbn; intros H1 H2; [|easy|easy]. apply Forall_app. split; [easy|now apply H2]. Qed.

Definition FfOk (st : ffst) : Prop := Forall (fun e => NL (w_file (fe_where e))) (ff_info st).
Lemma pop_ok l stop : Forall (fun e => NL (w_file (fe_where e))) l -> Msgs (fst (ff_pop l stop)) /\
  forall l', snd (ff_pop l stop) = Ok l' -> Forall (fun e => NL (w_file (fe_where e))) l'.
Proof.
  induction 1 as [|e l HE F IH]; cbn [ff_pop].
  - split; [constructor|]. cbn. now intros ? [= <-].
  - assert (K1 : Msgs (fst (ff_pop1 e))).
    { unfold ff_pop1. destruct (fe_dos e), (fe_lf e); cbn; try constructor. destruct (b && b0); cbn; [ms|]. destruct (negb b && negb b0); cbn; ms. }
    destruct (match stop with Some f => _ | None => _ end); [cbn; split; [constructor|now intros ? [= <-]; constructor]|].
    split.
    + apply wms_bind; [exact K1|]. intros _ _. apply IH.
    + intros l' E. apply wbind_snd in E as (? & _ & E). now apply IH.
Qed.
Lemma enter_ok st w : NL (w_file w) -> FfOk st -> Msgs (fst (ff_enter st w)) /\ forall st', snd (ff_enter st w) = Ok st' -> FfOk st'.
Proof.
  intros H F. unfold ff_enter. destruct (ff_info st) as [|e l] eqn:EI.
  - split; [constructor|]. cbn. intros st' [= <-]. constructor; [easy|constructor].
  - destruct (str_eqb _ _); [split; [constructor|cbn; now intros st' [= <-]]|]. unfold FfOk in F. rewrite EI in F.
    destruct (existsb _ _).
    + destruct (pop_ok (e :: l) (Some (w_file w)) F) as [K1 K2]. split.
      * apply wms_bind; [exact K1|]. intros [|e' r] _; constructor.
      * intros st' E. apply wbind_snd in E as (l' & EL & E). specialize (K2 _ EL). destruct l' as [|e' r]; [discriminate|].
        cbn in E. now injection E as <-.
    + split; [constructor|]. cbn. intros st' [= <-]. now constructor.
Qed.
Lemma line_ok st w s : NL (w_file w) -> FfOk st -> Msgs (fst (ff_line st w s)) /\ forall st' d, snd (ff_line st w s) = Ok (st', d) -> FfOk st'.
Proof.
  intros H F. unfold ff_line. destruct (enter_ok st w H F) as [K1 K2]. split.
  - apply wms_bind; [exact K1|]. intros st1 _. destruct (ff_info st1); cbn zeta; cbn [fst]; ms.
  - intros st' d E. apply wbind_snd in E as (st1 & E1 & E). specialize (K2 _ E1). unfold FfOk in K2. destruct (ff_info st1); [discriminate|].
    cbn zeta in E. cbn [snd] in E. injection E as <- <-. constructor; [easy|]. now inversion K2.
Qed.
Lemma comment_ok s w : NL (w_file w) -> Msgs (fst (comment_line s w)).
Proof.
  intros H. assert (K : forall s, Msgs (fst (comment_split s w))).
  { intros s0. unfold comment_split. destruct (memb 92 s0).
    - destruct (lookback _ s0) as [[d k]| |]; try constructor. unfold move_middle_space. cbn [fst]. destruct k, (last_opt d); ms.
    - unfold simple_split. destruct (index_of 59 s0); cbn zeta; cbn [fst]; ms. }
  unfold comment_line. destruct (last_opt s); [|apply K]. destruct (isblank n); [|apply K].
  apply wms_bind; [cbn [fst]; ms|]. intros _ _. apply K.
Qed.
Lemma readline_ok st w b : NL (w_file w) -> FfOk st -> Msgs (fst (read_line st w b)) /\
  forall st' d k, snd (read_line st w b) = Ok (st', d, k) -> FfOk st'.
Proof.
  intros H F. unfold read_line. split.
  - apply wms_bind; [unfold decode_line; destruct (utf8_decode b); cbn [fst wret]; ms|]. intros s _.
    apply wms_bind; [unfold ctrl_msgs; cbn [fst]; ms|]. intros _ _. apply wms_bind; [now apply line_ok|]. intros [st' s'] _.
    apply wms_bind; [now apply comment_ok|]. intros [d k] _. constructor.
  - intros st' d k E. apply wbind_snd in E as (s & _ & E). apply wbind_snd in E as (? & _ & E). apply wbind_snd in E as ([st1 s1] & E1 & E).
    apply wbind_snd in E as ([d1 k1] & _ & E). cbn in E. injection E as <- _ _. now apply (proj2 (line_ok st w s H F) _ _ E1).
Qed.
Lemma data_ok st w b : nl_last b -> forall st' d k, snd (read_line st w b) = Ok (st', d, k) -> NL d.
Proof.
  intros N st' d k E. destruct (read_line st w b) as [l r] eqn:R. cbn [snd] in E. subst r. apply read_line_iff in R as (s & before & lf & after & body & LR & _ & _).
  destruct LR as (body' & e & text & bl & bare & l1 & l2 & l3 & D & He & Eb & B & NB & C & _). apply nl_in. apply (RawLine_no_nl b d k); [|easy].
  exists s, body', e, text, bl, bare. easy.
Qed.
Lemma mk_ctx_ok n t c b w : NL (w_file w) -> NL n -> Msgs (fst (mk_ctx n t c b w)) /\ CtxOk (snd (mk_ctx n t c b w)).
Proof. intros H N. unfold mk_ctx. cbn [fst snd]. split; [ms|now split]. Qed.
Lemma mk_var_ok n t s b w : NL (w_file w) -> NL t -> Msgs (fst (mk_varset n t s b w)) /\ VarOk (snd (mk_varset n t s b w)).
Proof.
  intros H N. unfold mk_varset. cbn zeta.
  destruct (str_eqb _ (L "=>")); [destruct (str_eqb s (L " => "))|destruct (str_eqb _ (L "=")); [destruct (str_eqb s (L "="))|]];
  destruct n as [|x n]; try (destruct (isblank x); [destruct (str_eqb _ (L "same"))|]); cbn [fst snd]; (split; [ms|now split]).
Qed.
Lemma seg_ok d r g n : NL d -> re_match r d = Some g -> NL (nth_seg n g).
Proof.
  intros N H. apply re_sound in H as (_ & t & -> & _). apply nl_app in N as [N _]. unfold nth_seg.
  destruct (Nat.lt_ge_cases n (length g)) as [K|K]; [|rewrite nth_overflow by easy; constructor].
  eapply nl_sub; [|exact N]. intros c C. apply in_concat. exists (nth n g []). split; [now apply nth_In|easy].
Qed.
Lemma classify_ok w d c ms e : NL (w_file w) -> NL d -> classify w d c = Some (ms, e) -> Msgs ms /\ ElemOk e.
Proof.
  intros H N. unfold classify.
  destruct (re_match re_tmpl d) as [g|] eqn:G1.
  { destruct (mk_ctx _ _ _ _ _) eqn:E. intros [= <- <-]. pose proof (mk_ctx_ok (nth_seg 2 g) (nth_seg 6 g) c (nth_seg 0 g) w H (seg_ok _ _ _ _ N G1)) as K. now rewrite E in K. }
  destruct (re_match re_ctx d) as [g|] eqn:G2.
  { destruct (mk_ctx _ _ _ _ _) eqn:E. intros [= <- <-]. pose proof (mk_ctx_ok (nth_seg 2 g) [] c (nth_seg 0 g) w H (seg_ok _ _ _ _ N G2)) as K. now rewrite E in K. }
  destruct (re_match re_obj d) as [g|] eqn:G3.
  { match goal with |- context [mk_varset ?a ?b ?x ?y ?z] => pose proof (mk_var_ok a b x y z H (seg_ok _ _ _ _ N G3)) as K; destruct (mk_varset a b x y z) end.
    intros [= <- <-]. exact K. }
  destruct (re_match re_var d) as [g|] eqn:G4.
  { match goal with |- context [mk_varset ?a ?b ?x ?y ?z] => pose proof (mk_var_ok a b x y z H (seg_ok _ _ _ _ N G4)) as K; destruct (mk_varset a b x y z) end.
    intros [= <- <-]. exact K. }
  destruct (re_match re_void d) as [g|]; [|easy]. intros [= <- <-]. split; [constructor|easy].
Qed.
Lemma bad_ok w t : NL (w_file w) -> MsgOk (bad_line w t).
Proof. intros H. split; [easy|fields]. Qed.
Lemma drop_last_sub {A} n (l : list A) c : In c (firstn (length l - n) l) -> In c l.
Proof. apply firstn_sub. Qed.
Lemma pp_ok w d : NL (w_file w) -> NL d -> Msgs (fst (preprocessor w d)) /\ forall t m, snd (preprocessor w d) = PPinclude t m -> NL t.
Proof.
  intros H N. unfold preprocessor. cbn zeta. assert (N1 : NL (lstrip_p isspace d)) by (eapply nl_sub; [|exact N]; intros c; apply lstrip_sub).
  revert N1. generalize (lstrip_p isspace d). intros text N1.
  assert (HX : forall c, MsgOk (Msg W_PP_EXEC w None [(L "cmd", AStr c)])).
  { intros c. split; [easy|fields]. }
  set (ms0 := if _ : bool then [msg0 W_WSH_BOL w] else []).
  assert (K0 : Msgs ms0) by (unfold ms0; ms).
  assert (KB : forall t, Msgs (fst (ms0 ++ [bad_line w t], PPnone)) /\ forall u m, snd (ms0 ++ [bad_line w t], PPnone) = PPinclude u m -> NL u).
  { intros t. cbn [fst snd]. split; [|easy]. apply Forall_app. split; [easy|]. constructor; [now apply bad_ok|constructor]. }
  set (q := if _ : bool then _ else _).
  assert (Q : OOk (fun s => NL s) (snd q)).
  { unfold q. repeat (destruct (startswith _ _); [cbn [OOk snd]; eapply nl_sub; [|exact N1]; intros c; apply skipn_sub|]). exact I. }
  clearbody q. destruct q as [cmd rest]. cbn [snd] in Q. destruct rest as [[|c rest]|]; try apply KB. cbn [OOk] in Q.
  destruct (32 <? c); [apply KB|]. assert (Q2 : NL (lstrip_p (fun c => c <=? 32) (c :: rest))) by (eapply nl_sub; [|exact Q]; intros x; apply lstrip_sub).
  destruct (lstrip_p _ _) as [|a r']; [apply KB|].
  set (ms1 := if _ : bool then [msg0 W_WSH_CTRL w] else []). assert (KM1 : Msgs ms1) by (unfold ms1; ms).
  set (z := match _ with Some z => z | None => a end). clearbody z ms0 ms1.
  assert (KX : forall ms2 arg, Msgs ms2 -> NL arg -> let r := (if str_eqb cmd (L "#exec") then
          ((ms0 ++ ms1 ++ ms2) ++ [Msg W_PP_EXEC w None [(L "cmd", AStr arg)]], PPnone)
        else if str_eqb cmd (L "#include") then (ms0 ++ ms1 ++ ms2, PPinclude arg true)
        else if str_eqb cmd (L "#tryinclude") then (ms0 ++ ms1 ++ ms2, PPinclude arg false)
        else (ms0 ++ ms1 ++ ms2, PPnone)) in Msgs (fst r) /\ forall t m, snd r = PPinclude t m -> NL t).
  { intros ms2 arg KM2 NA. cbv zeta. assert (KA : Msgs (ms0 ++ ms1 ++ ms2)) by (apply Forall_app; split; [easy|apply Forall_app; now split]).
    destruct (str_eqb _ _); [cbn [fst snd]; split; [apply Forall_app; split; [easy|constructor; [apply HX|constructor]]|easy]|].
    destruct (str_eqb _ _); [cbn [fst snd]; split; [exact KA|now intros t m [= <- _]]|].
    destruct (str_eqb _ _); cbn [fst snd]; (split; [exact KA|try easy]). now intros t m [= <- _]. }
  assert (NU : NL (FileRd.drop_last 1 (skipn 1 (a :: r')))).
  { eapply nl_sub; [|exact Q2]. intros x X. apply firstn_sub, skipn_sub in X. exact X. }
  destruct (_ && _); [apply KX; [constructor|exact NU]|]. destruct (_ && _); [apply KX; [constructor|exact NU]|]. destruct (_ || _); apply KX; try exact Q2; [ms|constructor].
Qed.
Lemma parseline_ok w d k : NL (w_file w) -> NL d -> Msgs (fst (parse_line w d k)) /\ (forall e, snd (parse_line w d k) = PElem e -> ElemOk e) /\
  forall t m, snd (parse_line w d k) = PAct (PPinclude t m) -> NL t.
Proof.
  intros H N. unfold parse_line. cbn zeta. destruct (classify w d _) as [[ms0 e]|] eqn:E.
  - apply classify_ok in E as [E1 E2]; [|easy|easy]. cbn [fst snd]. split; [easy|]. split; [now intros ? [= <-]|easy].
  - assert (KB : Msgs (fst ([bad_line w d], PAct PPnone)) /\ (forall e, snd ([bad_line w d], PAct PPnone) = PElem e -> ElemOk e) /\
      forall t m, snd ([bad_line w d], PAct PPnone) = PAct (PPinclude t m) -> NL t).
    { split; [constructor; [now apply bad_ok|constructor]|easy]. }
    destruct (lstrip_p isspace d) as [|c r]; [exact KB|].
    assert (KP : Msgs (fst (let (ms, a) := preprocessor w d in (ms, PAct a))) /\ (forall e, snd (let (ms, a) := preprocessor w d in (ms, PAct a)) = PElem e -> ElemOk e) /\
      forall t m, snd (let (ms, a) := preprocessor w d in (ms, PAct a)) = PAct (PPinclude t m) -> NL t).
    { pose proof (pp_ok w d H N) as [K1 K2]. destruct (preprocessor w d). cbn [fst snd] in *. split; [easy|]. split; [easy|]. intros t m [= ->]. now apply (K2 t m). }
    destruct c as [|c]; [exact KB|]. do 6 (destruct c as [c|c|]; try exact KB; try exact KP).
Qed.
Lemma join_ok a b : NL a -> NL b -> NL (path_join a b).
Proof.
  intros H K. unfold path_join. destruct (startswith _ _); [easy|].
  destruct (last_opt _) as [x|]; [destruct (is_slash x)|easy]; repeat (apply nl_app; split); try easy; nlit.
Qed.
Lemma slash_sub c s : In c (upto_last_slash s) -> In c s.
Proof.
  induction s as [|x s IH]; [easy|]. cbn [upto_last_slash]. destruct (upto_last_slash s) as [|y r].
  - destruct (is_slash x); [|easy]. intros [<-|[]]. now left.
  - intros [<-|K]; [now left|]. right. now apply IH.
Qed.
Lemma dirname_ok a : NL a -> NL (dirname a).
Proof.
  intros H. eapply nl_sub; [|exact H]. intros c. unfold dirname. cbv zeta. destruct (forallb _ _); [apply slash_sub|].
  intros K. apply rstrip_sub in K. now apply slash_sub.
Qed.
Definition FrOk (f : frame) : Prop := NL (Config.f_name f) /\ Forall nl_last (f_rest f).
Lemma lines_nl b : Forall nl_last (lines_of b).
Proof. exact (Lines_nl _ _ (lines_of_Lines b)). Qed.
Lemma inc_ok w t b : NL (w_file w) -> NL t -> Msgs (fst (do_include fs w t b)) /\ forall f, snd (do_include fs w t b) = Ok (Some f) -> FrOk f.
Proof.
  intros H T. unfold do_include, open_frame. destruct (fs (include_path w t)) as [x|e|] eqn:E; cbn [bind].
  - split; [constructor|]. cbn. intros f [= <-]. split; [|apply lines_nl]. apply join_ok; [now apply dirname_ok|easy].
  - destruct e; (split; [|easy]); try constructor. destruct b; [|constructor]. constructor; [|constructor].
    split; [easy|fields].
  - split; [constructor|easy].
Qed.
Lemma evmsgs ms : Msgs ms -> Forall EvOk (map EvMsg ms).
Proof. intros H. apply Forall_map. exact H. Qed.
Lemma read_ok fuel : forall stk ff, Forall FrOk stk -> FfOk ff -> Forall EvOk (fst (read fuel fs stk ff)).
Proof.
  induction fuel as [|n IH]; intros stk ff HS HF; cbn [read]; [constructor|].
  destruct HS as [|f stk HFr HS].
  - unfold ff_finish. pose proof (pop_ok (ff_info ff) None HF) as [K _].
    pose proof (wms_bind (ff_pop (ff_info ff) None) (fun _ => wret tt) K (fun _ _ => Forall_nil _)) as K'.
    destruct (wbind _ _) as [l r]. cbn [fst] in *. now apply evmsgs.
  - destruct f as [name no [|b bs]]; [now apply IH|]. cbn zeta.
    destruct HFr as (E1 & E2). cbn [Config.f_name f_rest] in *. inversion E2 as [|? ? E3 E4]; subst.
    set (w := Where name (no + 1) b). assert (HW : NL (w_file w)) by exact E1.
    assert (HS1 : Forall FrOk (Frame name (no + 1) bs :: stk)) by (constructor; [now split|easy]).
    destruct (readline_ok ff w b HW HF) as [K1 K2]. pose proof (data_ok ff w b E3) as KD.
    destruct (read_line ff w b) as [ms1 [[[ff' data] comment]|e|]]; cbn [fst snd] in *; try now apply evmsgs.
    specialize (K2 _ _ _ eq_refl). specialize (KD _ _ _ eq_refl). destruct (parseline_ok w data comment HW KD) as (K3 & K4 & K7). destruct (parse_line w data comment) as [ms2 p].
    cbn [fst snd] in *.
    assert (HP : Forall EvOk (map EvMsg ms1 ++ EvLine w data comment :: map EvMsg ms2)).
    { apply Forall_app. split; [now apply evmsgs|]. constructor; [exact I|now apply evmsgs]. }
    destruct p as [e|[|target must]].
    + specialize (IH _ _ HS1 K2). destruct (read n fs _ ff'). cbn [fst] in *. apply Forall_app. split; [easy|]. constructor; [|easy].
      exact (K4 e eq_refl).
    + specialize (IH _ _ HS1 K2). destruct (read n fs _ ff'). cbn [fst] in *. apply Forall_app. now split.
    + destruct (inc_ok w target must HW (K7 _ _ eq_refl)) as [K5 K6]. destruct (do_include fs w target must) as [ms3 [[f|]|e|]]; cbn [fst snd] in *.
      * specialize (K6 f eq_refl).
        assert (HS2 : Forall FrOk (f :: Frame name (no + 1) bs :: stk)) by now constructor.
        specialize (IH _ _ HS2 K2). destruct (read n fs _ ff'). cbn [fst] in *. apply Forall_app. split; [easy|]. apply Forall_app. split; [now apply evmsgs|easy].
      * specialize (IH _ _ HS1 K2). destruct (read n fs _ ff'). cbn [fst] in *. apply Forall_app. split; [easy|]. apply Forall_app. split; [now apply evmsgs|easy].
      * apply Forall_app. split; [easy|now apply evmsgs].
      * apply Forall_app. split; [easy|now apply evmsgs].
Qed.
Lemma parse_file_ok fuel name : NL name -> Forall EvOk (fst (parse_file fuel fs name)).
Proof.
  intros N. unfold parse_file, open_frame. destruct (fs name) as [b|e|] eqn:E; cbn [bind]; try constructor. apply read_ok; [|constructor].
  constructor; [|constructor]. split; [easy|apply lines_nl].
Qed.

Definition BlOk (b : VSpace.blank) : Prop := NL (w_file (snd b)).
Definition VcOk (v : vctx) : Prop := Forall BlOk (vc_blanks v).
Definition GrOk (g : list (bool * list VSpace.blank)) : Prop := Forall (fun x => Forall BlOk (snd x)) g.
Lemma add_blank_ok l b : BlOk b -> GrOk l -> GrOk (add_blank l b).
Proof.
  intros HB. induction 1 as [|[c g] r HG F IH]; cbn [add_blank]; [constructor; [constructor; [exact HB|constructor]|constructor]|].
  destruct r; [|now constructor]. destruct (Bool.eqb c (fst b)).
  - constructor; [|constructor]. cbn in *. apply Forall_app. auto.
  - constructor; [easy|]. constructor; [|constructor]. cbn. auto.
Qed.
Lemma group_ok bs : Forall BlOk bs -> GrOk (group_blanks bs).
Proof.
  unfold group_blanks. generalize (@Forall_nil _ (fun x : bool * list VSpace.blank => Forall BlOk (snd x))). fold (GrOk []). generalize (@nil (bool * list VSpace.blank)).
  intros l HL F. revert l HL. induction F as [|b bs HB F IH]; intros l HL; cbn; [easy|]. apply IH. now apply add_blank_ok.
Qed.
Lemma blanks_ev g : Forall BlOk g -> Forall EvOk (map ev_blank g).
Proof. intros F. apply Forall_map. eapply Forall_impl; [|exact F]. now intros [c w]. Qed.
Lemma last_opt_In {A} (l : list A) x : last_opt l = Some x -> In x l.
Proof.
  induction l as [|a l IH]; cbn; [easy|]. destruct l; [intros [= <-]; now left|]. intros H. right. now apply IH.
Qed.
Lemma last_ok {A} (Q : A -> Prop) l x : Forall Q l -> last_opt l = Some x -> Q x.
Proof. rewrite Forall_forall. intros F H. apply F. now apply last_opt_In. Qed.
Definition wsv (c : mcls) : Prop := c = H_WSV_CTX_BETWEEN \/ c = H_WSV_VARSET_BETWEEN \/ c = W_WSV_BOF \/ c = W_WSV_EOF.
Lemma wsv_ok c w : wsv c -> NL (w_file w) -> EvOk (EvMsg (msg0 c w)).
Proof. intros [->|[->|[->| ->]]] H; cbn; p0. Qed.
Lemma between_ok c n g : wsv c -> Forall BlOk (snd g) -> Forall EvOk (between_events c n g).
Proof.
  destruct g as [h bs]. cbn [snd]. intros HC F. unfold between_events. apply Forall_app. split; [|now apply blanks_ev].
  destruct (_ && _); [|constructor]. destruct (last_opt bs) eqn:E; [|constructor]. constructor; [|constructor]. apply wsv_ok; [easy|].
  apply (last_ok BlOk bs b F E).
Qed.
Lemma flat_ok c n g : wsv c -> GrOk g -> Forall EvOk (flat_map (between_events c n) g).
Proof. intros HC. induction 1 as [|x g HX F IH]; cbn; [constructor|]. apply Forall_app. split; [now apply between_ok|easy]. Qed.
Lemma flush_ok v w c n m : VcOk v -> NL (w_file w) -> wsv c -> Forall EvOk (flush_blanks v w c n m).
Proof.
  intros HV HW HC. unfold flush_blanks. cbn zeta. destruct (_ <? _)%nat.
  - constructor; [now apply wsv_ok|now apply blanks_ev].
  - pose proof (group_ok _ HV) as HG. destruct (vc_blanks v) eqn:EB; [constructor|]. rewrite <- EB in *. clear EB.
    destruct (vc_bof v); [|cbn; now apply flat_ok].
    destruct HG as [|[[] g] r HX HG]; [constructor|apply flat_ok; [easy|now constructor]|]. destruct g as [|b' g]; [apply flat_ok; [easy|now constructor]|].
    apply Forall_app. split; [|now apply flat_ok]. constructor; [|now apply blanks_ev]. apply wsv_ok; [unfold wsv; auto|].
    cbn in HX. inversion HX as [|? ? HB _]. exact HB.
Qed.
Lemma handle_ok v e : VcOk v -> ElemOk e -> VcOk (fst (vctx_handle v e)) /\ Forall EvOk (snd (vctx_handle v e)).
Proof.
  intros HV HW. destruct e as [c w|c|x]; cbn [vctx_handle fst snd] in *.
  - split; [|constructor]. unfold VcOk. cbn. apply Forall_app. split; [easy|]. constructor; [exact HW|constructor].
  - split; [constructor|]. apply Forall_app. split; [apply flush_ok; [easy|apply HW|unfold wsv; auto]|]. constructor; [exact HW|constructor].
  - split; [constructor|]. apply Forall_app. split; [apply flush_ok; [easy|apply HW|unfold wsv; auto]|]. constructor; [exact HW|constructor].
Qed.
Lemma eof_ok v r : VcOk v -> Forall EvOk (vctx_eof v r).
Proof.
  intros HV. unfold vctx_eof. cbn zeta. pose proof (group_ok _ HV) as HG. unfold VcOk in HV. destruct (vc_blanks v) as [|b bs]; [constructor|].
  assert (K : forall rest eb, GrOk rest -> Forall BlOk eb -> Forall EvOk (flat_map (between_events H_WSV_CTX_BETWEEN 2) rest ++
     (match eb, r with | _ :: _, true => map ev_blank eb ++ match last_opt (b :: bs) with Some b => [EvMsg (msg0 W_WSV_EOF (snd b))] | None => [] end | _, _ => [] end))).
  { intros rest eb H1 H2. apply Forall_app. split; [apply flat_ok; [unfold wsv; auto|easy]|]. destruct eb; [constructor|]. destruct r; [|constructor].
    apply Forall_app. split; [now apply blanks_ev|]. destruct (last_opt (b :: bs)) eqn:E; [|constructor]. constructor; [|constructor].
    apply wsv_ok; [unfold wsv; auto|]. apply (last_ok BlOk _ _ HV E). }
  destruct (last_opt (group_blanks (b :: bs))) as [[[] g]|] eqn:E; try exact (K _ [] HG (Forall_nil _)). refine (K _ g _ _).
  - unfold GrOk in *. rewrite Forall_forall in *. intros x HX. apply HG. clear - HX. revert HX. generalize (group_blanks (b :: bs)). intros l.
    induction l as [|a l IH]; cbn; [easy|]. destruct l; [easy|]. intros [<-|HX]; [now left|right; now apply IH].
  - apply (last_ok _ _ _ HG E).
Qed.
Lemma vpop_ok l f : Forall VcOk l -> Forall EvOk (fst (vstack_pop l f)) /\ Forall VcOk (snd (vstack_pop l f)).
Proof.
  induction 1 as [|v l HV F IH]; cbn [vstack_pop]; [split; constructor|]. destruct (str_eqb _ _); [split; [constructor|now constructor]|].
  destruct (vstack_pop l f). cbn [fst snd] in *. split; [|easy]. apply Forall_app. split; [now apply eof_ok|easy].
Qed.
Lemma vhandle_ok l e : Forall VcOk l -> ElemOk e -> Forall EvOk (fst (vstack_handle l e)) /\ Forall VcOk (snd (vstack_handle l e)).
Proof.
  intros F H. unfold vstack_handle. cbn zeta.
  assert (K : forall evs l1, Forall EvOk evs -> Forall VcOk l1 ->
    Forall EvOk (fst (match l1 with v :: r => let (v', evs') := vctx_handle v e in (evs ++ evs', v' :: r) | [] => (evs, []) end)) /\
    Forall VcOk (snd (match l1 with v :: r => let (v', evs') := vctx_handle v e in (evs ++ evs', v' :: r) | [] => (evs, []) end))).
  { intros evs l1 H1 H2. destruct H2 as [|v r HV H2]; [split; [easy|constructor]|]. destruct (handle_ok v e HV H) as [K1 K2].
    destruct (vctx_handle v e). cbn [fst snd] in *. split; [apply Forall_app; now split|now constructor]. }
  destruct (existsb _ _).
  - destruct (vpop_ok l (w_file (e_where e)) F) as [K1 K2]. destruct (vstack_pop l _). now apply K.
  - refine (K [] (_ :: l) (Forall_nil _) _). constructor; [constructor|easy].
Qed.
Lemma veof_ok l : Forall VcOk l -> forall b, Forall EvOk (vstack_eof l b).
Proof. induction 1 as [|v l HV F IH]; intros b; cbn [vstack_eof]; [constructor|]. apply Forall_app. split; [now apply eof_ok|apply IH]. Qed.
Lemma vsw_ok evs : Forall EvOk evs -> forall l, Forall VcOk l -> Forall EvOk (fst (vsw l evs)) /\ Forall VcOk (snd (vsw l evs)).
Proof.
  induction 1 as [|ev evs HE F IH]; intros l HL; cbn [vsw]; [split; [constructor|easy]|]. destruct ev as [w d k|m|e].
  - specialize (IH l HL). destruct (vsw l evs). cbn [fst snd] in *. split; [now constructor|easy].
  - specialize (IH l HL). destruct (vsw l evs). cbn [fst snd] in *. split; [now constructor|easy].
  - destruct (vhandle_ok l e HL HE) as [K1 K2]. destruct (vstack_handle l e) as [out l']. cbn [fst snd] in *. specialize (IH l' K2).
    destruct (vsw l' evs). cbn [fst snd] in *. split; [apply Forall_app; now split|easy].
Qed.
Lemma stream_ok fuel name : NL name -> Forall EvOk (fst (vsw_stream (parse_file fuel fs name))).
Proof.
  intros HN. unfold vsw_stream. destruct (vsw_ok _ (parse_file_ok fuel name HN) [] (Forall_nil _)) as [K1 K2].
  destruct (vsw [] (fst (parse_file fuel fs name))) as [out l]. cbn [fst snd] in *. destruct (snd (parse_file fuel fs name)) as [[]|e|]; cbn [fst]; try easy.
  apply Forall_app. split; [easy|now apply veof_ok].
Qed.
End Read.
