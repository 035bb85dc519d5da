(* Proofs for C66: make_patterns_canonical from the bytes of the files. *)
From Coq Require Import ZifyBool ZifyN ZifyNat Permutation Sorting.Sorted.
From Verif Require Import Base PyStr Utf8 Defines FileRd Config VSpace Pattern VarFun AppM Dialplan Commands Mutator MakeCanon
  Spec_Pattern Spec_VarFun Spec_Dialplan Spec_Commands Spec_CmdLs Spec_File Spec_Config Spec_Reader Spec_Log Spec_Run Spec_Mutator Spec_MakeCanon.
From Verif Require Loader_proofs Dialplan_proofs Commands_proofs Ident_proofs Log_proofs Run_proofs Whole_proofs Pattern_proofs Utf8_proofs File_proofs Mutator_proofs.

(* ---- the files ---- *)
Lemma opens d : Opens d (disk_fs d).
Proof.
  intros p. unfold disk_fs. assert (E : existsb (N.eqb 0) p = true <-> In 0 p).
  { rewrite existsb_exists. split; [intros (x & I & H); apply N.eqb_eq in H; now subst|intros I; exists 0; split; [easy|apply N.eqb_refl]]. }
  destruct (existsb (N.eqb 0) p).
  - split; [easy|]. intros H. elim H. now apply E.
  - split; [intros H; apply E in H; discriminate|]. intros _. unfold content. destruct (resolve max_links d p) as [q|]; [|easy]. destruct (d q) as [[]|]; easy.
Qed.

(* ---- expected patterns can be encoded ---- *)
Definition low (l : list N) : Prop := Forall (fun c => c < 1024) l.
Lemma low_enc s : low s -> exists b, utf8_encode s = Ok b.
Proof.
  intros H. apply Utf8_proofs.utf8_encode_total. eapply Forall_impl; [|exact H]. intros c K. cbv beta in K. unfold Utf8_proofs.is_scalar, in_rng. lia.
Qed.
Lemma land_low n : N.land n 0xff < 256.
Proof. change 0xff with (N.ones 8). rewrite N.land_ones. apply N.mod_lt. discriminate. Qed.
Lemma shift_low n : N.shiftr (N.land n 0xff00) 8 < 256.
Proof.
  rewrite N.shiftr_land. change (N.shiftr 0xff00 8) with (N.ones 8). rewrite N.land_ones. apply N.mod_lt. discriminate.
Qed.
Definition bytes_only (l : list N) : Prop := Forall (fun c => c < 256) l.
Lemma run_at_in f l : forall i j, run_at f i l = S j -> In (f + i + N.of_nat j) l.
Proof.
  induction l as [|x l IH]; intros i j; cbn [run_at]; [easy|]. destruct (N.eqb_spec x (f + i)) as [->|_]; [|easy]. intros [= E].
  destruct j as [|j]; [left; lia|]. apply IH in E. right. replace (f + i + N.of_nat (S j)) with (f + (i + 1) + N.of_nat j) by lia. exact E.
Qed.
Definition range_low (r : crange) : Prop := match r with CSingle a => a < 256 | CRange a b => a < 256 /\ b < 256 end.
Lemma get_ranges_low k : forall l, bytes_only l -> Forall range_low (get_ranges k l).
Proof.
  induction k as [|k IH]; intros l H; cbn [get_ranges]; [constructor|]. destruct l as [|f rest]; [constructor|]. cbv zeta.
  inversion H as [|? ? H1 H2]; subst. destruct (2 <=? run_at f 1 rest)%nat eqn:E; [|constructor; [exact H1|now apply IH]]. constructor.
  - split; [easy|]. destruct (run_at f 1 rest) as [|j] eqn:R; [easy|]. apply run_at_in in R. unfold bytes_only in H2. rewrite Forall_forall in H2. apply H2 in R. lia.
  - apply IH. unfold bytes_only in *. rewrite Forall_forall in *. intros x I. apply H2. rewrite <- (firstn_skipn (run_at f 1 rest) rest). apply in_or_app. now right.
Qed.
Lemma sort_low l : Forall range_low l -> Forall range_low (crange_sort l).
Proof.
  assert (I : forall r l, range_low r -> Forall range_low l -> Forall range_low (crange_insert r l)).
  { intros r. induction 2 as [|x l' Hx Hl IH]; cbn [crange_insert]; [now repeat constructor|]. destruct (_ <=? _); repeat (constructor; try easy). }
  induction 1 as [|r l' H H' IH]; cbn [crange_sort]; [constructor|]. now apply I.
Qed.
Lemma nrange_len_in k : forall a x, In x (nrange_len a k) -> a <= x < a + N.of_nat k.
Proof. induction k as [|k IH]; intros a x; cbn [nrange_len]; [easy|]. intros [<-|H]; [lia|]. apply IH in H. lia. Qed.
Lemma nrange_low a b : a < 256 -> b < 256 -> low (nrange a b).
Proof. intros HA HB. apply Forall_forall. intros x I. unfold nrange in I. apply nrange_len_in in I. lia. Qed.
Lemma remove1_low x l : bytes_only l -> bytes_only (remove1 x l).
Proof. induction 1 as [|y l H H' IH]; cbn [remove1]; [constructor|]. destruct (x =? y); [easy|now constructor]. Qed.
Lemma add_range_low s : bytes_only s -> low (canonical_add_range s).
Proof.
  intros H. unfold canonical_add_range. cbv zeta.
  assert (R : forall (b : bool) x l, bytes_only l -> bytes_only (if b then remove1 x l else l)) by (intros [] x l; [apply remove1_low|easy]).
  set (b1 := if memb 0x2d s then remove1 0x2d s else s). assert (H1 : bytes_only b1) by now apply R.
  set (b2 := if memb 0x5d b1 then remove1 0x5d b1 else b1). assert (H2 : bytes_only b2) by now apply R.
  assert (K : low (List.concat (map crange_bytes (crange_sort (get_ranges (List.length b2) b2))))).
  { pose proof (sort_low _ (get_ranges_low (List.length b2) b2 H2)) as F. clear -F. induction F as [|r l R F IH]; cbn [map List.concat]; [constructor|].
    apply Forall_app. split; [|exact IH]. destruct r as [a|a b]; cbn [range_low crange_bytes] in *; [repeat constructor; lia|]. cbv zeta.
    destruct (_ <=? 3); [now apply nrange_low|repeat constructor; lia]. }
  unfold low in *. rewrite !Forall_app. repeat split; try (repeat constructor; lia).
  - destruct (memb 0x5d b1); repeat constructor; lia.
  - exact K.
  - destruct (memb 0x2d s); repeat constructor; lia.
Qed.
Definition VLow (v : value) : Prop := match snd v with Some s => bytes_only s | None => True end.
Lemma value_low v : VLow v -> low (canonical_value v).
Proof.
  destruct v as [n [s|]]; unfold VLow; cbn [snd canonical_value]; [apply add_range_low|]. intros _. cbv zeta.
  pose proof (land_low n) as H1. pose proof (shift_low n) as H2.
  repeat match goal with |- low (if ?b then _ else _) => destruct b end; repeat constructor; lia.
Qed.
Lemma used_low k : forall l, (length l <= k)%nat -> bytes_only l -> bytes_only (range_used l).
Proof.
  induction k as [|k IH]; intros l Hl H; [destruct l; [constructor|cbn in Hl; lia]|].
  destruct l as [|a [|m [|b rest]]]; try exact H.
  change (range_used (a :: m :: b :: rest)) with (if m =? 0x2d then (if b <? a then nrange b a else nrange a b) ++ range_used rest else a :: range_used (m :: b :: rest)).
  inversion H as [|? ? H1 H2]; subst. inversion H2 as [|? ? H3 H4]; subst. inversion H4 as [|? ? H5 H6]; subst.
  destruct (m =? 0x2d).
  - apply Forall_app. split; [|apply IH; [cbn in Hl; lia|easy]]. apply Forall_forall. intros x I. destruct (b <? a) eqn:E; unfold nrange in I; apply nrange_len_in in I; lia.
  - constructor; [easy|]. apply IH; [cbn in *; lia|easy].
Qed.
Lemma range_list_low l v : bytes_only l -> parse_range_list l = Ok v -> VLow v.
Proof.
  intros H. unfold parse_range_list. pose proof (used_low _ l (le_n _) H) as F. pose proof (Pattern_proofs.sorted_set_In (range_used l)) as I.
  set (s := sorted_set (range_used l)) in *. assert (K : bytes_only s).
  { unfold bytes_only in *. rewrite Forall_forall in *. intros x X. apply F. now apply I. }
  clearbody s. cbv zeta. destruct s as [|f r]; [easy|]. destruct (_ && _); intros [= <-]; [exact K|exact Logic.I].
Qed.
Lemma cut_rb_sub l a b : cut_rbracket l = Some (a, b) -> forall c, In c a \/ In c b -> In c l.
Proof.
  revert a b. induction l as [|x l IH]; intros a b; cbn [cut_rbracket]; [easy|]. destruct (x =? 0x5d); [intros [= <- <-] c [[]|H]; now right|].
  destruct (cut_rbracket l) as [[a' b']|]; [|easy]. intros [= <- <-] c [[->|H]|H]; [now left|right; apply (IH a' b'); tauto|right; apply (IH a' b'); tauto].
Qed.
Lemma pattern_b_low k : forall l vs, bytes_only l -> parse_pattern_b k l = Ok vs -> Forall VLow vs.
Proof.
  induction k as [|k IH]; intros l vs HB; cbn [parse_pattern_b]; [easy|]. destruct l as [|x l].
  - intros [= <-]. repeat constructor.
  - inversion HB as [|? ? B1 B2]; subst. pose proof (IH l) as IHl.
    assert (G : forall n, (let! r := parse_pattern_b k l in Ok ((n, None) :: r)) = Ok vs -> Forall VLow vs).
    { intros n E. destruct (parse_pattern_b k l) as [r| |]; cbn [bind] in E; try easy. injection E as <-. constructor; [exact I|now apply IHl]. }
    destruct (x =? 0x2d); [now apply IHl|]. destruct (_ || _); [apply G|]. destruct (_ || _); [apply G|]. destruct (_ || _); [apply G|].
    destruct (x =? 0x2e); [apply G|]. destruct (x =? 0x21); [apply G|]. destruct (x =? 0x5b); [|apply G].
    destruct (cut_rbracket l) as [[a b]|] eqn:C; [|easy]. pose proof (cut_rb_sub _ _ _ C) as Sub.
    destruct (parse_range_list a) as [v| |] eqn:E; cbn [bind]; try easy. destruct (parse_pattern_b k b) as [r| |] eqn:E2; cbn [bind]; try easy. intros [= <-].
    unfold bytes_only in B2. rewrite Forall_forall in B2. constructor.
    + apply (range_list_low a); [apply Forall_forall; auto|easy].
    + apply (IH b); [apply Forall_forall; auto|easy].
Qed.
Lemma drop_last_In {A} (l : list A) x : In x (drop_last l) -> In x l.
Proof. unfold drop_last. induction l as [|y l IH]; cbn; [easy|]. destruct l; [easy|]. intros [->|H]; [now left|right; now apply IH]. Qed.
Lemma parse_low raw v : parse raw = Ok v -> Forall VLow (pvals v).
Proof.
  unfold parse. destruct raw as [|c rest]; [easy|]. destruct (c =? 0x5f).
  - unfold parse_pattern. destruct (utf8_encode rest) as [b| |] eqn:E; cbn [bind]; try easy. destruct (parse_pattern_b _ b) as [vs| |] eqn:P; cbn [bind]; try easy.
    intros [= <-]. cbn [pvals]. apply pattern_b_low in P; [easy|]. eapply Forall_impl; [|exact (Utf8_proofs.utf8_encode_bytes _ _ E)]. cbn. lia.
  - destruct (utf8_encode (c :: rest)) as [b| |]; cbn [bind]; try easy. intros [= <-]. cbn [pvals]. apply Forall_map. apply Forall_forall. intros x _. exact I.
Qed.
Lemma canonical_low v : Forall VLow (pvals v) -> low (canonical v).
Proof.
  intros H. unfold canonical. assert (M : forall l : list value, low (map (fun v => N.land (fst v) 0xff) l)).
  { intros l. apply Forall_map, Forall_forall. intros x _. pose proof (land_low (fst x)). lia. }
  destruct (_ =? _); [apply M|]. destruct (_ && _); [apply M|]. constructor; [lia|].
  assert (F : Forall VLow (drop_last (pvals v))) by (rewrite Forall_forall in *; intros x X; apply H; now apply drop_last_In).
  induction F as [|x l X F IH]; cbn [map List.concat]; [constructor|]. apply Forall_app. split; [now apply value_low|exact IH].
Qed.
Lemma pattern_enc raw p : mk_pattern raw = Ok p -> praw p = raw /\ (exists a, Utf8 raw a) /\ exists b, Utf8 (canonical (pv p)) b.
Proof.
  unfold mk_pattern. destruct (parse raw) as [v| |] eqn:E; cbn [bind]; try easy. intros [= <-]. cbn [praw pv]. split; [easy|]. split.
  - assert (X : exists v, parse raw = Ok v) by now exists v. apply Pattern_proofs.parse_ok_iff in X as (_ & V & _). apply Pattern_proofs.valid_encode in V as [b B].
    exists b. now apply File_proofs.Utf8_encode.
  - apply parse_low, canonical_low, low_enc in E as [b B]. exists b. now apply File_proofs.Utf8_encode.
Qed.

(* ---- where hints come from ---- *)
Definition is_hint (m : msg) : bool := match m_cls m with H_PAT_NON_CANONICAL => true | _ => false end.
Lemma is_hint_iff m : is_hint m = true <-> Hint m.
Proof. unfold is_hint, Hint. destruct (m_cls m); split; easy. Qed.
Definition hint_msgs (l : list lev) : list msg := filter is_hint (log_msgs l).
Lemma log_msgs_app a b : log_msgs (a ++ b) = log_msgs a ++ log_msgs b.
Proof. apply flat_map_app. Qed.
Lemma hint_app a b : hint_msgs (a ++ b) = hint_msgs a ++ hint_msgs b.
Proof. unfold hint_msgs. now rewrite log_msgs_app, filter_app. Qed.
Definition quiet (l : list lev) : Prop := hint_msgs l = [].
Lemma quiet_app a b : quiet a -> quiet b -> quiet (a ++ b).
Proof. unfold quiet. rewrite hint_app. now intros -> ->. Qed.
Lemma quiet_one m : is_hint m = false -> quiet [LMsg m].
Proof. intros H. unfold quiet, hint_msgs. cbn. now rewrite H. Qed.
Lemma quiet_msgs ms : Forall (fun m => is_hint m = false) ms -> quiet (map LMsg ms).
Proof.
  induction 1 as [|m ms H F IH]; [easy|]. cbn [map]. apply (quiet_app [LMsg m]); [now apply quiet_one|exact IH].
Qed.
Definition PQ (l : list lev) (_ : res unit) : Prop := quiet l.
Definition Numbered (w : loc) : Prop := exists n, w_line w = n + 1.
Lemma pq_bind {A B} (m : M A) (f : A -> M B) : Log_proofs.inv PQ m -> (forall a, snd m = Ok a -> Log_proofs.inv PQ (f a)) -> Log_proofs.inv PQ (mbind m f).
Proof. apply Log_proofs.inv_bind. intros l l' o. apply quiet_app. Qed.
Lemma pq_msg (c : mcls) w prev args : c <> H_PAT_NON_CANONICAL -> quiet [LMsg (Msg c w prev args)].
Proof. intros H. apply quiet_one. unfold is_hint. cbn. now destruct c. Qed.
Lemma pq_emit (c : mcls) w args : c <> H_PAT_NON_CANONICAL -> Log_proofs.inv PQ (memit c w args).
Proof.
  intros H. unfold Log_proofs.inv, memit, mw, emit, PQ. destruct (mdupe c); cbn [fst map]; [reflexivity|now apply pq_msg].
Qed.
Lemma pq_log e : (forall m, e <> LMsg m) -> Log_proofs.inv PQ (mlog e).
Proof. intros H. unfold Log_proofs.inv, mlog, PQ, quiet, hint_msgs. cbn. destruct e; try easy. now elim (H m). Qed.

Section Tables.
Variable U : uni.
Variable FT : ftable.
Variable AT : atable.
Lemma from_quiet v l r : from_varset U FT AT v = (l, r) -> quiet l.
Proof.
  intros E. pose proof (Log_proofs.inv_from U FT AT PQ (fun _ => True)) as H.
  assert (K : Log_proofs.inv PQ (from_varset U FT AT v)).
  { apply H; try easy.
    - intros a b o. apply quiet_app.
    - intros a b o. apply quiet_app.
    - intros c w prev args _ _ _ _ _ N _. now apply pq_msg.
    - intros f w _. unfold func_check. apply pq_bind.
      + unfold func_get. repeat match goal with |- context [match lookup ?a ?b with _ => _ end] => destruct (lookup a b) end; try (apply pq_bind; [now apply pq_log|]); reflexivity.
      + intros a _. apply pq_bind; [|intros; reflexivity]. destruct (str_eqb _ _); [reflexivity|]. destruct (str_eqb _ _); now apply pq_emit.
    - intros a w _. apply pq_bind.
      + unfold app_get. repeat match goal with |- context [match lookup ?a ?b with _ => _ end] => destruct (lookup a b) end; try (apply pq_bind; [now apply pq_log|]); reflexivity.
      + intros x _. apply pq_bind; [|intros; reflexivity]. unfold check_availability. destruct (a_kind x); try now apply pq_log.
        all: destruct (str_eqb _ _); [reflexivity|]; destruct (str_eqb _ _); now apply pq_emit. }
  unfold Log_proofs.inv in K. now rewrite E in K.
Qed.
Lemma reader_quiet fs name evs o : StreamOf fs name evs o -> Forall (Log_proofs.EvOk PQ Numbered) evs.
Proof.
  intros H. apply Whole_proofs.stream_iff in H as (_ & fuel & E). pose proof (Log_proofs.stream_ok PQ Numbered) as K.
  assert (X : Forall (Log_proofs.EvOk PQ Numbered) (fst (vsw_stream (parse_file fuel fs name)))).
  { apply K; [easy| |].
    - intros c w prev args _ _ _ _ _ N _. now apply pq_msg.
    - intros n b pre text post _ _. exists (N.of_nat (length pre)). reflexivity. }
  now rewrite E in X.
Qed.
Definition HintFor (v : varset) (m : msg) : Prop :=
  exists pat prio label text p, LineText U v pat prio label text /\ pat <> [] /\ mk_pattern pat = Ok p /\ is_canonical p = false /\
    m = Msg H_PAT_NON_CANONICAL (v_where v) None [(L "pat", AStr pat); (L "expected", AStr (canonical (pv p)))].
Inductive HintsOf : list event -> list msg -> Prop :=
| Ho_nil : HintsOf [] []
| Ho_skip ev evs ms : HintsOf evs ms -> HintsOf (ev :: evs) ms
| Ho_take v m evs ms : HintFor v m -> HintsOf evs ms -> HintsOf (EvElem (EVar v) :: evs) (m :: ms).
Lemma rule_quiet h n x f ms : LineRule h n x f ms -> Forall (fun m => is_hint m = false) ms.
Proof.
  assert (P : forall p q l, EffPrio h n x p q l -> Forall (fun m => is_hint m = false) l) by (intros p q l H; destruct H; repeat constructor).
  assert (B : forall p q l, EffLabel h n x p q l -> Forall (fun m => is_hint m = false) l) by (intros p q l H; destruct H; repeat constructor).
  intros H. destruct H; try (repeat constructor; fail).
  - apply Forall_app. split; [eapply P; eassumption|repeat constructor].
  - apply Forall_app. split; [eapply P; eassumption|eapply B; eassumption].
Qed.
Lemma misplaced_quiet c w o l : c <> H_PAT_NON_CANONICAL -> misplaced c w o l -> quiet l.
Proof. intros N [[_ ->]|[_ ->]]; [reflexivity|]. now apply pq_msg. Qed.
Lemma completion_quiet h l : Completion h l -> quiet l.
Proof. intros [H|n r w lg lb H1 H2 H3 H4]; [reflexivity|]. apply quiet_app; eapply misplaced_quiet; try eassumption; discriminate. Qed.
Hypothesis HU : AsciiOk U.
Lemma elem_hints h e h' l : ElemSays U FT AT h e h' l -> quiet l \/ exists v m, e = EVar v /\ HintFor v m /\ hint_msgs l = [m].
Proof.
  intros H. destruct H as [e0 h1 l1 N R|v NH|v e0 LH NO|v n w l0 LH LG|v n w l0 i w' LH LG|v n w x f ms l1 l2 LH LG HH LR].
  - left. destruct R; try (now elim (N v)); try reflexivity; try (eapply misplaced_quiet; [|eassumption]; discriminate); try now apply pq_msg.
    destruct (c_templates c); [reflexivity|now apply pq_msg].
  - left. now apply pq_msg.
  - now left.
  - left. apply Run_proofs.gives_iff in LG; [|easy]. now apply from_quiet in LG.
  - left. apply Run_proofs.gives_iff in LG; [|easy]. now apply from_quiet in LG.
  - assert (Q : quiet l1) by (apply Run_proofs.gives_iff in LG; [|easy]; now apply from_quiet in LG).
    apply rule_quiet, quiet_msgs in LR. inversion LG as [| |pat prio label text p ds la lb LT AM PO LS]; subst. unfold hints in HH. cbn [i_pat] in HH.
    destruct p as [p|]; [|left; subst l2; apply quiet_app; [easy|exact LR]].
    destruct HH as [[_ ->]|[C ->]]; [left; now apply quiet_app|]. right. cbn [pat_of] in PO. destruct PO as [PO1 PO2].
    destruct (pattern_enc _ _ PO2) as (PR & _ & _).
    eexists v, _. split; [easy|]. split; [exists pat, prio, label, text, p; repeat split; eassumption|].
    unfold quiet in *. rewrite hint_app, Q, hint_app, LR. unfold pmsg. cbn [i_where]. cbn. now rewrite PR.
Qed.
Lemma stream_hints h evs h' l : StreamSays U FT AT h evs h' l -> Forall (Log_proofs.EvOk PQ Numbered) evs -> HintsOf evs (hint_msgs l).
Proof.
  induction 1 as [h|h w d k evs h' l _ IH|h m evs h' l _ IH|h e evs h1 h' l1 l2 HE HS IH]; intros F.
  - constructor.
  - inversion F; subst. constructor. auto.
  - inversion F as [|? ? F1 F2]; subst. constructor. change (LMsg m :: l) with ([LMsg m] ++ l). rewrite hint_app. cbn [Log_proofs.EvOk] in F1. unfold PQ, quiet in F1. rewrite F1. auto.
  - inversion F as [|? ? F1 F2]; subst. rewrite hint_app. destruct (elem_hints _ _ _ _ HE) as [Q|(v & m & -> & HF & ->)].
    + rewrite Q. constructor. auto.
    + apply Ho_take; auto.
Qed.
Lemma plan_hints fs name evs h l : StreamOf fs name evs (Ok tt) -> PlanSays U FT AT evs h l -> HintsOf evs (hint_msgs l).
Proof.
  intros S (l1 & l2 & SS & _ & C & ->). rewrite hint_app. apply completion_quiet in C. unfold quiet in C. rewrite C, app_nil_r.
  eapply stream_hints; [exact SS|]. now apply reader_quiet in S.
Qed.
Definition GoodHint (m : msg) : Prop :=
  exists p x n a b, w_line (m_where m) = n + 1 /\ m_args m = [(L "pat", AStr p); (L "expected", AStr x)] /\ Utf8 p a /\ Utf8 x b.
Lemma hints_good evs ms : HintsOf evs ms -> Forall (Log_proofs.EvOk PQ Numbered) evs -> Forall GoodHint ms.
Proof.
  induction 1 as [|ev evs ms _ IH|v m evs ms HF _ IH]; intros F; [constructor|inversion F; subst; auto|]. inversion F as [|? ? F1 F2]; subst.
  constructor; [|auto]. destruct HF as (pat & prio & label & text & p & LT & NE & MP & _ & ->). destruct (pattern_enc _ _ MP) as (_ & [a A] & [b B]).
  cbn [Log_proofs.EvOk e_where] in F1. destruct F1 as [n N]. now exists pat, (canonical (pv p)), n, a, b.
Qed.
Lemma in_hints m l : In (LMsg m) l -> Hint m -> In m (hint_msgs l).
Proof.
  intros I H. unfold hint_msgs. apply filter_In. split; [|now apply is_hint_iff]. unfold log_msgs. apply in_flat_map. exists (LMsg m). split; [easy|now left].
Qed.
Lemma hints_in m l : In m (hint_msgs l) -> In (LMsg m) l /\ Hint m.
Proof.
  unfold hint_msgs. intros H. apply filter_In in H as [H1 H2]. apply is_hint_iff in H2. split; [|easy]. unfold log_msgs in H1. apply in_flat_map in H1 as (e & I & X).
  destruct e; try easy. now destruct X as [->|[]].
Qed.
Lemma plan_good fs name evs h l : StreamOf fs name evs (Ok tt) -> PlanSays U FT AT evs h l -> forall m, In (LMsg m) l -> Hint m -> GoodHint m.
Proof.
  intros S P m I H. pose proof (hints_good _ _ (plan_hints _ _ _ _ _ S P) (reader_quiet _ _ _ _ S)) as F. rewrite Forall_forall in F. apply F. now apply in_hints.
Qed.
End Tables.

(* ---- collecting ---- *)
Definition got (f : str) (l : issues) : list (N * repl) := match lookup f l with Some x => x | None => [] end.
Lemma add_got f g i l : got f (issue_add g i l) = got f l ++ (if str_eqb f g then [i] else []).
Proof.
  unfold got. induction l as [|[k is] l IH]; cbn [issue_add lookup].
  - now destruct (str_eqb f g).
  - destruct (str_eqb_spec k g) as [->|N]; cbn [lookup].
    + destruct (str_eqb_spec f g) as [->|N']; [easy|]. now rewrite app_nil_r.
    + destruct (str_eqb_spec f k) as [->|N']; [|exact IH]. destruct (str_eqb_spec k g); [easy|]. now rewrite app_nil_r.
Qed.
Lemma add_keys f g i l : In f (map fst (issue_add g i l)) <-> f = g \/ In f (map fst l).
Proof.
  induction l as [|[k is] l IH]; cbn [issue_add map fst In]; [intuition|].
  destruct (str_eqb_spec k g) as [->|N]; cbn [map fst In]; [intuition|]. rewrite IH. intuition.
Qed.
Lemma add_nodup g i l : NoDup (map fst l) -> NoDup (map fst (issue_add g i l)).
Proof.
  induction l as [|[k is] l IH]; cbn [issue_add map fst]; [repeat constructor; easy|]. intros H. inversion H as [|? ? H1 H2]; subst.
  destruct (str_eqb_spec k g) as [->|N]; cbn [map fst]; [easy|]. constructor; [|auto]. rewrite add_keys. intros [E|X]; [now elim N|easy].
Qed.
Lemma hints_fun f l a : Hints f l a -> forall b, Hints f l b -> a = b.
Proof.
  induction 1 as [|m p x n a b l is H F W A E1 E2 _ IH|e l is N _ IH]; intros r H2; inversion H2 as [|m' p' x' n' a' b' l' is' H' F' W' A' E1' E2' R|e' l' is' N' R]; subst.
  - easy.
  - rewrite A in A'. injection A' as <- <-. apply File_proofs.Utf8_encode in E1, E2, E1', E2'. f_equal; [|now apply IH].
    f_equal; [lia|]. congruence.
  - now elim (N' m).
  - now elim (N m').
  - now apply IH.
Qed.
Lemma collect_spec l : (forall m, In (LMsg m) l -> Hint m -> GoodHint m) -> forall acc,
  exists is, mpc_collect (log_msgs l) acc = Ok is /\ (NoDup (map fst acc) -> NoDup (map fst is)) /\
    (forall f, In f (map fst is) <-> In f (map fst acc) \/ exists m, In (LMsg m) l /\ Hint m /\ w_file (m_where m) = f) /\
    forall f, exists new, Hints f l new /\ got f is = got f acc ++ new.
Proof.
  induction l as [|e l IH]; intros G acc.
  - exists acc. split; [easy|]. split; [easy|]. split; [intros f; split; [now left|intros [H|(m & [] & _)]; easy]|].
    intros f. exists []. split; [constructor|]. now rewrite app_nil_r.
  - assert (G' : forall m, In (LMsg m) l -> Hint m -> GoodHint m) by (intros m I; apply G; now right).
    assert (SK : (forall m, e = LMsg m -> ~ Hint m) -> forall is, mpc_collect (log_msgs (e :: l)) acc = Ok is -> mpc_collect (log_msgs l) acc = Ok is ->
       (forall f, In f (map fst is) <-> In f (map fst acc) \/ exists m, In (LMsg m) l /\ Hint m /\ w_file (m_where m) = f) ->
       (forall f, exists new, Hints f l new /\ got f is = got f acc ++ new) ->
       (forall f, In f (map fst is) <-> In f (map fst acc) \/ exists m, In (LMsg m) (e :: l) /\ Hint m /\ w_file (m_where m) = f) /\
       forall f, exists new, Hints f (e :: l) new /\ got f is = got f acc ++ new).
    { intros N is _ _ K1 K2. split.
      - intros f. rewrite K1. split; (intros [H|(m & I & H & W)]; [now left|right; exists m]); [split; [now right|easy]|].
        destruct I as [->|I]; [now elim (N m)|easy].
      - intros f. destruct (K2 f) as (new & H & E). exists new. split; [|easy]. constructor; [|easy]. intros m -> HM. now elim (N m). }
    destruct (match e with LMsg m => is_hint m | _ => false end) eqn:EH.
    + destruct e as [m| | | |]; try easy. pose proof (proj1 (is_hint_iff m) EH) as HM.
      destruct (G m (or_introl eq_refl) HM) as (p & x & n & a & b & W & A & E1 & E2).
      apply File_proofs.Utf8_encode in E1 as E1'. apply File_proofs.Utf8_encode in E2 as E2'.
      set (acc1 := issue_add (w_file (m_where m)) (n, (a, b)) acc).
      assert (S : mpc_collect (log_msgs (LMsg m :: l)) acc = mpc_collect (log_msgs l) acc1).
      { change (log_msgs (LMsg m :: l)) with (m :: log_msgs l). cbn [mpc_collect]. unfold mpc_message. unfold Hint in HM. rewrite HM, A.
        change (lookup (L "pat") [(L "pat", AStr p); (L "expected", AStr x)]) with (Some (AStr p)).
        change (lookup (L "expected") [(L "pat", AStr p); (L "expected", AStr x)]) with (Some (AStr x)). cbv beta iota. rewrite E1', E2'. cbn [bind].
        rewrite W. now replace (n + 1 - 1) with n by lia. }
      destruct (IH G' acc1) as (is & I1 & I2 & I3 & I4). exists is. rewrite S. split; [easy|]. split; [intros ND; now apply I2, add_nodup|]. split.
      * intros f. rewrite I3. unfold acc1. rewrite add_keys. split.
        -- intros [[->|H]|(m' & X & Y)]; [right; exists m; split; [now left|easy]|now left|right; exists m'; split; [now right|easy]].
        -- intros [H|(m' & [X|X] & Y & Z)]; [left; now right| |right; now exists m']. injection X as <-. left. now left.
      * intros f. destruct (I4 f) as (new & H & E). unfold acc1 in E. rewrite add_got in E. destruct (str_eqb_spec f (w_file (m_where m))) as [->|N].
        -- exists ((n, (a, b)) :: new). split; [now apply (Hn_hint _ m p x)|]. now rewrite E, <- app_assoc.
        -- exists new. split; [|now rewrite E, app_nil_r]. constructor; [|easy]. intros m' [= <-] _ X. now elim N.
    + destruct (IH G' acc) as (is & I1 & I2 & I3 & I4). exists is.
      assert (N : forall m, e = LMsg m -> ~ Hint m) by (intros m -> X; apply is_hint_iff in X; congruence).
      assert (S : mpc_collect (log_msgs (e :: l)) acc = mpc_collect (log_msgs l) acc).
      { destruct e as [m| | | |]; try easy. change (log_msgs (LMsg m :: l)) with (m :: log_msgs l). cbn [mpc_collect]. unfold mpc_message. unfold is_hint in EH.
        destruct (m_cls m); try easy. }
      split; [now rewrite S|]. split; [easy|]. apply SK; try easy. now rewrite S.
Qed.

(* ---- files with issues ---- *)
Lemma sorted_strict_unique l1 l2 : StronglySorted StrLt l1 -> StronglySorted StrLt l2 -> (forall f, In f l1 <-> In f l2) -> l1 = l2.
Proof.
  intros S1 S2 E.
  assert (AS : forall a b, StrLt a b -> StrLt b a -> False) by (intros a b [H1 N] [H2 _]; apply N; now apply Commands_proofs.strle_antisym).
  assert (ND : forall l, StronglySorted StrLt l -> NoDup l).
  { induction 1 as [|a l S IH F]; constructor; [|easy]. intros I. rewrite Forall_forall in F. destruct (F a I) as [_ N]. now elim N. }
  apply (Commands_proofs.sorted_unique StrLt); [easy|easy| |intros a b _ _ H1 H2; elim (AS a b H1 H2)].
  apply NoDup_Permutation; auto.
Qed.
Lemma by_name_names is : NoDup (map fst is) -> StronglySorted StrLt (map fst (by_name is)) /\ (forall x, In x (by_name is) <-> In x is).
Proof.
  intros ND. unfold by_name. split.
  - rewrite (Ident_proofs.sort_map fst str_ltb). now apply Ident_proofs.sorted_set_lt.
  - intros x. pose proof (Commands_proofs.sort_perm (fun a b : str * list (N * repl) => str_ltb (fst a) (fst b)) is) as P.
    split; apply Permutation_in; [easy|now symmetry].
Qed.
Lemma got_in f x is : NoDup (map fst is) -> In (f, x) is -> got f is = x.
Proof.
  unfold got. induction is as [|[k y] is IH]; [easy|]. cbn [map fst lookup]. intros ND. inversion ND as [|? ? N1 N2]; subst. intros [E|I].
  - injection E as -> ->. now rewrite str_eqb_refl.
  - destruct (str_eqb_spec f k) as [->|_]; [|now apply IH]. elim N1. apply in_map_iff. now exists (k, x).
Qed.
Lemma name_lines_eq names : name_lines names = List.concat (map (fun n => L "  " ++ n ++ [10]) names).
Proof. induction names as [|n names IH]; cbn [name_lines map List.concat]; [easy|]. now rewrite IH, <- !app_assoc. Qed.
Lemma question_eq names : mpc_question names = question names.
Proof. unfold mpc_question, question. now rewrite name_lines_eq. Qed.
Lemma greeting_eq : mpc_title ++ [10] = greeting.
Proof. reflexivity. Qed.
Definition answers (answer : str) (is : issues) : str * list (str * list (N * (bytes * bytes))) :=
  match is with
  | [] => (greeting ++ L "Your dialplan has no issues. We're done here." ++ [10], [])
  | _ => if str_eqb answer (L "y") then (greeting ++ question (map fst (by_name is)), by_name is)
         else (greeting ++ question (map fst (by_name is)) ++ L "Aborted." ++ [10], [])
  end.
Lemma concerned_fun l a b : Concerned l a -> Concerned l b -> a = b.
Proof. intros [S1 E1] [S2 E2]. apply sorted_strict_unique; try easy. intros f. now rewrite E1, E2. Qed.
Lemma answers_spec l is answer : (forall m, In (LMsg m) l -> Hint m -> GoodHint m) -> mpc_collect (log_msgs l) [] = Ok is ->
  Concerned l (map fst (by_name is)) /\ Answer l answer (map fst (by_name is)) (fst (answers answer is)) (snd (answers answer is)).
Proof.
  intros G E. destruct (collect_spec l G []) as (is' & I1 & I2 & I3 & I4). rewrite E in I1. injection I1 as <-. specialize (I2 (NoDup_nil _)).
  destruct (by_name_names is I2) as [B1 B2]. split.
  - split; [easy|]. intros f. assert (X : In f (map fst (by_name is)) <-> In f (map fst is)).
    { rewrite !in_map_iff. split; intros (x & H & I); exists x; (split; [easy|now apply B2]). }
    rewrite X, I3. cbn [map In]. split; [intros [[]|H]; easy|now right].
  - assert (NE : is <> [] -> map fst (by_name is) <> []).
    { destruct is as [|x is0]; [easy|]. intros _ H. assert (K : In x (by_name (x :: is0))) by (apply B2; now left). destruct (by_name (x :: is0)); [easy|discriminate H]. }
    destruct is as [|x is0] eqn:EI; [cbn; constructor|]. rewrite <- EI in *. unfold answers. rewrite EI. rewrite <- EI.
    assert (NN : is <> []) by now rewrite EI. clear EI. destruct (str_eqb_spec answer (L "y")) as [->|N]; cbn [fst snd].
    + apply An_yes; [now apply NE|easy|]. clear NE NN.
      assert (F : forall y, In y (by_name is) -> Hints (fst y) l (snd y)).
      { intros [f y] I. apply B2 in I. destruct (I4 f) as (new & H & E'). rewrite (got_in f y) in E' by easy. cbn [fst snd]. cbn in E'. now subst y. }
      clear -F. induction (by_name is) as [|y r IH]; cbn [map]; constructor; [split; [easy|apply F; now left]|]. apply IH. intros z I. apply F. now right.
    + apply An_no; [now apply NE|easy].
Qed.
Lemma answer_fun l answer names o1 w1 o2 w2 : Answer l answer names o1 w1 -> Answer l answer names o2 w2 -> o1 = o2 /\ w1 = w2.
Proof.
  intros [|n1 N1 A1|n1 k1 N1 A1 F1] H2; inversion H2 as [|n2 N2 A2|n2 k2 N2 A2 F2]; subst; try easy.
  split; [easy|]. clear -F1 F2. revert w2 F2. induction F1 as [|f x n k [E H] F IH]; intros w2 F2; inversion F2 as [|? y ? k' [E' H'] F']; subst; [easy|].
  f_equal; [|now apply IH]. destruct x as [a b], y as [a' b']. cbn [fst snd] in *. subst. f_equal. exact (hints_fun _ _ _ H _ H').
Qed.

Section Run.
Variable U : uni.
Variable FT : ftable.
Variable AT : atable.
Hypothesis HU : AsciiOk U.
Lemma stream_opened fs name evs : StreamOf fs name evs (Ok tt) -> exists b, fs name = Ok b.
Proof. intros H. inversion H as [es out st g R| ]; subst. inversion R; subst. eauto. Qed.
Lemma main_ok fuel d name answer evs h l : vsw_stream (parse_file fuel (disk_fs d) name) = (evs, Ok tt) -> PlanSays U FT AT evs h l ->
  exists is, mpc_collect (log_msgs l) [] = Ok is /\
    mpc_main U FT AT fuel d (Some name) answer = (fst (answers answer is), process mpc_issue (snd (answers answer is))).
Proof.
  intros E P. assert (S : StreamOf (disk_fs d) name evs (Ok tt)) by (apply Whole_proofs.stream_iff; split; [easy|now exists fuel]).
  destruct (collect_spec l (plan_good U FT AT HU _ _ _ _ _ S P) []) as (is & I1 & _). exists is. split; [easy|].
  destruct (Run_proofs.plan_complete U FT AT HU fuel _ name evs h l E P) as (dp & H & _). unfold mpc_main.
  destruct (stream_opened _ _ _ S) as [b B]. rewrite B, H, I1. cbn [bind]. unfold answers. rewrite <- greeting_eq, <- !app_assoc.
  destruct is as [|x is]; [easy|]. rewrite question_eq. destruct (str_eqb answer (L "y")); cbn [fst snd]; now rewrite <- ?app_assoc.
Qed.
Theorem asks d name answer out work : Outcome U FT AT (disk_fs d) name answer out work ->
  Whole_proofs.Eventually (fun fuel => mpc_main U FT AT fuel d (Some name) answer = (out, process mpc_issue work)).
Proof.
  intros [evs h l names out0 work0 S P C A]. destruct (Whole_proofs.stream_eventually _ _ _ _ S) as [k K]. exists k. intros fuel HF. specialize (K fuel HF).
  destruct (main_ok fuel d name answer evs h l K P) as (is & I1 & ->). destruct (answers_spec l is answer (plan_good U FT AT HU _ _ _ _ _ S P) I1) as [C' A'].
  rewrite <- (concerned_fun _ _ _ C C') in A'. now destruct (answer_fun _ _ _ _ _ _ _ A A') as [-> ->].
Qed.
Theorem only fuel d name answer out p : mpc_main U FT AT fuel d (Some name) answer = (out, p) ->
  (exists work, Outcome U FT AT (disk_fs d) name answer out work /\ p = process mpc_issue work) \/
  ((exists e, p = Ret (Exn e)) \/ p = Ret Hang) /\ (out = [] \/ out ++ [10] = greeting).
Proof.
  intros E. pose proof E as E0. unfold mpc_main in E. destruct (disk_fs d name) as [b|e|] eqn:B.
  2, 3: injection E as <- <-; right; (split; [eauto|now left]).
  destruct (parse_dialplan U FT AT fuel (disk_fs d) name) as [l r] eqn:PD. destruct r as [dp|e|].
  - left. apply Run_proofs.plan_sound in PD as (evs & h & SE & P & _); [|easy]. destruct (main_ok fuel d name answer evs h l SE P) as (is & I1 & M).
    assert (S : StreamOf (disk_fs d) name evs (Ok tt)) by (apply Whole_proofs.stream_iff; split; [easy|now exists fuel]).
    destruct (answers_spec l is answer (plan_good U FT AT HU _ _ _ _ _ S P) I1) as [C' A'].
    rewrite M in E0. injection E0 as <- <-. exists (snd (answers answer is)). split; [|easy]. now apply (Oc_intro _ _ _ _ _ _ evs h l (map fst (by_name is))).
  - right. destruct (mpc_collect (log_msgs l) []) as [is|e'|]; cbn [bind] in E; injection E as <- <-; (split; [|now right]); eauto.
  - right. destruct (mpc_collect (log_msgs l) []) as [is|e'|]; cbn [bind] in E; injection E as <- <-; (split; [|now right]); eauto.
Qed.
Theorem determined fs name answer o1 w1 o2 w2 : Outcome U FT AT fs name answer o1 w1 -> Outcome U FT AT fs name answer o2 w2 -> o1 = o2 /\ w1 = w2.
Proof.
  intros [evs h l names out work S P C A] [evs' h' l' names' out' work' S' P' C' A'].
  destruct (Whole_proofs.stream_det _ _ _ _ _ _ S S') as [<- _]. destruct P as (l1 & l2 & SS & _ & CO & ->). destruct P' as (l1' & l2' & SS' & _ & CO' & ->).
  destruct (Run_proofs.stream_det U FT AT HU [] evs h l1 SS [] [] (Hi_nil U FT AT) h' l1' SS') as [<- <-].
  assert (l2 = l2') as <- by (eapply Run_proofs.completion_det; eassumption).
  rewrite <- (concerned_fun _ _ _ C C') in A'. exact (answer_fun _ _ _ _ _ _ _ A A').
Qed.
End Run.
