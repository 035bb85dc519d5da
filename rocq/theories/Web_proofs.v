(* Proofs about the web service: C43. *)
From Coq Require Import Permutation Sorted.
From Verif Require Import Base Utf8 PyStr Defines FileRd Config VarFun AppM Dialplan FuncOdbc Commands Check
  Spec_Log Spec_Commands Spec_App Spec_Check Commands_proofs Loader_proofs Check_proofs.

Lemma sort_stable {A} (lt : A -> A -> bool) (p : A -> bool) (l : list A) :
  (forall a b, p a = true -> p b = true -> lt a b = false) -> filter p (sort_by lt l) = filter p l.
Proof.
  intros H. assert (K : forall x l, filter p (sort_insert lt x l) = filter p (x :: l)).
  { intros x l0. induction l0 as [|y r IH]; cbn [sort_insert]; [easy|]. destruct (lt y x) eqn:E; [|easy].
    cbn [filter] in *. rewrite IH. destruct (p y) eqn:PY, (p x) eqn:PX; try easy. now rewrite (H y x PY PX) in E. }
  induction l as [|x l IH]; cbn [sort_by]; [easy|]. rewrite K. cbn [filter]. now rewrite IH.
Qed.

(* the dict of messages *)
Definition Dict (r : raised) : Prop := RaisedOk r /\ NoDup (map fst r).
Lemma raised_add_fst r m x : In x (map fst (raised_add r m)) <-> In x (map fst r) \/ x = m_cls m.
Proof.
  induction r as [|[c ms] r IH]; cbn [raised_add]; [cbn; intuition auto|]. destruct (str_eqb_spec (mname c) (mname (m_cls m))) as [E|E]; cbn.
  - apply mname_inj in E. subst. intuition auto.
  - rewrite IH. tauto.
Qed.
Lemma dict_add r m : Dict r -> Dict (raised_add r m).
Proof.
  intros [H1 H2]. split; [now apply raised_add_ok|]. clear H1. induction r as [|[c ms] r IH]; cbn [raised_add]; [repeat constructor; easy|].
  cbn in H2. inversion H2 as [|? ? N1 N2]; subst. destruct (str_eqb_spec (mname c) (mname (m_cls m))) as [E|E]; cbn; [easy|].
  constructor; [|now apply IH]. rewrite raised_add_fst. intros [K| ->]; [easy|]. now apply E.
Qed.
Lemma add_perm r m : Permutation (flat_map snd (raised_add r m)) (m :: flat_map snd r).
Proof.
  induction r as [|[c ms] r IH]; cbn [raised_add]; [easy|]. destruct (str_eqb _ _); cbn.
  - rewrite <- app_assoc. cbn. symmetry. apply Permutation_middle.
  - rewrite IH. symmetry. apply Permutation_middle.
Qed.
Lemma filter_none {A} (p : A -> bool) l : (forall x, In x l -> p x = false) -> filter p l = [].
Proof. induction l as [|x l IH]; cbn; intros H; [easy|]. rewrite (H x (or_introl eq_refl)). apply IH. auto. Qed.
Lemma add_filter p c r m : (forall x, p x = true -> m_cls x = c) -> Dict r ->
  filter p (flat_map snd (raised_add r m)) = filter p (flat_map snd r) ++ filter p [m].
Proof.
  intros HP [H1 H2]. induction H1 as [|[c0 ms] r [HN HC] F IH]; cbn [raised_add]; [cbn; now destruct (p m)|].
  cbn in H2. inversion H2 as [|? ? N1 N2]; subst. destruct (str_eqb_spec (mname c0) (mname (m_cls m))) as [E|E]; cbn [flat_map snd].
  - apply mname_inj in E. rewrite !filter_app. destruct (p m) eqn:PM; [|cbn; rewrite PM, !app_nil_r; easy].
    assert (K : filter p (flat_map snd r) = []).
    { apply filter_none. intros x HX. destruct (p x) eqn:PX; [|easy]. exfalso. apply N1. rewrite E, (HP m PM), <- (HP x PX).
      apply in_flat_map in HX as ([c1 l1] & I1 & I2). unfold RaisedOk in F. rewrite Forall_forall in F. destruct (F _ I1) as [_ F2].
      cbn in F2, I2. rewrite Forall_forall in F2. rewrite (F2 x I2). change c1 with (fst (c1, l1)). now apply in_map. }
    rewrite K, !app_nil_r. easy.
  - rewrite !filter_app, IH by easy. now rewrite app_assoc.
Qed.
Lemma raise_dict ms : forall r, Dict r -> Dict (fold_left raised_add ms r) /\
  Permutation (flat_map snd (fold_left raised_add ms r)) (flat_map snd r ++ ms) /\
  forall p c, (forall x, p x = true -> m_cls x = c) ->
    filter p (flat_map snd (fold_left raised_add ms r)) = filter p (flat_map snd r) ++ filter p ms.
Proof.
  induction ms as [|m ms IH]; intros r D; cbn [fold_left].
  - split; [easy|]. split; [now rewrite app_nil_r|]. intros. cbn. now rewrite app_nil_r.
  - destruct (IH _ (dict_add r m D)) as (I1 & I2 & I3). split; [easy|]. split.
    + rewrite I2, add_perm. cbn. apply Permutation_middle.
    + intros p c HP. rewrite (I3 p c HP), (add_filter p c r m HP D), <- app_assoc. cbn. now destruct (p m).
Qed.
Lemma dict_nil : Dict [].
Proof. split; constructor. Qed.

(* the order *)
Definition key_le (a b : msg) : Prop := msg_ltb b a = false.
Lemma ltb_asym a b : str_ltb a b = true -> str_ltb b a = false.
Proof. intros H. apply str_ltb_le. now apply str_ltb_asym. Qed.
Lemma ltb_trans a b c : str_ltb b a = false -> str_ltb c b = false -> str_ltb c a = false.
Proof. rewrite !str_ltb_le. intros H1 H2. eapply strle_trans; eassumption. Qed.
Lemma ltb_eq a b : str_ltb a b = false -> str_ltb b a = false -> a = b.
Proof. rewrite !str_ltb_le. intros. now apply strle_antisym. Qed.
Lemma ltb_refl a : str_ltb a a = false.
Proof. apply str_ltb_le, strle_refl. Qed.

Definition one_file (f : str) (ms : list msg) : Prop := forall m, In m ms -> w_file (m_where m) = f.
Lemma msg_ltb_same a b : w_file (m_where a) = w_file (m_where b) ->
  msg_ltb a b = (if w_line (m_where a) <? w_line (m_where b) then true else if w_line (m_where b) <? w_line (m_where a) then false
                 else str_ltb (mname (m_cls a)) (mname (m_cls b))).
Proof. intros E. unfold msg_ltb. now rewrite E, ltb_refl. Qed.
Definition ltb2 (a b : msg) : bool :=
  if w_line (m_where a) <? w_line (m_where b) then true else if w_line (m_where b) <? w_line (m_where a) then false
  else str_ltb (mname (m_cls a)) (mname (m_cls b)).
Lemma sort_insert_ext {A} (lt lt' : A -> A -> bool) x l : (forall y, In y l -> lt y x = lt' y x) -> sort_insert lt x l = sort_insert lt' x l.
Proof. induction l as [|y l IH]; cbn; intros H; [easy|]. rewrite (H y (or_introl eq_refl)), IH by auto. easy. Qed.
Lemma sort_by_ext {A} (lt lt' : A -> A -> bool) l : (forall x y, In x l -> In y l -> lt x y = lt' x y) -> sort_by lt l = sort_by lt' l.
Proof.
  induction l as [|x l IH]; cbn [sort_by]; intros H; [easy|]. rewrite IH by (intros; apply H; now right). apply sort_insert_ext.
  intros y HY. apply H; [|now left]. right. eapply Permutation_in; [apply sort_perm|exact HY].
Qed.
Lemma ltb2_le a b : ltb2 b a = false <-> MsgLe a b.
Proof.
  unfold ltb2, MsgLe. destruct (N.ltb_spec (w_line (m_where b)) (w_line (m_where a))); [split; [easy|lia]|].
  destruct (N.ltb_spec (w_line (m_where a)) (w_line (m_where b))); [split; [now left|easy]|]. rewrite str_ltb_le.
  assert (w_line (m_where a) = w_line (m_where b)) by lia. intuition lia.
Qed.
Lemma collect_sorted r : one_file web_name (flat_map snd r) -> StronglySorted MsgLe (collect r) /\ Permutation (collect r) (flat_map snd r) /\
  forall n c, filter (fun m => (w_line (m_where m) =? n) && str_eqb (mname (m_cls m)) c) (collect r) =
              filter (fun m => (w_line (m_where m) =? n) && str_eqb (mname (m_cls m)) c) (flat_map snd r).
Proof.
  intros HF. unfold collect. rewrite (sort_by_ext msg_ltb ltb2) by (intros x y HX HY; apply msg_ltb_same; now rewrite (HF x HX), (HF y HY)).
  split; [|split].
  - apply (ss_impl (le ltb2)); [intros a b; apply ltb2_le|]. apply sort_sorted.
    + intros a b H. unfold le, ltb2 in *. destruct (N.ltb_spec (w_line (m_where b)) (w_line (m_where a))).
      * destruct (N.ltb_spec (w_line (m_where a)) (w_line (m_where b))); [lia|discriminate].
      * destruct (N.ltb_spec (w_line (m_where a)) (w_line (m_where b))); [easy|]. now apply ltb_asym.
    + intros a b c. unfold le. rewrite !ltb2_le. unfold MsgLe. intros [H1|[H1 H2]] [H3|[H3 H4]]; [left; lia|left; lia|left; lia|right; split; [lia|]].
      eapply strle_trans; eassumption.
  - apply sort_perm.
  - intros n c. apply sort_stable. intros a b HA HB. apply andb_prop in HA as [A1 A2]. apply andb_prop in HB as [B1 B2].
    apply N.eqb_eq in A1, B1. apply str_eqb_eq in A2, B2. unfold ltb2. rewrite A1, B1, A2, B2, N.ltb_irrefl. apply ltb_refl.
Qed.
Lemma issues_ok ms : (forall m, In m ms -> format_ok (mfields (m_cls m)) (m_args m) = Ok tt) -> issues ms = Ok (map issue_of ms).
Proof. induction ms as [|m ms IH]; cbn; intros H; [easy|]. rewrite (H m (or_introl eq_refl)), IH by auto. easy. Qed.

(* spelling of Background *)
Lemma resolve_none l : NoBackground l -> forall ch, resolve_bg ch l = (ch, l).
Proof.
  induction l as [|e l IH]; intros H ch; cbn; [easy|]. rewrite IH by (intros s w K; apply (H s w); now right).
  destruct e as [| | | |s w]; try easy. exfalso. apply (H s w). now left.
Qed.
Lemma resolve_spelling l : NoSpelling l -> fst (resolve_bg None l) = None.
Proof.
  induction l as [|e l IH]; intros H; cbn [resolve_bg]; [easy|]. assert (K : NoSpelling l) by (intros s w I1; apply (H s w); now right). specialize (IH K).
  destruct e as [| | | |s w]; try (destruct (resolve_bg None l); exact IH). unfold bg_use.
  destruct (smem s bg_spellings) eqn:E; [exfalso; apply (H s w); [now left|now apply accepted_iff]|]. destruct (resolve_bg None l). exact IH.
Qed.

Section Web.
Variable U : uni.
Variable FT : ftable.
Variable AT : atable.
Variable fuel : nat.
Let run := web_run U FT AT fuel.
Let post := web_post U FT AT fuel.

Lemma web_is_check data : run data = check_run U FT AT (fun _ => false) fuel (web_fs data) (Some []) web_name.
Proof. unfold run, web_run, check_run, show_run, load_odbc, mret. cbn [mbind fst snd]. unfold register_all. cbn [fold_left app]. now destruct (parse_dialplan _ _ _ _ _ _). Qed.

Lemma web_file data chosen m : In m (run_msgs chosen (fst (run data))) -> w_file (m_where m) = web_name.
Proof.
  rewrite web_is_check. intros H. apply all_placed in H as [H _].
  assert (K : exists b, web_fs data (w_file (m_where m)) = Ok b).
  { destruct H as [(pre & post' & E & _)|[(_ & _ & E) _]]; [eauto|exact E]. }
  destruct K as [b K]. unfold web_fs in K. destruct (str_eqb_spec (w_file (m_where m)) web_name); [easy|discriminate].
Qed.
Lemma post_fresh bg text data : utf8_encode text = Ok data -> snd (run data) = Ok tt ->
  fst (post (WState [] bg) text) = WState [] (fst (resolve_bg bg (fst (run data)))) /\
  exists is, snd (post (WState [] bg) text) = Ok is /\ Reports (run_msgs bg (fst (run data))) is.
Proof.
  intros E R. unfold post, web_post. rewrite E. fold run. cbn zeta. cbn [ws_bg ws_raised]. fold (run data). unfold run_msgs.
  pose proof (web_file data bg) as KF. pose proof (all_formatted U FT AT (fun _ => false) fuel (web_fs data) (Some []) web_name bg) as KM.
  rewrite <- web_is_check in KM. specialize (KM R). unfold run_msgs in *.
  destruct (resolve_bg bg (fst (run data))) as [bg' l] eqn:EB. cbn [fst snd] in *. rewrite R. cbn [fst snd]. split; [easy|].
  destruct (raise_dict (log_msgs l) [] dict_nil) as (D1 & D2 & D3). cbn [flat_map app] in D2. set (r := fold_left raised_add (log_msgs l) []) in *.
  assert (HF : one_file web_name (flat_map snd r)). { intros m HM. apply KF. eapply Permutation_in; [exact D2|exact HM]. }
  destruct (collect_sorted r HF) as (C1 & C2 & C3). exists (map issue_of (collect r)). split.
  - apply issues_ok. intros m HM. apply KM. eapply Permutation_in; [exact D2|]. eapply Permutation_in; [exact C2|exact HM].
  - exists (collect r). split; [now rewrite C2|]. split; [easy|]. split; [|easy]. intros n c. rewrite C3.
    destruct (filter (fun m => str_eqb (mname (m_cls m)) c) (log_msgs l)) as [|m0 ?] eqn:EF.
    + rewrite !filter_none; [easy| |].
      * intros m HM. destruct (str_eqb (mname (m_cls m)) c) eqn:EC; [|apply andb_false_r]. exfalso.
        assert (K : In m (filter (fun m => str_eqb (mname (m_cls m)) c) (log_msgs l))) by (apply filter_In; now split). now rewrite EF in K.
      * intros m HM. destruct (str_eqb (mname (m_cls m)) c) eqn:EC; [|apply andb_false_r]. exfalso.
        assert (K : In m (filter (fun m => str_eqb (mname (m_cls m)) c) (log_msgs l))).
        { apply filter_In; split; [|easy]. eapply Permutation_in; [exact D2|exact HM]. }
        now rewrite EF in K.
    + assert (K0 : In m0 (filter (fun m => str_eqb (mname (m_cls m)) c) (log_msgs l))) by (rewrite EF; now left).
      apply filter_In in K0 as [_ K0]. apply str_eqb_eq in K0.
      rewrite (D3 _ (m_cls m0)); [easy|]. intros x HX. apply andb_prop in HX as [_ HX]. apply str_eqb_eq in HX. apply mname_inj. congruence.
Qed.

Definition Ended (text : str) : Prop := forall data, utf8_encode text = Ok data -> snd (run data) = Ok tt.
Lemma history_clean h : Forall Ended h -> forall bg, exists bg', web_history U FT AT fuel (WState [] bg) h = WState [] bg' /\
  (bg = None -> (forall t data, In t h -> utf8_encode t = Ok data -> NoSpelling (fst (run data))) -> bg' = None).
Proof.
  induction 1 as [|t h HE F IH]; intros bg; [exists bg; now split|]. unfold web_history. cbn [fold_left]. fold (web_history U FT AT fuel).
  assert (K : exists bg1, fst (web_post U FT AT fuel (WState [] bg) t) = WState [] bg1 /\
    (bg = None -> (forall data, utf8_encode t = Ok data -> NoSpelling (fst (run data))) -> bg1 = None)).
  { destruct (utf8_encode t) as [data|e|] eqn:E.
    - destruct (post_fresh bg t data E (HE _ E)) as [K _]. unfold post in K. rewrite K. eexists. split; [reflexivity|].
      intros -> HN. apply resolve_spelling. now apply HN.
    - exists bg. unfold web_post. rewrite E. auto.
    - exists bg. unfold web_post. rewrite E. auto. }
  destruct K as (bg1 & K1 & K2). rewrite K1. destruct (IH bg1) as (bg' & I1 & I2). exists bg'. split; [exact I1|].
  intros HB HN. apply I2; [apply K2; [easy|]|]; intros; (eapply HN; [|eassumption]); [now left|now right].
Qed.
Theorem isolated h text : Forall Ended h ->
  (forall t data, In t h -> utf8_encode t = Ok data -> NoSpelling (fst (run data))) \/
  (forall data, utf8_encode text = Ok data -> NoBackground (fst (run data))) ->
  snd (post (web_history U FT AT fuel web_start h) text) = snd (post web_start text).
Proof.
  intros HE H. destruct (history_clean h HE None) as (bg & K1 & K2). change web_start with (WState [] None) at 1. rewrite K1. destruct H as [H|H].
  - now rewrite (K2 eq_refl H).
  - unfold post, web_post, web_start. cbn [ws_bg ws_raised]. destruct (utf8_encode text) as [data| |]; try easy. cbn zeta. fold run. fold (run data).
    rewrite !resolve_none by now apply H. now destruct (snd (run data)) as [[]| |].
Qed.
End Web.
