(* Proofs about the web service: C63. *)
From Coq Require Import Permutation Sorted.
From Verif Require Import Loader_proofs Base Utf8 PyStr Defines FileRd Config VSpace Pattern Var VarFun AppM Dialplan Spec_VarFun Check Report
  Spec_File File_proofs Spec_Commands Spec_App Spec_Dialplan Spec_Check Spec_Log Spec_Report Spec_Run Spec_Whole
  Log_proofs Include_proofs VarFun_proofs Dialplan_proofs DialplanC_proofs Commands_proofs Check_proofs Run_proofs Whole_proofs Web_proofs Report_proofs Steady_proofs Properties_Crash.
From Verif Require Import Web Spec_Web.

(* ---- requests ---- *)
Lemma key_iff l k v : KeyOf l k v <-> lookup k l = Some v.
Proof.
  split.
  - intros (b & a & -> & N). induction b as [|[k' v'] b IH]; cbn; [now rewrite str_eqb_refl|]. cbn in N.
    destruct (str_eqb_spec k k') as [<-|_]; [now destruct N; left|]. apply IH. tauto.
  - induction l as [|[k' v'] l IH]; cbn; [easy|]. destruct (str_eqb_spec k k') as [<-|E].
    + intros [= ->]. now exists [], l.
    + intros H. destruct (IH H) as (b & a & -> & N). exists ((k', v') :: b), a. split; [easy|]. cbn. intros [K|K]; [now apply E|easy].
Qed.
Lemma allowed_iff r : Allowed r <-> refused r = None.
Proof.
  unfold Allowed, refused. destruct (rq_threads r); [split; [now intros [H _]|easy]|]. destruct (rq_length r) as [n|].
  - destruct (N.ltb_spec 65536 n).
    + split; [|easy]. intros [_ H1]. specialize (H1 n eq_refl). lia.
    + split; [easy|]. intros _. split; [easy|]. intros m [= <-]. lia.
  - split; [easy|]. intros _. split; [easy|]. discriminate.
Qed.
Lemma uploads_iff r data : Uploads r data <-> refused r = None /\ uploaded (rq_media r) = Ok data.
Proof.
  split.
  - intros [top files text A M K1 K2 E]. split; [now apply allowed_iff|]. apply key_iff in K1, K2. apply Utf8_encode in E.
    unfold uploaded. rewrite M. cbn [json_get]. rewrite K1. cbn [bind json_get]. fold web_name in K2. now rewrite K2.
  - intros [A H]. apply allowed_iff in A. unfold uploaded in H. destruct (rq_media r) as [|top| |] eqn:M; cbn [json_get bind] in H; try easy.
    destruct (lookup (L "files") top) as [f|] eqn:K1; cbn [bind] in H; [|easy]. destruct f as [|files| |]; cbn [json_get bind] in H; try easy.
    destruct (lookup web_name files) as [x|] eqn:K2; cbn [bind] in H; [|easy]. destruct x as [text| | |]; try easy.
    apply key_iff in K1, K2. apply Utf8_encode in H. now apply (Up_intro r data top files text).
Qed.
Lemma uploads_det r data data' : Uploads r data -> Uploads r data' -> data = data'.
Proof. rewrite !uploads_iff. intros [_ H] [_ H']. congruence. Qed.
Lemma encode_ends s : utf8_encode s <> Hang.
Proof.
  induction s as [|c s IH]; cbn; [easy|]. destruct (utf8_encode1 c) eqn:E; cbn; [|easy|].
  - now destruct (utf8_encode s).
  - unfold utf8_encode1 in E. repeat destruct (_ : bool) in E; discriminate.
Qed.
Lemma uploaded_ends v : uploaded v <> Hang.
Proof.
  unfold uploaded. destruct v as [|l| |]; cbn; try easy. destruct (lookup _ l) as [[|f| |]|]; cbn; try easy.
  destruct (lookup _ f) as [[s| | |]|]; cbn; try easy. apply encode_ends.
Qed.

(* ---- the messages ---- *)
Lemma chosen_run l : forall before ch, ChosenIn before ch -> ChosenIn (before ++ l) (fst (resolve_bg ch l)).
Proof.
  induction l as [|e l IH]; intros before ch H; cbn [resolve_bg]; [now rewrite app_nil_r|].
  replace (before ++ e :: l) with ((before ++ [e]) ++ l) by now rewrite <- app_assoc.
  destruct e as [m|v w|k|k|s w].
  1-4: (match goal with |- ChosenIn ((_ ++ [?e]) ++ _) _ => specialize (IH (before ++ [e]) ch ltac:(apply chosen_other; [discriminate|exact H])) end;
        destruct (resolve_bg ch l); exact IH).
  pose proof (chosen_use before ch s w H) as K. destruct (bg_use ch s w) as [ch' ms]. destruct K as (H' & _ & _ & _).
  specialize (IH _ _ H'). destruct (resolve_bg ch' l) as [c' r']. exact IH.
Qed.
Section Service.
Variable U : uni.
Variable FT : ftable.
Variable AT : atable.
Variable printable : N -> bool.
Hypothesis HU : AsciiOk U.
Let Run := Run U FT AT.
Let Left := Left U FT AT.
Let serve := serve U FT AT printable.
Let after := after U FT AT printable.
Let web_run := web_run U FT AT.

Lemma whole_web data l : WholeSays U FT AT (fun _ => false) (web_fs data) (Some []) (L "extensions.conf") l <-> exists fuel, web_run fuel data = (l, Ok tt).
Proof.
  rewrite (whole_iff U FT AT (fun _ => false) (web_fs data) (Some []) (L "extensions.conf") l HU). unfold web_run.
  split; intros [fuel E]; exists fuel; [rewrite web_is_check; exact E|]. rewrite web_is_check in E. exact E.
Qed.
Lemma run_iff r l b : Run r l b <->
  (forall data, ~ Uploads r data) /\ l = [] /\ b = false \/
  exists data fuel o, Uploads r data /\ web_run fuel data = (l, o) /\ (b = true /\ o = Ok tt \/ b = false /\ exists e, o = Exn e).
Proof.
  split.
  - intros [N|data l' D W|data l' e fuel D E]; [now left|right|right].
    + apply whole_web in W as [fuel E]. exists data, fuel, (Ok tt). auto.
    + exists data, fuel, (Exn e). split; [easy|]. split; [easy|]. right. split; [easy|now exists e].
  - intros [(N & -> & ->)|(data & fuel & o & D & E & [[-> ->]|[-> [e ->]]])]; [now apply Rn_none| |].
    + apply (Rn_ended _ _ _ r data); [easy|]. apply whole_web. now exists fuel.
    + now apply (Rn_raised _ _ _ r data l e fuel).
Qed.
Lemma web_at data fuel l o : web_run fuel data = (l, o) -> o <> Hang -> forall fuel', (fuel <= fuel')%nat -> web_run fuel' data = (l, o).
Proof.
  intros E N fuel' H. replace fuel' with (fuel + (fuel' - fuel))%nat by lia. unfold web_run in *. rewrite web_steady by now rewrite E. exact E.
Qed.
Lemma run_det r l b l' b' : Run r l b -> Run r l' b' -> l = l' /\ b = b'.
Proof.
  rewrite !run_iff. intros [(N & -> & ->)|(data & fuel & o & D & E & B)] [(N' & -> & ->)|(data' & fuel' & o' & D' & E' & B')]; try easy.
  - now destruct (N data').
  - now destruct (N' data).
  - rewrite <- (uploads_det _ _ _ D D') in E'. assert (O : o <> Hang) by (destruct B as [[_ ->]|[_ [e ->]]]; easy). assert (O' : o' <> Hang) by (destruct B' as [[_ ->]|[_ [e ->]]]; easy).
    pose proof (web_at _ _ _ _ E O (fuel + fuel') ltac:(lia)) as X. rewrite (web_at _ _ _ _ E' O' (fuel + fuel') ltac:(lia)) in X. injection X as -> ->.
    split; [easy|]. destruct B as [[-> ->]|[-> [e ->]]], B' as [[-> H]|[-> [e' H]]]; easy.
Qed.

(* What the server holds. *)
Definition Holds (st : wstate) (before : list lev) (left : list msg) : Prop :=
  ws_raised st = fold_left raised_add left [] /\ ChosenIn before (ws_bg st).
(* serving a request, by its run *)
Lemma serve_none addr fuel st r : (forall data, ~ Uploads r data) -> fst (serve fuel addr st r) = st /\
  ((exists s, refused r = Some s /\ snd (serve fuel addr st r) = Refused s) \/
   refused r = None /\ exists e, uploaded (rq_media r) = Exn e /\ snd (serve fuel addr st r) = Failed e).
Proof.
  intros N. unfold serve, Web.serve. destruct (refused r) as [s|] eqn:R; [split; [easy|]; left; now exists s|].
  destruct (uploaded (rq_media r)) as [data|e|] eqn:E; [exfalso; apply (N data), uploads_iff; auto| |now apply uploaded_ends in E].
  split; [easy|]. right. split; [easy|]. now exists e.
Qed.
Definition Web_end (addr : nat -> N) (rs : raised) (o : res unit) : answer :=
  match o with
  | Ok _ => match entries printable addr 0 (collect rs) with Ok p => Answer (fst p) | Exn e => Failed e | Hang => Unanswered end
  | Exn NotImplementedError => Refused 400
  | Exn e => Failed e
  | Hang => Unanswered
  end.
Lemma serve_run addr fuel st r data l o : Uploads r data -> web_run fuel data = (l, o) ->
  let ms := run_msgs (ws_bg st) l in
  let rs := fold_left raised_add ms (ws_raised st) in
  serve fuel addr st r = (WState (match o with Ok _ => [] | _ => rs end) (fst (resolve_bg (ws_bg st) l)), Web_end addr rs o).
Proof.
  intros D E. apply uploads_iff in D as [R D]. unfold serve, Web.serve. rewrite R, D. cbn zeta. unfold web_run in E. rewrite E. cbn [fst snd]. unfold run_msgs.
  destruct (resolve_bg (ws_bg st) l) as [bg l']. cbn [fst snd]. destruct o as [[]|e|]; cbn [Web_end]; try easy. now destruct e.
Qed.
Lemma holds_step fuel st before left r l o data : Holds st before left -> Uploads r data -> web_run fuel data = (l, o) ->
  let ms := run_msgs (ws_bg st) l in Messages before l ms /\
  Holds (fst (serve fuel (fun _ => 0) st r)) (before ++ l) (match o with Ok _ => [] | _ => left ++ ms end).
Proof.
  intros [H1 H2] D E ms. split; [now apply messages_run|]. rewrite (serve_run _ _ _ _ _ _ _ D E). cbn [fst]. split; cbn [ws_raised ws_bg]; [|now apply chosen_run].
  rewrite H1. destruct o; [easy|now rewrite fold_left_app..].
Qed.
Lemma after_snoc fuel h r : after fuel (h ++ [r]) = fst (serve fuel (fun _ => 0) (after fuel h) r).
Proof. unfold after, Web.after. now rewrite fold_left_app. Qed.
Lemma left_holds h before left : Left h before left -> Eventually (fun fuel => Holds (after fuel h) before left).
Proof.
  induction 1 as [|h r before ms l _ [k IH] R|h r before ms l new _ [k IH] R M].
  - exists O. intros fuel _. split; [easy|]. cbn. intros s w [].
  - apply run_iff in R as [(_ & _ & X)|(data & fuel0 & o & D & E & B)]; [easy|]. destruct B as [[_ ->]|[X _]]; [|easy].
    exists (k + fuel0)%nat. intros fuel F. rewrite after_snoc. pose proof (web_at _ _ _ _ E ltac:(discriminate) fuel ltac:(lia)) as E'.
    now destruct (holds_step _ _ _ _ _ _ _ _ (IH fuel ltac:(lia)) D E') as [_ K].
  - apply run_iff in R as [(N & -> & _)|(data & fuel0 & o & D & E & B)].
    + exists k. intros fuel F. rewrite after_snoc. destruct (serve_none (fun _ => 0) fuel (after fuel h) r N) as [-> _].
      inversion M; subst. rewrite !app_nil_r. now apply IH.
    + destruct B as [[X _]|[_ [e ->]]]; [easy|].
      exists (k + fuel0)%nat. intros fuel F. rewrite after_snoc. pose proof (web_at _ _ _ _ E ltac:(discriminate) fuel ltac:(lia)) as E'.
      destruct (holds_step _ _ _ _ _ _ _ _ (IH fuel ltac:(lia)) D E') as [M' K]. now rewrite (messages_det _ _ _ _ M M').
Qed.
Lemma left_det h before left : Left h before left -> forall before' left', Left h before' left' -> before = before' /\ left = left'.
Proof.
  assert (SN : forall (h h' : list request) r r', h ++ [r] = h' ++ [r'] -> h = h' /\ r = r') by (intros; now apply app_inj_tail).
  induction 1 as [|h r before ms l HL IH R|h r before ms l new HL IH R M]; intros before' left' H';
    inversion H' as [E1 E2 E3|h1 r1 b1 m1 l1 L1 R1 E1 E2 E3|h1 r1 b1 m1 l1 n1 L1 R1 M1 E1 E2 E3];
    try (exfalso; destruct h; discriminate); try (exfalso; destruct h1; discriminate); subst; try easy.
  all: apply SN in E1 as [-> ->]; destruct (run_det _ _ _ _ _ R R1) as [-> X]; try discriminate X; destruct (IH _ _ L1) as [-> ->]; split; try easy.
  now rewrite (messages_det _ _ _ _ M M1).
Qed.

(* ---- the entries ---- *)
Let Response := Response printable.
Lemma entry_words m e : EntryOf printable m e <-> exists t, Words printable m t /\ e = Entry (w_line (m_where m)) (mname (m_cls m)) t.
Proof.
  unfold EntryOf. split.
  - intros (A & B & C). exists (en_desc e). split; [easy|]. destruct e; cbn in *. now subst.
  - intros (t & W & ->). easy.
Qed.
Lemma entries_sound addr ms : forall k es k', entries printable addr k ms = Ok (es, k') -> Forall2 (EntryOf printable) ms es.
Proof.
  induction ms as [|m ms IH]; intros k es k'; cbn [entries].
  - intros [= <- _]. constructor.
  - destruct (words printable addr k m) as [[t j]| |] eqn:E; cbn [bind snd]; try easy. destruct (entries printable addr j ms) as [[es' j']| |] eqn:F; cbn [bind]; try easy.
    cbn [fst snd]. intros [= <- <-]. constructor; [|now apply (IH j _ j')]. apply entry_words. exists t. split; [|easy]. apply words_iff. now exists addr, k, j.
Qed.
Lemma entries_real ms es : Forall2 (EntryOf printable) ms es -> forall a0 k, exists a k', (k <= k')%nat /\ (forall i, (i < k)%nat -> a i = a0 i) /\
  forall b, (forall i, (i < k')%nat -> b i = a i) -> entries printable b k ms = Ok (es, k').
Proof.
  induction 1 as [|m e ms es H F IH]; intros a0 k; [exists a0, k; easy|]. apply entry_words in H as (t & W & ->).
  destruct (words_real printable m t W a0 k) as (a & k1 & K1 & A1 & R1). destruct (IH a k1) as (a' & k2 & K2 & A2 & R2).
  exists a', k2. split; [lia|]. split; [intros i I; rewrite A2 by lia; now apply A1|]. intros b B. cbn [entries].
  rewrite (R1 b) by (intros i I; rewrite B by lia; apply A2; lia). cbn [bind fst snd]. now rewrite (R2 b B).
Qed.
Lemma entries_total addr ms : (forall m, In m ms -> format_ok (mfields (m_cls m)) (m_args m) = Ok tt) -> forall k, exists p, entries printable addr k ms = Ok p.
Proof.
  induction ms as [|m ms IH]; intros F k; [now eexists|]. cbn [entries].
  destruct (proj2 (words_exist printable addr k m) (F m (or_introl eq_refl))) as [[w j] E]. rewrite E. cbn [bind snd].
  destruct (IH (fun x I => F x (or_intror I)) j) as [p ->]. cbn. now eexists.
Qed.

(* ---- the order of a response ---- *)
Lemma in_order_iff ms : one_file web_name ms -> forall sorted, InOrder ms sorted <-> sorted = collect (fold_left raised_add ms []).
Proof.
  intros F. destruct (raise_dict ms [] dict_nil) as (D1 & D2 & D3). cbn [flat_map List.app] in D2, D3. set (r := fold_left raised_add ms []) in *.
  assert (HF : one_file web_name (flat_map snd r)) by (intros m HM; apply F; eapply Permutation_in; [exact D2|exact HM]).
  destruct (collect_sorted r HF) as (C1 & C2 & C3).
  assert (K : InOrder ms (collect r)).
  { split; [now rewrite C2|]. split; [easy|]. intros n c. rewrite C3.
    destruct (filter (fun m => str_eqb (mname (m_cls m)) c) ms) as [|m0 ?] eqn:EF.
    - rewrite !filter_none; [easy| |].
      + intros m HM. destruct (str_eqb (mname (m_cls m)) c) eqn:EC; [|apply andb_false_r]. exfalso.
        assert (K : In m (filter (fun m => str_eqb (mname (m_cls m)) c) ms)) by (apply filter_In; now split). now rewrite EF in K.
      + intros m HM. destruct (str_eqb (mname (m_cls m)) c) eqn:EC; [|apply andb_false_r]. exfalso.
        assert (K : In m (filter (fun m => str_eqb (mname (m_cls m)) c) ms)).
        { apply filter_In; split; [|easy]. eapply Permutation_in; [exact D2|exact HM]. }
        now rewrite EF in K.
    - assert (K0 : In m0 (filter (fun m => str_eqb (mname (m_cls m)) c) ms)) by (rewrite EF; now left).
      apply filter_In in K0 as [_ K0]. apply str_eqb_eq in K0.
      rewrite (D3 _ (m_cls m0)); [easy|]. intros x HX. apply andb_prop in HX as [_ HX]. apply str_eqb_eq in HX. apply mname_inj. congruence. }
  split; [|now intros ->]. intros H. clear - H K. destruct H as (_ & S & T), K as (_ & S' & T').
  assert (X : forall n c, filter (fun m => (w_line (m_where m) =? n) && str_eqb (mname (m_cls m)) c) sorted =
                          filter (fun m => (w_line (m_where m) =? n) && str_eqb (mname (m_cls m)) c) (collect r)) by (intros; now rewrite T, T').
  clear T T'. revert X S'. generalize (collect r). induction S as [|m s S IH Fm]; intros c X S'.
  - destruct c as [|m c]; [easy|]. exfalso. specialize (X (w_line (m_where m)) (mname (m_cls m))). cbn in X. now rewrite N.eqb_refl, str_eqb_refl in X.
  - destruct c as [|m' c]; [exfalso; specialize (X (w_line (m_where m)) (mname (m_cls m))); cbn in X; now rewrite N.eqb_refl, str_eqb_refl in X|].
    apply StronglySorted_inv in S' as [S' Fm'].
    assert (B : w_line (m_where m) = w_line (m_where m') /\ mname (m_cls m) = mname (m_cls m')).
    { rewrite Forall_forall in Fm, Fm'.
      assert (LE : MsgLe m m' /\ MsgLe m' m).
      { assert (R : forall x, MsgLe x x) by (intros x; right; split; [easy|apply strle_refl]).
        split.
        - assert (I : In m' (m :: s)).
          { pose proof (X (w_line (m_where m')) (mname (m_cls m'))) as Y. eapply (incl_filter (fun m => (w_line (m_where m) =? w_line (m_where m')) && str_eqb (mname (m_cls m)) (mname (m_cls m')))).
            rewrite Y. apply filter_In. split; [now left|]. now rewrite N.eqb_refl, str_eqb_refl. }
          destruct I as [->|I]; [apply R|now apply Fm].
        - assert (I : In m (m' :: c)).
          { pose proof (X (w_line (m_where m)) (mname (m_cls m))) as Y. eapply (incl_filter (fun m0 => (w_line (m_where m0) =? w_line (m_where m)) && str_eqb (mname (m_cls m0)) (mname (m_cls m)))).
            rewrite <- Y. apply filter_In. split; [now left|]. now rewrite N.eqb_refl, str_eqb_refl. }
          destruct I as [->|I]; [apply R|now apply Fm']. }
      unfold MsgLe in LE. destruct LE as [[A|[A B]] [A'|[A' B']]]; try lia. split; [easy|]. now apply strle_antisym. }
    destruct B as [B1 B2].
    assert (m = m').
    { pose proof (X (w_line (m_where m)) (mname (m_cls m))) as Y. cbn [filter] in Y. rewrite <- B1, <- B2, N.eqb_refl, str_eqb_refl in Y. cbn in Y. now injection Y. }
    subst m'. f_equal. apply IH; [|easy]. intros n c0. specialize (X n c0). cbn [filter] in X. destruct (_ && _); [now injection X|easy].
Qed.

(* ---- the answers ---- *)
Lemma left_chosen h before left : Left h before left -> exists ch, ChosenIn before ch.
Proof. intros H. destruct (left_holds _ _ _ H) as [k K]. destruct (K k (le_n k)) as [_ C]. eexists. exact C. Qed.
Lemma run_file r l b before ch ms : Run r l b -> ChosenIn before ch -> Messages before l ms -> one_file web_name ms.
Proof.
  intros R C M. rewrite (messages_det _ _ _ _ M (messages_run l before ch C)). apply run_iff in R as [(_ & -> & _)|(data & fuel & o & D & E & _)]; [easy|].
  intros m I. apply (web_file U FT AT fuel data ch). fold web_run. now rewrite E.
Qed.
Lemma one_app f a b : one_file f a -> one_file f b -> one_file f (a ++ b).
Proof. intros A B m I. apply in_app_or in I as [I|I]; auto. Qed.
Lemma left_file h before left : Left h before left -> one_file web_name left.
Proof.
  induction 1 as [|h r before ms l HL IH R|h r before ms l new HL IH R M]; [easy|easy|].
  destruct (left_chosen _ _ _ HL) as [ch C]. apply one_app; [easy|]. now apply (run_file r l false before ch).
Qed.
Lemma run_formatted r l before ch ms : Run r l true -> ChosenIn before ch -> Messages before l ms -> Formatted ms.
Proof.
  intros R C M. rewrite (messages_det _ _ _ _ M (messages_run l before ch C)). apply run_iff in R as [(_ & _ & X)|(data & fuel & o & D & E & [[_ ->]|[X _]])]; [easy| |easy].
  intros m I. apply (all_formatted U FT AT (fun _ => false) fuel (web_fs data) (Some []) web_name ch); rewrite <- web_is_check; fold web_run; now rewrite E.
Qed.
Lemma response_iff ms es : one_file web_name ms ->
  Response ms es <-> exists addr, match entries printable addr 0 (collect (fold_left raised_add ms [])) with Ok p => fst p = es | _ => False end.
Proof.
  intros F. unfold Response, Spec_Web.Response. split.
  - intros (s & O & E). apply (in_order_iff ms F) in O as ->. destruct (entries_real _ _ E (fun _ => 0) O) as (a & k' & _ & _ & R). exists a. now rewrite (R a).
  - intros [addr H]. destruct (entries printable addr 0 _) as [[es' k]| |] eqn:E; try easy. cbn in H. subst es'. eexists. split; [now apply in_order_iff|].
    now apply (entries_sound addr _ 0%nat es k).
Qed.
Let Answers := Answers U FT AT printable.
Theorem answer_iff h before left r es : Left h before left ->
  Answers h r es <-> Eventually (fun fuel => exists addr, snd (serve fuel addr (after fuel h) r) = Answer es).
Proof.
  intros HL. pose proof (left_holds _ _ _ HL) as [k K]. pose proof (left_file _ _ _ HL) as FL. split.
  - intros [b' left' l ms es' HL' R M RS]. destruct (left_det _ _ _ HL _ _ HL') as [<- <-]. pose proof R as R0.
    destruct (left_chosen _ _ _ HL) as [ch C]. assert (F : one_file web_name (left ++ ms)) by (apply one_app; [easy|now apply (run_file r l true before ch)]).
    apply run_iff in R as [(_ & _ & X)|(data & fuel0 & o & D & E & [[_ ->]|[X _]])]; [easy| |easy].
    exists (k + fuel0)%nat. intros fuel FU. destruct (K fuel ltac:(lia)) as [H1 H2]. apply (response_iff (left ++ ms) es' F) in RS as [addr RS]. exists addr.
    pose proof (web_at _ _ _ _ E ltac:(discriminate) fuel ltac:(lia)) as E'. rewrite (serve_run addr fuel _ r data l (Ok tt) D E'). cbn [snd Web_end].
    rewrite H1, <- fold_left_app, (messages_det _ _ _ _ (messages_run l before _ H2) M). destruct (entries _ _ _ _); try easy. cbn in RS. now rewrite RS.
  - intros [k' K']. destruct (K' (k + k')%nat ltac:(lia)) as [addr E]. set (fuel := (k + k')%nat) in *. destruct (K fuel ltac:(lia)) as [H1 H2].
    destruct (refused r) as [s|] eqn:RF; [unfold serve, Web.serve in E; rewrite RF in E; discriminate E|].
    destruct (uploaded (rq_media r)) as [data|e|] eqn:UP; [|unfold serve, Web.serve in E; rewrite RF, UP in E; discriminate E..].
    assert (D : Uploads r data) by now apply uploads_iff. destruct (web_run fuel data) as [l o] eqn:W.
    rewrite (serve_run addr fuel _ r data l o D W) in E. cbn [snd] in E. destruct o as [[]|e|]; cbn [Web_end] in E; [|destruct e; discriminate E|discriminate E].
    assert (R : Run r l true) by (apply run_iff; right; exists data, fuel, (Ok tt); auto).
    pose proof (messages_run l before _ H2) as M. apply (An_intro _ _ _ _ h r before left l (run_msgs (ws_bg (after fuel h)) l) es); try easy.
    apply response_iff; [apply one_app; [easy|now apply (run_file r l true before _ _ R H2)]|]. exists addr. rewrite fold_left_app, <- H1.
    destruct (entries _ _ _ _); try discriminate E. now injection E.
Qed.
(* when there is one *)
Lemma response_some ms : one_file web_name ms -> (exists es, Response ms es) <-> Formatted ms.
Proof.
  intros F. split.
  - intros (es & s & O & E) m I. pose proof (proj1 O) as P. apply Permutation_sym in P. apply (Permutation_in _ P) in I.
    apply (words_some printable). clear - E I. induction E as [|x e s es H E IH]; [easy|]. destruct I as [->|I]; [|now apply IH]. exists (en_desc e). apply H.
  - intros H. destruct (entries_total (fun _ => 0) (collect (fold_left raised_add ms []))) with (k := O) as [[es k] E].
    + intros m I. apply H. assert (O : InOrder ms (collect (fold_left raised_add ms []))) by now apply in_order_iff. now apply (Permutation_in _ (proj1 O)) in I.
    + exists es. apply response_iff; [easy|]. exists (fun _ => 0). now rewrite E.
Qed.
Theorem answered_iff h before left r : Left h before left ->
  (exists es, Answers h r es) <-> (exists l, Run r l true) /\ forall m, In m left -> exists t, Words printable m t.
Proof.
  intros HL. destruct (left_chosen _ _ _ HL) as [ch C]. split.
  - intros [es [b' left' l ms es' HL' R M RS]]. destruct (left_det _ _ _ HL _ _ HL') as [<- <-]. split; [now exists l|]. intros m I. apply words_some.
    assert (X : Formatted (left ++ ms)) by (apply response_some; [apply one_app; [now apply (left_file h before)|now apply (run_file r l true before ch)]|now exists es']).
    apply X. apply in_or_app. now left.
  - intros [[l R] F]. pose proof (messages_run l before ch C) as M. destruct (proj2 (response_some (left ++ run_msgs ch l) ltac:(apply one_app; [now apply (left_file h before)|now apply (run_file r l true before ch)]))) as [es RS].
    + intros m I. apply in_app_or in I as [I|I]; [apply (words_some printable); now apply F|]. now apply (run_formatted r l before ch _ R C M).
    + exists es. now apply (An_intro _ _ _ _ h r before left l (run_msgs ch l)).
Qed.
Lemma response_length ms es : Response ms es -> length es = length ms.
Proof. intros (s & O & E). rewrite <- (Permutation_length (proj1 O)). symmetry. clear O. induction E; cbn; congruence. Qed.
(* isolation *)
Lemma messages_any before before' l ms : NoBackground l -> Messages before l ms -> Messages before' l ms.
Proof.
  intros N H. revert before' N. induction H as [before|before m l ms _ IH|before e l ms N1 N2 _ IH|before s w l ms R _ IH|before s w ref l ms R N0 _ IH]; intros before' N.
  - constructor.
  - constructor. apply IH. intros s w I. apply (N s w). now right.
  - apply Me_other; try easy. apply IH. intros s w I. apply (N s w). now right.
  - exfalso. apply (N s w). now left.
  - exfalso. apply (N s w). now left.
Qed.
Theorem isolated_iff h before left r l : Left h before left -> Run r l true -> NoBackground l ->
  (forall es, Answers h r es <-> Answers [] r es) <-> left = [].
Proof.
  intros HL R NB. split.
  - intros H. assert (X : exists es, Answers [] r es) by (apply (answered_iff [] [] []); [constructor|split; [now exists l|easy]]).
    destruct X as [es A]. pose proof (proj2 (H es) A) as A'. destruct A as [b1 left1 l1 ms1 es1 HL1 R1 M1 RS1], A' as [b2 left2 l2 ms2 es2 HL2 R2 M2 RS2].
    destruct (left_det _ _ _ HL _ _ HL2) as [<- <-]. destruct (left_det _ _ _ HL1 _ _ (Lf_start U FT AT)) as [-> ->].
    destruct (run_det _ _ _ _ _ R R1) as [<- _], (run_det _ _ _ _ _ R R2) as [<- _].
    apply (messages_any _ [] _ _ NB) in M2. rewrite (messages_det _ _ _ _ M2 M1) in RS2. apply response_length in RS1, RS2. rewrite app_length in RS2. cbn in RS1.
    destruct left; [easy|cbn in RS2; lia].
  - intros -> es. split; intros [b' left' l1 ms es' HL' R1 M RS].
    + destruct (left_det _ _ _ HL _ _ HL') as [<- <-]. destruct (run_det _ _ _ _ _ R R1) as [<- _].
      apply (An_intro _ _ _ _ [] r [] [] l ms); try easy; [constructor|]. now apply (messages_any before).
    + destruct (left_det _ _ _ HL' _ _ (Lf_start U FT AT)) as [-> ->]. destruct (run_det _ _ _ _ _ R R1) as [<- _].
      apply (An_intro _ _ _ _ h r before [] l ms); try easy. now apply (messages_any []).
Qed.

(* ---- refused ---- *)
Lemma emit_never c w args : (forall a, In a args -> good_arg (snd a)) -> snd (memit c w args) <> Exn NotImplementedError.
Proof.
  intros H. unfold memit, mw, emit. cbn [snd]. destruct (mdupe c); cbn [snd]; [discriminate|].
  destruct (format_good (mfields c) args H) as [->|[->| ->]]; discriminate.
Qed.
Lemma bind_never {A B} (m : M A) (f : A -> M B) : snd m <> Exn NotImplementedError -> (forall a, snd m = Ok a -> snd (f a) <> Exn NotImplementedError) ->
  snd (mbind m f) <> Exn NotImplementedError.
Proof. destruct m as [l [a|e|]]; cbn; intros H1 H2; [|congruence|easy]. specialize (H2 a eq_refl). now destruct (f a). Qed.
Lemma res_never {A B} (m : res A) (f : A -> res B) : m <> Exn NotImplementedError -> (forall a, f a <> Exn NotImplementedError) -> bind m f <> Exn NotImplementedError.
Proof. destruct m as [a|e|]; cbn; intros H1 H2; [apply H2|congruence|easy]. Qed.
Lemma matches_never p e : matches_extension p e <> Exn NotImplementedError.
Proof.
  unfold matches_extension. apply res_never; [|easy]. induction (no_dash e) as [|c s IH]; [easy|]. cbn. destruct (c <? 256); [|easy].
  destruct (latin1_encode s); cbn; congruence.
Qed.
Lemma hit_never q x : prio_hit q x <> Exn NotImplementedError.
Proof. destruct q as [z|[]|l]; easy. Qed.
Lemma own_never c ps e q : own_hit c ps e q <> Exn NotImplementedError.
Proof.
  induction ps as [|p ps IH]; cbn [own_hit]; [easy|]. apply res_never; [apply matches_never|]. intros [|]; [|exact IH]. apply res_never.
  - generalize (same_pat c p). intros xs. induction xs as [|x xs IHx]; cbn [first_hit]; [easy|]. apply res_never; [apply hit_never|]. intros [|]; easy.
  - intros [x|]; [easy|exact IH].
Qed.
Lemma match_never fuel cs : forall c e q, match_pattern fuel cs c e q <> Exn NotImplementedError.
Proof.
  induction fuel as [|k IH]; intros c e q; [easy|]. cbn [match_pattern]. apply res_never; [apply own_never|]. intros [x|]; [easy|]. apply res_never.
  - induction (dc_includes c) as [|[n w] r IHr]; [easy|]. destruct (find_ctx n cs) as [c'|]; [|exact IHr]. apply res_never; [apply IH|]. intros [x|]; [easy|exact IHr].
  - intros [x|]; [easy|]. destruct q; try easy. destruct (str_eqb e (L "i")); [easy|apply IH].
Qed.
Lemma walk_never d : snd (walk_jump_destinations d) <> Exn NotImplementedError.
Proof.
  unfold walk_jump_destinations. generalize (jump_fuel d). intros n. induction (g_jumps (dp_glob d)) as [|j js IH]; cbn [walk_jumps]; [easy|].
  apply bind_never; [|intros; exact IH]. unfold check_jump.
  assert (G : forall q, In q [(L "context", targ (j_ctx j)); (L "exten", targ (j_ext j)); (L "prio", jarg (j_prio j))] -> good_arg (snd q)).
  { intros q [<-|[<-|[<-|[]]]]; cbn [snd]; try apply good_targ. destruct (j_prio j); cbn [jarg]; [easy|apply good_targ|easy]. }
  assert (G2 : forall s q, In q [(L "context", targ (j_ctx j)); (L "exten", targ (j_ext j)); (L "label", AStr s)] -> good_arg (snd q)).
  { intros s q [<-|[<-|[<-|[]]]]; cbn [snd]; try apply good_targ. easy. }
  cbn [List.app] in *.
  destruct (j_ctx j) as [name| | | | | | |] eqn:J1; try (destruct (j_prio j) as [|[]|]; try easy; destruct (all_label d s); [easy|]; apply emit_never; exact (G2 s)).
  destruct (find_ctx name (dp_ctxs d)) as [c|]; [|now apply emit_never].
  destruct (j_ext j) as [e| | | | | | |] eqn:J2; try (destruct (j_prio j) as [|[]|]; try easy; destruct (has_label c s); [easy|]; apply emit_never; exact (G2 s)).
  apply bind_never; [cbn; apply match_never|]. intros [x|] _; [easy|]. now apply emit_never.
Qed.
Lemma element_never d e : snd (on_element U FT AT d e) <> Exn NotImplementedError.
Proof. unfold on_element. destruct (match e with ECtx c => _ | EVar v => _ | EEmpty _ _ => _ end) as [l [x|x|]]; easy. Qed.
Lemma complete_never d : snd (on_complete d) <> Exn NotImplementedError.
Proof.
  unfold on_complete. destruct (dp_general d), (dp_globals d); cbn [is_some]; try easy; destruct (dp_ctxs d); try easy;
    repeat (apply bind_never; [|intros; cbn beta]); try easy; now apply emit_never.
Qed.
Lemma stream_end evs o : forall d, dp_stream U FT AT d evs o = mbind (dp_stream U FT AT d evs (Ok tt)) (fun d' => mlift (let! _ := o in Ok d')).
Proof.
  induction evs as [|[w dd k|m|e] evs IH]; intros d; cbn [dp_stream].
  - cbn. now destruct o.
  - apply IH.
  - rewrite IH. cbn. destruct (dp_stream U FT AT d evs (Ok tt)) as [l [d'|e'|]]; cbn; now destruct o.
  - destruct (on_element U FT AT d e) as [l [d1|e1|]]; cbn [mbind]; try easy. rewrite IH.
    destruct (dp_stream U FT AT d1 evs (Ok tt)) as [l2 [d'|e'|]]; cbn [mbind]; try easy. cbn. now rewrite app_assoc.
Qed.
Lemma handled_never evs : forall d, snd (dp_stream U FT AT d evs (Ok tt)) <> Exn NotImplementedError.
Proof.
  induction evs as [|[w dd k|m|e] evs IH]; intros d; cbn [dp_stream]; [easy|apply IH|apply bind_never; [easy|intros; apply IH]|].
  apply bind_never; [apply element_never|]. intros; apply IH.
Qed.
Let AsksElsewhere := AsksElsewhere U FT AT.
Theorem refused_iff data l : (exists fuel, web_run fuel data = (l, Exn NotImplementedError)) <-> AsksElsewhere data l.
Proof.
  unfold web_run, Check.web_run, parse_dialplan. split.
  - intros [fuel E]. fold web_name in E. destruct (vsw_stream (parse_file fuel (web_fs data) web_name)) as [evs o] eqn:V.
    assert (E1 : dp_stream U FT AT dp_init evs o = (l, Exn NotImplementedError)).
    { destruct (dp_stream U FT AT dp_init evs o) as [l1 [d|e|]]; cbn [mbind] in E; [|congruence|congruence]. exfalso.
      refine (bind_never (do* _ <- on_complete d; mret d) walk_jump_destinations _ _ _).
      - apply bind_never; [apply complete_never|easy].
      - intros; apply walk_never.
      - destruct (on_complete d) as [l2 [u|e|]]; cbn in *; [|congruence|congruence]. destruct (walk_jump_destinations d) as [l3 o3]. cbn in *. congruence. }
    rewrite stream_end in E1. pose proof (handled_never evs dp_init) as N. destruct (dp_stream U FT AT dp_init evs (Ok tt)) as [l1 [d|e|]] eqn:ED; cbn [mbind snd] in *;
      [|congruence|congruence]. destruct o as [[]|e|]; cbn in E1; try discriminate E1. injection E1 as E1 ->. rewrite app_nil_r in E1. subst l1.
    apply (stream_sound U FT AT HU) with (h := []) in ED as (h & S & I); [|apply inv_init]. exists evs, h. split; [apply stream_iff; split; [easy|now exists fuel]|].
    split; [easy|]. exists (g_jumps (dp_glob d)). apply (de_jumps _ _ _ (inv_describes U h d I)).
  - intros (evs & h & S & P & J). apply stream_iff in S as [_ [fuel V]]. exists fuel. fold web_name in V. fold web_name. rewrite V.
    destruct (stream_complete U FT AT HU [] evs h l P J dp_init [] [] (inv_init U) (Hi_nil U FT AT)) as [d H].
    rewrite stream_end, H. cbn. now rewrite app_nil_r.
Qed.
(* ---- what is included ---- *)
Lemma expand_target fs name n bs out line t must : Spec_Include.Expand fs name n bs out -> In line bs -> Spec_Include.IncludeLine line t must ->
  exists line t must p, In line bs /\ Spec_Include.IncludeLine line t must /\ Spec_Include.Target name t p /\ (fs p = Exn OSError \/ exists c, fs p = Ok c).
Proof.
  intros X I IL. induction X as [name n|name n b bs d k out R NI X IH|name n b bs d k t' must' p content ls sub out R I' T Ef Ln Xs _ X IH|name n b bs d k t' must' p out R I' T Ef X IH].
  - easy.
  - destruct I as [->|I]; [now destruct (NI t must)|]. destruct (IH I) as (l1 & t1 & m1 & p1 & K & K'). exists l1, t1, m1, p1. split; [now right|easy].
  - exists b, t', must', p. split; [now left|]. split; [easy|]. split; [easy|]. right. now exists content.
  - exists b, t', must', p. split; [now left|]. split; [easy|]. split; [easy|]. now left.
Qed.
Theorem not_ended data l : Includes data -> ~ WholeSays U FT AT (fun _ => false) (web_fs data) (Some []) web_name l.
Proof.
  intros (ls & line & t & must & Ln & I & IL) W. apply whole_web in W as [fuel W]. unfold web_run, Check.web_run, parse_dialplan in W.
  destruct (vsw_stream (parse_file fuel (web_fs data) web_name)) as [evs o] eqn:V.
  assert (O : o = Ok tt).
  { apply mbind_ok in W as (l1 & d & l2 & W & _ & _). apply mbind_ok in W as (l3 & d' & l4 & W & _ & _). now apply stream_ok in W. }
  pose proof (vsw_outcome (parse_file fuel (web_fs data) web_name)) as VO. rewrite V in VO. cbn [snd] in VO. subst o.
  destruct (parse_file fuel (web_fs data) web_name) as [evs' o] eqn:PF. cbn [snd] in VO. subst o.
  pose proof (ok_acyclic _ _ _ _ PF) as A. apply parse_expand in PF as (c & ls' & Ef & Ln' & X).
  assert (c = data) as ->. { unfold web_fs in Ef. rewrite str_eqb_refl in Ef. congruence. }
  rewrite (Include_proofs.Lines_fun _ _ Ln' _ Ln) in X. destruct (expand_target _ _ _ _ _ _ _ _ X I IL) as (line1 & t1 & must1 & p & I1 & IL1 & T & [K|[c K]]).
  - unfold web_fs in K. destruct (str_eqb p web_name); discriminate K.
  - assert (p = web_name) as ->. { unfold web_fs in K. destruct (str_eqb_spec p web_name); [easy|discriminate K]. }
    assert (C : Spec_Include.Inc (web_fs data) web_name web_name).
    { exists data, ls, line1, t1, must1. split; [easy|]. split; [easy|]. split; [easy|]. split; [easy|]. split; [easy|]. now exists c. }
    clear - A C. induction A as [x _ IH]. exact (IH x C C).
Qed.
End Service.
