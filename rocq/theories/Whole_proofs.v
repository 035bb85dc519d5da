From Verif Require Import Base PyStr Defines FileRd Config VSpace VarFun AppM Dialplan Spec_VarFun Spec_Dialplan FuncOdbc Spec_FuncOdbc Check Spec_Check Spec_Run Run_proofs Spec_Whole.
From Verif Require Spec_Reader Reader_proofs Spaced_proofs Include_proofs.
Import Spec_Reader.

Definition Eventually (P : nat -> Prop) : Prop := exists k, forall fuel, (k <= fuel)%nat -> P fuel.
Lemma stream_eventually fs name evs o : StreamOf fs name evs o -> Eventually (fun fuel => vsw_stream (parse_file fuel fs name) = (evs, o)).
Proof.
  intros [es out st g R S A|es out st e R S]; apply Reader_proofs.reader_complete in R as (_ & k & K); exists k; intros fuel H; rewrite (K fuel H).
  - apply Spaced_proofs.vsw_ok. now exists out, st, g.
  - apply Spaced_proofs.vsw_fails. now exists st.
Qed.
Lemma vsw_outcome s : snd (vsw_stream s) = snd s.
Proof. unfold vsw_stream. destruct (vsw [] (fst s)) as [out l]. now destruct (snd s) as [[]| |]. Qed.
Lemma stream_iff fs name evs o : StreamOf fs name evs o <-> o <> Hang /\ exists fuel, vsw_stream (parse_file fuel fs name) = (evs, o).
Proof.
  split.
  - intros H. split; [now destruct H|]. destruct (stream_eventually _ _ _ _ H) as [k K]. exists k. now apply K.
  - intros (N & fuel & E). pose proof (vsw_outcome (parse_file fuel fs name)) as O. rewrite E in O. cbn [snd] in O.
    destruct (parse_file fuel fs name) as [es o'] eqn:P. cbn [snd] in O. subst o'.
    assert (R : ReaderSays fs name es o) by (apply Reader_proofs.reader_iff; split; [easy|now exists fuel]).
    destruct o as [[]|e|]; [| |easy].
    + apply Spaced_proofs.vsw_ok in E as (o & st & g & S & A & ->). now apply (So_ok fs name es o st g).
    + apply Spaced_proofs.vsw_fails in E as (st & S). now apply (So_fails fs name es evs st e).
Qed.
Lemma stream_det fs name evs o evs' o' : StreamOf fs name evs o -> StreamOf fs name evs' o' -> evs = evs' /\ o = o'.
Proof.
  intros H H'. destruct (stream_eventually _ _ _ _ H) as [k K]. destruct (stream_eventually _ _ _ _ H') as [k' K'].
  specialize (K (k + k')%nat ltac:(lia)). specialize (K' (k + k')%nat ltac:(lia)). rewrite K in K'. now injection K' as <- <-.
Qed.

Lemma odbc_eventually fs f fns l : WholeOdbc fs f fns l -> Eventually (fun fuel => OdbcSays fuel fs f fns l).
Proof.
  intros [|n evs os fs' l0 l1 l2 S F O R]; [exists O; constructor|].
  destruct (stream_eventually _ _ _ _ S) as [k K]. exists k. intros fuel H. now apply (Oy_file fuel fs n evs os fs' l0 l1 l2 (K fuel H)).
Qed.
Lemma odbc_whole fuel fs f fns l : OdbcSays fuel fs f fns l -> WholeOdbc fs f fns l.
Proof.
  intros [|n evs os fs' l0 l1 l2 E F O R]; [constructor|]. apply (Wo_file fs n evs os fs' l0 l1 l2); try easy. apply stream_iff. split; [easy|now exists fuel].
Qed.
Lemma check_eventually U FT AT there fs arg name l : WholeSays U FT AT there fs arg name l -> Eventually (fun fuel => CheckSays U FT AT there fuel fs arg name l).
Proof.
  intros [f fns evs h l1 l2 l3 F O E P Wk]. destruct (odbc_eventually _ _ _ _ O) as [k1 K1]. destruct (stream_eventually _ _ _ _ E) as [k2 K2].
  exists (k1 + k2)%nat. intros fuel H. apply (Ck_intro _ _ _ _ _ _ _ _ f fns evs h); try easy; [apply K1; lia|apply K2; lia].
Qed.
Lemma check_whole U FT AT there fuel fs arg name l : CheckSays U FT AT there fuel fs arg name l -> WholeSays U FT AT there fs arg name l.
Proof.
  intros [f fns evs h l1 l2 l3 F O E P Wk]. apply (Wh_intro _ _ _ _ _ _ _ f fns evs h); try easy; [now apply (odbc_whole fuel)|].
  apply stream_iff. split; [easy|now exists fuel].
Qed.
Lemma whole_det U FT AT there fs arg name l l' : AsciiOk U -> WholeSays U FT AT there fs arg name l -> WholeSays U FT AT there fs arg name l' -> l = l'.
Proof.
  intros HU H H'. destruct (check_eventually _ _ _ _ _ _ _ _ H) as [k K]. destruct (check_eventually _ _ _ _ _ _ _ _ H') as [k' K'].
  apply (check_det U FT AT there (k + k') fs arg name); [easy|apply K; lia|apply K'; lia].
Qed.
Lemma whole_iff U FT AT there fs arg name l : AsciiOk U ->
  WholeSays U FT AT there fs arg name l <-> exists fuel, check_run U FT AT there fuel fs arg name = (l, Ok tt).
Proof.
  intros HU. split.
  - intros H. destruct (check_eventually _ _ _ _ _ _ _ _ H) as [k K]. exists k. apply check_iff; [easy|]. now apply K.
  - intros [fuel H]. apply check_iff in H; [|easy]. now apply (check_whole _ _ _ _ fuel).
Qed.

(* ---- processes ---- *)
Lemma process_ends env l ms ps n {A} (a : A) : Check_proofs.Formatted (run_msgs None l) ->
  process_of env (l, Ok a) = Process ms ps (Ok n) <-> Ends ms ps n env l.
Proof.
  intros F. unfold process_of. cbn [fst snd bind]. unfold Ends. rewrite messages_iff, Check_proofs.status_iff by easy. split.
  - intros H. injection H as E1 E2 E3. split; [easy|]. subst ms. split; [now apply shown_iff|]. rewrite E2 in E3. now destruct ps; [left|right].
  - intros (<- & S & K). apply shown_iff in S; [|easy]. rewrite S. destruct K as [[-> ->]|[K ->]]; [easy|]. now destruct ps.
Qed.
Theorem whole_process U FT AT there fs env arg name ms ps n : AsciiOk U ->
  (exists fuel, dialplan_check U FT AT there fuel fs env arg name = Process ms ps (Ok n)) <->
  exists l, WholeSays U FT AT there fs arg name l /\ Ends ms ps n env l.
Proof.
  intros HU. unfold dialplan_check. split.
  - intros [fuel H]. pose proof (Check_proofs.all_formatted U FT AT there fuel fs arg name None) as F.
    pose proof (fun l => check_iff U FT AT there fuel fs arg name l HU) as CI.
    destruct (check_run U FT AT there fuel fs arg name) as [l [[]|x|]]; [|discriminate H..].
    apply (process_ends env l ms ps n tt) in H; [|exact (F eq_refl)]. exists l. split; [|easy]. apply (check_whole _ _ _ _ fuel). now apply CI.
  - intros (l & H & K). apply whole_iff in H as [fuel H]; [|easy]. exists fuel. pose proof (Check_proofs.all_formatted U FT AT there fuel fs arg name None) as F.
    rewrite H in *. apply process_ends; [exact (F eq_refl)|easy].
Qed.
Theorem whole_odbc fs env name ms ps n : (exists fuel, odbc_check fuel fs env name = Process ms ps (Ok n)) <->
  exists fns l, WholeOdbc fs (Some name) fns l /\ Ends ms ps n env (map LMsg l).
Proof.
  unfold odbc_check. split.
  - intros [fuel H]. pose proof (Check_proofs.odbc_formatted fuel fs name) as F. destruct (load_func_odbc fuel fs name) as [l [fns|x|]] eqn:E; [|discriminate H..].
    change (mw (l, Ok fns)) with (map LMsg l, Ok fns) in *. apply process_ends in H; [|apply F; now exists fns].
    exists fns, l. split; [|easy]. apply (odbc_whole fuel). now apply load_iff.
  - intros (fns & l & H & K). destruct (odbc_eventually _ _ _ _ H) as [k E]. specialize (E k (le_n k)). apply load_iff in E.
    exists k. pose proof (Check_proofs.odbc_formatted k fs name) as F. rewrite E in *. change (mw (l, Ok fns)) with (map LMsg l, Ok fns) in *.
    apply process_ends; [apply F; now exists fns|easy].
Qed.
