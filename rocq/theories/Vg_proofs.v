(* Proofs about the VoIPGRID reader. *)
From Verif Require Import Base PyStr Defines FileRd Spec_File File_proofs Vg Spec_Vg.

Definition top (stk : list N) : N := hd 0 stk.
Definition Stk (stk : list N) : Prop := Forall (fun q => q = 34 \/ q = 39 \/ q = 40) stk.
Lemma top_nil stk : Stk stk -> top stk = 0 -> stk = [].
Proof. intros [|q stk' [-> |[-> | ->]] _] H; [easy|discriminate H..]. Qed.

Lemma scan_chr stk c s : Stk stk -> Chr (top stk) c -> vg_scan stk (c :: s) = S (vg_scan stk s).
Proof.
  intros HS H. cbn [vg_scan]. fold (top stk). destruct H as [[H1 H2]|[[-> H]|[-> H]]].
  - destruct (N.eqb_spec c 34) as [-> |_]; [exfalso; apply H1; cbn; auto|]. destruct (N.eqb_spec c 39) as [-> |_]; [exfalso; apply H1; cbn; auto|].
    destruct (N.eqb_spec c 40) as [-> |_]; [exfalso; apply H1; cbn; auto|]. destruct (N.eqb_spec c 41) as [-> |_]; [exfalso; apply H1; cbn; auto 6|].
    destruct (N.eqb_spec c 59) as [-> |_]; [|easy]. destruct stk; [now destruct (H2 eq_refl)|easy].
  - change (41 =? 34) with false. change (41 =? 39) with false. change (41 =? 40) with false. change (41 =? 41) with true. cbv iota.
    now destruct (N.eqb_spec (top stk) 40).
  - change (40 =? 34) with false. change (40 =? 39) with false. change (40 =? 40) with true. cbv iota. rewrite H. reflexivity.
Qed.
Lemma scan_open stk q s : Opens (top stk) q -> vg_scan stk (q :: s) = S (vg_scan (q :: stk) s).
Proof.
  intros H. cbn [vg_scan]. fold (top stk). destruct H as [[-> H]|[[-> | ->] H]].
  - change (40 =? 34) with false. change (40 =? 39) with false. change (40 =? 40) with true. cbv iota.
    now destruct (N.eqb_spec (top stk) 34).
  - change (34 =? 34) with true. cbv iota. now destruct (N.eqb_spec (top stk) 34).
  - change (39 =? 34) with false. change (39 =? 39) with true. cbv iota. now destruct (N.eqb_spec (top stk) 39).
Qed.
Lemma scan_close stk q e s : Closes q e -> vg_scan (q :: stk) (e :: s) = S (vg_scan stk s).
Proof. intros [[-> ->]|[[-> | ->] ->]]; reflexivity. Qed.
Lemma opens_stk stk q : Stk stk -> Opens (top stk) q -> Stk (q :: stk).
Proof. intros H [[-> _]|[[-> | ->] _]]; constructor; auto. Qed.

Lemma scan_items o a : Items o a -> forall stk r, Stk stk -> top stk = o -> vg_scan stk (a ++ r) = (length a + vg_scan stk r)%nat.
Proof.
  induction 1 as [o|o c s HC HI IH|o q e body s HO HB IHB HC HI IH]; intros stk r HS <-.
  - reflexivity.
  - cbn [app length]. rewrite scan_chr by easy. now rewrite IH.
  - rewrite <- app_comm_cons, <- app_assoc, <- app_comm_cons, scan_open by easy.
    rewrite (IHB (q :: stk)); [|now apply opens_stk|easy]. rewrite (scan_close _ _ _ _ HC), IH by easy.
    cbn [length]. rewrite app_length. cbn [length]. lia.
Qed.

(* What a text has to close. *)
Fixpoint Closing (stk : list N) (p : str) : Prop :=
  match stk with
  | [] => Items 0 p
  | q :: stk' => exists b e p', p = b ++ e :: p' /\ Items q b /\ Closes q e /\ Closing stk' p'
  end.
Lemma closing_chr stk c p : Chr (top stk) c -> Closing stk p -> Closing stk (c :: p).
Proof.
  destruct stk as [|q stk]; intros H; [now apply It_chr|]. intros (b & e & p' & -> & HI & HC & HP).
  exists (c :: b), e, p'. split; [easy|]. split; [now apply It_chr|easy].
Qed.
Lemma closing_open stk q p : Opens (top stk) q -> Closing (q :: stk) p -> Closing stk (q :: p).
Proof.
  intros HO (b & e & p' & -> & HI & HC & HP). destruct stk as [|q1 stk].
  - now apply It_group.
  - destruct HP as (b1 & e1 & p1 & -> & HI1 & HC1 & HP1). exists (q :: b ++ e :: b1), e1, p1. split.
    { now rewrite <- app_comm_cons, <- app_assoc. }
    split; [now apply It_group|easy].
Qed.
Lemma closing_close stk q e p : Closes q e -> Closing stk p -> Closing (q :: stk) (e :: p).
Proof. intros HC HP. exists [], e, p. split; [easy|]. split; [constructor|easy]. Qed.

(* Every character is an opening one, a closing one, an ordinary one, or ends
   the data. *)
Lemma char_cases stk c : Stk stk ->
  Opens (top stk) c \/ (exists q stk', stk = q :: stk' /\ Closes q c) \/ Chr (top stk) c \/ (c = 59 /\ stk = []).
Proof.
  intros HS. destruct (N.eq_dec c 34) as [-> |N1].
  { destruct (N.eq_dec (top stk) 34) as [E|E]; [|left; right; auto]. right. left. destruct stk as [|q stk]; [discriminate E|].
    exists q, stk. split; [easy|]. cbn in E. subst q. right. auto. }
  destruct (N.eq_dec c 39) as [-> |N2].
  { destruct (N.eq_dec (top stk) 39) as [E|E]; [|left; right; auto]. right. left. destruct stk as [|q stk]; [discriminate E|].
    exists q, stk. split; [easy|]. cbn in E. subst q. right. auto. }
  destruct (N.eq_dec c 40) as [-> |N3].
  { destruct (N.eq_dec (top stk) 34) as [E|E]; [right; right; left; right; right; auto|left; left; auto]. }
  destruct (N.eq_dec c 41) as [-> |N4].
  { destruct (N.eq_dec (top stk) 40) as [E|E]; [|right; right; left; right; left; auto]. right. left. destruct stk as [|q stk]; [discriminate E|].
    exists q, stk. split; [easy|]. cbn in E. subst q. left. auto. }
  assert (~ In c [34; 39; 40; 41]) as NI by (intros [E|[E|[E|[E|[]]]]]; congruence).
  destruct (N.eq_dec c 59) as [-> |N5]; [|right; right; left; left; now split].
  destruct stk as [|q stk]; [auto|]. right. right. left. left. split; [easy|]. intros _ E. now apply top_nil in E.
Qed.
Lemma scan_stop s : forall stk, Stk stk ->
  (vg_scan stk s = length s) \/
  exists p r, s = p ++ 59 :: r /\ Closing stk p /\ vg_scan stk s = length p.
Proof.
  induction s as [|c s IH]; intros stk HS; [now left|].
  destruct (char_cases stk c HS) as [H|[(q & stk' & -> & H)|[H|[-> ->]]]].
  - rewrite scan_open by easy. destruct (IH (c :: stk) (opens_stk _ _ HS H)) as [E|(p & r & -> & HC & E)]; [left; cbn; lia|right].
    exists (c :: p), r. split; [easy|]. split; [now apply closing_open|cbn; lia].
  - rewrite (scan_close _ _ _ _ H). inversion HS; subst. destruct (IH stk') as [E|(p & r & -> & HC & E)]; [easy|left; cbn; lia|right].
    exists (c :: p), r. split; [easy|]. split; [now apply closing_close|cbn; lia].
  - rewrite scan_chr by easy. destruct (IH stk HS) as [E|(p & r & -> & HC & E)]; [left; cbn; lia|right].
    exists (c :: p), r. split; [easy|]. split; [now apply closing_chr|cbn; lia].
  - right. exists [], s. split; [easy|]. split; [constructor|reflexivity].
Qed.
Lemma scan_at a b : Items 0 a -> vg_scan [] (a ++ 59 :: b) = length a.
Proof. intros H. rewrite (scan_items 0 a H []); [|constructor|easy]. change (vg_scan [] (59 :: b)) with O. lia. Qed.
Lemma scan_cases s : (vg_scan [] s = length s /\ forall a b, s = a ++ 59 :: b -> ~ Items 0 a) \/
  exists a b, s = a ++ 59 :: b /\ Items 0 a /\ vg_scan [] s = length a.
Proof.
  destruct (scan_stop s []) as [E|H]; [constructor| |right; exact H]. left. split; [easy|]. intros a b -> HI.
  rewrite scan_at in E by easy. rewrite app_length in E. cbn in E. lia.
Qed.

Lemma firstn_len {A} (a b : list A) : firstn (length a) (a ++ b) = a.
Proof. rewrite firstn_app, PeanoNat.Nat.sub_diag, firstn_all, firstn_O. apply app_nil_r. Qed.
Lemma skipn_len {A} (a b : list A) : skipn (length a) (a ++ b) = b.
Proof. rewrite skipn_app, PeanoNat.Nat.sub_diag, skipn_all. reflexivity. Qed.

Lemma split_spec s w : ~ ends_blank s -> exists d k bare, VgSplit s d k bare /\
  vg_split s w = ((if bare then [msg0 W_WSH_COMMENT w] else []), (d, k)).
Proof.
  intros NB. destruct s as [|c s]; [exists [], [], false; split; [|easy]; constructor; now intros [|? a] b|].
  unfold vg_split. remember (c :: s) as t eqn:Et. clear c s Et. destruct (scan_cases t) as [[E N]|(a & b & -> & HI & E)].
  - rewrite E, firstn_all, skipn_all. exists t, [], false. split; [now constructor|]. unfold move_middle_space.
    rewrite rstrip_id by easy. rewrite skipn_all. now destruct (last_opt t).
  - rewrite E, firstn_len, skipn_len. unfold move_middle_space. destruct (rstrip_p_split isblank a) as (t & E1 & F).
    assert (Et : skipn (length (rstrip_p isblank a)) a = t) by (rewrite E1 at 2; apply skipn_app_len).
    exists (rstrip_p isblank a), (t ++ 59 :: b), (bare_of a). split.
    + apply Vs_some.
      * now rewrite <- E1.
      * now rewrite <- E1.
      * now apply forallb_blank.
      * apply rstrip_no_blank.
      * rewrite bare_of_spec, Et, <- E1. easy.
    + rewrite Et. unfold bare_of. destruct (last_opt a) as [c|]; [|easy]. now destruct (isblank c).
Qed.

(* The relation determines the split. *)
Lemma split_at_fun a b a' b' : Items 0 a -> Items 0 a' -> a ++ 59 :: b = a' ++ 59 :: b' -> a = a' /\ b = b'.
Proof.
  intros H H' E. pose proof (scan_at a b H) as K. rewrite E, (scan_at a' b' H') in K.
  assert (a = a') as ->. { apply (f_equal (firstn (length a))) in E. rewrite firstn_len in E. rewrite <- K, firstn_len in E. easy. }
  apply app_inv_head in E. now injection E as ->.
Qed.
Lemma blanks_fun a b a' b' : a ++ b = a' ++ b' -> blank_str b -> blank_str b' -> ~ ends_blank a -> ~ ends_blank a' -> a = a' /\ b = b'.
Proof.
  intros E HB HB' HA HA'. assert (a = a') as ->.
  { apply forallb_blank in HB, HB'.
    assert (forall x, ~ ends_blank x -> match last_opt x with Some c => isblank c = false | None => True end) as K.
    { intros x Hx. destruct (last_opt x) as [c|] eqn:El; [|easy]. apply isblank_false. intros Hc. apply Hx. apply ends_blank_last. exists c. split; [easy|]. now apply isblank_iff. }
    rewrite <- (rstrip_p_unique isblank (a ++ b) a b eq_refl HB (K a HA)). rewrite E.
    now rewrite (rstrip_p_unique isblank (a' ++ b') a' b' eq_refl HB' (K a' HA')). }
  split; [easy|]. now apply app_inv_head in E.
Qed.
Lemma bool_iff (a b : bool) (P : Prop) : (a = true <-> P) -> (b = true <-> P) -> a = b.
Proof. intros [H1 H2] [H3 H4]. destruct a, b; try easy; [now rewrite H4 by auto|now rewrite H2 by auto]. Qed.
Lemma split_fun s d k b d' k' b' : VgSplit s d k b -> VgSplit s d' k' b' -> d = d' /\ k = k' /\ b = b'.
Proof.
  intros [N|data blanks text bare E HI HB NB Hb] [N'|data' blanks' text' bare' E' HI' HB' NB' Hb'].
  - easy.
  - now destruct (N _ _ E').
  - now destruct (N' _ _ E).
  - rewrite E in E'. destruct (split_at_fun _ _ _ _ HI HI' E') as [E1 ->].
    destruct (blanks_fun _ _ _ _ E1 HB HB' NB NB') as [-> ->]. split; [easy|]. split; [easy|]. exact (bool_iff _ _ _ Hb Hb').
Qed.
Lemma when_fun P c w l l' : when P c w l -> when P c w l' -> l = l'.
Proof. intros [[H ->]|[H ->]] [[H' ->]|[H' ->]]; easy. Qed.
Lemma part_fun w s d k l d' k' l' : VgPart w s d k l -> VgPart w s d' k' l' -> d = d' /\ k = k' /\ l = l'.
Proof.
  intros (t & bl & b & l1 & l2 & -> & HB & NB & HS & H1 & H2 & ->) (t' & bl' & b' & l1' & l2' & E & HB' & NB' & HS' & H1' & H2' & ->).
  destruct (blanks_fun _ _ _ _ E HB HB' NB NB') as [-> ->]. destruct (split_fun _ _ _ _ _ _ _ HS HS') as (-> & -> & ->).
  rewrite (when_fun _ _ _ _ _ H1 H1'), (when_fun _ _ _ _ _ H2 H2'). easy.
Qed.
Lemma when_bool (b : bool) c w : when (b = true) c w (if b then [msg0 c w] else []).
Proof. destruct b; [left|right]; now split. Qed.
Lemma part_spec w s : let '(l, (d, k)) := vg_line w s in VgPart w s d k l.
Proof.
  destruct (rstrip_p_split isblank s) as (t & E & F).
  destruct (split_spec (rstrip_p isblank s) w (rstrip_no_blank s)) as (d & k & bare & CS & R).
  assert (vg_line w s = ((match t with [] => [] | _ => [msg0 W_WSH_EOL w] end) ++ (if bare then [msg0 W_WSH_COMMENT w] else []), (d, k))) as ->.
  { unfold vg_line. destruct (last_opt s) as [c|] eqn:El.
    - apply last_opt_some in El as [a Ea]. destruct (isblank c) eqn:B.
      + destruct t as [|x t].
        * exfalso. apply (rstrip_no_blank s). rewrite app_nil_r in E. rewrite <- E.
          apply ends_blank_last. exists c. rewrite Ea, last_opt_app. easy.
        * rewrite R. easy.
      + destruct t as [|x t].
        * rewrite app_nil_r in E. rewrite <- E in R. now rewrite R.
        * exfalso. destruct (@exists_last _ (x :: t) ltac:(easy)) as (t' & y & Et). rewrite Et in *.
          rewrite E, app_assoc in Ea. apply app_inj_tail in Ea as [_ ->].
          rewrite forallb_app in F. cbn in F. rewrite andb_true_r in F. apply andb_prop in F as [_ F]. congruence.
    - apply last_opt_none in El. subst s. destruct t; [|easy]. change (rstrip_p isblank []) with (@nil N) in R. now rewrite R. }
  exists (rstrip_p isblank s), t, bare, (match t with [] => [] | _ => [msg0 W_WSH_EOL w] end), (if bare then [msg0 W_WSH_COMMENT w] else []).
  split; [easy|]. split; [now apply forallb_blank|]. split; [apply rstrip_no_blank|]. split; [easy|]. split; [|split; [apply when_bool|easy]].
  destruct t; [right|left]; split; easy.
Qed.
Lemma part_iff w s d k l : VgPart w s d k l <-> vg_line w s = (l, (d, k)).
Proof.
  pose proof (part_spec w s) as H. destruct (vg_line w s) as [l0 [d0 k0]]. split.
  - intros P. destruct (part_fun _ _ _ _ _ _ _ _ P H) as (-> & -> & ->). reflexivity.
  - now intros [= <- <- <-].
Qed.
Lemma blank_iff s : starts_blank s = true <-> begins_blank s.
Proof.
  unfold begins_blank. destruct s as [|c s]; cbn; [split; [easy|intros (? & ? & [=] & _)]|].
  rewrite isblank_iff. split; [intros H; now exists c, s|intros (? & ? & [= <- <-] & H); easy].
Qed.
Lemma pp_iff data : startswith [35] data = true <-> IsPP data.
Proof.
  unfold IsPP. destruct data as [|c r]; cbn; [split; [easy|intros (? & [=])]|]. rewrite andb_true_r.
  split; [intros H%N.eqb_eq; subst; now exists r|intros (? & [= -> ->]); reflexivity].
Qed.

Definition next_plain (ls : list (loc * str)) : Prop := forall x rest, ls = x :: rest -> ~ begins_blank (snd x).
Lemma read_done p rest : next_plain rest ->
  vg_read (Some p) rest = let (ms, out) := vg_read None rest in (ms, p :: out).
Proof.
  intros NP. destruct rest as [|[w s] rest]; [easy|]. cbn [vg_read]. destruct (vg_line w s) as [ms [data comment]].
  destruct (starts_blank s) eqn:B; [apply blank_iff in B; now destruct (NP _ _ eq_refl)|].
  destruct (startswith [35] data).
  - now destruct (vg_read None rest).
  - now destruct (vg_read (Some (w, data, comment)) rest).
Qed.
Lemma read_folded w d0 more d c l : Folded d0 more d c l -> forall k0 rest, next_plain rest ->
  vg_read (Some (w, d0, k0)) (more ++ rest) = let (ms, out) := vg_read None rest in (l ++ ms, (w, d0 ++ d, k0 ++ c) :: out).
Proof.
  induction 1 as [d0|d0 w1 s data comment l more d c l' b HB HP HW HF IH]; intros k0 rest NP.
  - rewrite !app_nil_r. cbn [app]. apply read_done, NP.
  - apply part_iff in HP. apply blank_iff in HB. cbn [app vg_read]. rewrite HP, HB, IH by easy. destruct (vg_read None rest) as [ms out].
    replace (match d0 with [] => [msg0 W_WSH_BOL w1] | _ => [] end) with b.
    + now rewrite !app_assoc.
    + destruct HW as [[-> ->]|[H ->]]; [easy|]. now destruct d0.
Qed.
Lemma unfolds_read ls out l : Unfolds ls out l -> vg_read None ls = (l, out).
Proof.
  induction 1 as [|w s data comment l rest out l' HP HI HU IH|w s data comment l more d c l1 rest out l' HP HI HF NP HU IH].
  - reflexivity.
  - apply part_iff in HP. cbn [vg_read]. rewrite HP. apply pp_iff in HI. rewrite HI, IH. now destruct (starts_blank s).
  - apply part_iff in HP. cbn [app vg_read]. rewrite HP.
    assert (startswith [35] data = false) as -> by (destruct (startswith [35] data) eqn:E; [now apply pp_iff in E|easy]).
    rewrite (read_folded w _ _ _ _ _ HF comment rest NP), IH. destruct (starts_blank s); now rewrite app_assoc.
Qed.
Lemma when_ex (d : str) c w : exists b, when (d = []) c w b.
Proof. destruct d; eexists; [left|right]; split; easy. Qed.
Lemma folded_ex ls : forall d0, exists more rest d c l, ls = more ++ rest /\ Folded d0 more d c l /\ next_plain rest.
Proof.
  induction ls as [|[w s] ls IH]; intros d0.
  - exists [], [], [], [], []. split; [easy|]. split; [constructor|easy].
  - destruct (starts_blank s) eqn:B.
    + pose proof (part_spec w s) as HP. destruct (vg_line w s) as [l [data comment]]. destruct (when_ex d0 W_WSH_BOL w) as [b Hb].
      destruct (IH (d0 ++ data)) as (more & rest & d & c & l' & -> & HF & NP). apply blank_iff in B.
      eexists ((w, s) :: more), rest, _, _, _. split; [easy|]. split; [econstructor; eassumption|easy].
    + exists [], ((w, s) :: ls), [], [], []. split; [easy|]. split; [constructor|]. intros x rest [= <- <-] H. apply blank_iff in H. cbn in H. congruence.
Qed.
Lemma unfolds_ex n : forall ls, (length ls <= n)%nat -> exists out l, Unfolds ls out l.
Proof.
  induction n as [|n IH]; intros ls Hn; (destruct ls as [|[w s] ls]; [exists [], []; constructor|cbn in Hn]); [lia|].
  pose proof (part_spec w s) as HP. destruct (vg_line w s) as [l [data comment]]. destruct (startswith [35] data) eqn:B.
  - apply pp_iff in B. destruct (IH ls) as (out & l' & HU); [lia|]. eexists _, _. eapply Uf_pp; eassumption.
  - destruct (folded_ex ls data) as (more & rest & d & c & l1 & -> & HF & NP). rewrite app_length in Hn.
    destruct (IH rest) as (out & l' & HU); [lia|]. eexists _, _. eapply Uf_line; try eassumption. intros H. apply pp_iff in H. congruence.
Qed.
Theorem vg_iff ls out l : vg_read None ls = (l, out) <-> Unfolds ls out l.
Proof.
  split; [|apply unfolds_read]. intros E. destruct (unfolds_ex _ ls (le_n _)) as (out' & l' & HU).
  apply unfolds_read in HU as K. rewrite E in K. now injection K as -> ->.
Qed.
Lemma part_text w s d k l : VgPart w s d k l ->
  exists blanks, s = d ++ k ++ blanks /\ blank_str blanks /\ ~ ends_blank (d ++ k).
Proof.
  intros (t & bl & b & l1 & l2 & -> & HB & NB & HS & _). exists bl.
  assert (E : t = d ++ k) by (destruct HS; [now rewrite app_nil_r|subst; now rewrite <- app_assoc]).
  subst t. now rewrite app_assoc.
Qed.
