From Verif Require Import Base PyStr Defines FileRd Config VSpace Spec_VSpace VSpace_proofs VSpaceMsg_proofs.

Fixpoint vse (l : list vctx) (es : list elem) : list event * list vctx :=
  match es with
  | [] => ([], l)
  | e :: r => let (o1, l1) := vstack_handle l e in let (o2, l2) := vse l1 r in (o1 ++ o2, l2)
  end.

Lemma vse_app a : forall l b, vse l (a ++ b) =
  (fst (vse l a) ++ fst (vse (snd (vse l a)) b), snd (vse (snd (vse l a)) b)).
Proof.
  induction a as [|e a IH]; intros l b; cbn; [now destruct (vse l b)|].
  destruct (vstack_handle l e) as [o1 l1]. rewrite IH.
  destruct (vse l1 a) as [o2 l2]. cbn [fst snd]. now rewrite app_assoc.
Qed.

Lemma vsw_vse f evs : (forall m, In (EvMsg m) evs -> is_wsv m = false) ->
  forall l, wsv_of f (fst (vsw l evs)) = wsv_of f (fst (vse l (elems_of evs)))
    /\ snd (vsw l evs) = snd (vse l (elems_of evs)).
Proof.
  induction evs as [|ev evs IH]; intros H l; [easy|].
  assert (H' : forall m, In (EvMsg m) evs -> is_wsv m = false) by (intros m Hm; apply H; now right).
  destruct ev as [w d c|m|e]; cbn [vsw elems_of flat_map app].
  - specialize (IH H' l). destruct (vsw l evs). exact IH.
  - specialize (IH H' l). destruct (vsw l evs). cbn [fst snd] in *. cbn [wsv_of flat_map].
    rewrite (H m) by now left. exact IH.
  - cbn [vse]. destruct (vstack_handle l e) as [o1 l1]. specialize (IH H' l1). fold (elems_of evs).
    destruct (vsw l1 evs), (vse l1 (elems_of evs)). cbn [fst snd] in *. rewrite !wsv_app. destruct IH as [-> ->]. easy.
Qed.

Lemma pop_prefix pend v l f : ~ In f (map vc_file pend) -> vc_file v = f ->
  vstack_pop (pend ++ v :: l) f = (flat_map (fun u => vctx_eof u true) pend, v :: l).
Proof.
  intros N1 Hv. induction pend as [|u pend IH]; cbn.
  - now rewrite Hv, str_eqb_refl.
  - cbn in N1. assert (str_eqb (vc_file u) f = false) as -> by (apply str_eqb_neq; tauto).
    rewrite IH by tauto. easy.
Qed.

Lemma handle_open pend v l e : ~ In (vc_file v) (map vc_file pend) -> w_file (e_where e) = vc_file v ->
  vstack_handle (pend ++ v :: l) e
  = (flat_map (fun u => vctx_eof u true) pend ++ snd (vctx_handle v e), fst (vctx_handle v e) :: l).
Proof.
  intros N1 He. unfold vstack_handle. rewrite He.
  assert (existsb (fun v0 => str_eqb (vc_file v0) (vc_file v)) (pend ++ v :: l) = true) as ->.
  { apply existsb_exists. exists v. split; [apply in_or_app; right; now left | apply str_eqb_refl]. }
  rewrite (pop_prefix pend v l) by easy. now destruct (vctx_handle v e).
Qed.

Lemma handle_new l e : ~ In (w_file (e_where e)) (map vc_file l) ->
  vstack_handle l e = vstack_handle (vctx_new (e_where e) :: l) e.
Proof.
  intros N1. etransitivity; [|symmetry; apply (handle_open [] (vctx_new (e_where e)) l e); easy]. unfold vstack_handle.
  destruct (existsb _ l) eqn:E.
  - exfalso. apply existsb_exists in E as (u & Hu & Eu). apply str_eqb_eq in Eu. apply N1. rewrite <- Eu.
    now apply in_map.
  - now destruct (vctx_handle (vctx_new (e_where e)) e).
Qed.

Scheme vtree_mut := Induction for vtree Sort Prop with vitems_mut := Induction for vitems Sort Prop.
Combined Scheme vtree_vitems_ind from vtree_mut, vitems_mut.

Definition isnil {A} (l : list A) : bool := match l with [] => true | _ => false end.

Definition node_res (later last : bool) (pend : list vctx) (out : list event)
  (m : str) (es : list elem) (rep : bool) : Prop :=
  (rep = true /\ ~ In m (map vc_file pend) /\ FileMsgs true 0 es true (wsv_of m out))
  \/ (exists a v b, pend = a ++ v :: b /\ vc_file v = m /\ rep = later || (last && isnil a)
      /\ forall rp, FileMsgs true 0 es rp (wsv_of m out ++ wsv_of m (vctx_eof v rp))).

Lemma vown_file n i : vwf_items n i -> Forall (fun e => w_file (e_where e) = n) (vown i).
Proof. induction i as [|e r IH|t r IH]; cbn; intros H; [constructor|constructor; tauto|tauto]. Qed.

Lemma NodeI_names : forall t, (forall last later m es rep, Node last later t m es rep -> In m (vnames t)).
Proof.
  enough (H : (forall t, forall last later m es rep, Node last later t m es rep -> In m (vnames t)) /\
    (forall i, forall last later m es rep, NodeI last later i m es rep -> In m (vnames_items i))) by apply H.
  apply vtree_vitems_ind.
  - intros n i IH last later m es rep H. inversion H; subst; cbn; [now left | right; eapply IH; eassumption].
  - intros last later m es rep H. inversion H.
  - intros e r IH last later m es rep H. inversion H; subst. cbn. eapply IH; eassumption.
  - intros t IHt r IHr last later m es rep H. cbn. apply in_or_app.
    inversion H; subst; [left; eapply IHt; eassumption | right; eapply IHr; eassumption].
Qed.
Lemma NodeI_names_items i : forall last later m es rep, NodeI last later i m es rep -> In m (vnames_items i).
Proof. intros. pose proof (NodeI_names (VT m i) last later m es rep) as X.
  induction i; inversion H; subst; cbn.
  - eapply IHi; [eassumption|]. intros Y. now left.
  - apply in_or_app. left. eapply NodeI_names; eassumption.
  - apply in_or_app. right. eapply IHi; [eassumption|]. intros Y. now left.
Qed.

Lemma wsv_eofs g pend : Forall vok pend -> ~ In g (map vc_file pend) ->
  wsv_of g (flat_map (fun u => vctx_eof u true) pend) = [].
Proof.
  induction pend as [|u pend IH]; intros F N1; [easy|]. inversion F; subst. cbn [map In] in N1. cbn [flat_map]. rewrite wsv_app, IH by tauto.
  rewrite (wsv_other (vc_file u)); [easy | now apply about_eof | intros ->; tauto].
Qed.
Lemma wsv_eofs_in u pend : Forall vok pend -> NoDup (map vc_file pend) -> In u pend ->
  wsv_of (vc_file u) (flat_map (fun u => vctx_eof u true) pend) = wsv_of (vc_file u) (vctx_eof u true).
Proof.
  induction pend as [|x pend IH]; intros F ND Hu; [easy|]. cbn [flat_map]. rewrite wsv_app.
  inversion F as [|? ? Vx Vp]; subst. cbn [map] in ND. inversion ND as [|? ? Nx Np]; subst.
  destruct Hu as [->|H].
  - rewrite wsv_eofs by easy. now rewrite app_nil_r.
  - rewrite IH by easy. rewrite (wsv_other (vc_file x)); [easy | now apply about_eof |].
    intros E. apply Nx. rewrite <- E. now apply in_map.
Qed.

Lemma in_split_map (pend : list vctx) m : In m (map vc_file pend) -> exists a v b, pend = a ++ v :: b /\ vc_file v = m.
Proof. intros H. apply in_map_iff in H as (v & E & H). apply in_split in H as (a & b & ->). now exists a, v, b. Qed.

Definition Pt (t : vtree) : Prop := vwf t -> NoDup (vnames t) -> forall l,
  (forall v, In v l -> ~ In (vc_file v) (vnames t)) ->
  exists out pend, vse l (vflat t) = (out, pend ++ l) /\ pend <> [] /\ Forall vok pend
    /\ NoDup (map vc_file pend) /\ incl (map vc_file pend) (vnames t)
    /\ (forall g, ~ In g (vnames t) -> wsv_of g out = [])
    /\ forall last later m es rep, Node last later t m es rep -> node_res later last pend out m es rep.

Definition Qi (i : vitems) : Prop := forall n, vwf_items n i -> NoDup (n :: vnames_items i) ->
  forall pend0 v l, vok v -> vc_file v = n -> Forall vok pend0 -> NoDup (map vc_file pend0) ->
  ~ In n (map vc_file pend0) ->
  (forall u, In u pend0 -> ~ In (vc_file u) (vnames_items i)) ->
  (forall u, In u l -> ~ In (vc_file u) (n :: vnames_items i)) ->
  exists out pend1,
    vse (pend0 ++ v :: l) (vflat_items i)
      = (out, pend1 ++ (if nonnil (vown i) then [] else pend0) ++ fst (vrun v (vown i)) :: l)
    /\ wsv_of n out = wsv_of n (snd (vrun v (vown i)))
    /\ Forall vok pend1 /\ NoDup (map vc_file pend1) /\ incl (map vc_file pend1) (vnames_items i)
    /\ last_own i = isnil pend1
    /\ (forall u, In u pend0 -> wsv_of (vc_file u) out
          = if nonnil (vown i) then wsv_of (vc_file u) (vctx_eof u true) else [])
    /\ (forall g, g <> n -> ~ In g (map vc_file pend0) -> ~ In g (vnames_items i) -> wsv_of g out = [])
    /\ forall last later m es rep, NodeI last later i m es rep -> node_res later last pend1 out m es rep.

Lemma node_res_pre later last pend out0 out m es rep :
  wsv_of m out0 = [] -> node_res later last pend out m es rep -> node_res later last pend (out0 ++ out) m es rep.
Proof.
  intros H [(A & B & C)|(a & v & b & A & B & C & D)]; [left|right].
  - split; [easy|]. split; [easy|]. rewrite wsv_app, H. exact C.
  - exists a, v, b. split; [easy|]. split; [easy|]. split; [easy|]. intros rp. rewrite wsv_app, H. apply D.
Qed.

Lemma isnil_app {A} (a b : list A) : isnil (a ++ b) = isnil a && isnil b.
Proof. now destruct a. Qed.

Lemma NoDup_app_inv {A} (a b : list A) : NoDup (a ++ b) ->
  NoDup a /\ NoDup b /\ forall g, In g a -> In g b -> False.
Proof.
  induction a as [|x a IH]; cbn; intros H; [repeat split; [constructor|easy|easy]|].
  inversion H as [|? ? Hx Ha]; subst. destruct (IH Ha) as (N1 & N2 & D). rewrite in_app_iff in Hx.
  repeat split; [constructor; tauto | easy |]. intros g [->|Hg] Hb; [tauto | now apply (D g)].
Qed.

Lemma Node_inv last later n i m es rep : Node last later (VT n i) m es rep ->
  (m = n /\ es = vown i /\ rep = later || (last && last_own i)) \/ NodeI last later i m es rep.
Proof. inversion 1; subst; [now left | now right]. Qed.

Lemma tree_run : (forall t, Pt t) /\ (forall i, Qi i).
Proof.
  apply vtree_vitems_ind.
  - (* a file *)
    intros n i IH (( e & r & ->) & W) ND l D. cbn [vnames] in *.
    assert (He : w_file (e_where e) = n) by (cbn in W; tauto).
    destruct (IH n W ND [] (vctx_new (e_where e)) l) as
      (out & pend1 & R & Wn & V1 & ND1 & I1 & LO & _ & Wo & Nd); try easy.
    { constructor. } { constructor. }
    cbn [app] in R. cbn [vown nonnil app] in R.
    assert (R' : vse l (vflat_items (VElem e r)) = vse (vctx_new (e_where e) :: l) (vflat_items (VElem e r))).
    { cbn [vflat_items vse]. rewrite (handle_new l e); [easy|]. intros X. apply in_map_iff in X as (u & Eu & Hu).
      apply (D u Hu). rewrite Eu, He. now left. }
    set (v' := fst (vrun (vctx_new (e_where e)) (vown (VElem e r)))) in *.
    destruct (vrun_ok (vown (VElem e r)) (vctx_new (e_where e))) as (Vv & Vf & Va).
    { constructor. } { cbn [vctx_new vc_file]. rewrite He. now apply vown_file. }
    fold v' in Vv, Vf. cbn [vctx_new vc_file] in Vf, Va. rewrite He in Vf, Va.
    exists out, (pend1 ++ [v']). cbn [vflat]. rewrite R', R, <- app_assoc.
    split; [easy|]. split; [now destruct pend1|]. split; [apply Forall_app; split; [easy|now repeat constructor]|].
    assert (Nn : ~ In n (map vc_file pend1)) by (intros X; apply I1 in X; now inversion ND).
    split.
    { rewrite map_app. cbn. rewrite Vf. apply (Permutation_NoDup (l := n :: map vc_file pend1)); [apply Permutation_cons_append|].
      now constructor. }
    split.
    { rewrite map_app. cbn. intros x X. apply in_app_or in X as [X|[<-|[]]]; [right; now apply I1 | left; congruence]. }
    split.
    { intros g Hg. cbn in Hg. apply Wo; [intros ->; tauto | easy | tauto]. }
    intros last later m es rep H. apply Node_inv in H as [(-> & -> & ->)|H].
    + (* the file itself *) right. exists pend1, v', []. split; [easy|]. split; [easy|]. split.
      { rewrite LO. reflexivity. }
      intros rp. rewrite Wn. rewrite <- wsv_app.
      rewrite wsv_about; [|apply about_app; [easy | rewrite <- Vf; now apply about_eof]].
      exact (vrun_msgs (vown (VElem e r)) (vctx_new (e_where e)) rp).
    + assert (Nm : m <> n).
      { intros ->. inversion ND as [|? ? X Y]. apply X. exact (NodeI_names_items _ _ _ _ _ _ H). }
      destruct (Nd _ _ _ _ _ H) as [(A & B & C)|(a & v & b & A & B & C & F)].
      * left. split; [easy|]. split; [|easy]. rewrite map_app. cbn. rewrite in_app_iff, Vf. cbn. intuition congruence.
      * right. exists a, v, (b ++ [v']). split; [now rewrite A, <- app_assoc|]. easy.
  - (* no item *)
    intros n W ND pend0 v l Vv Vf V0 N0 Nn D D2. exists [], []. cbn.
    repeat split; try easy; try constructor.
  - (* an element *)
    intros e r IH n W ND pend0 v l Vv Vf V0 N0 Nn D D2. cbn [vwf_items] in W. destruct W as [He W].
    cbn [vnames_items] in *.
    destruct (vctx_handle_ok v e) as (Vv1 & Vf1 & Va1); [easy | congruence |].
    set (v1 := fst (vctx_handle v e)) in *.
    destruct (IH n W ND [] v1 l) as (out & pend1 & R & Wn & V1 & ND1 & I1 & LO & _ & Wo & Nd); try easy.
    { congruence. } { constructor. }
    exists (flat_map (fun u => vctx_eof u true) pend0 ++ snd (vctx_handle v e) ++ out), pend1.
    assert (VR : vrun v (vown (VElem e r)) = (fst (vrun v1 (vown r)), snd (vctx_handle v e) ++ snd (vrun v1 (vown r)))).
    { cbn [vown vrun]. unfold v1. destruct (vctx_handle v e) as [v1' o1]. cbn [fst snd]. now destruct (vrun v1' (vown r)). }
    rewrite VR. cbn [fst snd vown nonnil app]. cbn [last_own].
    split.
    { cbn [vflat_items vse]. rewrite handle_open; [|now rewrite Vf | congruence]. fold v1.
      cbn [app] in R. rewrite R. rewrite <- !app_assoc. f_equal.
      destruct (vown r); cbn [nonnil app]; reflexivity. }
    rewrite Vf in Va1.
    split.
    { rewrite !wsv_app. rewrite wsv_eofs by easy. cbn [app]. now rewrite Wn. }
    split; [easy|]. split; [easy|]. split; [easy|]. split; [easy|].
    split.
    { intros u Hu. assert (Nu : vc_file u <> n) by (intros X; apply Nn; rewrite <- X; now apply in_map).
      rewrite !wsv_app, wsv_eofs_in by easy. rewrite (wsv_other n _ _ Va1) by easy.
      rewrite Wo; [now rewrite !app_nil_r | easy | easy |]. now apply D. }
    split.
    { intros g Hg Hg0 Hgr. rewrite !wsv_app, wsv_eofs by easy. rewrite (wsv_other n _ _ Va1) by easy.
      rewrite Wo; easy. }
    intros last later m es rep H. inversion H; subst.
    assert (Im : In m (vnames_items r)) by (eapply NodeI_names_items; eassumption).
    assert (Nm : m <> w_file (e_where e)) by (intros ->; now inversion ND).
    rewrite app_assoc. apply node_res_pre; [|now apply Nd].
    rewrite wsv_app, wsv_eofs; [|easy|].
    + rewrite (wsv_other _ _ _ Va1); easy.
    + intros X. apply in_map_iff in X as (u & Eu & Hu). apply (D u Hu). now rewrite Eu.
  - (* an included file *)
    intros t IHt r IHr n W ND pend0 v l Vv Vf V0 N0 Nn D D2. cbn [vwf_items] in W. destruct W as [Wt W].
    cbn [vnames_items] in *. apply NoDup_cons_iff in ND as [ND1 ND2].
    destruct (NoDup_app_inv _ _ ND2) as (NDt & NDr & Dj).
    rewrite in_app_iff in ND1.
    destruct (IHt Wt NDt (pend0 ++ v :: l)) as (out1 & pendt & R1 & NEt & Vt & NDpt & It & Wot & Ndt).
    { intros u Hu Hn. apply in_app_or in Hu as [Hu|[<-|Hu]].
      - apply (D u Hu). apply in_or_app. now left.
      - rewrite Vf in Hn. tauto.
      - apply (D2 u Hu). right. apply in_or_app. now left. }
    destruct (IHr n W) with (pend0 := pendt ++ pend0) (v := v) (l := l)
      as (out2 & pend1 & R2 & Wn & V1 & NDp1 & I1 & LO & Wp & Wo & Nd); try easy.
    { constructor; [tauto|easy]. }
    { apply Forall_app. now split. }
    { rewrite map_app. clear - NDpt N0 It D. revert NDpt It. generalize (map vc_file pendt) as a. intros a.
      induction a as [|x a IH]; intros N1 I1; [easy|]. cbn. inversion N1; subst. constructor.
      - rewrite in_app_iff. intros [X|X]; [easy|]. apply in_map_iff in X as (u & Eu & Hu). apply (D u Hu).
        rewrite Eu. apply in_or_app. left. apply I1. now left.
      - apply IH; [easy|]. intros y Hy. apply I1. now right. }
    { rewrite map_app, in_app_iff. intros [X|X]; [apply It in X; tauto | easy]. }
    { intros u Hu Hn. apply in_app_or in Hu as [Hu|Hu].
      - eapply Dj; [|exact Hn]. apply It. now apply in_map.
      - apply (D u Hu). apply in_or_app. now right. }
    { intros u Hu Hn. apply (D2 u Hu). destruct Hn as [<-|Hn]; [now left|]. right. apply in_or_app. now right. }
    assert (LO2 : vown r = [] -> isnil pend1 = match r with VNil => true | _ => false end).
    { intros Eo. rewrite <- LO. destruct r as [|e r|t2 r]; [easy | easy |]. cbn [last_own]. cbn in Eo. now rewrite Eo. }
    exists (out1 ++ out2), (pend1 ++ if nonnil (vown r) then [] else pendt).
    cbn [vflat_items vown]. rewrite vse_app, R1. cbn [fst snd]. rewrite app_assoc, R2. cbn [fst snd].
    split.
    { f_equal. destruct (nonnil (vown r)); cbn [app]; now rewrite <- ?app_assoc, ?app_nil_r. }
    split.
    { rewrite wsv_app, Wot by tauto. exact Wn. }
    split.
    { apply Forall_app. split; [easy|]. destruct (nonnil (vown r)); [constructor|easy]. }
    split.
    { rewrite map_app. clear - NDp1 NDpt It I1 Dj. destruct (nonnil (vown r)); [cbn; now rewrite app_nil_r|].
      revert NDp1 I1. generalize (map vc_file pend1) as a. intros a.
      induction a as [|x a IH]; intros N1 I1; [easy|]. cbn. inversion N1; subst. constructor.
      - rewrite in_app_iff. intros [X|X]; [easy|]. eapply Dj; [apply It; exact X | apply I1; now left].
      - apply IH; [easy|]. intros y Hy. apply I1. now right. }
    split.
    { rewrite map_app. intros x X. apply in_or_app. apply in_app_or in X as [X|X]; [right; now apply I1|].
      left. destruct (nonnil (vown r)); [easy | now apply It]. }
    split.
    { cbn [last_own]. rewrite isnil_app, <- LO. destruct (nonnil (vown r)); cbn; [now rewrite andb_true_r|].
      destruct pendt; [easy|]. cbn. now rewrite andb_false_r. }
    split.
    { intros u Hu. rewrite wsv_app, Wot; [|intros X; apply (D u Hu); apply in_or_app; now left].
      cbn [app]. apply Wp. apply in_or_app. now right. }
    split.
    { intros g Hg Hg0 Hgr. rewrite in_app_iff in Hgr. rewrite wsv_app, Wot by tauto. cbn [app]. apply Wo; try tauto.
      rewrite map_app, in_app_iff. intros [X|X]; [apply It in X|]; tauto. }
    intros last later m es rep H. inversion H; subst.
    + (* inside the included file *)
      match goal with X : Node _ _ t m es rep |- _ => pose proof (NodeI_names _ _ _ _ _ _ X) as Im;
        destruct (Ndt _ _ _ _ _ X) as [(A & B & C)|(a & vm & b & A & B & C & F)] end.
      * left. split; [easy|]. split.
        { rewrite map_app, in_app_iff. intros [X|X]; [eapply Dj; [exact Im | now apply I1]|].
          destruct (nonnil (vown r)); easy. }
        rewrite wsv_app, Wo; [now rewrite app_nil_r | intros ->; tauto | | intros X; now apply (Dj m)].
        rewrite map_app, in_app_iff. intros [X|X]; [easy|]. apply in_map_iff in X as (u & Eu & Hu).
        apply (D u Hu). rewrite Eu. apply in_or_app. now left.
      * assert (Hin : In vm (pendt ++ pend0)) by (rewrite A, in_app_iff, in_app_iff; cbn; tauto).
        pose proof (Wp vm Hin) as Wvm. rewrite B in Wvm.
        destruct (nonnil (vown r)) eqn:En.
        -- left. split; [now rewrite C, orb_true_r|]. split.
           { rewrite map_app, in_app_iff. cbn. intros [X|[]]. eapply Dj; [exact Im | now apply I1]. }
           rewrite wsv_app, Wvm. apply F.
        -- right. exists (pend1 ++ a), vm, b. split; [now rewrite A, <- app_assoc|]. split; [easy|]. split.
           { rewrite C, orb_false_r, isnil_app, LO2; [now rewrite andb_assoc|]. now destruct (vown r). }
           intros rp. rewrite wsv_app, Wvm, app_nil_r. apply F.
    + (* further on *)
      match goal with X : NodeI _ _ r m es rep |- _ => pose proof (NodeI_names_items _ _ _ _ _ _ X) as Im;
        pose proof (Nd _ _ _ _ _ X) as NR end.
      apply node_res_pre; [apply Wot; intros X; now apply (Dj m)|].
      destruct NR as [(A & B & C)|(a & vm & b & A & B & C & F)].
      * left. split; [easy|]. split; [|easy]. rewrite map_app, in_app_iff. intros [X|X]; [easy|].
        destruct (nonnil (vown r)); [easy|]. apply It in X. now apply (Dj m).
      * right. exists a, vm, (b ++ if nonnil (vown r) then [] else pendt). split; [now rewrite A, <- app_assoc|]. easy.
Qed.

(* ---- whole streams ---- *)

Lemma wsv_stack_eof_other m l : forall first, Forall vok l -> ~ In m (map vc_file l) ->
  wsv_of m (vstack_eof l first) = [].
Proof.
  induction l as [|u l IH]; intros first F N1; [easy|]. cbn [vstack_eof]. inversion F; subst. cbn [map In] in N1.
  rewrite wsv_app, IH by tauto. rewrite (wsv_other (vc_file u)); [easy | now apply about_eof | intros ->; tauto].
Qed.

Lemma wsv_stack_eof_in a : forall v b first, Forall vok (a ++ v :: b) -> NoDup (map vc_file (a ++ v :: b)) ->
  wsv_of (vc_file v) (vstack_eof (a ++ v :: b) first) = wsv_of (vc_file v) (vctx_eof v (first && isnil a)).
Proof.
  induction a as [|u a IH]; intros v b first F N1; cbn [app vstack_eof] in *.
  - inversion F; subst. cbn [map] in N1. apply NoDup_cons_iff in N1 as [N1 _].
    rewrite wsv_app, wsv_stack_eof_other by easy. cbn. now rewrite app_nil_r, andb_true_r.
  - inversion F; subst. cbn [map] in N1. apply NoDup_cons_iff in N1 as [N1 N2].
    rewrite wsv_app, IH by easy. rewrite (wsv_other (vc_file u)); [|now apply about_eof|].
    + cbn. now rewrite andb_false_r.
    + intros E. apply N1. rewrite <- E, map_app. apply in_or_app. right. now left.
Qed.

Lemma stream_msgs t evs : vwf t -> NoDup (vnames t) -> elems_of evs = vflat t ->
  (forall m, In (EvMsg m) evs -> is_wsv m = false) ->
  (forall f es rep, Node true false t f es rep ->
     FileMsgs true 0 es rep (wsv_of f (fst (vsw_stream (evs, Ok tt)))))
  /\ (forall f, ~ In f (vnames t) -> wsv_of f (fst (vsw_stream (evs, Ok tt))) = []).
Proof.
  intros W ND E NM. destruct tree_run as [T _].
  destruct (T t W ND []) as (out & pend & R & _ & V & NDp & I & Wo & Nd); [easy|]. rewrite app_nil_r in R.
  assert (S1 : forall f, wsv_of f (fst (vsw_stream (evs, Ok tt))) = wsv_of f out ++ wsv_of f (vstack_eof pend true)).
  { intros f. unfold vsw_stream. cbn [fst snd]. destruct (vsw_vse f evs NM []) as [E1 E2]. rewrite E, R in E1, E2.
    destruct (vsw [] evs) as [o l]. cbn [fst snd] in *. now rewrite wsv_app, E1, E2. }
  split.
  - intros f es rep H. rewrite S1. destruct (Nd _ _ _ _ _ H) as [(-> & B & C)|(a & v & b & A & B & C & F)].
    + rewrite wsv_stack_eof_other by easy. now rewrite app_nil_r.
    + subst f. rewrite A in V, NDp |- *. rewrite wsv_stack_eof_in by easy. subst rep. apply F.
  - intros f Hf. rewrite S1, Wo by easy. cbn [app]. apply wsv_stack_eof_other; [easy|]. intros X. now apply Hf, I.
Qed.

(* ---- the specification is a function ---- *)

Lemma GapMsgs_fun bof cls max bs ms ms' : GapMsgs bof cls max bs ms -> GapMsgs bof cls max bs ms' -> ms = ms'.
Proof.
  intros H H'. destruct H as [b g gs B R|gs R N1]; inversion H' as [b' g' gs' B' R' E|gs' R' N1' E]; subst.
  - pose proof (Runs_fun _ _ _ R R') as X. now injection X as -> -> ->.
  - exfalso. pose proof (Runs_fun _ _ _ R R') as X. subst. now eapply N1'.
  - exfalso. pose proof (Runs_fun _ _ _ R R') as X. subst. now eapply N1.
  - now rewrite (Runs_fun _ _ _ R R').
Qed.

Lemma TailMsgs_fun rep bs ms ms' : TailMsgs rep bs ms -> TailMsgs rep bs ms' -> ms = ms'.
Proof.
  intros H H'. destruct H as [gs b g R|gs R N1]; inversion H' as [gs' b' g' R' E|gs' R' N1' E]; subst.
  - pose proof (Runs_fun _ _ _ R R') as X. apply app_inj_tail in X as [-> X]. now injection X as -> ->.
  - exfalso. pose proof (Runs_fun _ _ _ R R') as X. subst. now eapply N1'.
  - exfalso. pose proof (Runs_fun _ _ _ R R') as X. subst. now eapply N1.
  - now rewrite (Runs_fun _ _ _ R R').
Qed.

Lemma empties_inj a : forall b, empties a = empties b -> a = b.
Proof.
  induction a as [|[c w] a IH]; intros [|[c' w'] b] E; try easy. cbn in E. injection E as -> -> E.
  now rewrite (IH b E).
Qed.
Lemma empties_stop a : forall b e e' r r', is_blank e = false -> is_blank e' = false ->
  empties a ++ e :: r = empties b ++ e' :: r' -> a = b /\ e = e' /\ r = r'.
Proof.
  induction a as [|[c w] a IH]; intros [|[c' w'] b] e e' r r' He He' E; cbn in E.
  - now injection E as -> ->.
  - injection E as -> _. easy.
  - injection E as <- _. easy.
  - injection E as -> -> E. destruct (IH b e e' r r' He He' E) as (-> & -> & ->). easy.
Qed.
Lemma empties_none a : forall b e r, is_blank e = false -> empties a = empties b ++ e :: r -> False.
Proof.
  induction a as [|[c w] a IH]; intros [|[c' w'] b] e r He E; cbn in E; try easy.
  - injection E as <- _. easy.
  - injection E as -> -> E. now apply (IH b e r He).
Qed.

Lemma FileMsgs_inv bof n es rep ms : FileMsgs bof n es rep ms ->
  (exists bs, es = empties bs /\ TailMsgs rep bs ms)
  \/ exists bs e es' g ms', is_blank e = false /\ es = empties bs ++ e :: es' /\ ms = g ++ ms'
     /\ match e with
        | ECtx c => FileMsgs false 0 es' rep ms' /\
            ((2 < n /\ bs = [] /\ g = [msg0 H_WSV_CTX_BETWEEN (c_where c)])
             \/ ((n <= 2 \/ bs <> []) /\ GapMsgs bof H_WSV_CTX_BETWEEN 2 bs g))
        | EVar v => FileMsgs false (n + 1) es' rep ms' /\ GapMsgs bof H_WSV_VARSET_BETWEEN 1 bs g
        | EEmpty _ _ => False
        end.
Proof.
  destruct 1 as [bof n bs rep ms T|bof n c es rep ms Hn F|bof n bs c es rep g ms Hn G F|bof n bs v es rep g ms G F].
  - left. now exists bs.
  - right. exists [], (ECtx c), es, [msg0 H_WSV_CTX_BETWEEN (c_where c)], ms. repeat split; try easy. now left.
  - right. exists bs, (ECtx c), es, g, ms. repeat split; try easy. now right.
  - right. now exists bs, (EVar v), es, g, ms.
Qed.

Lemma FileMsgs_fun bof n es rep ms ms' : FileMsgs bof n es rep ms -> FileMsgs bof n es rep ms' -> ms = ms'.
Proof.
  intros H; revert ms'. induction H as [bof n bs rep ms T|bof n c es rep ms Hn F IH|bof n bs c es rep g ms Hn G F IH|bof n bs v es rep g ms G F IH];
    intros ms' H'; apply FileMsgs_inv in H' as [(bs' & E & T')|(bs' & e & es' & g' & ms2 & Be & E & -> & X)].
  - apply empties_inj in E. subst. eapply TailMsgs_fun; eassumption.
  - exfalso. now apply empties_none in E.
  - exfalso. symmetry in E. now apply (empties_none bs' [] (ECtx c) es) in E.
  - apply (empties_stop [] bs' (ECtx c) e es es') in E as (<- & <- & <-); try easy. destruct X as [X [(_ & _ & ->)|[[Y|Y] _]]].
    + cbn. f_equal. now apply IH.
    + lia.
    + easy.
  - exfalso. symmetry in E. now apply (empties_none bs' bs (ECtx c) es) in E.
  - apply (empties_stop bs bs' (ECtx c) e es es') in E as (<- & <- & <-); try easy. destruct X as [X [(Y & -> & _)|[_ Y]]].
    + destruct Hn; [lia|easy].
    + f_equal; [eapply GapMsgs_fun; eassumption | now apply IH].
  - exfalso. symmetry in E. now apply (empties_none bs' bs (EVar v) es) in E.
  - apply (empties_stop bs bs' (EVar v) e es es') in E as (<- & <- & <-); try easy. destruct X as [X Y].
    f_equal; [eapply GapMsgs_fun; eassumption | now apply IH].
Qed.
