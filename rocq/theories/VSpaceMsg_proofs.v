From Verif Require Import Base PyStr Defines FileRd Config VSpace Spec_VSpace VSpace_proofs.

(* ---- runs ---- *)

Definition last_flag (gs : list (bool * list bline)) : option bool :=
  match last_opt gs with Some (c, _) => Some c | None => None end.

Lemma Runs_snoc bs gs b : Runs bs gs -> Runs (bs ++ [b]) (add_blank gs b).
Proof.
  induction 1 as [|c g rest gs NE F R IH Hn].
  - cbn. change [b] with ([b] ++ []). constructor; try easy; [repeat constructor | constructor].
  - rewrite <- app_assoc. destruct gs as [|x gs].
    + inversion R; subst. cbn [app add_blank].
      destruct (Bool.eqb_spec c (fst b)) as [->|NE2].
      * rewrite <- (app_nil_r (g ++ [b])). constructor; [now destruct g| |constructor|easy].
        apply Forall_app. split; [easy|]. now repeat constructor.
      * constructor; try easy. intros c' g' gs' [= <- <- <-]. congruence.
    + cbn [add_blank]. constructor; try easy. intros c' g' gs' E.
      destruct x as [cx gx]. destruct gs as [|y gs].
      * cbn [add_blank] in E. destruct (Bool.eqb cx (fst b)); injection E as <- _ _; eapply Hn; reflexivity.
      * cbn [add_blank] in E. injection E as <- _ _. eapply Hn; reflexivity.
Qed.

Lemma Runs_group bs : Runs bs (group_blanks bs).
Proof.
  unfold group_blanks. enough (H : forall a acc, Runs a acc -> Runs (a ++ bs) (fold_left add_blank bs acc)) by
    (apply (H [] []); constructor).
  induction bs as [|b bs IH]; intros a acc R; cbn; [now rewrite app_nil_r|].
  change (b :: bs) with ([b] ++ bs). rewrite app_assoc. apply IH. now apply Runs_snoc.
Qed.

Lemma Runs_fun bs gs gs' : Runs bs gs -> Runs bs gs' -> gs = gs'.
Proof.
  intros H; revert gs'. induction H as [|c g rest gs NE F R IH Hn]; intros gs' H'.
  - inversion H' as [|c g rest gs NE F R Hn E]; [easy|]. destruct g; easy.
  - inversion H' as [E|c' g' rest' gs2 NE' F' R' Hn' E]; [destruct g; easy|]. subst gs'.
    assert (Hc : c' = c).
    { destruct g as [|x g], g' as [|y g']; try easy. inversion F; inversion F'; subst. injection E as -> _. easy. }
    subst c'.
    assert (K : forall (g g' rest rest' : list bline) gs gs2,
      Forall (fun b => fst b = c) g -> Forall (fun b => fst b = c) g' ->
      Runs rest gs -> Runs rest' gs2 ->
      (forall c' g0 gs', gs = (c', g0) :: gs' -> c' <> c) -> (forall c' g0 gs', gs2 = (c', g0) :: gs' -> c' <> c) ->
      g' ++ rest' = g ++ rest -> g' = g /\ rest' = rest).
    { clear. intros g; induction g as [|x g IH]; intros g' rest rest' gs gs2 F F' R R' Hn Hn' E.
      - destruct g' as [|y g']; [easy|]. exfalso. inversion R; subst; [easy|].
        destruct g as [|z g]; [easy|]. cbn in E. injection E as -> _. inversion F'; inversion H0; subst.
        now eapply Hn.
      - destruct g' as [|y g'].
        + exfalso. inversion R'; subst; [easy|]. destruct g0 as [|z g0]; [easy|]. cbn in E. injection E as -> _.
          inversion F; inversion H0; subst. now eapply Hn'.
        + cbn in E. injection E as -> E. inversion F; inversion F'; subst.
          destruct (IH g' rest rest' gs gs2) as [-> ->]; easy. }
    destruct (K g g' rest rest' gs gs2) as [-> ->]; try easy. f_equal. now apply IH.
Qed.

Lemma Runs_ne bs gs : Runs bs gs -> Forall (fun g => snd g <> []) gs.
Proof. induction 1; constructor; easy. Qed.
Lemma Runs_nil_iff bs : Runs bs [] -> bs = [].
Proof. inversion 1; easy. Qed.

(* ---- messages of one context ---- *)

Definition msgs_of (evs : list event) : list msg :=
  flat_map (fun ev => match ev with EvMsg m => [m] | _ => [] end) evs.

Lemma msgs_app a b : msgs_of (a ++ b) = msgs_of a ++ msgs_of b.
Proof. apply flat_map_app. Qed.
Lemma msgs_blanks bs : msgs_of (map ev_blank bs) = [].
Proof. induction bs; cbn; easy. Qed.

Lemma last_last_opt {A} (b : A) bs : last_opt (b :: bs) = Some (last bs b).
Proof.
  destruct bs as [|x bs] using rev_ind; [easy|].
  change (b :: bs ++ [x]) with ((b :: bs) ++ [x]). now rewrite last_opt_app, last_last.
Qed.

Lemma msgs_between cls max gs :
  msgs_of (flat_map (between_events cls max) gs) = long_msgs cls max gs.
Proof.
  induction gs as [|[c g] gs IH]; [easy|]. cbn [flat_map long_msgs]. rewrite msgs_app, IH. f_equal.
  unfold between_events. rewrite msgs_app, msgs_blanks, app_nil_r.
  destruct c; cbn [negb andb]; [easy|]. destruct g as [|b g]; [now destruct (_ <? _)%nat|].
  destruct (_ <? _)%nat; [|easy]. now rewrite last_last_opt.
Qed.

Lemma flush_gap v w cls min max : (length (vc_blanks v) <? min)%nat = false ->
  GapMsgs (vc_bof v) cls max (vc_blanks v) (msgs_of (flush_blanks v w cls min max)).
Proof.
  intros H. unfold flush_blanks. rewrite H. pose proof (Runs_group (vc_blanks v)) as R.
  destruct (vc_blanks v) as [|b bs].
  { change (msgs_of []) with (long_msgs cls max []). apply GM_mid; [constructor | easy]. }
  set (gs := group_blanks (b :: bs)) in *. clearbody gs. pose proof (Runs_ne _ _ R) as NE.
  destruct (vc_bof v).
  - destruct gs as [|[c [|x g]] gs].
    + apply Runs_nil_iff in R. easy.
    + inversion NE; subst. easy.
    + destruct c.
      * rewrite msgs_app, msgs_between. cbn [msgs_of flat_map app]. apply GM_mid; [easy|]. intros _ ? ? E. easy.
      * rewrite msgs_app, msgs_between. cbn [msgs_of flat_map app].
        fold (msgs_of (map ev_blank g)). rewrite msgs_blanks. apply GM_bof with (g := g); easy.
  - rewrite msgs_app, msgs_between. cbn [msgs_of flat_map app]. apply GM_mid; easy.
Qed.

Lemma eof_tail v rep : TailMsgs rep (vc_blanks v) (msgs_of (vctx_eof v rep)).
Proof.
  unfold vctx_eof. pose proof (Runs_group (vc_blanks v)) as R.
  destruct (vc_blanks v) as [|b bs].
  { apply (TM_comment rep [] []); [constructor|]. intros gs' g E. now destruct gs'. }
  pose proof (Runs_ne _ _ R) as NE.
  destruct (last_opt (group_blanks (b :: bs))) as [[[] g]|] eqn:E.
  - rewrite msgs_app, msgs_between, app_nil_r. apply TM_comment; [easy|].
    intros gs' g' E'. rewrite E', last_opt_app in E. easy.
  - pose proof (last_removelast _ _ E) as EG. rewrite EG in R, NE.
    destruct g as [|x g].
    { apply Forall_app in NE as [_ NE]. inversion NE; subst. easy. }
    rewrite msgs_app, msgs_between.
    pose proof (TM_blank rep (b :: bs) _ x g R) as T.
    destruct rep; [|exact T]. rewrite msgs_app, msgs_blanks. cbn [app]. rewrite last_last_opt. cbn.
    replace (last bs b) with (last g x); [exact T|].
    (* the last blank of all is the last of the last run *)
    pose proof (ungroup_group (b :: bs)) as U. unfold ungroup in U. rewrite EG, flat_map_app in U. cbn in U.
    rewrite app_nil_r in U.
    assert (last_opt (b :: bs) = Some (last g x)) as L2.
    { rewrite <- U. destruct g as [|y g _] using rev_ind.
      - apply last_opt_app.
      - rewrite last_last. change (x :: g ++ [y]) with ((x :: g) ++ [y]). rewrite app_assoc. apply last_opt_app. }
    rewrite last_last_opt in L2. congruence.
  - exfalso. apply last_opt_none in E. rewrite E in R. now apply Runs_nil_iff in R.
Qed.

(* all elements of one file through one context *)
Fixpoint vrun (v : vctx) (es : list elem) : vctx * list event :=
  match es with
  | [] => (v, [])
  | e :: r => let (v1, o1) := vctx_handle v e in let (v2, o2) := vrun v1 r in (v2, o1 ++ o2)
  end.

Lemma empties_app a b : empties (a ++ b) = empties a ++ empties b.
Proof. apply map_app. Qed.

Lemma vrun_msgs es : forall v rep, FileMsgs (vc_bof v) (vc_varsets v) (empties (vc_blanks v) ++ es) rep
  (msgs_of (snd (vrun v es) ++ vctx_eof (fst (vrun v es)) rep)).
Proof.
  induction es as [|e es IH]; intros v rep; cbn [vrun].
  - rewrite app_nil_r. cbn [fst snd app]. constructor. apply eof_tail.
  - destruct e as [c w|c|x]; cbn [vctx_handle].
    + specialize (IH (Vctx (vc_file v) (vc_bof v) (vc_blanks v ++ [(c, w)]) (vc_varsets v)) rep).
      destruct (vrun _ es) as [v2 o2]. cbn [fst snd vc_bof vc_varsets vc_blanks app] in *.
      rewrite empties_app, <- app_assoc in IH. exact IH.
    + specialize (IH (Vctx (vc_file v) false [] 0) rep).
      destruct (vrun _ es) as [v2 o2]. cbn [fst snd vc_bof vc_varsets vc_blanks app empties map] in IH.
      cbn [fst snd]. rewrite <- !app_assoc, msgs_app. cbn [app]. 
      match goal with |- context [msgs_of (EvElem ?e :: ?l)] => change (msgs_of (EvElem e :: l)) with (msgs_of l) end.
      destruct (vc_varsets v <=? 2) eqn:E2.
      * apply FM_ctx; [left; lia| |exact IH]. apply flush_gap. easy.
      * destruct (vc_blanks v) as [|b bs] eqn:EB.
        -- unfold flush_blanks. rewrite EB. cbn. apply FM_crowded; [lia|exact IH].
        -- rewrite <- EB. apply FM_ctx; [right; now rewrite EB| |exact IH]. apply flush_gap. now rewrite EB.
    + specialize (IH (Vctx (vc_file v) false [] (vc_varsets v + 1)) rep).
      destruct (vrun _ es) as [v2 o2]. cbn [fst snd vc_bof vc_varsets vc_blanks app empties map] in IH.
      cbn [fst snd]. rewrite <- !app_assoc, msgs_app. cbn [app]. 
      match goal with |- context [msgs_of (EvElem ?e :: ?l)] => change (msgs_of (EvElem e :: l)) with (msgs_of l) end.
      apply FM_var; [|exact IH]. now apply flush_gap.
Qed.

(* ---- messages carry the file they are about ---- *)

Definition vok (v : vctx) : Prop := Forall (fun b => w_file (snd b) = vc_file v) (vc_blanks v).
Definition about (f : str) (evs : list event) : Prop :=
  Forall (fun ev => match ev with EvMsg m => is_wsv m = true /\ w_file (m_where m) = f | _ => True end) evs.

Lemma about_app f a b : about f a -> about f b -> about f (a ++ b).
Proof. intros H1 H2. apply Forall_app. now split. Qed.
Lemma about_blanks f bs : about f (map ev_blank bs).
Proof. induction bs; constructor; easy. Qed.
Lemma last_opt_in {A} (l : list A) x : last_opt l = Some x -> In x l.
Proof. intros H. apply last_opt_some in H as [a ->]. apply in_or_app. right. now left. Qed.

Lemma about_between f cls max gs : wsv_cls cls = true ->
  Forall (fun b => w_file (snd b) = f) (ungroup gs) -> about f (flat_map (between_events cls max) gs).
Proof.
  intros HC F. induction gs as [|[c g] gs IH]; [constructor|]. cbn [flat_map]. unfold ungroup in F. cbn in F.
  apply Forall_app in F as [F1 F2]. apply about_app; [|now apply IH].
  unfold between_events. apply about_app; [|apply about_blanks].
  destruct (_ && _); [|constructor]. destruct (last_opt g) as [b|] eqn:E; [|constructor].
  constructor; [|constructor]. split; [now rewrite is_wsv_msg0|]. cbn. rewrite Forall_forall in F1.
  apply F1. now apply last_opt_in.
Qed.

Lemma about_eof v rep : vok v -> about (vc_file v) (vctx_eof v rep).
Proof.
  intros H. unfold vok in H. unfold vctx_eof. destruct (vc_blanks v) as [|b bs]; [constructor|].
  pose proof (ungroup_group (b :: bs)) as U. rewrite <- U in H.
  destruct (last_opt (group_blanks (b :: bs))) as [[[] g]|] eqn:E.
  - apply about_app; [|constructor]. now apply about_between.
  - pose proof (f_equal ungroup (last_removelast _ _ E)) as EU. unfold ungroup in EU at 2. rewrite flat_map_app in EU.
    apply about_app.
    + apply about_between; [easy|]. rewrite EU in H. now apply Forall_app in H.
    + destruct g as [|x g], rep; try (now constructor). apply about_app; [apply about_blanks|].
      destruct (last_opt (b :: bs)) as [y|] eqn:E3; [|constructor]. constructor; [|constructor].
      split; [easy|]. cbn. rewrite Forall_forall in H. apply H. rewrite U. now apply last_opt_in.
  - apply about_app; [|constructor]. now apply about_between.
Qed.

Lemma about_flush v w cls min max : vok v -> wsv_cls cls = true -> w_file w = vc_file v ->
  about (vc_file v) (flush_blanks v w cls min max).
Proof.
  intros H HC Hw. unfold vok in H. unfold flush_blanks. destruct (_ <? _)%nat.
  { constructor; [|apply about_blanks]. split; [now rewrite is_wsv_msg0 | easy]. }
  destruct (vc_blanks v) as [|b bs]; [constructor|].
  pose proof (ungroup_group (b :: bs)) as U. rewrite <- U in H.
  set (gs := group_blanks (b :: bs)) in *. clearbody gs.
  destruct (vc_bof v); [|apply about_app; [constructor|now apply about_between]].
  destruct gs as [|[c [|x g]] gs]; [constructor| |].
  - destruct c; (apply about_app; [constructor | now apply about_between]).
  - destruct c; [apply about_app; [constructor | now apply about_between]|].
    unfold ungroup in H. cbn [flat_map snd] in H. apply Forall_app in H as [H1 H2]. apply about_app.
    + constructor; [|exact (about_blanks _ (x :: g))]. split; [easy|]. cbn. now inversion H1.
    + now apply about_between.
Qed.

Lemma vctx_handle_ok v e : vok v -> w_file (e_where e) = vc_file v ->
  vok (fst (vctx_handle v e)) /\ vc_file (fst (vctx_handle v e)) = vc_file v
  /\ about (vc_file v) (snd (vctx_handle v e)).
Proof.
  intros H He. destruct e as [c w|c|x]; cbn [vctx_handle fst snd vc_file]; cbn in He.
  - split; [|split; [easy|constructor]]. apply Forall_app. split; [easy|]. now repeat constructor.
  - split; [constructor|]. split; [easy|]. apply about_app; [now apply about_flush | now repeat constructor].
  - split; [constructor|]. split; [easy|]. apply about_app; [now apply about_flush | now repeat constructor].
Qed.

Lemma wsv_app f a b : wsv_of f (a ++ b) = wsv_of f a ++ wsv_of f b.
Proof. apply flat_map_app. Qed.
Lemma wsv_about f evs : about f evs -> wsv_of f evs = msgs_of evs.
Proof.
  induction 1 as [|ev evs H F IH]; [easy|]. cbn [wsv_of msgs_of flat_map]. fold (wsv_of f evs) (msgs_of evs). rewrite IH.
  f_equal. destruct ev as [| m |]; try easy. destruct H as [-> ->]. now rewrite str_eqb_refl.
Qed.
Lemma wsv_other f g evs : about f evs -> g <> f -> wsv_of g evs = [].
Proof.
  intros H N1. induction H as [|ev evs H F IH]; [easy|]. cbn [wsv_of flat_map]. fold (wsv_of g evs). rewrite IH.
  destruct ev as [| m |]; try easy. destruct H as [-> ->]. cbn [andb].
  assert (str_eqb f g = false) as -> by (apply str_eqb_neq; congruence). easy.
Qed.

Lemma vrun_ok es : forall v, vok v -> Forall (fun e => w_file (e_where e) = vc_file v) es ->
  vok (fst (vrun v es)) /\ vc_file (fst (vrun v es)) = vc_file v /\ about (vc_file v) (snd (vrun v es)).
Proof.
  induction es as [|e es IH]; intros v H F; cbn [vrun]; [repeat split; try easy; constructor|].
  inversion F; subst. destruct (vctx_handle_ok v e) as (V & EF & A); try easy.
  destruct (vctx_handle v e) as [v1 o1]. cbn [fst snd] in *.
  destruct (IH v1) as (V2 & EF2 & A2); [easy | now rewrite EF |].
  destruct (vrun v1 es) as [v2 o2]. cbn [fst snd] in *. rewrite EF in *. repeat split; try easy.
  now apply about_app.
Qed.
