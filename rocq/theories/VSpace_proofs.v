From Verif Require Import Base PyStr Defines FileRd Config VSpace Spec_VSpace.

(* ---- C14: nothing essential is changed ---- *)

Lemma filter_flat_map_nil {A B} (p : B -> bool) (f : A -> list B) l :
  (forall a, filter p (f a) = []) -> filter p (flat_map f l) = [].
Proof. intros H. induction l as [|a l IH]; cbn; [easy|]. now rewrite filter_app, H, IH. Qed.

Lemma ess_blanks bs : filter essential (map ev_blank bs) = [].
Proof. induction bs as [|b bs IH]; cbn; easy. Qed.

Definition wsv_cls (c : mcls) : bool := is_wsv (msg0 c (Where [] 0 [])).
Lemma is_wsv_msg0 c w : is_wsv (msg0 c w) = wsv_cls c.
Proof. now destruct c. Qed.

Lemma ess_between cls max g : wsv_cls cls = true -> filter essential (between_events cls max g) = [].
Proof.
  intros H. destruct g as [c bs]. unfold between_events. rewrite filter_app, ess_blanks, app_nil_r.
  destruct (_ && _); [|easy]. destruct (last_opt bs); [|easy]. cbn [filter essential]. now rewrite is_wsv_msg0, H.
Qed.

Lemma ess_flush v w cls min max : wsv_cls cls = true -> filter essential (flush_blanks v w cls min max) = [].
Proof.
  intros H. unfold flush_blanks. destruct (_ <? _)%nat.
  - cbn [filter essential]. now rewrite is_wsv_msg0, H, ess_blanks.
  - destruct (vc_blanks v) as [|b bs]; [easy|].
    set (gs := group_blanks (b :: bs)). clearbody gs.
    destruct (vc_bof v).
    + destruct gs as [|[c [|x g]] gs]; [easy| |].
      * destruct c; rewrite filter_app; apply filter_flat_map_nil; intros; now apply ess_between.
      * destruct c; rewrite filter_app.
        -- apply filter_flat_map_nil; intros; now apply ess_between.
        -- cbn [filter essential is_wsv msg0 m_cls negb]. rewrite ess_blanks.
           apply filter_flat_map_nil; intros; now apply ess_between.
    + rewrite filter_app. apply filter_flat_map_nil; intros; now apply ess_between.
Qed.

Lemma ess_eof v rep : filter essential (vctx_eof v rep) = [].
Proof.
  unfold vctx_eof. destruct (vc_blanks v) as [|b bs]; [easy|].
  destruct (last_opt (group_blanks (b :: bs))) as [[[] g]|].
  - rewrite filter_app. rewrite filter_flat_map_nil; [easy | intros; now apply ess_between].
  - rewrite filter_app. rewrite filter_flat_map_nil; [|intros; now apply ess_between].
    destruct g as [|x g], rep; try easy. rewrite filter_app, ess_blanks. destruct (last_opt (b :: bs)); easy.
  - rewrite filter_app. rewrite filter_flat_map_nil; [easy | intros; now apply ess_between].
Qed.

Lemma ess_pop l f : filter essential (fst (vstack_pop l f)) = [].
Proof.
  induction l as [|v l IH]; [easy|]. cbn. destruct (str_eqb _ _); [easy|].
  destruct (vstack_pop l f) as [evs l']. cbn [fst] in *. now rewrite filter_app, ess_eof, IH.
Qed.

Lemma pop_on_stack l f : existsb (fun v => str_eqb (vc_file v) f) l = true ->
  exists v r, snd (vstack_pop l f) = v :: r.
Proof.
  induction l as [|v l IH]; cbn; [easy|]. destruct (str_eqb (vc_file v) f) eqn:E.
  - intros _. now exists v, l.
  - intros H. destruct (IH H) as (v' & r & E'). destruct (vstack_pop l f) as [evs l']. cbn in *. now exists v', r.
Qed.

Lemma ess_vctx v e : filter essential (snd (vctx_handle v e)) = filter essential [EvElem e].
Proof.
  destruct e as [c w|c|x]; [easy| |]; cbn [vctx_handle snd];
    rewrite filter_app, ess_flush by easy; reflexivity.
Qed.

Lemma ess_handle l e : filter essential (fst (vstack_handle l e)) = filter essential [EvElem e].
Proof.
  unfold vstack_handle. destruct (existsb _ l) eqn:E.
  - destruct (pop_on_stack _ _ E) as (v & r & Ev). pose proof (ess_pop l (w_file (e_where e))) as H.
    destruct (vstack_pop l (w_file (e_where e))) as [evs l1]. cbn [fst snd] in *. subst l1.
    pose proof (ess_vctx v e) as He. destruct (vctx_handle v e) as [v' evs']. cbn [fst snd] in *.
    now rewrite filter_app, H, He.
  - pose proof (ess_vctx (vctx_new (e_where e)) e) as He.
    destruct (vctx_handle (vctx_new (e_where e)) e) as [v' evs']. cbn [fst snd app] in *. exact He.
Qed.

Lemma ess_vsw evs : forall l, filter essential (fst (vsw l evs)) = filter essential evs.
Proof.
  induction evs as [|ev evs IH]; intros l; [easy|]. cbn [vsw]. destruct ev as [w d c|m|e].
  - specialize (IH l). destruct (vsw l evs). cbn [fst] in *. cbn [filter essential]. now rewrite IH.
  - specialize (IH l). destruct (vsw l evs). cbn [fst] in *. cbn [filter]. now rewrite IH.
  - pose proof (ess_handle l e) as H. destruct (vstack_handle l e) as [out l']. cbn [fst] in H.
    specialize (IH l'). destruct (vsw l' evs). cbn [fst] in *. rewrite filter_app, H, IH.
    now rewrite <- filter_app.
Qed.

Lemma ess_stack_eof l first : filter essential (vstack_eof l first) = [].
Proof. revert first; induction l as [|v l IH]; intros first; [easy|]. cbn. now rewrite filter_app, ess_eof, IH. Qed.

Lemma ess_stream s : filter essential (fst (vsw_stream s)) = filter essential (fst s)
  /\ snd (vsw_stream s) = snd s.
Proof.
  destruct s as [evs o]. unfold vsw_stream. cbn [fst snd].
  pose proof (ess_vsw evs []) as H. destruct (vsw [] evs) as [out l]. cbn [fst] in H.
  destruct o as [[]|e|]; cbn [fst snd]; try easy. rewrite filter_app, ess_stack_eof, app_nil_r. easy.
Qed.

(* empty lines: none is invented or repeated *)
Definition blanks_of (evs : list event) : list event := filter blank_event evs.
Definition held (l : list vctx) : list event := flat_map (fun v => map ev_blank (vc_blanks v)) l.

Lemma blanks_map bs : blanks_of (map ev_blank bs) = map ev_blank bs.
Proof. unfold blanks_of. induction bs as [|b bs IH]; cbn; [easy|]. now rewrite IH. Qed.

Lemma blanks_app a b : blanks_of (a ++ b) = blanks_of a ++ blanks_of b.
Proof. apply filter_app. Qed.

Definition ungroup (gs : list (bool * list blank)) : list blank := flat_map snd gs.
Lemma ungroup_add gs b : ungroup (add_blank gs b) = ungroup gs ++ [b].
Proof.
  induction gs as [|[c g] gs IH]; [easy|]. cbn [add_blank]. destruct gs as [|x gs].
  - destruct (Bool.eqb c (fst b)); cbn; now rewrite ?app_nil_r.
  - unfold ungroup in *. cbn [flat_map snd]. cbn [flat_map] in IH. etransitivity; [apply (f_equal (app g)); exact IH|]. now rewrite !app_assoc.
Qed.
Lemma ungroup_group bs : ungroup (group_blanks bs) = bs.
Proof.
  unfold group_blanks. enough (H : forall acc, ungroup (fold_left add_blank bs acc) = ungroup acc ++ bs) by apply (H []).
  induction bs as [|b bs IH]; intros acc; cbn; [now rewrite app_nil_r|].
  rewrite IH, ungroup_add, <- app_assoc. easy.
Qed.

Lemma blanks_between cls max gs : blanks_of (flat_map (between_events cls max) gs) = map ev_blank (ungroup gs).
Proof.
  induction gs as [|[c g] gs IH]; [easy|]. cbn [flat_map ungroup]. rewrite blanks_app, IH.
  unfold ungroup. cbn [flat_map snd]. rewrite map_app. f_equal. unfold between_events. rewrite blanks_app, blanks_map.
  destruct (_ && _); [|easy]. now destruct (last_opt g).
Qed.

Lemma blanks_flush v w cls min max : blanks_of (flush_blanks v w cls min max) = map ev_blank (vc_blanks v).
Proof.
  unfold flush_blanks. destruct (_ <? _)%nat; [cbn; apply blanks_map|].
  destruct (vc_blanks v) as [|b bs]; [easy|].
  assert (EU : map ev_blank (b :: bs) = map ev_blank (ungroup (group_blanks (b :: bs)))) by now rewrite ungroup_group.
  rewrite EU. clear EU.
  set (gs := group_blanks (b :: bs)). clearbody gs. destruct (vc_bof v).
  - destruct gs as [|[c [|x g]] gs]; [easy| |].
    + destruct c; rewrite blanks_app; apply blanks_between.
    + destruct c; rewrite blanks_app; [apply blanks_between|].
      rewrite blanks_between. unfold ungroup. cbn [flat_map snd]. rewrite map_app. f_equal.
      exact (blanks_map (x :: g)).
  - rewrite blanks_app. apply blanks_between.
Qed.

Lemma last_removelast {A} (l : list A) x : last_opt l = Some x -> l = removelast l ++ [x].
Proof. intros H. apply last_opt_some in H as [a ->]. now rewrite removelast_last. Qed.

Lemma blanks_eof v rep : exists d, map ev_blank (vc_blanks v) = blanks_of (vctx_eof v rep) ++ d
  /\ (rep = true -> d = []).
Proof.
  unfold vctx_eof. destruct (vc_blanks v) as [|b bs]; [now exists []|].
  assert (EU : map ev_blank (b :: bs) = map ev_blank (ungroup (group_blanks (b :: bs)))) by now rewrite ungroup_group.
  rewrite EU. clear EU.
  destruct (last_opt (group_blanks (b :: bs))) as [[[] g]|] eqn:E.
  - exists []. now rewrite blanks_app, blanks_between, !app_nil_r.
  - assert (EG : ungroup (group_blanks (b :: bs)) = ungroup (removelast (group_blanks (b :: bs))) ++ g).
    { pose proof (f_equal ungroup (last_removelast _ _ E)) as X. etransitivity; [exact X|].
      unfold ungroup. rewrite flat_map_app. cbn [flat_map snd]. now rewrite app_nil_r. }
    rewrite EG, map_app, blanks_app, blanks_between.
    destruct g as [|x g]; [exists []; now rewrite !app_nil_r|]. destruct rep.
    + exists []. rewrite app_nil_r, blanks_app, blanks_map. f_equal.
      destruct (last_opt (b :: bs)); cbn; now rewrite app_nil_r.
    + exists (map ev_blank (x :: g)). split; [|easy]. cbn [blanks_of filter]. now rewrite app_nil_r.
  - exists []. now rewrite blanks_app, blanks_between, !app_nil_r.
Qed.

Lemma held_pop l f : held l = blanks_of (fst (vstack_pop l f)) ++ held (snd (vstack_pop l f)).
Proof.
  induction l as [|v l IH]; [easy|]. cbn. destruct (str_eqb _ _); [easy|].
  destruct (vstack_pop l f) as [evs l']. cbn [fst snd] in *. rewrite blanks_app, <- app_assoc, <- IH.
  destruct (blanks_eof v true) as (d & E & D). rewrite D in E by easy. rewrite app_nil_r in E. now rewrite E.
Qed.

Lemma blanks_vctx v e : map ev_blank (vc_blanks v) ++ blanks_of [EvElem e]
  = blanks_of (snd (vctx_handle v e)) ++ map ev_blank (vc_blanks (fst (vctx_handle v e))).
Proof.
  destruct e as [c w|c|x]; cbn [vctx_handle snd fst vc_blanks].
  - cbn. now rewrite map_app.
  - rewrite blanks_app, blanks_flush. cbn. now rewrite !app_nil_r.
  - rewrite blanks_app, blanks_flush. cbn. now rewrite !app_nil_r.
Qed.

Lemma blanks_handle l e : Permutation (held l ++ blanks_of [EvElem e])
  (blanks_of (fst (vstack_handle l e)) ++ held (snd (vstack_handle l e))).
Proof.
  unfold vstack_handle. destruct (existsb _ l) eqn:E.
  - destruct (pop_on_stack _ _ E) as (v & r & Ev). pose proof (held_pop l (w_file (e_where e))) as H.
    destruct (vstack_pop l (w_file (e_where e))) as [evs l1]. cbn [fst snd] in *. subst l1.
    pose proof (blanks_vctx v e) as He. destruct (vctx_handle v e) as [v' evs']. cbn [fst snd] in *.
    rewrite H, blanks_app, <- !app_assoc. apply Permutation_app_head. cbn [held flat_map].
    rewrite (app_assoc (blanks_of evs')), <- He, <- !app_assoc. apply Permutation_app_head.
    apply Permutation_app_comm.
  - pose proof (blanks_vctx (vctx_new (e_where e)) e) as He.
    destruct (vctx_handle (vctx_new (e_where e)) e) as [v' evs']. cbn [fst snd] in *. cbn [held flat_map].
    rewrite (app_assoc (blanks_of ([] ++ evs'))). cbn [app]. rewrite <- He. cbn [vctx_new vc_blanks map app].
    apply Permutation_app_comm.
Qed.

Lemma blanks_vsw evs : forall l, Permutation (held l ++ blanks_of evs)
  (blanks_of (fst (vsw l evs)) ++ held (snd (vsw l evs))).
Proof.
  induction evs as [|ev evs IH]; intros l; [cbn; now rewrite app_nil_r|]. cbn [vsw].
  destruct ev as [w d c|m|e].
  - specialize (IH l). destruct (vsw l evs). cbn [fst snd] in *. exact IH.
  - specialize (IH l). destruct (vsw l evs). cbn [fst snd] in *. exact IH.
  - pose proof (blanks_handle l e) as H. destruct (vstack_handle l e) as [out l']. cbn [fst snd] in H.
    specialize (IH l'). destruct (vsw l' evs). cbn [fst snd] in *. rewrite blanks_app.
    change (EvElem e :: evs) with ([EvElem e] ++ evs). rewrite blanks_app, app_assoc, H, <- !app_assoc.
    now apply Permutation_app_head.
Qed.

Lemma blanks_stack_eof l first : exists d, Permutation (held l) (blanks_of (vstack_eof l first) ++ d).
Proof.
  revert first; induction l as [|v l IH]; intros first; [now exists []|]. cbn [held flat_map vstack_eof].
  destruct (IH false) as (d & P). destruct (blanks_eof v first) as (d' & E' & _). exists (d' ++ d).
  fold (held l). rewrite E', P, blanks_app, <- !app_assoc. apply Permutation_app_head.
  rewrite !app_assoc. apply Permutation_app_tail, Permutation_app_comm.
Qed.

Lemma blanks_stream s : exists d, Permutation (blanks_of (fst s)) (blanks_of (fst (vsw_stream s)) ++ d).
Proof.
  destruct s as [evs o]. unfold vsw_stream. cbn [fst snd].
  pose proof (blanks_vsw evs []) as H. destruct (vsw [] evs) as [out l]. cbn [fst snd] in H.
  cbn [held flat_map app] in H. destruct o as [[]|e|]; cbn [fst]; try (exists (held l); exact H).
  destruct (blanks_stack_eof l true) as (d & P); exists d.
  rewrite H, blanks_app, <- app_assoc. now apply Permutation_app_head.
Qed.
