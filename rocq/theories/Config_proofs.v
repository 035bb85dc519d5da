From Verif Require Import Base PyStr Regex Regex_proofs Defines FileRd Config Spec_Config.

Lemma at_end_no_nl a t : no_nl (a ++ t) -> at_end t = true -> t = [].
Proof.
  intros N1 H. destruct t as [|c [|c' t]]; cbn in H; [easy| |easy].
  apply N.eqb_eq in H. subst. exfalso. apply N1. apply in_or_app. right. now left.
Qed.

Lemma forallb_ws s : forallb isspace s = true <-> ws s.
Proof. unfold ws. rewrite forallb_forall, Forall_forall. easy. Qed.
Lemma forallb_not_in l s : forallb (not_in l) s = true <-> forall c, In c l -> ~ In c s.
Proof.
  rewrite forallb_forall. unfold not_in. split.
  - intros H c Hc Hs. specialize (H c Hs). apply negb_true_iff, memb_not_In in H. easy.
  - intros H x Hx. apply negb_true_iff, memb_not_In. intros Hl. now apply (H x Hl).
Qed.
Lemma forallb_not_in1 a s : forallb (not_in [a]) s = true <-> ~ In a s.
Proof. rewrite forallb_not_in. split; [intros H; apply H; now left | intros H c [<-|[]]; easy]. Qed.

Ltac inv_segs :=
  repeat match goal with
  | H : Forall2 seg_ok (_ :: _) _ |- _ => inversion H; subst; clear H
  | H : Forall2 seg_ok [] _ |- _ => inversion H; subst; clear H
  | H : seg_ok (One _) _ |- _ => let c := fresh "c" in destruct H as (c & -> & H)
  end.

Lemma is_chr_eq a c : is_chr a c = true -> c = a.
Proof. apply N.eqb_eq. Qed.

Lemma tmpl_sound d g : no_nl d -> re_match re_tmpl d = Some g ->
  exists bol name gap t, g = [bol; [91]; name; [93]; gap; [40]; [t]; [41]] /\ d = bol ++ [91] ++ name ++ [93] ++ gap ++ [40; t; 41]
    /\ ws bol /\ ~ In 93 name /\ ws gap /\ t <> 41 /\ t <> 43.
Proof.
  intros N1 H. apply re_sound in H as (F & t & E & A). rewrite E in N1. apply (at_end_no_nl _ _ N1) in A. subst t.
  unfold re_tmpl in F. inv_segs.
  repeat match goal with X : is_chr _ _ = true |- _ => apply is_chr_eq in X; subst end.
  cbn [seg_ok] in *. eexists _, _, _, _. split; [reflexivity|]. split; [rewrite ?E; cbn; rewrite ?app_nil_r, <- ?app_assoc; reflexivity|].
  repeat match goal with X : not_in [41; 43] ?c = true |- _ =>
    assert (c <> 41 /\ c <> 43) by
      (unfold not_in in X; apply negb_true_iff, memb_not_In in X; cbn in X; split; intros ->; tauto); clear X end.
  repeat split; try (now apply forallb_ws); try tauto. now apply forallb_not_in1.
Qed.

Lemma ctx_sound d g : no_nl d -> re_match re_ctx d = Some g ->
  exists bol name, g = [bol; [91]; name; [93]] /\ d = bol ++ [91] ++ name ++ [93] /\ ws bol /\ ~ In 93 name.
Proof.
  intros N1 H. apply re_sound in H as (F & t & E & A). rewrite E in N1. apply (at_end_no_nl _ _ N1) in A. subst t.
  unfold re_ctx in F. inv_segs.
  repeat match goal with X : is_chr _ _ = true |- _ => apply is_chr_eq in X; subst end.
  cbn [seg_ok] in *. eexists _, _. split; [reflexivity|]. split; [rewrite ?E; cbn; rewrite ?app_nil_r, <- ?app_assoc; reflexivity|].
  repeat split; try (now apply forallb_ws). now apply forallb_not_in1.
Qed.

Lemma obj_sound d g : no_nl d -> re_match re_obj d = Some g ->
  exists key sp1 sp2 v, g = [key; sp1; [61]; [62]; sp2; v] /\ d = key ++ sp1 ++ [61; 62] ++ sp2 ++ v /\ ~ In 61 key /\ ws sp1 /\ ws sp2.
Proof.
  intros N1 H. apply re_sound in H as (F & t & E & A). rewrite E in N1. apply (at_end_no_nl _ _ N1) in A. subst t.
  unfold re_obj in F. inv_segs.
  repeat match goal with X : is_chr _ _ = true |- _ => apply is_chr_eq in X; subst end.
  cbn [seg_ok] in *. eexists _, _, _, _. split; [reflexivity|]. split; [rewrite ?E; cbn; rewrite ?app_nil_r, <- ?app_assoc; reflexivity|].
  repeat split; try (now apply forallb_ws). now apply forallb_not_in1.
Qed.

Lemma var_sound d g : no_nl d -> re_match re_var d = Some g ->
  exists key sp1 sp2 v, g = [key; sp1; [61]; sp2; v] /\ d = key ++ sp1 ++ [61] ++ sp2 ++ v /\ ~ In 61 key /\ ws sp1 /\ ws sp2.
Proof.
  intros N1 H. apply re_sound in H as (F & t & E & A). rewrite E in N1. apply (at_end_no_nl _ _ N1) in A. subst t.
  unfold re_var in F. inv_segs.
  repeat match goal with X : is_chr _ _ = true |- _ => apply is_chr_eq in X; subst end.
  cbn [seg_ok] in *. eexists _, _, _, _. split; [reflexivity|]. split; [rewrite ?E; cbn; rewrite ?app_nil_r, <- ?app_assoc; reflexivity|].
  repeat split; try (now apply forallb_ws). now apply forallb_not_in1.
Qed.

Lemma void_sound d g : no_nl d -> re_match re_void d = Some g -> ws d.
Proof.
  intros N1 H. apply re_sound in H as (F & t & E & A). rewrite E in N1. apply (at_end_no_nl _ _ N1) in A. subst t.
  unfold re_void in F. inv_segs. subst. cbn. rewrite !app_nil_r. now apply forallb_ws.
Qed.

Lemma ws_head_disj (s : str) : match s with [] => True | c :: _ => isspace c = false end <-> ~ starts_ws s.
Proof.
  unfold starts_ws. destruct s as [|c s]; [split; [now intros _ (c & r & E & _)|easy]|]. split.
  - intros H (c' & r & [= <- <-] & Hc). congruence.
  - intros H. destruct (isspace c) eqn:E; [|easy]. exfalso. apply H. now exists c, s.
Qed.

Lemma greedy_nl v : no_nl v -> re_match [Greedy dot] v = Some [v].
Proof.
  intros N1. rewrite <- (app_nil_r v) at 1. cbn. apply greedy_take; [|easy|easy].
  apply forallb_forall. intros x Hx. unfold dot. apply negb_true_iff, N.eqb_neq. intros ->. now apply N1.
Qed.

Lemma no_nl_app a b : no_nl (a ++ b) <-> no_nl a /\ no_nl b.
Proof. unfold no_nl. rewrite in_app_iff. tauto. Qed.

Lemma name_stop name r : ~ In 93 name ->
  forall k segs, k (93 :: r) = Some segs -> greedy k (not_in [93]) (name ++ 93 :: r) = Some (name :: segs).
Proof. intros H k segs Hk. apply greedy_take; [now apply forallb_not_in1 | easy | easy]. Qed.

Lemma tmpl_complete bol name gap t : ws bol -> ~ In 93 name -> ws gap -> t <> 41 -> t <> 43 ->
  re_match re_tmpl (bol ++ [91] ++ name ++ [93] ++ gap ++ [40; t; 41])
  = Some [bol; [91]; name; [93]; gap; [40]; [t]; [41]].
Proof.
  intros Hb Hn Hg H1 H2. unfold re_tmpl. cbn [re_match].
  apply greedy_take; [now apply forallb_ws | easy |]. cbn [app is_chr].
  change (is_chr 91 91) with true. cbn iota.
  rewrite (name_stop name _ Hn _ [[93]; gap; [40]; [t]; [41]]); [easy|].
  change (is_chr 93 93) with true. cbn iota.
  rewrite (greedy_take _ _ gap _ [[40]; [t]; [41]]); [easy | now apply forallb_ws | easy |].
  change (is_chr 40 40) with true. cbn iota.
  assert (not_in [41; 43] t = true) as ->.
  { unfold not_in. apply negb_true_iff, memb_not_In. cbn. intros [?|[?|[]]]; congruence. }
  easy.
Qed.

Lemma ctx_complete bol name : ws bol -> ~ In 93 name ->
  re_match re_ctx (bol ++ [91] ++ name ++ [93]) = Some [bol; [91]; name; [93]].
Proof.
  intros Hb Hn. unfold re_ctx. cbn [re_match].
  apply greedy_take; [now apply forallb_ws | easy |]. cbn [app].
  change (is_chr 91 91) with true. cbn iota.
  rewrite (name_stop name _ Hn _ [[93]]); easy.
Qed.

Lemma void_complete d : ws d -> re_match re_void d = Some [d].
Proof.
  intros H. unfold re_void. cbn [re_match]. rewrite <- (app_nil_r d) at 1.
  apply greedy_take; [now apply forallb_ws | easy | easy].
Qed.

(* the lazy key *)
Lemma key_skip l key sp rest segs :
  ~ In 61 key -> ~ ends_ws key -> ws sp ->
  (forall s g, re_match (Greedy isspace :: One (is_chr 61) :: l) s = Some g -> no_nl s ->
     exists a b, s = a ++ 61 :: b /\ ws a) ->
  no_nl (key ++ sp ++ 61 :: rest) ->
  re_match (Greedy isspace :: One (is_chr 61) :: l) (sp ++ 61 :: rest) = Some segs ->
  re_match (Lazy (not_in [61]) :: Greedy isspace :: One (is_chr 61) :: l) (key ++ sp ++ 61 :: rest)
  = Some (key :: segs).
Proof.
  intros Hk Hw Hs HK Hn HR.
  induction key as [|c key IH].
  - cbn [app]. now apply lazy_here.
  - assert (Hk' : ~ In 61 key) by (cbn in Hk; tauto).
    assert (Hw' : ~ ends_ws key).
    { intros (a & x & -> & Hx). apply Hw. now exists (c :: a), x. }
    assert (Hn' : no_nl (key ++ sp ++ 61 :: rest)) by (cbn in Hn; unfold no_nl in *; cbn in Hn; tauto).
    specialize (IH Hk' Hw' Hn'). cbn [re_match] in *. cbn [app].
    apply lazy_step; [| |exact IH].
    + match goal with |- ?x = None => destruct x as [g|] eqn:E end; [|easy]. exfalso.
      destruct (HK _ _ E) as (a & b & E2 & Ha); [easy|].
      (* a is white space and contains c :: key *)
      assert (P : exists z, a = (c :: key) ++ z).
      { clear - E2 Hk Ha.
        change (c :: key ++ sp ++ 61 :: rest) with ((c :: key) ++ sp ++ 61 :: rest) in E2.
        revert a E2 Ha; induction (c :: key) as [|x k IHk]; intros a E2 Ha; [now exists a|].
        destruct a as [|y a].
        - cbn in E2. injection E2 as E3 _. exfalso. apply Hk. left. easy.
        - cbn in E2. injection E2 as -> E2. inversion Ha; subst.
          destruct (IHk ltac:(cbn in Hk; tauto) a E2) as [z ->]; [easy|]. now exists z. }
      destruct P as [z ->]. apply Hw. destruct (@exists_last _ (c :: key) ltac:(easy)) as (k0 & x & Ex).
      exists k0, x. split; [easy|]. unfold ws in Ha. rewrite Ex in Ha. apply Forall_app in Ha as [Ha _].
      apply Forall_app in Ha as [_ Ha]. now inversion Ha.
    + unfold not_in. apply negb_true_iff, memb_not_In. cbn. intros [?|[]]. apply Hk. now left.
Qed.

Lemma greedy_eq_head l : forall s g, re_match (Greedy isspace :: One (is_chr 61) :: l) s = Some g -> no_nl s ->
     exists a b, s = a ++ 61 :: b /\ ws a.
Proof.
  intros s g H _. apply re_sound in H as (F & t & -> & A).
  inversion F as [|i1 g1 l1 gs1 Hg1 F1]; subst. inversion F1 as [|i2 g2 l2 gs2 Hg2 F2]; subst.
  destruct Hg2 as (x & -> & Hx). apply is_chr_eq in Hx. subst.
  exists g1. eexists. split; [cbn; rewrite <- !app_assoc; reflexivity|]. now apply forallb_ws.
Qed.

Lemma obj_complete key sp1 sp2 v : ~ In 61 key -> ~ ends_ws key -> ws sp1 -> ws sp2 -> ~ starts_ws v ->
  no_nl (key ++ sp1 ++ [61; 62] ++ sp2 ++ v) ->
  re_match re_obj (key ++ sp1 ++ [61; 62] ++ sp2 ++ v) = Some [key; sp1; [61]; [62]; sp2; v].
Proof.
  intros Hk Hw H1 H2 Hv Hn. unfold re_obj. cbn [app] in *. apply key_skip; try easy.
  - apply greedy_eq_head.
  - cbn [re_match].
    apply greedy_take; [now apply forallb_ws | easy |].
    change (is_chr 61 61) with true. cbn iota. change (is_chr 62 62) with true. cbn iota.
    rewrite (greedy_take _ _ sp2 v [v]); [easy | now apply forallb_ws | now apply ws_head_disj |].
    apply greedy_nl. apply no_nl_app in Hn as [_ Hn]. apply no_nl_app in Hn as [_ Hn].
    change (61 :: 62 :: sp2 ++ v) with ([61; 62] ++ sp2 ++ v) in Hn.
    apply no_nl_app in Hn as [_ Hn]. now apply no_nl_app in Hn.
Qed.

Lemma var_complete key sp1 sp2 v : ~ In 61 key -> ~ ends_ws key -> ws sp1 -> ws sp2 -> ~ starts_ws v ->
  no_nl (key ++ sp1 ++ [61] ++ sp2 ++ v) ->
  re_match re_var (key ++ sp1 ++ [61] ++ sp2 ++ v) = Some [key; sp1; [61]; sp2; v].
Proof.
  intros Hk Hw H1 H2 Hv Hn. unfold re_var. cbn [app] in *. apply key_skip; try easy.
  - apply greedy_eq_head.
  - cbn [re_match].
    apply greedy_take; [now apply forallb_ws | easy |].
    change (is_chr 61 61) with true. cbn iota.
    rewrite (greedy_take _ _ sp2 v [v]); [easy | now apply forallb_ws | now apply ws_head_disj |].
    apply greedy_nl. apply no_nl_app in Hn as [_ Hn]. apply no_nl_app in Hn as [_ Hn].
    change (61 :: sp2 ++ v) with ([61] ++ sp2 ++ v) in Hn.
    apply no_nl_app in Hn as [_ Hn]. now apply no_nl_app in Hn.
Qed.

(* every text with '=' is an assignment, in exactly one way *)
Lemma rstrip_ws s : exists k sp, s = k ++ sp /\ ws sp /\ ~ ends_ws k.
Proof.
  destruct (rstrip_p_split isspace s) as (t & E & F). exists (rstrip_p isspace s), t.
  split; [easy|]. split; [now apply forallb_ws|]. intros (a & c & Ea & Hc).
  pose proof (rstrip_p_last isspace s) as H. rewrite Ea, last_opt_app in H. congruence.
Qed.
Lemma lstrip_ws s : exists sp v, s = sp ++ v /\ ws sp /\ ~ starts_ws v.
Proof.
  destruct (lstrip_p_split isspace s) as (l & E & F & H). exists l, (lstrip_p isspace s).
  split; [easy|]. split; [now apply forallb_ws|]. now apply ws_head_disj.
Qed.

Lemma Assign_exists d : In 61 d -> exists key sep value arrow, Assign d key sep value arrow.
Proof.
  intros H. apply in_split in H as (a0 & b0 & E).
  assert (F : exists a b, d = a ++ 61 :: b /\ ~ In 61 a).
  { destruct (index_of 61 d) as [i|] eqn:Ei.
    - apply index_of_some in Ei as [E1 H1]. now exists (firstn i d), (skipn (S i) d).
    - apply index_of_none in Ei. exfalso. apply Ei. rewrite E. apply in_or_app. right. now left. }
  destruct F as (a & b & -> & Ha). destruct (rstrip_ws a) as (key & sp1 & -> & H1 & Hk).
  assert (Hkey : ~ In 61 key) by (intros X; apply Ha; apply in_or_app; now left).
  assert (D : (exists b', b = 62 :: b') \/ (forall b', b <> 62 :: b')).
  { destruct b as [|x b]; [now right|]. destruct (N.eq_dec x 62) as [->|Hx]; [left; now exists b | right; congruence]. }
  destruct D as [[b' ->]|D].
  - destruct (lstrip_ws b') as (sp2 & v & -> & H2 & Hv).
    exists key, (sp1 ++ [61; 62] ++ sp2), v, true.
    replace ((key ++ sp1) ++ 61 :: 62 :: sp2 ++ v) with (key ++ (sp1 ++ [61; 62] ++ sp2) ++ v)
      by (cbn; now rewrite <- !app_assoc).
    now constructor.
  - destruct (lstrip_ws b) as (sp2 & v & -> & H2 & Hv).
    exists key, (sp1 ++ [61] ++ sp2), v, false.
    replace ((key ++ sp1) ++ 61 :: sp2 ++ v) with (key ++ (sp1 ++ [61] ++ sp2) ++ v)
      by (cbn; now rewrite <- !app_assoc).
    constructor; try easy. intros -> r ->. now apply (D r).
Qed.

Lemma Assign_in d key sep v arrow : Assign d key sep v arrow -> In 61 d.
Proof. destruct 1; apply in_or_app; right; apply in_or_app; left; apply in_or_app; right; now left. Qed.

Lemma first_eq_unique (a a' b b' : str) : a ++ 61 :: b = a' ++ 61 :: b' -> ~ In 61 a -> ~ In 61 a' -> a = a' /\ b = b'.
Proof.
  revert a'; induction a as [|x a IH]; intros [|y a'] E H1 H2; cbn in E.
  - now injection E as ->.
  - exfalso. apply H2. left. congruence.
  - exfalso. apply H1. left. congruence.
  - injection E as -> E2. destruct (IH a' E2) as [-> ->]; cbn in *; tauto.
Qed.

Lemma ws_no_eq s : ws s -> ~ In 61 s.
Proof. intros H Hi. unfold ws in H. rewrite Forall_forall in H. apply H in Hi. easy. Qed.

Lemma starts_ws_unique sp v sp' v' : sp ++ v = sp' ++ v' -> ws sp -> ws sp' -> ~ starts_ws v -> ~ starts_ws v' ->
  sp = sp' /\ v = v'.
Proof.
  revert sp'; induction sp as [|x sp IH]; intros [|y sp'] E H1 H2 N1 N2; cbn in E.
  - easy.
  - exfalso. apply N1. inversion H2; subst. now exists y, (sp' ++ v').
  - exfalso. apply N2. inversion H1; subst. now exists x, (sp ++ v).
  - injection E as -> E. inversion H1; inversion H2; subst. destruct (IH sp' E) as [-> ->]; easy.
Qed.
Lemma ends_ws_unique k sp k' sp' : k ++ sp = k' ++ sp' -> ws sp -> ws sp' -> ~ ends_ws k -> ~ ends_ws k' ->
  k = k' /\ sp = sp'.
Proof.
  intros E H1 H2 N1 N2.
  assert (G : rev sp = rev sp' /\ rev k = rev k').
  { assert (R : forall s, ws s -> ws (rev s)) by (intros s; apply Forall_rev).
    assert (R2 : forall s, ~ ends_ws s -> ~ starts_ws (rev s)).
    { intros s Hs (c & r & Ec & Hc). apply Hs. exists (rev r), c. split; [|easy].
      rewrite <- (rev_involutive s), Ec. easy. }
    apply starts_ws_unique; auto. rewrite <- !rev_app_distr. now rewrite E. }
  destruct G as [G1 G2]. apply (f_equal (@rev N)) in G1. apply (f_equal (@rev N)) in G2.
  rewrite !rev_involutive in *. easy.
Qed.

Lemma Assign_fun d key sep v arrow key' sep' v' arrow' :
  Assign d key sep v arrow -> Assign d key' sep' v' arrow' ->
  key = key' /\ sep = sep' /\ v = v' /\ arrow = arrow'.
Proof.
  intros H H'. destruct H as [k s1 s2 v Hk Hw W1 W2 Hv|k s1 s2 v Hk Hw W1 W2 Hv Hx];
    inversion H' as [k' s1' s2' w Hk' Hw' W1' W2' Hv' E|k' s1' s2' w Hk' Hw' W1' W2' Hv' Hx' E]; subst;
    rewrite <- !app_assoc in E; cbn [app] in E; rewrite !app_assoc in E;
    apply first_eq_unique in E as [E1 E2];
    try (rewrite in_app_iff; intros [?|?]; [tauto | eapply ws_no_eq; [|eassumption]; easy]).
  - injection E2 as E2. apply ends_ws_unique in E1 as [-> ->]; try easy.
    apply starts_ws_unique in E2 as [-> ->]; easy.
  - exfalso. destruct s2' as [|x s2'].
    + cbn in E2. eapply (Hx' eq_refl). (exact E2 || (symmetry; exact E2)).
    + cbn in E2. inversion W2' as [|? ? X]; subst. injection E2 as E2 _. (rewrite <- E2 in X; easy) || (rewrite E2 in X; easy).
  - exfalso. destruct s2 as [|x s2].
    + cbn in E2. eapply (Hx eq_refl). (exact E2 || (symmetry; exact E2)).
    + cbn in E2. inversion W2 as [|? ? X]; subst. injection E2 as E2 _. (rewrite <- E2 in X; easy) || (rewrite E2 in X; easy).
  - apply ends_ws_unique in E1 as [-> ->]; try easy.
    apply starts_ws_unique in E2 as [-> ->]; easy.
Qed.

(* ---- headers ---- *)

Ltac lists := repeat (progress (cbn [app] || rewrite <- app_assoc)); reflexivity.


Lemma Header_last d b n t : Header d b n t -> exists a, d = a ++ [if nonempty t then 41 else 93].
Proof.
  destruct 1; cbn.
  - exists (bol ++ [91] ++ name). lists.
  - exists (bol ++ [91] ++ name ++ [93] ++ gap ++ [40; t]). lists.
Qed.

Lemma Header_match d b n t : Header d b n t ->
  match t with
  | [] => re_match re_ctx d = Some [b; [91]; n; [93]]
  | _ => exists gap, re_match re_tmpl d = Some [b; [91]; n; [93]; gap; [40]; t; [41]]
  end.
Proof. destruct 1; [now apply ctx_complete | exists gap; now apply tmpl_complete]. Qed.

Lemma Header_fun d b n t b' n' t' : Header d b n t -> Header d b' n' t' -> b = b' /\ n = n' /\ t = t'.
Proof.
  intros H H'. pose proof (Header_last _ _ _ _ H) as [a E]. pose proof (Header_last _ _ _ _ H') as [a' E'].
  rewrite E in E'. apply app_inj_tail in E' as [_ E'].
  apply Header_match in H. apply Header_match in H'.
  destruct t, t'; cbn in E'; try easy.
  - rewrite H in H'. now injection H' as -> ->.
  - destruct H as [g H]. destruct H' as [g' H']. rewrite H in H'. now injection H' as -> -> _ -> ->.
Qed.

Lemma header_some_tmpl d g : no_nl d -> re_match re_tmpl d = Some g ->
  exists t, Header d (nth_seg 0 g) (nth_seg 2 g) [t] /\ nth_seg 6 g = [t].
Proof.
  intros N1 H. apply tmpl_sound in H as (bol & name & gap & t & -> & -> & ?); [|easy]. exists t.
  split; [|easy]. cbn [nth_seg nth]. now apply Hd_tmpl.
Qed.
Lemma header_some_ctx d g : no_nl d -> re_match re_ctx d = Some g -> Header d (nth_seg 0 g) (nth_seg 2 g) [].
Proof.
  intros N1 H. apply ctx_sound in H as (bol & name & -> & -> & ?); [|easy].
  cbn [nth_seg nth]. now apply Hd_plain.
Qed.
Lemma header_none d b n t : re_match re_tmpl d = None -> re_match re_ctx d = None -> ~ Header d b n t.
Proof.
  intros H1 H2 H. destruct H.
  - rewrite ctx_complete in H2; easy.
  - rewrite tmpl_complete in H1; easy.
Qed.

Lemma Assign_obj d key sep v : no_nl d -> Assign d key sep v true ->
  exists g, re_match re_obj d = Some g /\ nth_seg 0 g = key /\ nth_seg 5 g = v
    /\ nth_seg 1 g ++ nth_seg 2 g ++ nth_seg 3 g ++ nth_seg 4 g = sep.
Proof.
  intros N1 H. inversion H; subst. eexists. split.
  - rewrite <- !app_assoc in *. now apply obj_complete.
  - easy.
Qed.
Lemma Assign_var d key sep v : no_nl d -> Assign d key sep v false ->
  re_match re_obj d = None /\
  exists g, re_match re_var d = Some g /\ nth_seg 0 g = key /\ nth_seg 4 g = v
    /\ nth_seg 1 g ++ nth_seg 2 g ++ nth_seg 3 g = sep.
Proof.
  intros N1 H. split.
  - destruct (re_match re_obj d) as [g|] eqn:E; [|easy]. exfalso.
    apply obj_sound in E as (k' & s1 & s2 & v' & -> & E & Hk & H1 & H2); [|easy].
    assert (A : exists key sep v, Assign d key sep v true).
    { subst d. destruct (rstrip_ws k') as (k & s0 & -> & H0 & Hw).
      destruct (lstrip_ws v') as (s3 & w & -> & H3 & Hv).
      exists k, ((s0 ++ s1) ++ [61; 62] ++ (s2 ++ s3)), w.
      replace ((k ++ s0) ++ s1 ++ [61; 62] ++ s2 ++ s3 ++ w)
        with (k ++ ((s0 ++ s1) ++ [61; 62] ++ s2 ++ s3) ++ w) by lists.
      constructor; try easy; try (apply Forall_app; split; easy).
      intros X; apply Hk; apply in_or_app; now left. }
    destruct A as (? & ? & ? & A). now destruct (Assign_fun _ _ _ _ _ _ _ _ _ H A) as (_ & _ & _ & ?).
  - inversion H; subst. eexists. split.
    + rewrite <- !app_assoc in *. now apply var_complete.
    + easy.
Qed.
Lemma no_eq_none d : ~ In 61 d -> re_match re_obj d = None /\ re_match re_var d = None.
Proof.
  intros H. split.
  - destruct (re_match re_obj d) as [g|] eqn:E; [|easy]. exfalso. apply H.
    apply re_sound in E as (F & t & -> & _). unfold re_obj in F. inv_segs.
    repeat match goal with X : is_chr _ _ = true |- _ => apply is_chr_eq in X; subst end.
    cbn [List.concat]. rewrite !in_app_iff. cbn [In]. tauto.
  - destruct (re_match re_var d) as [g|] eqn:E; [|easy]. exfalso. apply H.
    apply re_sound in E as (F & t & -> & _). unfold re_var in F. inv_segs.
    repeat match goal with X : is_chr _ _ = true |- _ => apply is_chr_eq in X; subst end.
    cbn [List.concat]. rewrite !in_app_iff. cbn [In]. tauto.
Qed.

Lemma ws_no_header d b n t : ws d -> ~ Header d b n t.
Proof.
  intros H X. apply Header_last in X as [a E]. unfold ws in H. rewrite E in H. apply Forall_app in H as [_ H].
  inversion H; subst. now destruct t.
Qed.
Lemma ws_or d : ws d \/ exists sp c r, d = sp ++ c :: r /\ ws sp /\ isspace c = false.
Proof.
  destruct (lstrip_ws d) as (sp & v & E & H & N1). destruct v as [|c v].
  - left. now rewrite E, app_nil_r.
  - right. exists sp, c, v. repeat split; try easy. apply ws_head_disj in N1. easy.
Qed.
Lemma ws_stop sp c r : ws sp -> isspace c = false -> lstrip_p isspace (sp ++ c :: r) = c :: r.
Proof.
  intros H Hc. induction H as [|x sp Hx H IH]; cbn; [now rewrite Hc|]. now rewrite Hx.
Qed.

Lemma LineKind_exists d : no_nl d -> exists k, LineKind d k.
Proof.
  intros N1.
  destruct (re_match re_tmpl d) as [g|] eqn:E1.
  { destruct (header_some_tmpl _ _ N1 E1) as (t & H & _). eexists; eapply LK_header; exact H. }
  destruct (re_match re_ctx d) as [g|] eqn:E2.
  { eexists; eapply LK_header, header_some_ctx; eassumption. }
  assert (NH : forall b n t, ~ Header d b n t) by (intros; now apply header_none).
  destruct (in_dec N.eq_dec 61 d) as [I|I].
  { destruct (Assign_exists d I) as (k & s & v & a & A). eexists; eapply LK_assign; [exact NH | exact A]. }
  destruct (ws_or d) as [W|(sp & c & r & E & W & Hc)].
  { eexists; apply LK_blank; exact W. }
  destruct (N.eq_dec c 35) as [->|Hn].
  - exists KDirective. now apply (LK_directive d sp r).
  - exists KBad. now apply (LK_bad d sp c r).
Qed.

Lemma ws_stop_unique sp c r sp' c' r' : sp ++ c :: r = sp' ++ c' :: r' -> ws sp -> ws sp' ->
  isspace c = false -> isspace c' = false -> c = c' /\ sp = sp' /\ r = r'.
Proof.
  intros E W W' H H'. apply starts_ws_unique in E as [-> E]; try easy.
  - now injection E as -> ->.
  - intros (x & y & [= <- <-] & Hx). congruence.
  - intros (x & y & [= <- <-] & Hx). congruence.
Qed.
Lemma ws_not_stop sp c r : isspace c = false -> ~ ws (sp ++ c :: r).
Proof. intros H W. apply Forall_app in W as [_ W]. inversion W; congruence. Qed.

Lemma LineKind_fun d k k' : LineKind d k -> LineKind d k' -> k = k'.
Proof.
  intros H H'.
  destruct H as [b n t H|k s v a NH A|W|sp r E W NH NI|sp c r E W Hc Hn NH NI];
  destruct H' as [b' n' t' H'|k' s' v' a' NH' A'|W'|sp' r' E' W' NH' NI'|sp' c' r' E' W' Hc' Hn' NH' NI'];
    try reflexivity; try (exfalso; now eapply NH; eassumption); try (exfalso; now eapply NH'; eassumption);
    try (exfalso; now eapply ws_no_header; eassumption);
    try (exfalso; now eapply NI; eapply Assign_in; eassumption);
    try (exfalso; now eapply NI'; eapply Assign_in; eassumption);
    try (exfalso; subst d; now eapply ws_not_stop; [|eassumption]).
  - now destruct (Header_fun _ _ _ _ _ _ _ H H') as (-> & -> & ->).
  - destruct (Assign_fun _ _ _ _ _ _ _ _ _ A A') as (-> & -> & -> & ->). easy.
  - exfalso. apply Assign_in in A. now apply (ws_no_eq d).
  - exfalso. apply Assign_in in A'. now apply (ws_no_eq d).
  - exfalso. subst d. apply ws_stop_unique in E' as (E' & _); [|easy..]. congruence.
  - exfalso. subst d. apply ws_stop_unique in E' as (E' & _); [|easy..]. congruence.
Qed.

(* ---- directives ---- *)

Lemma lstrip_p_unique p l r : forallb p l = true -> match r with [] => True | c :: _ => p c = false end ->
  lstrip_p p (l ++ r) = r.
Proof.
  induction l as [|c l IH]; cbn; intros F H; [|apply andb_prop in F as [-> F]; now apply IH].
  destruct r as [|c r]; cbn; [easy|]. now rewrite H.
Qed.

Definition le32 (c : N) := c <=? 32.

Lemma kw_cases (text : str) k r : text = kw_text k ++ r ->
  (if startswith (L "#include") text then (firstn 8 text, Some (skipn 8 text))
    else if startswith (L "#tryinclude") text then (firstn 11 text, Some (skipn 11 text))
    else if startswith (L "#exec") text then (firstn 5 text, Some (skipn 5 text))
    else ([], None)) = (kw_text k, Some r).
Proof. intros ->. destruct k; reflexivity. Qed.

Lemma kw_some (text : str) cmd r :
  (if startswith (L "#include") text then (firstn 8 text, Some (skipn 8 text))
    else if startswith (L "#tryinclude") text then (firstn 11 text, Some (skipn 11 text))
    else if startswith (L "#exec") text then (firstn 5 text, Some (skipn 5 text))
    else ([], None)) = (cmd, Some r) -> exists k, text = kw_text k ++ r /\ cmd = kw_text k.
Proof.
  destruct (startswith (L "#include") text) eqn:E1.
  { intros [= <- <-]. apply startswith_app in E1 as [r ->]. now exists KInclude. }
  destruct (startswith (L "#tryinclude") text) eqn:E2.
  { intros [= <- <-]. apply startswith_app in E2 as [r ->]. now exists KTryinclude. }
  destruct (startswith (L "#exec") text) eqn:E3.
  { intros [= <- <-]. apply startswith_app in E3 as [r ->]. now exists KExec. }
  easy.
Qed.

Lemma kw_fun k r k' r' : kw_text k ++ r = kw_text k' ++ r' -> k = k' /\ r = r'.
Proof. intros H. pose proof (kw_cases _ k r eq_refl) as A. rewrite (kw_cases _ k' r' H) in A.
  injection A as A ->. split; [|easy]. destruct k, k'; try easy; discriminate. Qed.

Lemma DirText_fun text k gap arg k' gap' arg' :
  DirText text k gap arg -> DirText text k' gap' arg' -> k = k' /\ gap = gap' /\ arg = arg'.
Proof.
  intros (E & _ & F & c & r & Ea & Hc) (E' & _ & F' & c' & r' & Ea' & Hc'). rewrite E in E'.
  apply kw_fun in E' as [-> E']. split; [easy|].
  assert (A : forall g, Forall (fun c => c <= 32) g -> forallb le32 g = true).
  { intros g G. apply forallb_forall. intros x Hx. rewrite Forall_forall in G. apply N.leb_le. now apply G. }
  assert (lstrip_p le32 (gap ++ arg) = arg).
  { apply lstrip_p_unique; [now apply A|]. subst arg. unfold le32. lia. }
  assert (lstrip_p le32 (gap' ++ arg') = arg').
  { apply lstrip_p_unique; [now apply A|]. subst arg'. unfold le32. lia. }
  assert (arg = arg') by congruence. split; [|easy].
  match goal with X : arg = arg' |- _ => rewrite X in E' end. now apply app_inv_tail in E'.
Qed.

Definition unq (a : str) : str * bool :=
  match a, last_opt a with
  | x :: _, Some z =>
    if (x =? 34) && (z =? 34) then (drop_last 1 (skipn 1 a), false)
    else if (x =? 60) && (z =? 62) then (drop_last 1 (skipn 1 a), false)
    else if (x =? 60) || (x =? 34) || (z =? 34) || (z =? 62) then (a, true)
    else (a, false)
  | _, _ => (a, false)
  end.

Lemma drop_last_app1 (t : str) x : drop_last 1 (t ++ [x]) = t.
Proof. unfold drop_last. rewrite app_length. cbn. replace (length t + 1 - 1)%nat with (length t) by lia.
  rewrite firstn_app, Nat.sub_diag, firstn_all. now rewrite app_nil_r. Qed.

Lemma Unquoted_unq a t b : Unquoted a t b <-> unq a = (t, b).
Proof.
  split.
  - destruct 1 as [t| |t|a H1 H2 H3 H4|a H1 H2 H3 H4].
    + unfold unq. change (34 :: t ++ [34]) with ((34 :: t) ++ [34]). rewrite last_opt_app. cbn [app].
      change ((34 =? 34) && (34 =? 34)) with true. cbn [skipn]. now rewrite drop_last_app1.
    + reflexivity.
    + unfold unq. change (60 :: t ++ [62]) with ((60 :: t) ++ [62]). rewrite last_opt_app. cbn [app].
      change ((60 =? 34) && (62 =? 34)) with false. change ((60 =? 60) && (62 =? 62)) with true.
      cbn [skipn]. now rewrite drop_last_app1.
    + unfold unq. destruct a as [|x a]; [easy|]. destruct (last_opt (x :: a)) as [z|] eqn:E; [|easy].
      apply last_opt_some in E as [u E].
      destruct (N.eqb_spec x 34) as [->|N1]; [now specialize (H1 a)|].
      destruct (N.eqb_spec x 60) as [->|N2]; [now specialize (H2 a)|].
      destruct (N.eqb_spec z 34) as [->|N3]; [now specialize (H3 u)|].
      destruct (N.eqb_spec z 62) as [->|N4]; [now specialize (H4 u)|]. easy.
    + unfold unq. destruct a as [|x a].
      { destruct H4 as [[? X]|[[? X]|[[u X]|[u X]]]]; try easy; now destruct u. }
      destruct (last_opt (x :: a)) as [z|] eqn:E; [|now apply last_opt_none in E].
      apply last_opt_some in E as [u E].
      assert (B : (x =? 60) || (x =? 34) || (z =? 34) || (z =? 62) = true).
      { destruct H4 as [[v X]|[[v X]|[[v X]|[v X]]]].
        1, 2: injection X as -> _; cbn; now rewrite ?orb_true_r.
        all: rewrite E in X; apply app_inj_tail in X as [_ ->]; now rewrite ?orb_true_r. }
      rewrite B.
      destruct ((x =? 34) && (z =? 34)) eqn:B1.
      { exfalso. apply andb_prop in B1 as [B1 B2]. apply N.eqb_eq in B1, B2. subst.
        destruct u as [|y u]; cbn in E; [now apply H2|]. inversion E; subst. now apply (H1 u). }
      destruct ((x =? 60) && (z =? 62)) eqn:B2; [|easy].
      exfalso. apply andb_prop in B2 as [B2 B3]. apply N.eqb_eq in B2, B3. subst.
      destruct u as [|y u]; cbn in E; inversion E; subst. now apply (H3 u).
  - unfold unq. intros H. destruct a as [|x a].
    { injection H as <- <-. apply Uq_plain; try easy; intros t; now destruct t. }
    destruct (last_opt (x :: a)) as [z|] eqn:E; [|now apply last_opt_none in E].
    apply last_opt_some in E as [u E].
    destruct ((x =? 34) && (z =? 34)) eqn:B1.
    { apply andb_prop in B1 as [B1 B2]. apply N.eqb_eq in B1, B2. subst. cbn [skipn] in H.
      destruct u as [|y u]; cbn in E; inversion E; subst.
      - cbn in H. injection H as <- <-. constructor.
      - rewrite drop_last_app1 in H. injection H as <- <-. constructor. }
    destruct ((x =? 60) && (z =? 62)) eqn:B2.
    { apply andb_prop in B2 as [B2 B3]. apply N.eqb_eq in B2, B3. subst. cbn [skipn] in H.
      destruct u as [|y u]; cbn in E; inversion E; subst.
      rewrite drop_last_app1 in H. injection H as <- <-. constructor. }
    assert (X1 : forall v, x :: a <> 34 :: v ++ [34]).
    { intros v X. rewrite X in E. change (34 :: v ++ [34]) with ((34 :: v) ++ [34]) in E.
      apply app_inj_tail in E as [_ <-]. injection X as -> _. easy. }
    assert (X2 : forall v, x :: a <> 60 :: v ++ [62]).
    { intros v X. rewrite X in E. change (60 :: v ++ [62]) with ((60 :: v) ++ [62]) in E.
      apply app_inj_tail in E as [_ <-]. injection X as -> _. easy. }
    assert (X3 : x :: a <> [34]).
    { intros X. rewrite X in E. change [34] with ([] ++ [34]) in E. apply app_inj_tail in E as [_ <-].
      injection X as -> _. easy. }
    destruct ((x =? 60) || (x =? 34) || (z =? 34) || (z =? 62)) eqn:B; injection H as <- <-.
    + apply Uq_bad; try easy.
      destruct (N.eqb_spec x 60) as [->|]; [right; left; now exists a|].
      destruct (N.eqb_spec x 34) as [->|]; [left; now exists a|].
      destruct (N.eqb_spec z 34) as [->|]; [right; right; left; now exists u|].
      destruct (N.eqb_spec z 62) as [->|]; [right; right; right; now exists u|]. easy.
    + repeat (apply orb_false_elim in B as [B ?]).
      repeat match goal with X : (_ =? _) = false |- _ => apply N.eqb_neq in X end.
      apply Uq_plain; intros v X.
      1, 2: injection X as X _; congruence.
      all: rewrite E in X; apply app_inj_tail in X as [_ X]; congruence.
Qed.

Lemma Unquoted_fun a t b t' b' : Unquoted a t b -> Unquoted a t' b' -> t = t' /\ b = b'.
Proof. rewrite !Unquoted_unq. intros H H'. rewrite H in H'. now injection H' as -> ->. Qed.

Lemma DirResult_fun w text ms a ms' a' : DirResult w text ms a -> DirResult w text ms' a' -> ms = ms' /\ a = a'.
Proof.
  intros H H'. destruct H as [k gap arg t bad c D U C|ND]; inversion H' as [k' gap' arg' t' bad' c' D' U' C' E1 E2|ND' E1 E2]; subst.
  - destruct (DirText_fun _ _ _ _ _ _ _ D D') as (-> & -> & ->).
    destruct (Unquoted_fun _ _ _ _ _ U U') as [-> ->].
    assert (c = c') by (destruct c, c'; try easy; exfalso; destruct C as [C1 C2], C' as [C3 C4]; first [discriminate (C4 (C1 eq_refl)) | discriminate (C2 (C3 eq_refl))]).
    now subst.
  - exfalso. now eapply ND'; exact D.
  - exfalso. now eapply ND; exact D'.
  - easy.
Qed.

Lemma gap_dec gap : negb (forallb (N.eqb 32) gap) && negb (forallb (N.eqb 9) gap) = true <-> ~ gap_ok gap.
Proof.
  unfold gap_ok.
  assert (A : forall x, forallb (N.eqb x) gap = true <-> Forall (fun c => c = x) gap).
  { intros x. rewrite forallb_forall, Forall_forall. split; intros H y Hy; specialize (H y Hy).
    - apply N.eqb_eq in H. now symmetry.
    - subst. apply N.eqb_refl. }
  rewrite andb_true_iff, !negb_true_iff, <- !A.
  destruct (forallb (N.eqb 32) gap), (forallb (N.eqb 9) gap); intuition congruence.
Qed.

#[local] Arguments firstn : simpl never.

Lemma preprocessor_spec w sp text : ws sp -> ~ starts_ws text ->
  exists ms a, DirResult w text ms a
    /\ preprocessor w (sp ++ text) = (some_if (nonempty sp) (msg0 W_WSH_BOL w) ++ ms, a).
Proof.
  intros W NS. unfold preprocessor.
  rewrite lstrip_p_unique; [|now apply forallb_ws|now apply ws_head_disj].
  assert (B : (if (length text <? length (sp ++ text))%nat then [msg0 W_WSH_BOL w] else [])
              = some_if (nonempty sp) (msg0 W_WSH_BOL w)).
  { rewrite app_length. destruct sp; cbn [nonempty some_if length].
    - replace (_ <? _)%nat with false; [easy|]. symmetry. apply Nat.ltb_ge. lia.
    - replace (_ <? _)%nat with true; [easy|]. symmetry. apply Nat.ltb_lt. lia. }
  rewrite B. clear B. cbv zeta.
  destruct (if startswith (L "#include") text then (firstn 8 text, Some (skipn 8 text))
    else if startswith (L "#tryinclude") text then (firstn 11 text, Some (skipn 11 text))
    else if startswith (L "#exec") text then (firstn 5 text, Some (skipn 5 text))
    else ([], None)) as [cmd rest] eqn:E.
  assert (BAD : (forall k gap arg, ~ DirText text k gap arg) ->
    exists ms a, DirResult w text ms a /\
     (some_if (nonempty sp) (msg0 W_WSH_BOL w) ++ [bad_line w text], PPnone)
     = (some_if (nonempty sp) (msg0 W_WSH_BOL w) ++ ms, a)).
  { intros ND. eexists _, _. split; [apply DR_bad, ND|]. reflexivity. }
  destruct rest as [rest|].
  2:{ apply BAD. intros k gap arg (T & _). rewrite (kw_cases text k _ T) in E. easy. }
  apply kw_some in E as (k & T & Ek).
  destruct rest as [|c rest].
  { apply BAD. intros k' gap arg (T' & NE & _). rewrite T in T'. apply kw_fun in T' as [_ T'].
    destruct gap; [now apply NE | easy]. }
  destruct (32 <? c) eqn:E32.
  { apply BAD. intros k' gap arg (T' & NE & F & _). rewrite T in T'. apply kw_fun in T' as [_ T'].
    destruct gap; [now apply NE|]. cbn in T'. injection T' as -> _. inversion F; subst. lia. }
  destruct (lstrip_p_split (fun c => c <=? 32) (c :: rest)) as (gap & Eg & Fg & Hg).
  set (arg := lstrip_p (fun c => c <=? 32) (c :: rest)) in *.
  assert (Fg' : Forall (fun c => c <= 32) gap).
  { apply Forall_forall. intros x Hx. rewrite forallb_forall in Fg. apply N.leb_le. now apply (Fg x). }
  destruct arg as [|a arg'] eqn:Ea.
  { apply BAD. intros k' gap' arg' (T' & NE & F & x & r & -> & Hx). rewrite T in T'. apply kw_fun in T' as [_ T'].
    rewrite app_nil_r in Eg. rewrite T' in Eg. rewrite <- Eg in Fg'. apply Forall_app in Fg' as [_ Fg'].
    inversion Fg'; subst. lia. }
  assert (D : DirText text k gap (a :: arg')).
  { split; [now rewrite <- Eg|]. split; [|split; [easy|]].
    - intros ->. cbn in Eg. injection Eg as -> _. lia.
    - exists a, arg'. split; [easy|]. lia. }
  assert (G : firstn (length (c :: rest) - length (a :: arg')) (c :: rest) = gap).
  { rewrite Eg, app_length. replace (length gap + length (a :: arg') - length (a :: arg'))%nat with (length gap) by lia.
    rewrite firstn_app, Nat.sub_diag, firstn_all. cbn. apply app_nil_r. }
  rewrite G. rewrite <- Ea.
  destruct (unq arg) as [t bad] eqn:U.
  assert (U' := U). unfold unq in U'. rewrite Ea in U' at 1.
  destruct (last_opt arg) as [z|] eqn:Ez; [|apply last_opt_none in Ez; now rewrite Ez in Ea].
  rewrite <- ?Ea, ?Ez in U'. cbv iota in U'.
  match goal with |- context [(if (a =? 34) && (z =? 34) then ?p else ?q)] =>
         assert (P : (if (a =? 34) && (z =? 34) then p else q) = (some_if bad (msg0 W_PP_QUOTE_BAD w), t)) end.
  { destruct ((a =? 34) && (z =? 34)); [now injection U' as <- <-|].
    destruct ((a =? 60) && (z =? 62)); [now injection U' as <- <-|].
    destruct ((a =? 60) || (a =? 34) || (z =? 34) || (z =? 62)); now injection U' as <- <-. }
  rewrite P; clear P U'; apply Unquoted_unq in U; rewrite Ea in U.
  match goal with |- context [negb ?x && negb ?y] => destruct (negb x && negb y) eqn:EC end.
  - pose proof (DR_ok w text k gap (a :: arg') t bad true D U) as R.
    rewrite <- gap_dec in R. rewrite EC in R. specialize (R ltac:(easy)).
    eexists _, _. split; [exact R|]. subst cmd. destruct k; cbn [kw_text]; lists || (rewrite ?app_nil_r; reflexivity).
  - pose proof (DR_ok w text k gap (a :: arg') t bad false D U) as R.
    rewrite <- gap_dec in R. rewrite EC in R. specialize (R ltac:(easy)).
    eexists _, _. split; [exact R|]. subst cmd. destruct k; cbn [kw_text]; lists || (rewrite ?app_nil_r; reflexivity).
Qed.

(* ---- the whole line ---- *)

Definition has_cm (comment : str) : bool := match comment with [] => false | _ => true end.

Lemma VarName_exists key : exists bl v, VarName key bl v
  /\ lstrip_p isblank key = v /\ (nonempty bl = match key with c :: _ => isblank c | [] => false end).
Proof.
  destruct (lstrip_p_split isblank key) as (l & E & F & H). exists l, (lstrip_p isblank key).
  assert (IB : forall c, isblank c = true <-> c = 32 \/ c = 9) by (intros c; unfold isblank; lia).
  split; [|split; [easy|]].
  - split; [easy|]. split.
    + apply Forall_forall. intros x Hx. rewrite forallb_forall in F. apply IB. now apply F.
    + intros c r Ec. rewrite Ec in H.
      split; intros ->; [assert (isblank 32 = true) | assert (isblank 9 = true)]; try easy; congruence.
  - destruct l as [|x l]; cbn in *.
    + rewrite <- E in H. destruct key; easy.
    + rewrite E. apply andb_prop in F as [-> _]. easy.
Qed.

Lemma VarName_fun key bl v bl' v' : VarName key bl v -> VarName key bl' v' -> bl = bl' /\ v = v'.
Proof.
  intros (E & F & H) (E' & F' & H'). rewrite E in E'. clear E.
  revert bl' E' F'. induction F as [|x bl Hx F IH]; intros bl' E' F'.
  - destruct F' as [|y bl' Hy F']; [easy|]. cbn in E'. specialize (H _ _ E'). lia.
  - destruct F' as [|y bl' Hy F']; cbn in E'.
    + specialize (H' _ _ (eq_sym E')). lia.
    + injection E' as <- E'. destruct (IH _ E' F') as [-> ->]. easy.
Qed.

Lemma LineResult_fun w d cm k ms p ms' p' :
  LineResult w d cm k ms p -> LineResult w d cm k ms' p' -> ms = ms' /\ p = p'.
Proof.
  intros H H'. destruct H as [b n t|key sep v a bl x V| |sp text ms a E W NS D| ];
    inversion H' as [b' n' t' E1 E2|key' sep' v' a' bl' x' V' E1 E2 E3| |sp' text' ms2 a' E' W' NS' D' E1 E2 | ]; subst; try easy.
  - destruct (VarName_fun _ _ _ _ _ V V') as [-> ->]. easy.
  - apply starts_ws_unique in E' as [-> ->]; try easy.
    destruct (DirResult_fun _ _ _ _ _ _ D D') as [-> ->]. easy.
Qed.

Lemma strip_sep sp1 sp2 (core : str) : ws sp1 -> ws sp2 -> ~ starts_ws core -> ~ ends_ws core -> core <> [] ->
  strip_p isspace (sp1 ++ core ++ sp2) = core.
Proof.
  intros W1 W2 N1 N2 NE. unfold strip_p.
  rewrite lstrip_p_unique; [|now apply forallb_ws|].
  - apply rstrip_p_unique with sp2; [easy | now apply forallb_ws|].
    destruct (last_opt core) as [c|] eqn:E; [|easy]. apply last_opt_some in E as [a E].
    destruct (isspace c) eqn:Ec; [|easy]. exfalso. apply N2. now exists a, c.
  - apply ws_head_disj. intros (c & r & E & Hc). destruct core as [|x core]; [easy|].
    injection E as -> _. apply N1. now exists c, core.
Qed.

Lemma mk_varset_spec w key sep v a d cm : Assign d key sep v a ->
  exists bl x, VarName key bl x /\
    mk_varset key v sep cm w = (sep_msgs w sep a ++ indent_msgs w bl x, Varset x v (Some a) cm w).
Proof.
  intros A. destruct (VarName_exists key) as (bl & x & V & E & NB). exists bl, x. split; [easy|].
  unfold mk_varset.
  assert (S1 : strip_p isspace sep = if a then [61; 62] else [61]).
  { destruct A; apply strip_sep; try easy; intros H'.
    - destruct H' as (c & r & [= <- <-] & Hc). easy.
    - destruct H' as (u & c & Ec & Hc). destruct u as [|? [|? u]]; cbn in Ec; inversion Ec; subst; try easy. now destruct u.
    - destruct H' as (c & r & [= <- <-] & Hc). easy.
    - destruct H' as (u & c & Ec & Hc). destruct u as [|? u]; cbn in Ec; inversion Ec; subst; try easy. now destruct u. }
  rewrite S1. unfold sep_msgs, indent_msgs. rewrite NB.
  assert (P : (match key with
    | c :: _ =>
      if isblank c then
        ((if str_eqb (lstrip_p isblank key) (L "same") then [] else [msg0 W_WSH_BOL w]), lstrip_p isblank key)
      else ([], key)
    | [] => ([], key)
    end) = (some_if (match key with c :: _ => isblank c | [] => false end && negb (str_eqb x (L "same")))
               (msg0 W_WSH_BOL w), x)).
  { destruct V as (Ek & F & Hv). destruct key as [|c key].
    - cbn. destruct bl, x; easy.
    - rewrite E. destruct (isblank c) eqn:B; cbn [andb].
      + destruct (str_eqb x (L "same")); easy.
      + cbn in E. rewrite B in E. now subst. }
  destruct a.
  - change (str_eqb [61; 62] (L "=>")) with true. cbv iota.
    destruct (str_eqb sep (L " => ")); cbv zeta iota beta; rewrite P; reflexivity.
  - change (str_eqb [61] (L "=>")) with false. change (str_eqb [61] (L "=")) with true. cbv iota.
    destruct (str_eqb sep (L "=")); cbv zeta iota beta; rewrite P; reflexivity.
Qed.

Lemma parse_line_spec w d comment : no_nl d ->
  exists k, LineKind d k /\
    LineResult w d (has_cm comment) k (fst (parse_line w d comment)) (snd (parse_line w d comment)).
Proof.
  intros N1. destruct (LineKind_exists d N1) as [k K]. exists k. split; [easy|].
  unfold parse_line. fold (has_cm comment). cbv zeta. set (cm := has_cm comment). unfold classify.
  destruct (re_match re_tmpl d) as [g|] eqn:E1.
  { destruct (header_some_tmpl _ _ N1 E1) as (t & H & Et).
    rewrite (LineKind_fun _ _ _ K (LK_header _ _ _ _ H)). rewrite Et. unfold mk_ctx. cbn [fst snd]. destruct (nth_seg 0 g); apply LR_header. }
  destruct (re_match re_ctx d) as [g|] eqn:E2.
  { pose proof (header_some_ctx _ _ N1 E2) as H.
    rewrite (LineKind_fun _ _ _ K (LK_header _ _ _ _ H)).
    unfold mk_ctx. cbn [fst snd]. destruct (nth_seg 0 g); apply LR_header. }
  assert (NH : forall b n t, ~ Header d b n t) by (intros; now apply header_none).
  destruct (in_dec N.eq_dec 61 d) as [I|I].
  { destruct (Assign_exists d I) as (key & sep & v & a & A).
    rewrite (LineKind_fun _ _ _ K (LK_assign _ _ _ _ _ NH A)).
    destruct (mk_varset_spec w key sep v a d cm A) as (bl & x & V & M).
    destruct a.
    - destruct (Assign_obj d key sep v N1 A) as (g & R & G0 & G5 & Gs). rewrite R, G0, G5, Gs, M. now constructor.
    - destruct (Assign_var d key sep v N1 A) as (R0 & g & R & G0 & G5 & Gs). rewrite R0, R, G0, G5, Gs, M. now constructor. }
  destruct (no_eq_none d I) as [-> ->].
  destruct (ws_or d) as [W|(sp & c & r & E & W & Hc)].
  { rewrite (LineKind_fun _ _ _ K (LK_blank _ W)). rewrite void_complete by easy. constructor. }
  destruct (re_match re_void d) as [g|] eqn:E3.
  { apply void_sound in E3; [|easy]. exfalso. subst d. now apply (ws_not_stop sp c r). }
  rewrite E, ws_stop by easy.
  destruct (N.eq_dec c 35) as [->|Hn].
  - assert (K' : LineKind d KDirective) by now apply (LK_directive d sp r).
    rewrite (LineKind_fun _ _ _ K K').
    destruct (preprocessor_spec w sp (35 :: r)) as (ms & a & D & P).
    { easy. } { now intros (x & y & [= <- <-] & Hx). }
    rewrite P. cbn [fst snd]. apply (LR_directive w (sp ++ 35 :: r) cm sp (35 :: r)); try easy.
    now intros (x & y & [= <- <-] & Hx).
  - assert (K' : LineKind d KBad) by now apply (LK_bad d sp c r).
    rewrite (LineKind_fun _ _ _ K K').
    replace (match c with 35 => _ | _ => _ end) with ([bad_line w (sp ++ c :: r)], PAct PPnone); [constructor|].
    destruct c as [|c]; [easy|]. do 6 (destruct c as [c|c|]; try easy).
Qed.
