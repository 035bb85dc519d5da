(* The values made by joining: [Canon], for C26 and C49. *)
From Verif Require Import Base PyStr Defines Var VarFun AppM Spec_Var Spec_App Var_proofs VarFun_proofs
  Round_proofs App_proofs.

Fixpoint noadj (m : list tok) : Prop :=
  match m with
  | x :: ((y :: _) as r) => ~ (is_str x = true /\ is_str y = true) /\ noadj r
  | _ => True
  end.
Lemma noadj_iff m : noadj m <-> forall a x y b, m <> a ++ TS x :: TS y :: b.
Proof.
  split.
  - intros H a x y b ->. induction a as [|t a IH].
    + destruct H as [H _]. now apply H.
    + apply IH. cbn [app] in H. destruct (a ++ TS x :: TS y :: b) eqn:E; [easy|]. now destruct H.
  - induction m as [|t m IH]; intros H; [easy|]. destruct m as [|u m]; [easy|]. split.
    + intros [H1 H2]. destruct t; try easy. destruct u; try easy. now apply (H [] s s0 m).
    + apply IH. intros a x y b E. apply (H (t :: a) x y b). cbn. now rewrite E.
Qed.

Lemma Parts_iff m l : Parts m l <-> Forall Part m /\ noadj m /\ flat_map elems m = l.
Proof.
  unfold Parts. rewrite noadj_iff. split; intros (H1 & H2 & H3); (split; [easy|]); (split; [easy|]).
  - destruct H3 as (ls & H3 & <-). induction H3 as [|x y m ls Hx Hm IH]; [easy|]. cbn. rewrite (Flat_fun _ _ Hx).
    f_equal. apply IH; [now inversion H1|]. intros a u v b ->. now apply (H2 (x :: a) u v b).
  - exists (map elems m). split; [|rewrite <- H3; now rewrite flat_map_concat_map].
    clear. induction m; constructor; [apply Flat_elems|easy].
Qed.

Definition tok_of (m : list tok) : tok := match m with [] => TS [] | [x] => x | _ => TList m end.
Lemma Canon_iff t l : Canon t l <-> exists m, Parts m l /\ t = tok_of m.
Proof. reflexivity. Qed.

Lemma Parts_strjoin m : forall l, Parts m l -> strjoin (map unel l) = m.
Proof.
  induction m as [|t m IH]; intros l H; apply Parts_iff in H as (H1 & H2 & <-); [easy|].
  inversion H1 as [|? ? Hp H1']; subst. cbn [flat_map].
  assert (noadj m) as H2' by (destruct m; [easy|now destruct H2]).
  assert (strjoin (map unel (flat_map elems m)) = m) as E by (apply IH, Parts_iff; auto).
  destruct Hp as [Hn|(c & s & ->)].
  - rewrite (elems_named _ Hn). cbn [map app]. unfold strjoin in *. rewrite <- E at 2. destruct Hn; reflexivity.
  - rewrite elems_str, map_app, map_map. unfold strjoin.
    assert (forall s k r, strjoin_from (Some k) (map (fun x => unel (Ch x)) s ++ r) = strjoin_from (Some (k ++ s)) r) as K.
    { clear. induction s as [|x s IH]; intros k r; cbn [map app]; [now rewrite app_nil_r|]. cbn [unel strjoin_from].
      rewrite IH. now rewrite <- app_assoc. }
    change (map (fun x => unel (Ch x)) (c :: s)) with (TS [c] :: map (fun x => unel (Ch x)) s). cbn [app strjoin_from].
    rewrite K. cbn [app]. destruct m as [|u m]; [reflexivity|].
    inversion H1' as [|? ? Hp _]; subst. destruct H2 as [H2 _]. destruct Hp as [Hn|(c' & s' & ->)]; [|now destruct H2].
    cbn [flat_map] in *. rewrite (elems_named _ Hn) in *. cbn [map app] in *. unfold strjoin in E.
    destruct Hn; cbn [unel strjoin_from] in *; now rewrite E.
Qed.
Lemma Parts_fun m m' l : Parts m l -> Parts m' l -> m = m'.
Proof. intros H H'. rewrite <- (Parts_strjoin _ _ H). now apply Parts_strjoin. Qed.
Lemma Canon_fun t t' l : Canon t l -> Canon t' l -> t = t'.
Proof. intros (m & H & ->) (m' & H' & ->). now rewrite (Parts_fun _ _ _ H H'). Qed.

Lemma tok_of_elems m : elems (tok_of m) = flat_map elems m.
Proof. destruct m as [|x [|y r]]; cbn [tok_of]; [reflexivity|cbn; now rewrite app_nil_r|apply elems_list]. Qed.
Lemma Canon_elems t l : Canon t l -> elems t = l.
Proof. intros (m & H & ->). apply Parts_iff in H as (_ & _ & <-). apply tok_of_elems. Qed.
Lemma Canon_Flat t l : Canon t l -> Flat t l.
Proof. intros H. apply Flat_iff. symmetry. now apply Canon_elems. Qed.
Lemma Canon_TS s : Canon (TS s) (map Ch s).
Proof.
  destruct s as [|c s].
  - exists []. split; [|easy]. now apply Parts_iff.
  - exists [TS (c :: s)]. split; [|easy]. apply Parts_iff. split; [constructor; [right; eauto|constructor]|]. split; [easy|].
    cbn [flat_map]. now rewrite app_nil_r, elems_str.
Qed.
Lemma Canon_named t : Named t -> Canon t [Va t].
Proof.
  intros H. exists [t]. split; [|easy]. apply Parts_iff. split; [constructor; [now left|constructor]|]. split; [easy|].
  cbn [flat_map]. now rewrite app_nil_r, elems_named.
Qed.

(* a canonical value is a str iff it has no variables *)
Lemma Canon_str t l : Canon t l -> (is_str t = true <-> forall v, ~ In (Va v) l).
Proof.
  intros (m & H & ->). apply Parts_iff in H as (H1 & H2 & <-). destruct m as [|x [|y r]]; cbn [tok_of].
  - cbn. split; [easy|]. now intros _.
  - inversion H1 as [|? ? Hp _]; subst. cbn [flat_map]. rewrite app_nil_r. destruct Hp as [Hn|(c & s & ->)].
    + rewrite (elems_named _ Hn). split; [now destruct Hn|]. intros H. exfalso. apply (H x). now left.
    + rewrite elems_str. split; [|easy]. intros _ v Hv.
      apply in_map_iff in Hv as (z & E & _). discriminate E.
  - split; [easy|]. intros H. exfalso. inversion H1 as [|? ? Hx H1']; subst. inversion H1' as [|? ? Hy _]; subst.
    destruct H2 as [H2 _]. cbn [flat_map] in H.
    destruct Hx as [Hx|(c & s & ->)].
    + apply (H x). rewrite (elems_named _ Hx). now left.
    + destruct Hy as [Hy|(c' & s' & ->)]; [|now apply H2]. apply (H y). rewrite (elems_named _ Hy).
      apply in_app_iff. right. now left.
Qed.
Lemma Canon_is t l s : Canon t l -> (tok_is t s = true <-> l = map Ch s).
Proof.
  intros H. split.
  - destruct t; try easy. cbn. intros E. apply str_eqb_eq in E as ->. now rewrite <- (Canon_elems _ _ H), elems_str.
  - intros ->. rewrite (Canon_fun _ _ _ H (Canon_TS s)). cbn. apply str_eqb_refl.
Qed.

(* ---- joining ---- *)
Lemma part_nonempty t : Part t -> truthy t = true.
Proof. intros [H|(c & s & ->)]; [now destruct H|reflexivity]. Qed.

Lemma vjoin_parts m : Forall Part m -> noadj m -> vjoin m = tok_of m.
Proof.
  intros H1 H2. unfold vjoin.
  assert (forall m copy, Forall Part m -> noadj m ->
    (match copy, m with x :: _, y :: _ => ~ (is_str x = true /\ is_str y = true) | _, _ => True end) ->
    fold_left push m copy = rev m ++ copy) as K.
  { clear. induction m as [|t m IH]; intros copy H1 H2 H3; [easy|]. cbn [fold_left]. inversion H1; subst.
    assert (push copy t = t :: copy) as ->.
    { unfold push. rewrite part_nonempty by easy. cbn [negb]. destruct t; try easy. destruct copy as [|[] copy]; try easy.
      exfalso. now apply H3. }
    rewrite IH; [cbn; now rewrite <- app_assoc|easy|destruct m; [easy|now destruct H2]|]. destruct m; [easy|now destruct H2]. }
  rewrite K by (easy || now destruct m). rewrite app_nil_r, rev_involutive. now destruct m as [|x [|y r]].
Qed.

Lemma strjoin_parts l : Forall Part l -> Parts (strjoin l) (flat_map elems l).
Proof.
  intros H. unfold strjoin. rewrite Parts_iff.
  assert (forall l (c : option str), Forall Part l -> c <> Some [] ->
    Forall Part (strjoin_from c l) /\ noadj (strjoin_from c l) /\
    (match c with Some _ => exists s r, strjoin_from c l = TS s :: r | None => True end)) as K.
  { clear. induction l as [|t l IH]; intros c H Hc; cbn [strjoin_from].
    - destruct c as [[|c s]|]; [easy| |easy]. split; [constructor; [right; eauto|constructor]|]. split; [easy|eauto].
    - inversion H as [|? ? Hp H']; subst. destruct Hp as [Hn|(x & s & ->)].
      + destruct (IH None H' ltac:(easy)) as (K1 & K2 & _).
        assert (strjoin_from c (t :: l) = (match c with Some s => [TS s] | None => [] end) ++ t :: strjoin_from None l) as E.
        { destruct Hn; destruct c; reflexivity. }
        assert (noadj (t :: strjoin_from None l)) as K3.
        { destruct (strjoin_from None l) eqn:Es; [easy|]. split; [|exact K2]. intros [Hs _]. now destruct Hn. }
        assert (Forall Part (t :: strjoin_from None l)) as K4 by (constructor; [now left|easy]).
        cbn [strjoin_from] in E. rewrite E. destruct c as [[|c s]|]; [easy| |]; cbn [app].
        * split; [constructor; [right; eauto|easy]|]. split; [|eauto]. split; [|easy]. intros [_ Hs]. now destruct Hn.
        * auto.
      + destruct c as [s0|].
        * destruct (IH (Some (s0 ++ x :: s)) H') as (K1 & K2 & K3); [now destruct s0|]. auto.
        * destruct (IH (Some (x :: s)) H') as (K1 & K2 & K3); [easy|]. auto. }
  destruct (K l None H ltac:(easy)) as (K1 & K2 & _). split; [easy|]. split; [easy|].
  pose proof (strjoin_elems l None) as E. cbn [app] in E. now rewrite E.
Qed.

Lemma squash_canon l : Forall Part l -> Canon (squash l) (flat_map elems l).
Proof.
  intros H. apply strjoin_parts in H. exists (strjoin l). split; [easy|]. unfold squash.
  apply Parts_iff in H as (H1 & H2 & _). destruct (strjoin l) as [|x [|y r]]; try easy. now rewrite vjoin_parts.
Qed.

Lemma Item_part t : Item t -> Part t.
Proof. intros [c|v Hv]; [right; eauto|now left]. Qed.
Lemma items_part t : Forall Part (items t).
Proof. eapply Forall_impl; [|apply items_Item]. apply Item_part. Qed.

Lemma slice_part t its : (forall x, In x its -> In x (items t)) -> Forall Part (sl_items (slice_of t its)).
Proof.
  intros H. assert (Forall Part its) as HI.
  { apply Forall_forall. intros x Hx. pose proof (items_part t) as G. rewrite Forall_forall in G. auto. }
  unfold slice_of. destruct t; try apply items_part;
  apply strjoin_parts, Parts_iff in HI as (HI & _ & _); (destruct (strjoin its) as [|x [|y r]]; [constructor|apply items_part|exact HI]).
Qed.

Lemma sep_parts t d rm l : forall b p q sk cur pend,
  (forall x, In x (rev pend ++ l) -> In x (items t)) -> Forall Part cur ->
  Forall (Forall Part) (sep (SlTok t) d rm b p q sk cur pend l).
Proof.
  induction l as [|x l IH]; intros b p q sk cur pend Hin Hc.
  - cbn [sep]. constructor; [|constructor]. apply Forall_app. split; [easy|]. cbn [seq_slice]. apply slice_part.
    intros y Hy. apply Hin. now rewrite app_nil_r.
  - assert (forall b p q sk, Forall (Forall Part) (sep (SlTok t) d rm b p q sk cur (x :: pend) l)) as Hk.
    { intros. apply IH; [|easy]. intros y Hy. apply Hin. cbn [rev] in Hy. rewrite !in_app_iff in *. cbn in *. tauto. }
    assert (Forall Part (cur ++ seq_slice (SlTok t) (rev pend))) as Hfl.
    { apply Forall_app. split; [easy|]. cbn [seq_slice]. apply slice_part. intros y Hy. apply Hin. rewrite in_app_iff. now left. }
    assert (forall b p q sk c, Forall Part c -> Forall (Forall Part) (sep (SlTok t) d rm b p q sk c [] l)) as Hf.
    { intros. apply IH; [|easy]. intros y Hy. apply Hin. cbn in Hy. rewrite in_app_iff. right. now right. }
    cbn [sep]. repeat match goal with |- context [if ?b then _ else _] => destruct b end; auto.
Qed.

Lemma separate_canon t d rm : Forall2 Canon (separate_args (SlTok t) d rm) (map elems (separate_args (SlTok t) d rm)).
Proof.
  assert (Forall (fun x => Canon x (elems x)) (separate_args (SlTok t) d rm)) as H.
  { unfold separate_args. apply Forall_map. eapply Forall_impl; [|apply sep_parts; [easy|constructor]].
    intros l Hl. rewrite squash_elems. now apply squash_canon. }
  induction H; constructor; auto.
Qed.
