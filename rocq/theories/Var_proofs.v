(* Proofs about variable.py: C30, C31, C32, C29 (substring). *)
From Verif Require Import Base PyStr Var Spec_Var.
From Coq Require Import ZifyBool ZifyN ZifyNat.

(* Induction over values. *)
Definition onum (P : tok -> Prop) (n : num tok) : Prop :=
  match n with NI _ => True | NV v => P v end.
Definition oopt (P : tok -> Prop) (n : option (num tok)) : Prop :=
  match n with Some x => onum P x | None => True end.

Section TokInd.
Variable P : tok -> Prop.
Hypothesis HS : forall s, P (TS s).
Hypothesis HL : forall l, Forall P l -> P (TList l).
Hypothesis HV : forall n, P n -> P (TVar n).
Hypothesis HE : forall n, P n -> P (TExpr n).
Hypothesis HSl : forall n s l, P n -> P (TSlice n s l).
Hypothesis HD : forall n s l, P n -> onum P s -> oopt P l -> P (TDyn n s l).
Hypothesis HF : forall f a, P a -> P (TFunc f a).
Hypothesis HFs : forall f a s l, P a -> onum P s -> oopt P l -> P (TFuncS f a s l).

Fixpoint tok_ind2 (t : tok) : P t :=
  let on (x : num tok) : onum P x :=
    match x with NI _ => I | NV v => tok_ind2 v end in
  let oo (x : option (num tok)) : oopt P x :=
    match x with
    | None => I
    | Some y => match y return onum P y with NI _ => I | NV v => tok_ind2 v end
    end in
  match t with
  | TS s => HS s
  | TList l => HL l ((fix go l : Forall P l :=
                        match l with
                        | [] => Forall_nil P
                        | x :: r => Forall_cons x (tok_ind2 x) (go r)
                        end) l)
  | TVar n => HV n (tok_ind2 n)
  | TExpr n => HE n (tok_ind2 n)
  | TSlice n s l => HSl n s l (tok_ind2 n)
  | TDyn n s l => HD n s l (tok_ind2 n) (on s) (oo l)
  | TFunc f a => HF f a (tok_ind2 a)
  | TFuncS f a s l => HFs f a s l (tok_ind2 a) (on s) (oo l)
  end.
End TokInd.

(* Items and elements. *)
Definition el (t : tok) : elem :=
  match t with TS (c :: _) => Ch c | _ => Va t end.
Definition unel (e : elem) : tok := match e with Ch c => TS [c] | Va t => t end.

(* an item: one character or a named variable *)
Inductive Item : tok -> Prop :=
| It_ch c : Item (TS [c])
| It_va t : Named t -> Item t.

Lemma named_cases t : Named t \/ (exists s, t = TS s) \/ (exists l, t = TList l).
Proof. destruct t; eauto using Named. Qed.

Lemma named_items t : Named t -> items t = [t].
Proof. now intros []. Qed.
Lemma named_el t : Named t -> el t = Va t.
Proof. now intros []. Qed.
Lemma named_not_str t s : Named t -> t <> TS s.
Proof. now intros []. Qed.

Lemma items_Item t : Forall Item (items t).
Proof.
  induction t using tok_ind2; try (repeat constructor).
  - cbn. unfold chars. rewrite Forall_map. apply Forall_forall. intros; constructor.
  - cbn. induction H; cbn; [constructor|]. now rewrite Forall_app.
Qed.

Lemma unel_el t : Item t -> unel (el t) = t.
Proof. intros []; [easy|]. now rewrite named_el. Qed.

Definition elems (t : tok) : list elem := map el (items t).
Arguments elems : simpl never.

Lemma Flat_elems t : Flat t (elems t).
Proof.
  unfold elems. induction t using tok_ind2; try (apply Fl_named; constructor).
  - cbn. unfold chars. rewrite map_map. cbn. apply Fl_str.
  - cbn. replace (map el (flat_map items l)) with (List.concat (map (fun t => map el (items t)) l)).
    + constructor. induction H; cbn; constructor; easy.
    + clear H. induction l; cbn; [easy|]. now rewrite map_app, IHl.
Qed.

Lemma Flat_fun t l : Flat t l -> l = elems t.
Proof.
  revert l. induction t using tok_ind2; intros ls Hf; inversion Hf; subst; try easy;
    try (match goal with H : Named _ |- _ => now inversion H end).
  - unfold elems. cbn. unfold chars. now rewrite map_map.
  - unfold elems. cbn. rename ls0 into ls. clear Hf. revert ls H1.
    induction H; intros ls Hf; inversion Hf; subst; cbn; [easy|].
    rewrite map_app. f_equal; [now apply H|]. now apply IHForall.
Qed.

Lemma Flat_iff t l : Flat t l <-> l = elems t.
Proof. split; [apply Flat_fun | intros ->; apply Flat_elems]. Qed.

Lemma items_elems t : items t = map unel (elems t).
Proof.
  unfold elems. rewrite map_map. pose proof (items_Item t) as H.
  induction H; cbn; [easy|]. rewrite unel_el by easy. now f_equal.
Qed.

Lemma elems_str s : elems (TS s) = map Ch s.
Proof. unfold elems. cbn. unfold chars. now rewrite map_map. Qed.
Lemma elems_list l : elems (TList l) = flat_map elems l.
Proof.
  unfold elems. cbn. induction l; cbn; [easy|]. now rewrite map_app, IHl.
Qed.
Lemma elems_named t : Named t -> elems t = [Va t].
Proof. intros H. unfold elems. rewrite named_items by easy. cbn. now rewrite named_el. Qed.

Lemma truthy_elems t : truthy t = true <-> elems t <> [].
Proof.
  unfold truthy, tlen, elems. destruct (items t); cbn; split; congruence.
Qed.
Lemma falsy_elems t : truthy t = false <-> elems t = [].
Proof.
  unfold truthy, tlen, elems. destruct (items t); cbn; split; congruence.
Qed.

Lemma elems_items_in t e : In e (elems t) -> Item (unel e).
Proof.
  unfold elems. rewrite in_map_iff. intros (x & <- & Hx).
  pose proof (items_Item t) as H. rewrite Forall_forall in H.
  rewrite unel_el; auto.
Qed.

(* '<c>' in t *)
Lemma tok_isc_el t c : Item t -> tok_isc t c = true <-> el t = Ch c.
Proof.
  unfold tok_isc, tok_is. intros [x|t' Hn].
  - cbn. rewrite Bool.andb_true_r, N.eqb_eq. split; congruence.
  - rewrite named_el by easy. destruct Hn; split; congruence.
Qed.

Lemma tin_In c t : tin c t = true <-> In (Ch c) (elems t).
Proof.
  unfold tin, elems. rewrite existsb_exists, in_map_iff.
  pose proof (items_Item t) as H. rewrite Forall_forall in H.
  split; intros (x & H1 & H2); exists x; split; auto; apply tok_isc_el; auto.
Qed.

(* Var.join *)
Lemma push_elems copy v : flat_map elems (rev (push copy v)) = flat_map elems (rev copy) ++ elems v.
Proof.
  unfold push. destruct (truthy v) eqn:T; cbn [negb].
  - destruct v; try (cbn; rewrite flat_map_app; cbn; now rewrite app_nil_r).
    destruct copy as [|[y| | | | | | |] r]; cbn;
      try (rewrite ?flat_map_app; cbn; rewrite ?app_nil_r; reflexivity).
    rewrite !flat_map_app; cbn. rewrite !app_nil_r, !elems_str, map_app. now rewrite app_assoc.
  - apply falsy_elems in T. now rewrite T, app_nil_r.
Qed.

Lemma fold_push_elems l copy :
  flat_map elems (rev (fold_left push l copy)) = flat_map elems (rev copy) ++ flat_map elems l.
Proof.
  revert copy. induction l as [|x l IH]; intros copy; cbn; [now rewrite app_nil_r|].
  rewrite IH, push_elems, <- app_assoc. reflexivity.
Qed.

Lemma vjoin_elems l : elems (vjoin l) = flat_map elems l.
Proof.
  unfold vjoin. pose proof (fold_push_elems l []) as H. cbn in H.
  destruct (rev (fold_left push l [])) as [|x [|y r]].
  - cbn in H. rewrite elems_str. easy.
  - cbn in H. now rewrite app_nil_r in H.
  - rewrite elems_list. easy.
Qed.

(* the copied list: no empty parts, no two adjacent strs *)
Inductive Norm : list tok -> Prop :=
| No_nil : Norm []
| No_one t : truthy t = true -> Norm [t]
| No_cons t u l : truthy t = true -> ~ (is_str t = true /\ is_str u = true) ->
    Norm (u :: l) -> Norm (t :: u :: l).

Lemma norm_head t l : Norm (t :: l) -> truthy t = true.
Proof. now inversion 1. Qed.

Lemma push_norm copy v : Norm copy -> Norm (push copy v).
Proof.
  intros H. unfold push. destruct (truthy v) eqn:T; cbn [negb]; [|easy].
  assert (Hgen : (is_str v = false \/ copy = [] \/ exists t r, copy = t :: r /\ is_str t = false) ->
                 Norm (v :: copy)).
  { intros Hc. destruct copy as [|t r]; [now constructor|].
    constructor; [easy| |easy]. intros [Ha Hb].
    destruct Hc as [Hc|[Hc|(t' & r' & Hc & Hd)]]; congruence. }
  destruct v; try (apply Hgen; now left).
  destruct copy as [|[y| | | | | | |] r]; try (apply Hgen; right; eauto; fail).
  inversion H; subst.
  - constructor. apply truthy_elems. rewrite elems_str, map_app.
    apply truthy_elems in H1. rewrite elems_str in H1. destruct y; [easy|]; cbn; congruence.
  - constructor; [|easy|easy].
    apply truthy_elems. rewrite elems_str, map_app.
    apply truthy_elems in H2. rewrite elems_str in H2. destruct y; [easy|]; cbn; congruence.
Qed.

Lemma fold_push_norm l copy : Norm copy -> Norm (fold_left push l copy).
Proof. revert copy; induction l; intros; cbn; [easy|]. apply IHl. now apply push_norm. Qed.

Lemma norm_app a b : Norm a -> Norm b ->
  (forall x y, last_opt a = Some x -> hd_error b = Some y -> ~ (is_str x = true /\ is_str y = true)) ->
  Norm (a ++ b).
Proof.
  intros Ha Hb. induction Ha; intros Hc; cbn [app]; [easy| |].
  - destruct b as [|y b]; [now constructor|]. constructor; [easy| |easy]. now apply Hc.
  - constructor; [easy|easy|]. apply IHHa. exact Hc.
Qed.

Lemma norm_rev l : Norm l -> Norm (rev l).
Proof.
  induction 1; cbn; try (now constructor).
  apply norm_app; [exact IHNorm| now constructor|].
  intros x y Hx [= <-]. cbn in Hx. rewrite last_opt_app in Hx. injection Hx as <-. tauto.
Qed.

Lemma vjoin_norm l : match vjoin l with
                     | TS _ => True
                     | TList m => Norm m /\ (length m >= 2)%nat \/ In (TList m) l
                     | v => In v l
                     end.
Proof.
  unfold vjoin.
  assert (Hin : forall l copy, (forall v, In v (fold_left push l copy) -> is_str v = false -> In v copy \/ In v l)).
  { clear l. intros l. induction l as [|x l IH]; intros copy v Hv Hs; cbn in *; [now left|].
    destruct (IH _ _ Hv Hs) as [H|H]; [|now auto].
    revert H. unfold push. destruct (negb (truthy x)); [now left|].
    assert (G : In v (x :: copy) -> In v copy \/ x = v \/ In v l) by (cbn; tauto).
    destruct x; try exact G. destruct copy as [|[y| | | | | | |] r]; try exact G.
    intros [<-|H]; [easy|]. left. now right. }
  pose proof (norm_rev _ (fold_push_norm l [] No_nil)) as HN.
  destruct (rev (fold_left push l [])) as [|x [|y r]] eqn:E; [easy| |].
  - specialize (Hin l [] x). rewrite in_rev, E in Hin.
    destruct x; try easy; try (destruct Hin; [now left|easy|easy|easy]).
    right. destruct Hin; [now left|easy|easy|easy].
  - left. split; [easy|cbn; lia].
Qed.

(* Splitting: C31 *)
Lemma Split_prefix c max l p ls a : ~ In (Ch c) a ->
  Split c max l (p :: ls) -> Split c max (a ++ l) ((a ++ p) :: ls).
Proof.
  intros Ha H. inversion H; subst.
  - apply Sp_none. rewrite in_app_iff. tauto.
  - apply Sp_stop.
  - rewrite app_assoc. apply Sp_next; [easy| |easy]. rewrite in_app_iff. tauto.
Qed.

Lemma Split_nonempty c max l ls : Split c max l ls -> ls <> [].
Proof. now inversion 1. Qed.

Definition less (n : nat) (max : option nat) : option nat := option_map (fun m => m - n)%nat max.

Lemma less_0 max : less 0 max = max.
Proof. destruct max; cbn; [|easy]. now rewrite Nat.sub_0_r. Qed.
Lemma less_S n max : less n (option_map pred max) = less (S n) max.
Proof. destruct max; cbn; [|easy]. f_equal. lia. Qed.
Lemma less_less a b max : less a (less b max) = less (b + a) max.
Proof. destruct max; cbn; [|easy]. f_equal. lia. Qed.

Lemma Split_app c rest : forall max l init last ls,
  Split c max l (init ++ [last]) -> Split c (less (length init) max) (last ++ rest) ls ->
  Split c max (l ++ rest) (init ++ ls).
Proof.
  intros max l init. revert max l. induction init as [|p init IH]; intros max l last ls H1 H2; cbn in *.
  - rewrite less_0 in H2. inversion H1; subst; try assumption.
    match goal with H : Split _ _ _ [] |- _ => now apply Split_nonempty in H end.
  - inversion H1; subst.
    + now destruct init.
    + now destruct init.
    + rewrite <- app_assoc. cbn. apply Sp_next; [easy|easy|].
      eapply IH; [eassumption|]. now rewrite less_S.
Qed.

Lemma Split_zero c l ls : Split c (Some O) l ls -> ls = [l].
Proof. now inversion 1. Qed.

Lemma ssplit_Split c s : forall max, Split c max (map Ch s) (map (map Ch) (ssplit c max s)).
Proof.
  induction s as [|x s IH]; intros max; cbn; [now constructor|].
  destruct (N.eqb_spec x c) as [->|Hne]; cbn.
  - destruct max as [[|m]|]; cbn.
    + specialize (IH (Some O)). destruct (ssplit c (Some O) s) as [|h t] eqn:E.
      * now apply Split_nonempty in IH.
      * apply Split_zero in IH. injection IH as IH1 IH2. cbn. rewrite IH1, IH2. apply Sp_stop.
    + apply (Sp_next c (Some (S m)) [] (map Ch s)); [easy|easy|]. apply IH.
    + apply (Sp_next c None [] (map Ch s)); [easy|easy|]. apply IH.
  - specialize (IH max). destruct (ssplit c max s) as [|h t] eqn:E.
    + now apply Split_nonempty in IH.
    + cbn in *. apply (Split_prefix c max _ _ _ [Ch x]) in IH; [easy|]. cbn. intuition congruence.
Qed.

(* the last part of a split has no separator left, unless the maximum is used up *)
Lemma Split_last c max l init last : Split c max l (init ++ [last]) ->
  ~ In (Ch c) last \/ less (length init) max = Some O.
Proof.
  revert max l. induction init as [|p init IH]; intros max l H; cbn in *.
  - rewrite less_0. inversion H; subst; auto.
  - inversion H; subst; try (now destruct init). rewrite <- less_S. eauto.
Qed.

Lemma Split_count c max l ls : Split c max l ls -> forall m, max = Some m -> (length ls <= S m)%nat.
Proof.
  induction 1; intros m E; cbn; try lia. subst max. destruct m; [easy|].
  specialize (IHSplit m eq_refl). lia.
Qed.

Lemma close_group_elems cur : elems (close_group cur) = flat_map elems (rev cur).
Proof.
  unfold close_group. destruct (rev cur) as [|x [|y r]]; [easy| |].
  - cbn. now rewrite app_nil_r.
  - apply vjoin_elems.
Qed.

Lemma opt_cons_elems s cur : flat_map elems (rev (opt_cons s cur)) = flat_map elems (rev cur) ++ map Ch s.
Proof.
  destruct s; cbn; [now rewrite app_nil_r|].
  rewrite flat_map_app. cbn. now rewrite app_nil_r, elems_str.
Qed.

Lemma add_parts_elems parts : forall cur gs cur', parts <> [] -> add_parts cur parts = (gs, cur') ->
  exists p0 init lst, map (map Ch) parts = p0 :: init /\
    (flat_map elems (rev cur) ++ p0) :: init = map elems gs ++ [lst] /\
    flat_map elems (rev cur') = lst.
Proof.
  induction parts as [|p [|q parts] IH]; intros cur gs cur' Hne E; [easy| |].
  - cbn in E. injection E as <- <-. cbn. do 3 eexists. split; [reflexivity|]. split; [reflexivity|].
    apply opt_cons_elems.
  - change (add_parts cur (p :: q :: parts)) with
      (let '(gs, cur') := add_parts [] (q :: parts) in
       (close_group (opt_cons p cur) :: gs, cur')) in E.
    destruct (add_parts [] (q :: parts)) as [gs0 cur0] eqn:E0. injection E as <- <-.
    destruct (IH _ _ _ ltac:(easy) E0) as (p0 & init & lst & H1 & H2 & H3).
    exists (map Ch p), (map (map Ch) (q :: parts)), lst. split; [easy|]. split; [|easy].
    cbn [map app]. rewrite close_group_elems, opt_cons_elems. f_equal.
    change (map (map Ch) (q :: parts)) with (map (map Ch) (q :: parts)) in *.
    cbn [rev flat_map app] in H2. cbn [map] in H1 |- *. rewrite H1. exact H2.
Qed.

Definition ShallowL (l : list tok) : Prop := Forall (fun t => (exists s, t = TS s) \/ Named t) l.

Lemma memb_Ch c s : memb c s = true <-> In (Ch c) (map Ch s).
Proof.
  rewrite memb_In, in_map_iff. split.
  - intros H; now exists c.
  - intros (x & [= ->] & H); easy.
Qed.

Lemma split_items_Split c max source : forall done cur, ShallowL source ->
  (~ In (Ch c) (flat_map elems (rev cur)) \/ less done max = Some O) ->
  (match max with Some m => done <= m | None => True end)%nat ->
  Split c (less done max) (flat_map elems (rev cur) ++ flat_map elems source)
    (map elems (split_items c max done cur source)).
Proof.
  induction source as [|t source IH]; intros done cur Hs Hi Hd; cbn [split_items map flat_map].
  - rewrite app_nil_r, close_group_elems. destruct Hi as [Hi| ->]; constructor; easy.
  - inversion Hs as [|? ? Ht Hr]; subst.
    assert (Hplain : forall t', (~ In (Ch c) (elems t') \/ less done max = Some O) ->
       Split c (less done max) (flat_map elems (rev cur) ++ elems t' ++ flat_map elems source)
         (map elems (split_items c max done (t' :: cur) source))).
    { intros t' Ht'. specialize (IH done (t' :: cur) Hr).
      cbn [rev] in IH. rewrite flat_map_app in IH. cbn [flat_map] in IH. rewrite app_nil_r in IH.
      rewrite <- app_assoc in IH. apply IH; [|easy].
      rewrite in_app_iff. destruct Hi as [Hi|Hi], Ht' as [Ht'|Ht']; auto. left. tauto. }
    destruct Ht as [[s ->]|Hn].
    + destruct (negb (memb c s) || match max with Some m => Nat.eqb m done | None => false end) eqn:Eb.
      * apply Hplain. apply Bool.orb_true_iff in Eb. destruct Eb as [Eb|Eb].
        -- left. rewrite elems_str, <- memb_Ch. now destruct (memb c s).
        -- right. destruct max; [|easy]. apply Nat.eqb_eq in Eb. subst. cbn. f_equal. lia.
      * apply Bool.orb_false_iff in Eb. destruct Eb as [Em Ed].
        assert (Hi' : ~ In (Ch c) (flat_map elems (rev cur))).
        { destruct Hi as [Hi|Hi]; [easy|]. destruct max; [|easy]. cbn in Hi. injection Hi as Hi.
          apply Nat.eqb_neq in Ed. lia. }
        change (option_map (fun m => (m - done)%nat) max) with (less done max).
        pose proof (ssplit_Split c s (less done max)) as HS.
        assert (Hne : ssplit c (less done max) s <> []).
        { intros E0. rewrite E0 in HS. now apply Split_nonempty in HS. }
        destruct (add_parts cur (ssplit c (less done max) s)) as [gs cur'] eqn:Ea.
        destruct (add_parts_elems _ _ _ _ Hne Ea) as (p0 & init & lst & H1 & H2 & H3).
        rewrite H1 in HS.
        apply (Split_prefix _ _ _ _ _ _ Hi') in HS. rewrite H2 in HS.
        assert (Hlen : length (ssplit c (less done max) s) = S (length gs)).
        { rewrite <- (map_length (map Ch)), H1. apply (f_equal (@List.length _)) in H2.
          cbn in H2. rewrite app_length, map_length in H2. cbn in *. lia. }
        rewrite Hlen. replace (S (length gs) - 1)%nat with (length gs) by lia.
        rewrite elems_str, app_assoc, map_app.
        eapply Split_app; [exact HS|].
        rewrite map_length, less_less. subst lst. apply IH; [easy| |].
        -- apply Split_last in HS. rewrite map_length, less_less in HS. exact HS.
        -- destruct max as [m|]; [|easy].
           pose proof (Split_count _ _ _ _ HS (m - done)%nat eq_refl) as Hc.
           rewrite app_length, map_length in Hc. cbn in Hc. apply Nat.eqb_neq in Ed. lia.
    + assert (G : Split c (less done max) (flat_map elems (rev cur) ++ elems t ++ flat_map elems source)
         (map elems (split_items c max done (t :: cur) source))).
      { apply Hplain. left. rewrite elems_named by easy. cbn. intuition congruence. }
      destruct Hn; exact G.
Qed.

Lemma vsplit_Split c max t : Shallow t -> ~ Named t ->
  exists parts, vsplit c max t = Ok parts /\ Split c max (elems t) (map elems parts).
Proof.
  intros Hs Hn. destruct Hs as [s|t Ht|l Hl]; [| easy |].
  - eexists. split; [reflexivity|]. rewrite elems_str, map_map.
    rewrite (map_ext (fun x => elems (TS x)) (map Ch) elems_str). apply ssplit_Split.
  - eexists. split; [reflexivity|].
    pose proof (split_items_Split c max l 0 [] Hl) as H. cbn [rev flat_map app] in H.
    rewrite less_0 in H. rewrite elems_list. apply H; [now left|]. destruct max; [lia|easy].
Qed.

Lemma Split_glue c max l ls : Split c max l ls -> glue c ls = l.
Proof.
  induction 1; try easy. destruct ls; [now apply Split_nonempty in H1|].
  change (a ++ Ch c :: glue c (l0 :: ls) = a ++ Ch c :: l). now rewrite IHSplit.
Qed.

Lemma Split_fun c max l ls : Split c max l ls -> forall ls', Split c max l ls' -> ls = ls'.
Proof.
  assert (cut : forall a b x y, a ++ Ch c :: x = b ++ Ch c :: y -> ~ In (Ch c) a -> ~ In (Ch c) b ->
                a = b /\ x = y).
  { induction a as [|h a IH]; intros [|k b] x y E Ha Hb; cbn in *; try easy.
    - now injection E.
    - injection E as E1 E2. subst. exfalso. tauto.
    - injection E as E1 E2. subst. exfalso. tauto.
    - injection E as <- E2. destruct (IH b x y E2) as [-> ->]; tauto. }
  induction 1; intros ls' H'; inversion H'; subst; try easy.
  - exfalso. apply H. rewrite in_app_iff. cbn. tauto.
  - exfalso. apply H2. rewrite in_app_iff. cbn. tauto.
  - destruct (cut _ _ _ _ H2 ltac:(easy) ltac:(easy)) as [-> ->]. f_equal. now apply IHSplit.
Qed.
