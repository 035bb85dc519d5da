(* Proofs about splitting a single variable with a name (C31). *)
From Verif Require Import Base PyStr Var Spec_Var Var_proofs.

Fixpoint tsize (t : tok) : nat :=
  match t with
  | TS _ => 0
  | TList l => fold_right (fun x n => (tsize x + n)%nat) 0%nat l
  | TVar n | TExpr n | TSlice n _ _ | TDyn n _ _ => S (tsize n)
  | TFunc _ _ | TFuncS _ _ _ _ => 1
  end.
Lemma elems_size t : forall u, In (Va u) (elems t) -> (tsize u <= tsize t)%nat.
Proof.
  induction t as [s|l H|t IHt|t IHt|t start len IHt|t start len IHt H H0|f t IHt|f t start len IHt H H0] using tok_ind2; intros u I.
  - rewrite elems_str in I. apply in_map_iff in I as (c & E & _). discriminate.
  - rewrite elems_list in I. cbn [tsize]. induction H as [|x l Hx Hl IH]; [easy|]. cbn [flat_map fold_right] in *. apply in_app_iff in I as [I|I].
    + apply Hx in I. lia.
    + apply IH in I. lia.
  - rewrite elems_named in I by constructor. destruct I as [[= <-]|[]]. easy.
  - rewrite elems_named in I by constructor. destruct I as [[= <-]|[]]. easy.
  - rewrite elems_named in I by constructor. destruct I as [[= <-]|[]]. easy.
  - rewrite elems_named in I by constructor. destruct I as [[= <-]|[]]. easy.
  - rewrite elems_named in I by constructor. destruct I as [[= <-]|[]]. easy.
  - rewrite elems_named in I by constructor. destruct I as [[= <-]|[]]. easy.
Qed.
Lemma name_some t : Named t -> exists n, name_of t = Some n /\ forall l, NameSeq t l <-> l = elems n.
Proof.
  assert (F : forall f a l, (exists l', Flat a l' /\ l = map Ch f ++ Ch 40 :: l' ++ [Ch 41]) <-> l = elems (vjoin [TS f; TS (L "("); a; TS (L ")")])).
  { intros f a l. rewrite vjoin_elems. cbn [flat_map]. rewrite !elems_str, app_nil_r. split.
    - intros (l' & H & ->). apply Flat_fun in H as ->. reflexivity.
    - intros ->. exists (elems a). split; [apply Flat_elems|reflexivity]. }
  intros H. destruct H as [n|n|n s k|n s k|f a|f a s k]; eexists; (split; [reflexivity|]); intros l;
    [rewrite <- Flat_iff; split; [intros H; now inversion H|now constructor]..| |].
  - rewrite <- F. split; [intros H; inversion H; subst; eauto|]. intros (l' & H & ->). now constructor.
  - rewrite <- F. split; [intros H; inversion H; subst; eauto|]. intros (l' & H & ->). now constructor.
Qed.
Lemma name_other t n : Named t -> name_of t = Some n -> elems n <> [Va t].
Proof.
  intros H E X.
  assert (F : forall f a, name_of t = Some (vjoin [TS f; TS (L "("); a; TS (L ")")]) -> False).
  { intros f a E'. rewrite E' in E. injection E as <-. rewrite vjoin_elems in X. cbn [flat_map] in X. rewrite !elems_str in X.
    assert (I : In (Ch 40) [Va t]) by (rewrite <- X; apply in_or_app; right; now left). now destruct I. }
  assert (S : (tsize t <= tsize n)%nat) by (apply elems_size; rewrite X; now left).
  destruct H; try (eapply F; reflexivity); injection E as <-; cbn [tsize] in S; lia.
Qed.
Lemma split_text c max s : exists parts, split_items c max 0 [] [TS s] = parts /\ Split c max (map Ch s) (map elems parts).
Proof.
  eexists. split; [reflexivity|]. assert (HL : ShallowL [TS s]) by (constructor; [left; now exists s|constructor]).
  pose proof (split_items_Split c max [TS s] 0 [] HL) as H. cbn [rev flat_map app] in H. rewrite less_0, app_nil_r, elems_str in H. apply H; [now left|].
  destruct max; [lia|easy].
Qed.
Lemma split_var c max n : (forall s, n <> TS s) -> split_items c max 0 [] [n] = [n].
Proof. intros H. destruct n; try reflexivity. now elim (H s). Qed.
Lemma vsplit_named c max t n : Named t -> name_of t = Some n -> vsplit c max t = if truthy n then Ok (split_items c max 0 [] [n]) else Exn AttributeError.
Proof. intros H E. unfold vsplit. rewrite E. now destruct H. Qed.
Lemma join_texts f s : vjoin [TS f; TS (L "("); TS s; TS (L ")")] = TS (f ++ 40 :: s ++ [41]).
Proof.
  destruct f as [|x f], s as [|y s]; unfold vjoin; cbn [fold_left]; unfold push; cbn; try reflexivity; now rewrite <- !app_assoc.
Qed.
Lemma text_name t s : TextName t s -> Named t /\ name_of t = Some (TS s).
Proof.
  intros H. destruct H; (split; [constructor|]); try reflexivity.
  - cbn [name_of]. f_equal. apply join_texts.
  - cbn [name_of]. f_equal. apply join_texts.
Qed.
Lemma map_flat parts : Forall2 Flat parts (map elems parts).
Proof. induction parts; constructor; [apply Flat_elems|easy]. Qed.

Theorem split_named c max t l : NameSeq t l ->
  (l = [] -> vsplit c max t = Exn AttributeError) /\
  (forall s, TextName t s -> s <> [] -> exists parts pl, vsplit c max t = Ok parts /\ Forall2 Flat parts pl /\ Split c max (map Ch s) pl) /\
  (forall v, In (Va v) l -> exists p, vsplit c max t = Ok [p] /\ Flat p l).
Proof.
  intros H. assert (N : Named t) by (destruct H; constructor). destruct (name_some t N) as (n & E & X). apply X in H as ->.
  rewrite (vsplit_named c max t n N E). split; [|split].
  - intros H. now rewrite (proj2 (falsy_elems n) H).
  - intros s T NE. apply text_name in T as [_ T]. rewrite T in E. injection E as <-.
    assert (TR : truthy (TS s) = true) by (apply truthy_elems; rewrite elems_str; now destruct s). rewrite TR.
    destruct (split_text c max s) as (parts & <- & SP). eexists _, _. split; [reflexivity|]. split; [apply map_flat|exact SP].
  - intros v I. assert (TR : truthy n = true) by (apply truthy_elems; intros Y; rewrite Y in I; easy). rewrite TR.
    rewrite split_var; [|intros s ->; rewrite elems_str in I; apply in_map_iff in I as (? & ? & _); discriminate]. exists n. split; [easy|apply Flat_elems].
Qed.
Theorem split_exact c max t l : Shallow t -> Flat t l ->
  (exists parts pl, vsplit c max t = Ok parts /\ Forall2 Flat parts pl /\ glue c pl = l) <-> ~ Named t.
Proof.
  intros SH FL. apply Flat_fun in FL as ->. split.
  - intros (parts & pl & V & F & G) N. rewrite (elems_named t N) in G. destruct (name_some t N) as (n & E & _).
    rewrite (vsplit_named c max t n N E) in V. destruct (truthy n); [|discriminate]. assert (EP : split_items c max 0 [] [n] = parts) by congruence. clear V. subst parts.
    apply (name_other t n N E). rewrite <- G.
    assert (PL : pl = map elems (split_items c max 0 [] [n])).
    { clear - F. revert F. generalize (split_items c max 0 [] [n]). intros ps F. induction F as [|x y ps m Hx Hl IH]; cbn [map].
      - reflexivity.
      - apply Flat_fun in Hx as ->. now rewrite <- IH. }
    rewrite PL. destruct n as [s|m|m|m|m ? ?|m ? ?|f a|f a ? ?]; try (rewrite split_var; [reflexivity|discriminate]).
    destruct (split_text c max s) as (parts & <- & SP). apply Split_glue in SP. now rewrite SP, elems_str.
  - intros N. destruct (vsplit_Split c max t SH N) as (parts & V & SP). exists parts, (map elems parts). split; [easy|]. split; [apply map_flat|].
    now apply (Split_glue c max).
Qed.
