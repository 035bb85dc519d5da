From Verif Require Import Base PyStr Regex.

(* soundness: every item matches its segment, the segments give the text back *)
Definition seg_ok (i : item) (s : str) : Prop :=
  match i with
  | One p => exists c, s = [c] /\ p c = true
  | Greedy p | Lazy p => forallb p s = true
  end.

Lemma re_sound l s g : re_match l s = Some g ->
  Forall2 seg_ok l g /\ exists t, s = List.concat g ++ t /\ at_end t = true.
Proof.
  revert s g; induction l as [|i l IH]; intros s g H.
  - cbn in H. destruct (at_end s) eqn:E; [|easy]. injection H as <-. split; [constructor|]. now exists s.
  - destruct i as [p|p|p]; cbn in H.
    + destruct s as [|c s]; [easy|]. destruct (p c) eqn:Pc; [|easy].
      destruct (re_match l s) as [g'|] eqn:E; [|easy]. injection H as <-.
      destruct (IH _ _ E) as (F & t & -> & A). split; [constructor; [now exists c|easy]|]. now exists t.
    + revert g H; induction s as [|c s IHs]; intros g H; cbn in H.
      * destruct (re_match l []) as [g'|] eqn:E; [|easy]. injection H as <-.
        destruct (IH _ _ E) as (F & t & E1 & A). split; [now constructor|]. now exists t.
      * assert (K : forall g, option_map (cons []) (re_match l (c :: s)) = Some g ->
          Forall2 seg_ok (Greedy p :: l) g /\ exists t, c :: s = List.concat g ++ t /\ at_end t = true).
        { intros g0 H0. destruct (re_match l (c :: s)) as [g'|] eqn:E; [|easy]. injection H0 as <-.
          destruct (IH _ _ E) as (F & t & E1 & A). split; [now constructor|]. now exists t. }
        destruct (p c) eqn:Pc; [|now apply K].
        destruct (greedy (re_match l) p s) as [[|seg segs]|] eqn:E; [now apply K| |now apply K].
        injection H as <-. destruct (IHs _ eq_refl) as (F & t & -> & A). inversion F; subst.
        split; [constructor; [cbn; cbn in H2; now rewrite Pc|easy]|]. now exists t.
    + revert g H; induction s as [|c s IHs]; intros g H; cbn in H.
      * destruct (re_match l []) as [g'|] eqn:E; [|easy]. injection H as <-.
        destruct (IH _ _ E) as (F & t & E1 & A). split; [now constructor|]. now exists t.
      * destruct (re_match l (c :: s)) as [g'|] eqn:E.
        { injection H as <-. destruct (IH _ _ E) as (F & t & E1 & A). split; [now constructor|]. now exists t. }
        destruct (p c) eqn:Pc; [|easy].
        destruct (lazy (re_match l) p s) as [[|seg segs]|] eqn:E2; [easy| |easy].
        injection H as <-. destruct (IHs _ eq_refl) as (F & t & -> & A). inversion F; subst.
        split; [constructor; [cbn; cbn in H2; now rewrite Pc|easy]|]. now exists t.
Qed.

(* a greedy star takes the longest run if the rest matches behind it *)
Lemma greedy_take k p a b segs : forallb p a = true ->
  match b with [] => True | c :: _ => p c = false end ->
  k b = Some segs -> greedy k p (a ++ b) = Some (a :: segs).
Proof.
  intros Fa Hb Hk. induction a as [|c a IH]; cbn.
  - destruct b as [|c b]; cbn; [now rewrite Hk|]. now rewrite Hb, Hk.
  - cbn in Fa. apply andb_prop in Fa as [-> Fa]. now rewrite (IH Fa).
Qed.

(* a lazy star steps over a character if nothing matches here *)
Lemma lazy_step k p c s seg segs : k (c :: s) = None -> p c = true ->
  lazy k p s = Some (seg :: segs) -> lazy k p (c :: s) = Some ((c :: seg) :: segs).
Proof. intros H1 H2 H3. cbn. now rewrite H1, H2, H3. Qed.

Lemma lazy_here k p s segs : k s = Some segs -> lazy k p s = Some ([] :: segs).
Proof. intros H. destruct s; cbn; now rewrite H. Qed.
