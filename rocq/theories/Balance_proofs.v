(* C30: variable_check_balance accepts exactly the balanced texts. *)
From Verif Require Import Base PyStr Var Spec_Var Var_proofs.
From Coq Require Import ZifyBool ZifyN ZifyNat.

Definition sing (c : N) : str := [c].
Definition opening (c : N) : Prop := c = 34 \/ c = 39 \/ c = 40 \/ c = 91 \/ c = 123.
Definition quoted (st : list N) : bool :=
  match st with 34 :: _ | 39 :: _ => true | _ => false end.

(* one step on characters *)
Definition closes (o c : N) : bool :=
  ((o =? 40) && (c =? 41)) || ((o =? 91) && (c =? 93)) || ((o =? 123) && (c =? 125)).
Definition bstep (st : list N) (c : N) : res (list N) :=
  if (c =? 34) || (c =? 39) then
    match st with
    | q :: r => if q =? c then Ok r else if quoted st then Ok st else Ok (c :: st)
    | [] => Ok [c]
    end
  else if quoted st then Ok st
  else if (c =? 40) || (c =? 91) || (c =? 123) then Ok (c :: st)
  else if (c =? 41) || (c =? 93) || (c =? 125) then
    match st with
    | o :: r => if closes o c then Ok r else Exn ValueError
    | [] => Exn ValueError
    end
  else Ok st.

Lemma bstep_step st c : Forall opening st ->
  balance_step (map sing st) (TS [c]) = let! st' := bstep st c in Ok (map sing st').
Proof.
  intros H.
  assert (Hc : c = 34 \/ c = 39 \/ c = 40 \/ c = 41 \/ c = 91 \/ c = 93 \/ c = 123 \/ c = 125 \/
               ~ In c special) by (unfold special; cbn; lia).
  destruct H as [|q st Hq _].
  - repeat (destruct Hc as [->|Hc]; [reflexivity|]).
    unfold balance_step, bstep. cbn [map]. unfold special in Hc. cbn [In] in Hc.
    change dq with [34]. change sq with [39]. change (L "({[") with [40; 123; 91].
    change (L ")}]") with [41; 125; 93].
    cbn [str_eqb is_infix startswith].
    repeat match goal with |- context [c =? ?k] => replace (c =? k) with false by lia end.
    reflexivity.
  - destruct Hq as [->|[->|[->|[->| ->]]]];
    (repeat (destruct Hc as [->|Hc]; [reflexivity|]);
    unfold balance_step, bstep; cbn [map]; unfold special in Hc; cbn [In] in Hc;
    change dq with [34]; change sq with [39]; change (L "({[") with [40; 123; 91];
    change (L ")}]") with [41; 125; 93];
    cbn [str_eqb is_infix startswith];
    repeat match goal with |- context [c =? ?k] => replace (c =? k) with false by lia end;
    reflexivity).
Qed.

Lemma bstep_opening st c st' : Forall opening st -> bstep st c = Ok st' -> Forall opening st'.
Proof.
  intros H. unfold bstep, opening in *.
  destruct ((c =? 34) || (c =? 39)) eqn:E1.
  - destruct st as [|q r].
    + intros [= <-]. constructor; [lia|constructor].
    + inversion H; subst. destruct (q =? c); [now intros [= <-]|].
      destruct (quoted (q :: r)); intros [= <-]; [easy|]. constructor; [lia|easy].
  - destruct (quoted st); [now intros [= <-]|].
    destruct ((c =? 40) || (c =? 91) || (c =? 123)) eqn:E2.
    + intros [= <-]. constructor; [lia|easy].
    + destruct ((c =? 41) || (c =? 93) || (c =? 125)).
      * destruct st as [|o r]; [easy|]. inversion H; subst.
        destruct (closes o c); [now intros [= <-]|easy].
      * now intros [= <-].
Qed.

(* the machine on elements *)
Fixpoint brun (st : list N) (l : list elem) : res unit :=
  match l with
  | [] => match st with [] => Ok tt | _ => Exn ValueError end
  | Ch c :: r => let! st' := bstep st c in brun st' r
  | Va _ :: r => brun st r
  end.

Lemma brun_run l : forall st, Forall opening st ->
  Forall (fun e => match e with Ch _ => True | Va t => Named t end) l ->
  balance_from (map sing st) (map unel l) = brun st l.
Proof.
  induction l as [|e l IH]; intros st Hs Hl; cbn.
  - now destruct st.
  - inversion Hl; subst. destruct e as [c|t].
    + cbn [unel]. rewrite bstep_step by easy. destruct (bstep st c) as [st'| |] eqn:E; cbn; try easy.
      apply IH; [|easy]. eapply bstep_opening; eauto.
    + cbn [unel]. destruct H1; cbn [balance_step bind]; now apply IH.
Qed.

Lemma elems_ok t : Forall (fun e => match e with Ch _ => True | Va t => Named t end) (elems t).
Proof.
  apply Forall_forall. intros [c|u] H; [easy|].
  unfold elems in H. apply in_map_iff in H. destruct H as (x & Hx & Hi).
  pose proof (items_Item t) as HI. rewrite Forall_forall in HI. destruct (HI _ Hi) as [c|t' Hn].
  - easy.
  - rewrite named_el in Hx by easy. now injection Hx as <-.
Qed.

Lemma check_brun t : check_balance (items t) = brun [] (elems t).
Proof.
  rewrite items_elems. apply (brun_run (elems t) []); [constructor|]. apply elems_ok.
Qed.

Lemma brun_outcome l : forall st, brun st l = Ok tt \/ brun st l = Exn ValueError.
Proof.
  induction l as [|[c|t] l IH]; intros st; cbn; [destruct st; auto| |easy].
  assert (Hb : (exists st', bstep st c = Ok st') \/ bstep st c = Exn ValueError).
  { unfold bstep. destruct ((c =? 34) || (c =? 39)).
    - destruct st; [eauto|]. destruct (n =? c); [eauto|]. destruct (quoted (n :: st)); eauto.
    - destruct (quoted st); [eauto|]. destruct ((c =? 40) || (c =? 91) || (c =? 123)); [eauto|].
      destruct ((c =? 41) || (c =? 93) || (c =? 125)); [|eauto].
      destruct st; [eauto|]. destruct (closes n c); eauto. }
  destruct Hb as [[st' ->]| ->]; cbn; auto.
Qed.

(* balanced text leaves the stack alone *)
Lemma bracket_open st o c : Bracket o c -> quoted st = false -> bstep st o = Ok (o :: st).
Proof. intros [] H; unfold bstep; cbn; now rewrite H. Qed.
Lemma bracket_close st o c : Bracket o c -> bstep (o :: st) c = Ok st.
Proof. now intros []. Qed.
Lemma quote_open st q : Quote q -> quoted st = false -> bstep st q = Ok (q :: st).
Proof.
  intros Hq H. unfold bstep. replace ((q =? 34) || (q =? 39)) with true by (unfold Quote in Hq; lia).
  destruct st as [|x r]; [easy|].
  destruct (N.eqb_spec x q) as [->|]; [|now rewrite H].
  destruct Hq as [-> | ->]; easy.
Qed.
Lemma quote_close st q : Quote q -> bstep (q :: st) q = Ok st.
Proof. intros [-> | ->]; reflexivity. Qed.
Lemma quote_inside st q c : Quote q -> c <> q -> bstep (q :: st) c = Ok (q :: st).
Proof.
  intros Hq Hc. unfold bstep. destruct ((c =? 34) || (c =? 39)) eqn:E.
  - replace (q =? c) with false by lia. destruct Hq as [-> | ->]; reflexivity.
  - destruct Hq as [-> | ->]; reflexivity.
Qed.
Lemma plain_step st c : ~ In c special -> bstep st c = Ok st.
Proof.
  unfold special; cbn. intros H. unfold bstep.
  repeat match goal with |- context [c =? ?k] => replace (c =? k) with false by lia end.
  cbn. now destruct (quoted st).
Qed.

Lemma brun_inside a : forall st q r, Quote q -> ~ In (Ch q) a ->
  brun (q :: st) (a ++ r) = brun (q :: st) r.
Proof.
  induction a as [|[c|t] a IH]; intros st q r Hq Ha; cbn; [easy| |].
  - rewrite quote_inside; [|easy|cbn in Ha; intros ->; tauto]. cbn. apply IH; [easy|cbn in Ha; tauto].
  - apply IH; [easy|cbn in Ha; tauto].
Qed.

Lemma balanced_brun l : Balanced l -> forall st r, quoted st = false ->
  brun st (l ++ r) = brun st r.
Proof.
  induction 1; intros st r Hs; cbn; try easy.
  - rewrite plain_step by easy. cbn. now apply IHBalanced.
  - now apply IHBalanced.
  - rewrite (bracket_open _ _ _ H Hs). cbn. rewrite <- app_assoc. rewrite IHBalanced1 by now destruct H.
    cbn. rewrite (bracket_close _ _ _ H). cbn. now apply IHBalanced2.
  - rewrite (quote_open _ _ H Hs). cbn. rewrite <- app_assoc. rewrite brun_inside by easy.
    cbn. rewrite (quote_close _ _ H). cbn. now apply IHBalanced.
Qed.

(* texts that bring the machine from a given stack to acceptance *)
Fixpoint Rest (st : list N) (l : list elem) : Prop :=
  match st with
  | [] => Balanced l
  | o :: st' =>
    (Quote o /\ exists a b, l = a ++ Ch o :: b /\ ~ In (Ch o) a /\ Rest st' b) \/
    (exists c a b, Bracket o c /\ l = a ++ Ch c :: b /\ Balanced a /\ Rest st' b)
  end.

(* quotes only on top *)
Inductive stack_ok : list N -> Prop :=
| so_nil : stack_ok []
| so_cons o st : opening o -> stack_ok st -> quoted st = false -> stack_ok (o :: st).

Lemma rest_cons_plain st c l : quoted st = false -> ~ In c special ->
  Rest st l -> Rest st (Ch c :: l).
Proof.
  intros Hs Hc H. destruct st as [|o st]; [now constructor|]. cbn in *.
  destruct H as [[Hq _]|(c' & a & b & HB & -> & Ha & HR)].
  - destruct Hq as [-> | ->]; easy.
  - right. exists c', (Ch c :: a), b. repeat split; try easy. now constructor.
Qed.

Lemma rest_cons_var st t l : Rest st l -> Rest st (Va t :: l).
Proof.
  intros H. destruct st as [|o st]; [now constructor|]. cbn in *.
  destruct H as [[Hq (a & b & -> & Hn & HR)]|(c' & a & b & HB & -> & Ha & HR)].
  - left. split; [easy|]. exists (Va t :: a), b. repeat split; try easy. cbn. intuition congruence.
  - right. exists c', (Va t :: a), b. repeat split; try easy. now constructor.
Qed.

Lemma rest_balanced st a l : quoted st = false ->
  (forall b, Balanced b -> Balanced (a ++ b)) -> Rest st l -> Rest st (a ++ l).
Proof.
  intros Hs Hc H. destruct st as [|o st]; [now apply Hc|]. cbn in *.
  destruct H as [[Hq _]|(c' & x & b & HB & -> & Ha & HR)].
  - destruct Hq as [-> | ->]; easy.
  - right. exists c', (a ++ x), b. repeat split; try easy.
    + now rewrite app_assoc.
    + now apply Hc.
Qed.

Lemma brun_rest l : forall st, stack_ok st -> brun st l = Ok tt -> Rest st l.
Proof.
  induction l as [|[c|t] l IH]; intros st Hs H; cbn in H.
  - destruct st; [constructor|easy].
  - destruct (quoted st) eqn:Q.
    + (* inside a quoted part *)
      destruct st as [|q st]; [easy|]. inversion Hs as [|? ? Ho Hst Hqt]; subst.
      assert (Hq : Quote q).
      { unfold Quote. destruct Ho as [->|[->|[->|[->| ->]]]]; try tauto; easy. }
      cbn. left. split; [easy|].
      destruct (N.eq_dec c q) as [->|Hne].
      * rewrite quote_close in H by easy. cbn in H. apply IH in H; [|easy].
        exists [], l. repeat split; easy.
      * rewrite quote_inside in H by easy. cbn in H. apply IH in H; [|easy].
        cbn in H. destruct H as [[_ (a & b & -> & Hn & HR)]|(c' & a & b & HB & _)].
        -- exists (Ch c :: a), b. repeat split; try easy. cbn. intuition congruence.
        -- destruct Hq as [-> | ->]; inversion HB.
    + assert (Hc : Quote c \/ (exists c', Bracket c c') \/ (exists o, Bracket o c) \/ ~ In c special).
      { assert (c = 34 \/ c = 39 \/ c = 40 \/ c = 41 \/ c = 91 \/ c = 93 \/ c = 123 \/ c = 125 \/
               ~ In c special) as Hc by (unfold special; cbn; lia).
        unfold Quote.
        destruct Hc as [->|[->|[->|[->|[->|[->|[->|[->|Hc]]]]]]]]; eauto 6 using Bracket. }
      destruct Hc as [Hc|[[c' Hc]|[[o Hc]|Hc]]].
      * rewrite (quote_open _ _ Hc Q) in H. cbn in H. apply IH in H.
        2:{ constructor; [|easy|easy]. unfold opening. destruct Hc; tauto. }
        cbn in H. destruct H as [[_ (a & b & -> & Hn & HR)]|(c' & a & b & HB & _)].
        -- change (Ch c :: a ++ Ch c :: b) with ((Ch c :: a) ++ Ch c :: b).
           replace ((Ch c :: a) ++ Ch c :: b) with ((Ch c :: a ++ [Ch c]) ++ b)
             by (cbn; now rewrite <- app_assoc).
           apply rest_balanced; [easy| |easy]. intros x Hx. cbn. rewrite <- app_assoc. cbn. now constructor.
        -- destruct Hc as [-> | ->]; inversion HB.
      * rewrite (bracket_open _ _ _ Hc Q) in H. cbn in H. apply IH in H.
        2:{ constructor; [|easy|easy]. unfold opening. destruct Hc; tauto. }
        cbn in H. destruct H as [[Hq _]|(c2 & a & b & HB & -> & Ha & HR)].
        -- destruct Hc; destruct Hq; easy.
        -- replace (Ch c :: a ++ Ch c2 :: b) with ((Ch c :: a ++ [Ch c2]) ++ b)
             by (cbn; now rewrite <- app_assoc).
           apply rest_balanced; [easy| |easy]. intros x Hx. cbn. rewrite <- app_assoc. cbn. now constructor.
      * (* a closing bracket *)
        destruct st as [|o' st].
        -- exfalso. destruct Hc; cbn in H; discriminate.
        -- inversion Hs as [|? ? Ho Hst Hqt]; subst.
           assert (Hb : bstep (o' :: st) c = if closes o' c then Ok st else Exn ValueError).
           { unfold bstep. rewrite Q. destruct Hc; reflexivity. }
           rewrite Hb in H. destruct (closes o' c) eqn:Ec; [|easy]. cbn in H.
           apply IH in H; [|easy]. cbn. right. exists c, [], l.
           repeat split; try easy; [|constructor].
           unfold closes in Ec. destruct Hc;
             destruct Ho as [->|[->|[->|[->| ->]]]]; try discriminate; constructor.
      * rewrite plain_step in H by easy. cbn in H. apply rest_cons_plain; auto.
  - apply rest_cons_var. now apply IH.
Qed.

Lemma balance_exact t l : Flat t l ->
  (check_balance (items t) = Ok tt <-> Balanced l) /\
  (check_balance (items t) <> Ok tt -> check_balance (items t) = Exn ValueError).
Proof.
  intros Hf. apply Flat_fun in Hf. subst l. rewrite check_brun. split.
  - split.
    + intros H. apply (brun_rest _ [] so_nil H).
    + intros H. pose proof (balanced_brun _ H [] [] eq_refl) as E. rewrite app_nil_r in E. exact E.
  - intros H. destruct (brun_outcome (elems t) []); easy.
Qed.
