(* Proofs for C61: no line ends within a message. *)
From Coq Require Import ZifyBool ZifyN ZifyNat.
From Verif Require Import Base PyStr Defines Var VarFun Spec_Var Var_proofs.

Definition NL (s : str) : Prop := Forall (fun c => c <> 10) s.
Lemma nl_in s : NL s <-> ~ In 10 s.
Proof.
  unfold NL. rewrite Forall_forall. split; [intros H K; now apply (H 10)|]. intros H x I ->. easy.
Qed.
Lemma nl_app a b : NL (a ++ b) <-> NL a /\ NL b.
Proof. apply Forall_app. Qed.
Lemma nl_sub a b : (forall c, In c a -> In c b) -> NL b -> NL a.
Proof. rewrite !nl_in. auto. Qed.
Lemma nl_concat l : NL (List.concat l) <-> Forall NL l.
Proof. induction l as [|x l IH]; cbn [List.concat]; [now split; constructor|]. rewrite nl_app, IH. split; [intros []; now constructor|intros H; inversion H; now split]. Qed.
(* literals *)
Definition nlb (s : str) : bool := forallb (fun c => negb (c =? 10)) s.
Lemma nlb_ok s : nlb s = true -> NL s.
Proof. unfold nlb, NL. rewrite forallb_forall, Forall_forall. intros H x I. specialize (H x I). lia. Qed.
Ltac nlit := apply nlb_ok; vm_compute; reflexivity.

Lemma nl_digits f : forall n acc, NL acc -> NL (digits_fuel f n acc).
Proof.
  induction f as [|f IH]; intros n acc H; cbn [digits_fuel]; [easy|]. assert (NL (48 + n mod 10 :: acc)) by (constructor; [lia|easy]).
  destruct (n / 10 =? 0); [easy|now apply IH].
Qed.
Lemma nl_nstr n : NL (nstr n).
Proof. apply nl_digits. constructor. Qed.
Lemma nl_zstr z : NL (zstr z).
Proof. destruct z; cbn [zstr]; [nlit|apply nl_nstr|]. constructor; [lia|apply nl_nstr]. Qed.

(* ---- values ---- *)
Fixpoint tchars (t : tok) : str :=
  let nchars x := match x with NI _ => [] | NV v => tchars v end in
  let ochars x := match x with Some y => nchars y | None => [] end in
  match t with
  | TS s => s
  | TList l => flat_map tchars l
  | TVar n | TExpr n | TSlice n _ _ => tchars n
  | TDyn n st ln => tchars n ++ nchars st ++ ochars ln
  | TFunc f a => f ++ tchars a
  | TFuncS f a st ln => f ++ tchars a ++ nchars st ++ ochars ln
  end.
Definition TOk (t : tok) : Prop := NL (tchars t).
Definition NOk (x : num tok) : Prop := match x with NI _ => True | NV v => TOk v end.
Definition OOk {A} (R : A -> Prop) (x : option A) : Prop := match x with Some y => R y | None => True end.
Definition SOk (s : sliced) : Prop := match s with SlTok t => TOk t | SlList l => Forall TOk l end.

Lemma tok_list l : TOk (TList l) <-> Forall TOk l.
Proof.
  unfold TOk. cbn [tchars]. induction l as [|x l IH]; cbn [flat_map]; [now split; constructor|]. rewrite nl_app, IH.
  split; [intros []; now constructor|intros H; inversion H; now split].
Qed.
Lemma tok_dyn n st ln : TOk (TDyn n st ln) <-> TOk n /\ NOk st /\ OOk NOk ln.
Proof. unfold TOk, NOk, OOk. cbn [tchars]. rewrite !nl_app. destruct st, ln as [[]|]; unfold TOk; repeat split; try constructor; try tauto. Qed.
Lemma tok_func f a : TOk (TFunc f a) <-> NL f /\ TOk a.
Proof. unfold TOk. cbn [tchars]. now rewrite nl_app. Qed.
Lemma tok_funcs f a st ln : TOk (TFuncS f a st ln) <-> NL f /\ TOk a /\ NOk st /\ OOk NOk ln.
Proof. unfold TOk, NOk, OOk. cbn [tchars]. rewrite !nl_app. destruct st, ln as [[]|]; unfold TOk; repeat split; try constructor; try tauto. Qed.
Lemma tok_ts s : TOk (TS s) <-> NL s.
Proof. easy. Qed.

Lemma nl_slice a b c : NL a -> NL b -> OOk NL c -> NL (slice_text a b c).
Proof.
  intros A B C. unfold slice_text. rewrite !nl_app. destruct c as [c|]; cbn [OOk] in C; rewrite ?nl_app; repeat split; try nlit; easy.
Qed.
Lemma ok_inj {A} (a b : A) : Ok a = Ok b -> a = b.
Proof. now intros [= ->]. Qed.
Lemma str_of_ok t : forall s, str_of t = Ok s -> TOk t -> NL s.
Proof.
  induction t as [s|l H|t IHt|t IHt|t start len IHt|t start len IHt H H0|f t IHt|f t start len IHt H H0] using tok_ind2; intros s0 E T.
  - apply ok_inj in E as <-. easy.
  - apply tok_list in T. cbn [str_of] in E. revert s0 E. induction H as [|x l Hx H IH]; intros s0 E; [apply ok_inj in E as <-; constructor|].
    inversion T; subst. destruct (str_of x) as [a| |] eqn:Ea; cbn [bind] in E; try easy.
    match goal with [E : context [bind ?g _] |- _] => destruct g as [b| |] eqn:Eb; cbn [bind] in E; try easy end.
    apply ok_inj in E as <-. apply nl_app. split; [now apply Hx|now apply IH].
  - cbn [str_of] in E. destruct (truthy t); [|easy]. destruct (str_of t) as [a| |]; cbn [bind] in E; try easy. apply ok_inj in E as <-.
    rewrite !nl_app. repeat split; try nlit. now apply IHt.
  - cbn [str_of] in E. destruct (truthy t); [|easy]. destruct (str_of t) as [a| |]; cbn [bind] in E; try easy. apply ok_inj in E as <-.
    rewrite !nl_app. repeat split; try nlit. now apply IHt.
  - cbn [str_of] in E. destruct (str_of t) as [a| |]; cbn [bind] in E; try easy. apply ok_inj in E as <-.
    apply nl_slice; [now apply IHt|apply nl_zstr|]. destruct len; [apply nl_zstr|exact I].
  - apply tok_dyn in T as (T & T1 & T2). cbn [str_of] in E. destruct (str_of t) as [a| |]; cbn [bind] in E; try easy.
    match goal with [E : context [bind ?g _] |- _] => destruct g as [b| |] eqn:Eb; cbn [bind] in E; try easy end.
    match goal with [E : context [bind ?g _] |- _] => destruct g as [c| |] eqn:Ec; cbn [bind] in E; try easy end.
    apply ok_inj in E as <-. apply nl_slice; [now apply IHt| |].
    + destruct start; [apply ok_inj in Eb as <-; apply nl_zstr|]. now apply H.
    + destruct len as [[z|v]|]; [apply ok_inj in Ec as <-; apply nl_zstr| |now apply ok_inj in Ec as <-].
      destruct (str_of v) as [d| |] eqn:Ed; cbn [bind] in Ec; try easy. apply ok_inj in Ec as <-. now apply H0.
  - apply tok_func in T as [T1 T]. cbn [str_of] in E. destruct (str_of t) as [a| |]; cbn [bind] in E; try easy. apply ok_inj in E as <-.
    rewrite !nl_app. repeat split; try nlit; [easy|now apply IHt].
  - apply tok_funcs in T as (T0 & T & T1 & T2). cbn [str_of] in E. destruct (str_of t) as [a| |]; cbn [bind] in E; try easy.
    match goal with [E : context [bind ?g _] |- _] => destruct g as [b| |] eqn:Eb; cbn [bind] in E; try easy end.
    match goal with [E : context [bind ?g _] |- _] => destruct g as [c| |] eqn:Ec; cbn [bind] in E; try easy end.
    apply ok_inj in E as <-. apply nl_slice; [rewrite !nl_app; repeat split; try nlit; [easy|now apply IHt]| |].
    + destruct start; [apply ok_inj in Eb as <-; apply nl_zstr|]. now apply H.
    + destruct len as [[z|v]|]; [apply ok_inj in Ec as <-; apply nl_zstr| |now apply ok_inj in Ec as <-].
      destruct (str_of v) as [d| |] eqn:Ed; cbn [bind] in Ec; try easy. apply ok_inj in Ec as <-. now apply H0.
Qed.

Lemma items_ok t : TOk t -> Forall TOk (items t).
Proof.
  induction t using tok_ind2; intros T; try (constructor; [exact T|constructor]).
  - cbn [items]. unfold chars. apply Forall_forall. intros x I. apply in_map_iff in I as (c & <- & I). constructor; [|constructor].
    change (Forall (fun c => c <> 10) s) in T. rewrite Forall_forall in T. now apply T.
  - apply tok_list in T. cbn [items]. revert T. induction H as [|x l Hx H IH]; intros T; cbn [flat_map]; [constructor|]. inversion T; subst.
    apply Forall_app. split; [now apply Hx|now apply IH].
Qed.
Lemma push_ok copy v : Forall TOk copy -> TOk v -> Forall TOk (push copy v).
Proof.
  intros H V. unfold push. destruct (negb (truthy v)); [easy|]. assert (Forall TOk (v :: copy)) by now constructor.
  destruct v, copy as [|[]]; try easy. inversion H; subst. constructor; [|easy]. apply tok_ts. apply nl_app. now split.
Qed.
Lemma fold_push_ok l : forall c, Forall TOk c -> Forall TOk l -> Forall TOk (fold_left push l c).
Proof. induction l as [|x l IH]; intros c C H; cbn [fold_left]; [easy|]. inversion H; subst. apply IH; [now apply push_ok|easy]. Qed.
Lemma vjoin_ok l : Forall TOk l -> TOk (vjoin l).
Proof.
  intros H. unfold vjoin. assert (X : Forall TOk (rev (fold_left push l []))) by (apply Forall_rev, fold_push_ok; [constructor|easy]).
  destruct (rev (fold_left push l [])) as [|x [|y r]]; [constructor|now inversion X|]. now apply tok_list.
Qed.
Lemma strjoin_ok l : forall c, OOk NL c -> Forall TOk l -> Forall TOk (strjoin_from c l).
Proof.
  induction l as [|x l IH]; intros c C H; cbn [strjoin_from].
  - destruct c; [constructor; [exact C|]|]; constructor.
  - inversion H as [|? ? Hx Hl]; subst. assert (K : Forall TOk (match c with Some s => TS s :: x :: strjoin_from None l | None => x :: strjoin_from None l end)).
    { destruct c; repeat constructor; try easy; apply IH; easy. }
    destruct x; try exact K. apply IH; [|easy]. destruct c; [apply nl_app; now split|easy].
Qed.
Lemma slice_ok t its : Forall TOk its -> SOk (slice_of t its).
Proof.
  intros H. assert (K : SOk (match strjoin its with [x] => SlTok x | l => SlList l end)).
  { pose proof (strjoin_ok its None I H) as S. unfold strjoin. destruct (strjoin_from None its) as [|x [|y r]]; cbn [SOk]; [constructor|now inversion S|easy]. }
  destruct t; try exact K. cbn [slice_of SOk]. apply tok_ts. clear K. induction H as [|x its Hx H IH]; cbn [flat_map]; [constructor|].
  apply nl_app. split; [|easy]. destruct x; [exact Hx|constructor..].
Qed.
Lemma sl_items_ok s : SOk s -> Forall TOk (sl_items s).
Proof. destruct s; cbn; [apply items_ok|easy]. Qed.
Lemma name_of_ok t n : TOk t -> name_of t = Some n -> TOk n.
Proof.
  destruct t; cbn [name_of]; intros T E; try easy; injection E as <-; try exact T.
  - now apply tok_dyn in T as [T _].
  - apply tok_func in T as [T0 T]. apply vjoin_ok. repeat constructor; try easy; nlit.
  - apply tok_funcs in T as (T0 & T & _). apply vjoin_ok. repeat constructor; try easy; nlit.
Qed.
Lemma ssplit_ok c s : forall m, NL s -> Forall NL (ssplit c m s).
Proof.
  induction s as [|x s IH]; intros m H; cbn [ssplit]; [repeat constructor|]. inversion H; subst.
  destruct ((x =? c) && _); [constructor; [constructor|now apply IH]|].
  specialize (IH m ltac:(easy)). destruct (ssplit c m s); [repeat constructor; easy|]. inversion IH; subst. constructor; [now constructor|easy].
Qed.
Lemma close_ok c : Forall TOk c -> TOk (close_group c).
Proof.
  intros H. unfold close_group. assert (X : Forall TOk (rev c)) by now apply Forall_rev. destruct (rev c) as [|x [|y r]]; [constructor|now inversion X|now apply vjoin_ok].
Qed.
Lemma opt_cons_ok s c : NL s -> Forall TOk c -> Forall TOk (opt_cons s c).
Proof. intros S C. unfold opt_cons. destruct s; [easy|now constructor]. Qed.
Lemma add_parts_ok ps : forall c gs c', Forall NL ps -> Forall TOk c -> add_parts c ps = (gs, c') -> Forall TOk gs /\ Forall TOk c'.
Proof.
  induction ps as [|p ps IH]; intros c gs c' H C E; cbn [add_parts] in E; [injection E as <- <-; now split|]. inversion H; subst.
  destruct ps as [|q ps]; [injection E as <- <-; split; [constructor|now apply opt_cons_ok]|].
  destruct (add_parts [] (q :: ps)) as [g c1] eqn:G. injection E as <- <-. destruct (IH [] g c1) as [A B]; [easy|constructor|easy|].
  split; [|easy]. constructor; [|easy]. apply close_ok. now apply opt_cons_ok.
Qed.
Lemma split_items_ok c m l : forall d cur, Forall TOk l -> Forall TOk cur -> Forall TOk (split_items c m d cur l).
Proof.
  induction l as [|x l IH]; intros d cur H C; cbn [split_items]; [constructor; [now apply close_ok|constructor]|]. inversion H; subst.
  assert (K : Forall TOk (split_items c m d (x :: cur) l)) by (apply IH; [easy|now constructor]).
  destruct x; try exact K. destruct (negb _ || _); [exact K|]. cbv zeta. destruct (add_parts cur _) as [gs cur'] eqn:G.
  apply add_parts_ok in G as [A B]; [|now apply ssplit_ok|easy]. apply Forall_app. split; [easy|now apply IH].
Qed.
Lemma vsplit_ok c m t l : TOk t -> vsplit c m t = Ok l -> Forall TOk l.
Proof.
  intros T. assert (K : match name_of t with Some n => if truthy n then Ok (split_items c m 0 [] [n]) else Exn AttributeError | None => Exn AttributeError end = Ok l -> Forall TOk l).
  { destruct (name_of t) as [n|] eqn:E; [|easy]. destruct (truthy n); [|easy]. intros E'. apply ok_inj in E' as <-. apply split_items_ok; [|constructor]. constructor; [|constructor]. exact (name_of_ok _ _ T E). }
  destruct t; try exact K; cbn [vsplit]; intros E; apply ok_inj in E as <-.
  - apply Forall_map. eapply Forall_impl; [|apply ssplit_ok; exact T]. easy.
  - apply split_items_ok; [now apply tok_list|constructor].
Qed.
Lemma lstrip_sub p s c : In c (lstrip_p p s) -> In c s.
Proof. induction s as [|x s IH]; cbn [lstrip_p]; [easy|]. destruct (p x); [intros H; right; now apply IH|easy]. Qed.
Lemma rstrip_sub p s c : In c (rstrip_p p s) -> In c s.
Proof. induction s as [|x s IH]; cbn [rstrip_p]; [easy|]. destruct (rstrip_p p s) as [|n l]; [destruct (p x); [easy|cbn; tauto]|]. intros [->|H]; [now left|right; now apply IH]. Qed.
Lemma strip_sub p s c : In c (strip_p p s) -> In c s.
Proof. unfold strip_p. intros H. now apply rstrip_sub, lstrip_sub in H. Qed.
Lemma strip_last_ok l : Forall TOk l -> Forall TOk (strip_last l).
Proof.
  intros H. unfold strip_last. destruct (last_opt l); [|easy]. destruct (blank t); [|easy]. clear - H. induction H as [|x l Hx H IH]; [constructor|]. cbn [removelast]. destruct l; [constructor|now constructor].
Qed.
Lemma vstrip_ok t t' : TOk t -> vstrip t = Ok t' -> TOk t'.
Proof.
  intros T. assert (K : match name_of t with Some n => if truthy n then Ok t else Exn AttributeError | None => Exn AttributeError end = Ok t' -> TOk t').
  { destruct (name_of t) as [n|]; [|easy]. destruct (truthy n); [|easy]. now intros [= <-]. }
  destruct t; try exact K; cbn [vstrip].
  - intros [= <-]. apply tok_ts. eapply nl_sub; [|exact T]. intros c. apply strip_sub.
  - destruct l as [|x r]; [easy|]. apply tok_list in T. set (l' := strip_last _).
    assert (X : Forall TOk l') by (apply strip_last_ok; destruct (blank x); [now inversion T|easy]).
    destruct (Nat.eqb _ _); [intros [= <-]; now apply tok_list|]. destruct l' as [|y [|z q]]; intros [= <-]; [now apply tok_list|now inversion X|now apply tok_list].
Qed.
