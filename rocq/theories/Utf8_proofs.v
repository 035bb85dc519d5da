From Verif Require Import Base Utf8.
From Coq Require Import ZifyBool ZifyN.
Ltac Zify.zify_post_hook ::= Z.div_mod_to_equations.

Lemma bind_ok {A B} (r : res A) (f : A -> res B) b :
  bind r f = Ok b <-> exists a, r = Ok a /\ f a = Ok b.
Proof.
  destruct r; cbn; split; intros H; try discriminate.
  - now exists a.
  - destruct H as [a' [Ha Hb]]; now inversion Ha; subst.
  - destruct H as [a' [Ha Hb]]; discriminate.
  - destruct H as [a' [Ha Hb]]; discriminate.
Qed.

Definition is_scalar (c : N) : bool := (c <? 0xd800) || ((0xe000 <=? c) && (c <? 0x110000)).

Lemma encode1_ascii c : c < 0x80 -> utf8_encode1 c = Ok [c].
Proof. intros H; unfold utf8_encode1; destruct (N.ltb_spec c 0x80); [easy | lia]. Qed.

Lemma encode1_scalar c : is_scalar c = true <-> exists b, utf8_encode1 c = Ok b.
Proof.
  unfold utf8_encode1, is_scalar, in_rng.
  repeat match goal with |- context [if ?b then _ else _] => destruct b eqn:? end;
  split; intros H; eauto; try lia; destruct H as [b Hb]; try discriminate Hb; lia.
Qed.

Lemma encode1_high c b : utf8_encode1 c = Ok b -> 0x80 <= c ->
  Forall (fun x => 0x80 <= x < 0xf5) b /\ b <> [].
Proof.
  unfold utf8_encode1, in_rng; intros H Hc.
  repeat match type of H with context [if ?b then _ else _] => destruct b eqn:? end;
  try lia; inversion H; subst; clear H; split; try easy;
  repeat constructor; lia.
Qed.

Lemma encode1_bytes c b : utf8_encode1 c = Ok b -> Forall (fun x => x < 0xf5) b.
Proof.
  intros H. destruct (N.lt_ge_cases c 0x80).
  - rewrite encode1_ascii in H by easy. inversion H; subst. constructor; [lia | easy].
  - apply encode1_high in H as [H _]; [|easy]. eapply Forall_impl; [|exact H]. cbn; lia.
Qed.

Lemma utf8_encode_bytes s b : utf8_encode s = Ok b -> Forall (fun x => x < 0xf5) b.
Proof.
  revert b; induction s as [|c s IH]; cbn; intros b H.
  - inversion H; constructor.
  - apply bind_ok in H as [b1 [H1 H]]. apply bind_ok in H as [b2 [H2 H]].
    inversion H; subst. apply Forall_app; split; [eapply encode1_bytes; eauto | auto].
Qed.

Lemma utf8_encode_total s : (exists b, utf8_encode s = Ok b) <-> Forall (fun c => is_scalar c = true) s.
Proof.
  induction s as [|c s IH]; cbn.
  - split; [constructor | eauto].
  - split.
    + intros [b H]. apply bind_ok in H as [b1 [H1 H]]. apply bind_ok in H as [b2 [H2 H]].
      constructor; [apply encode1_scalar; eauto | apply IH; eauto].
    + intros H; inversion H as [|? ? Hc Hs]; subst.
      apply encode1_scalar in Hc as [b1 ->]. apply IH in Hs as [b2 ->]. cbn; eauto.
Qed.

Lemma utf8_encode_exn s e : utf8_encode s = Exn e -> e = UnicodeEncodeError.
Proof.
  revert e; induction s as [|c s IH]; cbn; intros e H; [discriminate|].
  destruct (utf8_encode1 c) as [b| e' |] eqn:E; cbn in H.
  - destruct (utf8_encode s) as [b2| e2 |]; cbn in H; try discriminate. inversion H; subst; auto.
  - inversion H; subst. unfold utf8_encode1 in E.
    repeat match type of E with context [if ?b then _ else _] => destruct b end; congruence.
  - discriminate.
Qed.

Lemma utf8_encode_no_hang s : utf8_encode s <> Hang.
Proof.
  induction s as [|c s IH]; cbn; [discriminate|].
  destruct (utf8_encode1 c) as [b| e' |] eqn:E; cbn; try discriminate.
  - destruct (utf8_encode s); cbn; congruence.
  - unfold utf8_encode1 in E.
    repeat match type of E with context [if ?b then _ else _] => destruct b end; congruence.
Qed.

Lemma utf8_encode_ascii s : Forall (fun c => c < 0x80) s -> utf8_encode s = Ok s.
Proof.
  induction 1 as [|c s Hc Hs IH]; cbn; [easy|].
  rewrite encode1_ascii, IH by easy; easy.
Qed.

Lemma utf8_encode_app s t bs bt :
  utf8_encode s = Ok bs -> utf8_encode t = Ok bt -> utf8_encode (s ++ t) = Ok (bs ++ bt).
Proof.
  revert bs; induction s as [|c s IH]; cbn; intros bs Hs Ht.
  - inversion Hs; subst; easy.
  - apply bind_ok in Hs as [b1 [H1 H]]. apply bind_ok in H as [b2 [H2 H]]. inversion H; subst.
    rewrite H1; cbn. erewrite IH; eauto; cbn. now rewrite app_assoc.
Qed.

(* ---- Round trips of the UTF-8 codec ---- *)

Lemma decode_encode1 c b r : utf8_encode1 c = Ok b ->
  utf8_decode (b ++ r) = (let! s := utf8_decode r in Ok (c :: s)).
Proof.
  unfold utf8_encode1; intros H.
  destruct (N.ltb_spec c 0x80) as [H1|H1].
  { inversion H; subst. cbn. destruct (N.ltb_spec c 0x80); [easy|lia]. }
  destruct (N.ltb_spec c 0x800) as [H2|H2].
  { inversion H; subst; clear H. cbn [app utf8_decode].
    destruct (N.ltb_spec (0xc0 + c / 64) 0x80); [lia|].
    unfold in_rng, cont.
    replace ((0xc2 <=? 0xc0 + c / 64) && (0xc0 + c / 64 <=? 0xdf)) with true by (symmetry; lia).
    unfold in_rng.
    replace ((0x80 <=? 0x80 + c mod 64) && (0x80 + c mod 64 <=? 0xbf)) with true by (symmetry; lia).
    replace ((0xc0 + c / 64 - 0xc0) * 64 + (0x80 + c mod 64 - 0x80)) with c by lia.
    reflexivity. }
  unfold in_rng in H.
  destruct ((0xd800 <=? c) && (c <=? 0xdfff)) eqn:H3; [discriminate|].
  destruct (N.ltb_spec c 0x10000) as [H4|H4].
  { inversion H; subst; clear H. cbn [app utf8_decode].
    destruct (N.ltb_spec (0xe0 + c / 4096) 0x80); [lia|].
    unfold in_rng, cont, in_rng.
    replace ((0xc2 <=? 0xe0 + c / 4096) && (0xe0 + c / 4096 <=? 0xdf)) with false by (symmetry; lia).
    replace ((0xe0 <=? 0xe0 + c / 4096) && (0xe0 + c / 4096 <=? 0xef)) with true by (symmetry; lia).
    match goal with |- (if ?b then _ else _) = _ => replace b with true end.
    2:{ symmetry. destruct (N.eqb_spec (0xe0 + c / 4096) 0xe0), (N.eqb_spec (0xe0 + c / 4096) 0xed); lia. }
    replace ((0xe0 + c / 4096 - 0xe0) * 4096 + (0x80 + (c / 64) mod 64 - 0x80) * 64 + (0x80 + c mod 64 - 0x80)) with c by lia.
    reflexivity. }
  destruct (N.ltb_spec c 0x110000) as [H5|H5]; [|discriminate].
  inversion H; subst; clear H. cbn [app utf8_decode].
  destruct (N.ltb_spec (0xf0 + c / 262144) 0x80); [lia|].
  unfold in_rng, cont, in_rng.
  replace ((0xc2 <=? 0xf0 + c / 262144) && (0xf0 + c / 262144 <=? 0xdf)) with false by (symmetry; lia).
  replace ((0xe0 <=? 0xf0 + c / 262144) && (0xf0 + c / 262144 <=? 0xef)) with false by (symmetry; lia).
  replace ((0xf0 <=? 0xf0 + c / 262144) && (0xf0 + c / 262144 <=? 0xf4)) with true by (symmetry; lia).
  match goal with |- (if ?b then _ else _) = _ => replace b with true end.
  2:{ symmetry. destruct (N.eqb_spec (0xf0 + c / 262144) 0xf0), (N.eqb_spec (0xf0 + c / 262144) 0xf4); lia. }
  replace ((0xf0 + c / 262144 - 0xf0) * 262144 + (0x80 + (c / 4096) mod 64 - 0x80) * 4096
           + (0x80 + (c / 64) mod 64 - 0x80) * 64 + (0x80 + c mod 64 - 0x80)) with c by lia.
  reflexivity.
Qed.

Lemma utf8_decode_encode s b : utf8_encode s = Ok b -> utf8_decode b = Ok s.
Proof.
  revert b; induction s as [|c s IH]; cbn [utf8_encode]; intros b H.
  - inversion H; reflexivity.
  - apply bind_ok in H as [b1 [H1 H]]. apply bind_ok in H as [b2 [H2 H]]. inversion H; subst.
    rewrite (decode_encode1 c) by easy. now rewrite (IH _ H2).
Qed.

Lemma encode1_2 b0 b1 : in_rng 0xc2 0xdf b0 = true -> cont b1 = true ->
  utf8_encode1 ((b0 - 0xc0) * 0x40 + (b1 - 0x80)) = Ok [b0; b1].
Proof.
  unfold in_rng, cont, in_rng, utf8_encode1; intros H0 H1.
  destruct (N.ltb_spec ((b0 - 0xc0) * 64 + (b1 - 0x80)) 0x80); [lia|].
  destruct (N.ltb_spec ((b0 - 0xc0) * 64 + (b1 - 0x80)) 0x800); [|lia].
  repeat f_equal; lia.
Qed.

Lemma encode1_3 b0 b1 b2 : in_rng 0xe0 0xef b0 = true -> cont b1 = true -> cont b2 = true ->
  (if b0 =? 0xe0 then 0xa0 <=? b1 else true) = true ->
  (if b0 =? 0xed then b1 <=? 0x9f else true) = true ->
  utf8_encode1 ((b0 - 0xe0) * 0x1000 + (b1 - 0x80) * 0x40 + (b2 - 0x80)) = Ok [b0; b1; b2].
Proof.
  unfold in_rng, cont, in_rng, utf8_encode1, in_rng; intros H0 H1 H2 H3 H4.
  assert (H3' : b0 = 0xe0 -> 0xa0 <= b1).
  { intros ->. rewrite N.eqb_refl in H3. lia. }
  assert (H4' : b0 = 0xed -> b1 <= 0x9f).
  { intros ->. rewrite N.eqb_refl in H4. lia. }
  clear H3 H4.
  set (x := (b0 - 0xe0) * 0x1000 + (b1 - 0x80) * 0x40 + (b2 - 0x80)) in *.
  assert (Hx : x = (b0 - 0xe0) * 0x1000 + (b1 - 0x80) * 0x40 + (b2 - 0x80)) by reflexivity.
  clearbody x.
  destruct (N.ltb_spec x 0x80); [lia|].
  destruct (N.ltb_spec x 0x800); [lia|].
  destruct ((0xd800 <=? x) && (x <=? 0xdfff)) eqn:?; [lia|].
  destruct (N.ltb_spec x 0x10000); [|lia].
  repeat f_equal; lia.
Qed.

Lemma encode1_4 b0 b1 b2 b3 :
  in_rng 0xf0 0xf4 b0 = true -> cont b1 = true -> cont b2 = true -> cont b3 = true ->
  (if b0 =? 0xf0 then 0x90 <=? b1 else true) = true ->
  (if b0 =? 0xf4 then b1 <=? 0x8f else true) = true ->
  utf8_encode1 ((b0 - 0xf0) * 0x40000 + (b1 - 0x80) * 0x1000 + (b2 - 0x80) * 0x40 + (b3 - 0x80))
  = Ok [b0; b1; b2; b3].
Proof.
  unfold in_rng, cont, in_rng, utf8_encode1, in_rng; intros H0 H1 H2 H2' H3 H4.
  assert (H3' : b0 = 0xf0 -> 0x90 <= b1).
  { intros ->. rewrite N.eqb_refl in H3. lia. }
  assert (H4' : b0 = 0xf4 -> b1 <= 0x8f).
  { intros ->. rewrite N.eqb_refl in H4. lia. }
  clear H3 H4.
  set (x := (b0 - 0xf0) * 0x40000 + (b1 - 0x80) * 0x1000 + (b2 - 0x80) * 0x40 + (b3 - 0x80)) in *.
  assert (Hx : x = (b0 - 0xf0) * 0x40000 + (b1 - 0x80) * 0x1000 + (b2 - 0x80) * 0x40 + (b3 - 0x80)) by reflexivity.
  clearbody x.
  destruct (N.ltb_spec x 0x80); [lia|].
  destruct (N.ltb_spec x 0x800); [lia|].
  destruct ((0xd800 <=? x) && (x <=? 0xdfff)) eqn:?; [lia|].
  destruct (N.ltb_spec x 0x10000); [lia|].
  destruct (N.ltb_spec x 0x110000); [|lia].
  repeat f_equal; lia.
Qed.

Lemma utf8_encode_decode_len n : forall b s, (List.length b <= n)%nat ->
  utf8_decode b = Ok s -> utf8_encode s = Ok b.
Proof.
  induction n as [|n IH]; intros b s Hn H.
  { destruct b; cbn in *; [inversion H; easy | lia]. }
  destruct b as [|b0 r0]; cbn in H; [inversion H; easy|].
  cbn in Hn.
  destruct (N.ltb_spec b0 0x80) as [Hb|Hb].
  { apply bind_ok in H as [s' [Hs H]]. inversion H; subst. cbn.
    rewrite encode1_ascii by easy. cbn. rewrite (IH r0) by (try easy; lia). easy. }
  destruct (in_rng 0xc2 0xdf b0) eqn:R2.
  { destruct r0 as [|b1 r1]; [discriminate|]. destruct (cont b1) eqn:C1; [|discriminate].
    apply bind_ok in H as [s' [Hs H]]. inversion H; subst. cbn [utf8_encode].
    rewrite encode1_2 by easy. cbn in *. rewrite (IH r1) by (try easy; lia). easy. }
  destruct (in_rng 0xe0 0xef b0) eqn:R3.
  { destruct r0 as [|b1 [|b2 r2]]; try discriminate.
    match type of H with (if ?b then _ else _) = _ => destruct b eqn:C end; [|discriminate].
    apply andb_prop in C as [C C4]. apply andb_prop in C as [C C3]. apply andb_prop in C as [C1 C2].
    apply bind_ok in H as [s' [Hs H]]. inversion H; subst. cbn [utf8_encode].
    rewrite encode1_3 by easy. cbn in *. rewrite (IH r2) by (try easy; lia). easy. }
  destruct (in_rng 0xf0 0xf4 b0) eqn:R4; [|discriminate].
  destruct r0 as [|b1 [|b2 [|b3 r3]]]; try discriminate.
  match type of H with (if ?b then _ else _) = _ => destruct b eqn:C end; [|discriminate].
  apply andb_prop in C as [C C5]. apply andb_prop in C as [C C4]. apply andb_prop in C as [C C3].
  apply andb_prop in C as [C1 C2].
  apply bind_ok in H as [s' [Hs H]]. inversion H; subst. cbn [utf8_encode].
  rewrite encode1_4 by easy. cbn in *. rewrite (IH r3) by (try easy; lia). easy.
Qed.

Lemma utf8_encode_decode b s : utf8_decode b = Ok s -> utf8_encode s = Ok b.
Proof. intros H; eapply utf8_encode_decode_len; [|exact H]; eauto. Qed.

Lemma latin1_encode_ok s b : latin1_encode s = Ok b <-> b = s /\ Forall (fun c => c < 0x100) s.
Proof.
  revert b; induction s as [|c s IH]; cbn; intros b.
  - split; [intros H; inversion H; split; [easy|constructor] | intros [-> _]; easy].
  - destruct (N.ltb_spec c 0x100) as [H|H].
    + rewrite bind_ok. split.
      * intros [a [Ha Hb]]. apply IH in Ha as [-> Hs]. inversion Hb; subst. split; [easy|now constructor].
      * intros [-> Hf]. inversion Hf; subst. exists s; split; [now apply IH | easy].
    + split; [discriminate|]. intros [_ Hf]; inversion Hf; subst; lia.
Qed.
