(* C32: could_match; C29: substrings. *)
From Verif Require Import Base PyStr Var Spec_Var Var_proofs Balance_proofs.
From Coq Require Import ZifyBool ZifyN ZifyNat.

Lemma glob_var p s v : is_str v = false ->
  glob_match (v :: p) s = true <->
  exists x r, s = x ++ r /\ ~ In 10 x /\ glob_match p r = true.
Proof.
  intros Hv.
  assert (E : glob_match (v :: p) s =
    (fix star (s : str) : bool :=
       glob_match p s || match s with [] => false | c :: s' => negb (c =? 10) && star s' end) s)
    by now destruct v.
  rewrite E. clear E. induction s as [|c s IH].
  - rewrite Bool.orb_false_r. split.
    + intros H. now exists [], [].
    + intros (x & r & E & _ & H). destruct x; [|easy]. cbn in E. now subst.
  - rewrite Bool.orb_true_iff, Bool.andb_true_iff, IH. split.
    + intros [H|[Hc (x & r & -> & Hx & H)]].
      * now exists [], (c :: s).
      * exists (c :: x), r. repeat split; try easy. cbn. intuition lia.
    + intros ([|y x] & r & E & Hx & H).
      * left. cbn in E. now subst.
      * right. injection E as <- ->. split; [cbn in Hx; lia|].
        exists x, r. cbn in Hx. tauto.
Qed.

Lemma glob_inst l : forall s,
  Forall (fun e => match e with Ch _ => True | Va t => Named t end) l -> ~ In 10 s ->
  glob_match (map unel l) s = true <-> Instance l s.
Proof.
  induction l as [|[c|t] l IH]; intros s Hl Hs; cbn [map unel].
  - cbn. split.
    + intros H. apply Bool.orb_true_iff in H. destruct H as [H|H]; apply str_eqb_eq in H; subst.
      * constructor.
      * exfalso. apply Hs. now left.
    + inversion 1. easy.
  - inversion Hl; subst. cbn [glob_match]. split.
    + intros H. apply Bool.andb_true_iff in H. destruct H as [Hst H].
      apply startswith_app in Hst. destruct Hst as [r ->]. cbn in H, Hs |- *.
      constructor. apply IH; tauto.
    + inversion 1; subst. cbn. rewrite N.eqb_refl. cbn. cbn in Hs. apply IH; tauto.
  - inversion Hl; subst. rewrite glob_var by now destruct H1. split.
    + intros (x & r & -> & Hx & H). constructor. apply IH; [easy| |easy].
      rewrite in_app_iff in Hs. tauto.
    + inversion 1; subst. exists x, s0. rewrite in_app_iff in Hs. repeat split; [tauto|].
      apply IH; tauto.
Qed.

Lemma could_match_exact t l s : Flat t l -> ~ In 10 s -> is_str t = false ->
  could_match t s = true <-> Instance l s.
Proof.
  intros Hf Hs Ht. apply Flat_fun in Hf. subst l.
  assert (G : glob_match (items t) s = true <-> Instance (elems t) s).
  { rewrite items_elems. apply glob_inst; [apply elems_ok|easy]. }
  unfold could_match. destruct (name_of t) as [n|] eqn:En; [|easy].
  destruct (truthy n); [|easy]. split; [intros _|easy].
  assert (Hn : Named t) by (destruct t; try discriminate; constructor).
  rewrite elems_named by easy. rewrite <- (app_nil_r s). constructor. constructor.
Qed.

Lemma glob_line l : forall s, Forall (fun e => match e with Ch _ => True | Va t => Named t end) l ->
  glob_match (map unel l) s = true <-> exists x, LineInstance l x /\ (s = x \/ s = x ++ [10]).
Proof.
  induction l as [|[c|t] l IH]; intros s Hl; cbn [map unel].
  - cbn [glob_match]. rewrite Bool.orb_true_iff. split.
    + intros [H|H]; apply str_eqb_eq in H; subst; exists []; split; try constructor; easy.
    + intros (x & H & E). inversion H; subst. destruct E as [->| ->]; [left|right]; reflexivity.
  - inversion Hl; subst. cbn [glob_match]. split.
    + intros H. apply Bool.andb_true_iff in H. destruct H as [Hst H].
      apply startswith_app in Hst. destruct Hst as [r ->]. cbn in H |- *.
      apply IH in H as (x & I & E); [|easy]. exists (c :: x). split; [now constructor|]. destruct E as [->| ->]; [left|right]; reflexivity.
    + intros (x & H & E). inversion H; subst. apply Bool.andb_true_iff.
      destruct E as [->| ->]; (split; [cbn; now rewrite N.eqb_refl|]; cbn; apply IH; [easy|]; eexists; split; [eassumption|]; auto).
  - inversion Hl; subst. rewrite glob_var by now destruct H1. split.
    + intros (x & r & -> & Hx & H). apply IH in H as (y & I & E); [|easy]. exists (x ++ y). split; [now constructor|].
      destruct E as [->| ->]; [left|right]; [easy|now rewrite app_assoc].
    + intros (y & H & E). inversion H; subst.
      destruct E as [->| ->].
      * exists x, s0. split; [easy|]. split; [easy|]. apply IH; [easy|]. exists s0. auto.
      * exists x, (s0 ++ [10]). split; [now rewrite app_assoc|]. split; [easy|]. apply IH; [easy|]. exists s0. auto.
Qed.
Lemma nameless_iff t n : name_of t = Some n -> truthy n = false <-> Nameless t.
Proof.
  assert (T : forall n, truthy n = false <-> Flat n []).
  { intros m. rewrite falsy_elems, Flat_iff. split; congruence. }
  intros E. destruct t as [x|x|n0|n0|n0 a b|n0 a b|f a|f a b c]; cbn [name_of] in E; try discriminate; injection E as <-.
  all: try (rewrite T; split; [now constructor|now inversion 1]).
  all: split; [|now inversion 1]; rewrite falsy_elems, vjoin_elems; cbn [flat_map]; rewrite (elems_str (L "(")); intros H;
    apply app_eq_nil in H as [_ H]; discriminate.
Qed.
Lemma could_match_all t l s : Flat t l -> is_str t = false -> could_match t s = true <-> CouldBe t l s.
Proof.
  intros Hf Ht. apply Flat_fun in Hf. subst l. unfold CouldBe.
  assert (G : glob_match (items t) s = true <-> exists x, LineInstance (elems t) x /\ (s = x \/ s = x ++ [10])).
  { rewrite items_elems. apply glob_line, elems_ok. }
  unfold could_match. destruct (name_of t) as [n|] eqn:En.
  - assert (Hn : Named t) by (destruct t; try discriminate; constructor). pose proof (nameless_iff t n En) as NI.
    destruct (truthy n).
    + split; [intros _|easy]. left. split; [easy|]. intros H. apply NI in H. discriminate.
    + rewrite G. split; [now right|]. intros [[_ H]|H]; [|easy]. exfalso. apply H. now apply NI.
  - rewrite G. split; [now right|]. intros [[H _]|H]; [|easy]. destruct H; discriminate.
Qed.

(* C29 *)
Lemma pyslice_sub {A} (v : list A) (a : Z) (b : option Z) :
  let n := Z.of_nat (length v) in
  let lo := clamp n a in
  let hi := match b with Some x => clamp n x | None => n end in
  exists p q, v = p ++ pyslice v a b ++ q /\ Z.of_nat (length p) = lo /\
    Z.of_nat (length (pyslice v a b)) = Z.max 0 (hi - lo).
Proof.
  intros n lo hi. unfold pyslice. fold n. fold lo. fold hi.
  assert (Hlo : (0 <= lo <= n)%Z) by (unfold lo, clamp, n; destruct (a <? 0)%Z eqn:?; lia).
  assert (Hhi : (0 <= hi <= n)%Z).
  { unfold hi. destruct b; [|unfold n; lia]. unfold clamp, n. destruct (z <? 0)%Z eqn:?; lia. }
  exists (firstn (Z.to_nat lo) v), (skipn (Z.to_nat (hi - lo)) (skipn (Z.to_nat lo) v)).
  split; [|split].
  - rewrite firstn_skipn. now rewrite firstn_skipn.
  - rewrite firstn_length. unfold n in *. lia.
  - rewrite firstn_length, skipn_length. unfold n in *. lia.
Qed.

Lemma endpos_sub v off len e : slice_endpos off len = Ok e ->
  (off >= 0 \/ len < 0 \/ - off <= Z.of_nat (length v))%Z ->
  AstSubstring v off (Some len) (pyslice v off (Some e)).
Proof.
  unfold slice_endpos. intros He Hc.
  destruct (pyslice_sub v off (Some e)) as (p & q & H1 & H2 & H3).
  exists p, q. split; [exact H1|]. rewrite H2, H3. unfold ast_offset, clamp.
  clear H1 H2 H3.
  destruct (len =? 0)%Z eqn:E0; [discriminate|].
  destruct (len <? 0)%Z eqn:E1.
  - injection He as <-. rewrite E1. destruct (off <? 0)%Z eqn:E2; split; lia.
  - destruct (off <? 0)%Z eqn:E2.
    + destruct (off + len <? 0)%Z eqn:E3; [|discriminate]. injection He as <-. rewrite E3.
      split; lia.
    + injection He as <-. destruct (off + len <? 0)%Z eqn:E3; split; lia.
Qed.

Lemma noend_sub v off : AstSubstring v off None (pyslice v off None).
Proof.
  destruct (pyslice_sub v off None) as (p & q & H1 & H2 & H3).
  exists p, q. split; [exact H1|]. rewrite H2, H3. unfold ast_offset, clamp.
  destruct (off <? 0)%Z eqn:E2; split; lia.
Qed.

Lemma AstSubstring_fun v off len r r' :
  AstSubstring v off len r -> AstSubstring v off len r' -> r = r'.
Proof.
  intros (a & b & H1 & H2 & H3) (a' & b' & H1' & H2' & H3').
  rewrite <- H2' in H2. rewrite <- H3' in H3. apply Nat2Z.inj in H2. apply Nat2Z.inj in H3.
  rewrite H1 in H1'. clear - H1' H2 H3.
  assert (E : a = a' /\ r ++ b = r' ++ b').
  { revert a' H1' H2. induction a as [|x a IH]; intros [|y a'] H1' H2; try discriminate; [now split|].
    cbn in H1'. injection H1' as -> H1'. destruct (IH a' H1') as [-> ->]; [cbn in H2; lia|easy]. }
  destruct E as [_ E]. clear - E H3.
  revert r' E H3. induction r as [|x r IH]; intros [|y r'] E H3; try discriminate; [easy|].
  cbn in E. injection E as -> E. f_equal. apply IH; [easy|cbn in H3; lia].
Qed.

(* formatting a sliced variable *)
Lemma slice_format env n off len k v r : tformat env n = Ok k -> env k = Some v ->
  tformat env (TSlice n off len) = Ok r ->
  (off >= 0 \/ len = None \/ (exists l, len = Some l /\ l < 0) \/ - off <= Z.of_nat (length v))%Z ->
  AstSubstring v off len r.
Proof.
  intros Hn Hk H Hc. cbn in H. rewrite Hn in H. cbn in H. rewrite Hk in H. cbn in H.
  destruct len as [l|].
  - destruct (slice_endpos off l) as [e| |] eqn:E; try discriminate. cbn in H. injection H as <-.
    apply endpos_sub; [easy|]. destruct Hc as [Hc|[Hc|[(l' & [= <-] & Hc)|Hc]]]; try easy; tauto.
  - injection H as <-. apply noend_sub.
Qed.

(* exactly when *)
Lemma slice_format_iff env n off len k v r : tformat env n = Ok k -> env k = Some v ->
  tformat env (TSlice n off len) = Ok r ->
  (AstSubstring v off len r <->
   (off >= 0 \/ len = None \/ (exists l, len = Some l /\ l < 0) \/ - off <= Z.of_nat (length v))%Z \/ v = []).
Proof.
  intros Hn Hk H. split.
  - intros (a & b & H1 & H2 & H3). cbn in H. rewrite Hn in H. cbn in H. rewrite Hk in H. cbn in H.
    destruct len as [l|]; [|left; tauto].
    destruct (Z_ge_dec off 0) as [|Ho]; [left; tauto|]. destruct (Z_lt_dec l 0) as [|Hl]; [left; right; right; left; now exists l|].
    destruct (Z_le_dec (- off) (Z.of_nat (length v))) as [|Hv]; [left; tauto|]. right. destruct v as [|x v]; [easy|exfalso].
    destruct (slice_endpos off l) as [e| |] eqn:E; try discriminate. cbn in H. injection H as <-.
    destruct (pyslice_sub (x :: v) off (Some e)) as (p & q & H1' & H2' & H3').
    rewrite H3' in H3. clear H1' H2' H3' H1. unfold slice_endpos in E. unfold ast_offset, clamp in *.
    destruct (l =? 0)%Z eqn:E0; [discriminate|]. destruct (l <? 0)%Z eqn:E1; [lia|]. destruct (off <? 0)%Z eqn:E2; [|lia].
    destruct (off + l <? 0)%Z eqn:E3; [|discriminate]. injection E as <-. rewrite E3 in *. cbn [length] in *. lia.
  - intros [Hc| ->]; [now apply (slice_format env n off len k v r)|].
    cbn in H. rewrite Hn in H. cbn in H. rewrite Hk in H. cbn in H.
    assert (r = []) as ->.
    { assert (P : forall a b, pyslice (@nil N) a b = []) by (intros; unfold pyslice; now rewrite skipn_nil, firstn_nil).
      destruct len as [l|]; [|injection H as <-; apply P].
      destruct (slice_endpos off l) as [e| |]; try discriminate. injection H as <-; apply P. }
    exists [], []. split; [easy|]. unfold ast_offset. cbn [length]. split; [destruct (off <? 0)%Z eqn:E; lia|]. destruct len as [l|]; [destruct (l <? 0)%Z eqn:E1|]; destruct (off <? 0)%Z eqn:E; lia.
Qed.
