(* C27: when printing gives back the text, exactly. *)
From Coq Require Import ZifyBool ZifyN ZifyNat.
From Verif Require Import Base PyStr Defines Var VarFun Spec_Var Spec_VarFun Spec_Args Spec_Crash Spec_Subst Spec_Verbatim Var_proofs Balance_proofs
  VarFun_proofs Tok_proofs CrashV_proofs AppT_proofs Args_proofs Round_proofs SubstF_proofs.

(* ---- a weight that printing never raises ---- *)
Definition weight (s : str) : N := fold_right (fun c n => (if c <? 128 then 1 else 2) + n) 0 s.
Definition Lt (x y : str) : Prop := weight x < weight y.
Definition Le (x y : str) : Prop := x = y \/ Lt x y.
Lemma weight_app a b : weight (a ++ b) = weight a + weight b.
Proof. induction a as [|c a IH]; cbn [List.app weight fold_right]; [easy|]. fold (weight (a ++ b)). fold (weight a). rewrite IH. lia. Qed.
Definition wc (c : N) : N := if c <? 128 then 1 else 2.
Lemma weight_cons c r : weight (c :: r) = wc c + weight r.
Proof. reflexivity. Qed.
Lemma Le_weight x y : Le x y -> weight x <= weight y.
Proof. intros [->|H]; [lia|unfold Lt in H; lia]. Qed.
Lemma Le_refl x : Le x x. Proof. now left. Qed.
Lemma Le_trans x y z : Le x y -> Le y z -> Le x z.
Proof. intros [->|H] [->|K]; [now left|now right|now right|right; unfold Lt in *; lia]. Qed.
Lemma Le_app a a' b b' : Le a a' -> Le b b' -> Le (a ++ b) (a' ++ b').
Proof. intros [->|H] [->|K]; [now left|right|right|right]; unfold Lt in *; rewrite !weight_app; lia. Qed.
Lemma Le_cons c a a' : Le a a' -> Le (c :: a) (c :: a').
Proof. intros H. change (c :: a) with ([c] ++ a). change (c :: a') with ([c] ++ a'). apply Le_app; [apply Le_refl|easy]. Qed.
Lemma Le_eq x y : Le x y -> Le y x -> x = y.
Proof. intros [->|H] [E|K]; try easy. unfold Lt in *. lia. Qed.
Lemma Le_parts a a' b b' : Le a a' -> Le b b' -> a ++ b = a' ++ b' -> a = a' /\ b = b'.
Proof.
  intros H K E. assert (W : weight a + weight b = weight a' + weight b') by (rewrite <- !weight_app; congruence).
  destruct H as [->|H], K as [->|K]; unfold Lt in *; [easy|lia|lia|lia].
Qed.
Lemma Lt_ne x y : Lt x y -> x <> y.
Proof. intros H ->. unfold Lt in H. lia. Qed.

(* ---- numbers ---- *)
Lemma ok_inj {A} (a b : A) : Ok a = Ok b -> a = b.
Proof. now intros [= ->]. Qed.
Section V.
Variable U : uni.
Variable FT : ftable.
Variable w : loc.
Hypothesis HU : AsciiOk U.
Hypothesis HD : DecimalOk U.

Lemma can_ex n : exists s, Can s n.
Proof.
  induction n as [n IH] using (well_founded_induction N.lt_wf_0). destruct (N.lt_ge_cases n 10) as [H|H]; [exists [48 + n]; now constructor|].
  assert (D : n = n / 10 * 10 + n mod 10) by (pose proof (N.div_mod n 10 ltac:(lia)); lia).
  assert (0 < n / 10) by (apply N.div_str_pos; lia). assert (n / 10 < n) by (apply N.div_lt; lia).
  destruct (IH (n / 10)) as [s Hs]; [easy|]. exists (s ++ [48 + n mod 10]). assert (C : Can (s ++ [48 + n mod 10]) (n / 10 * 10 + n mod 10)) by (constructor; try easy; apply N.mod_lt; lia). now rewrite <- D in C.
Qed.
Lemma can_printed s n : Can s n -> (n = 0 /\ s = [48]) \/ 0 < n /\ exists c r, s = c :: r /\ IsDigit c /\ c <> 48 /\ Forall IsDigit r.
Proof.
  induction 1 as [d Hd|s n d H [IH|(Hp & c & r & -> & Hc & Hc' & Hr)] Hn Hd].
  - destruct (N.eq_dec d 0) as [->|N]; [now left|right]. split; [lia|]. exists (48 + d), []. unfold IsDigit. repeat split; try lia. constructor.
  - lia.
  - right. split; [lia|]. exists c, (r ++ [48 + d]). repeat split; try easy; try apply Hc. apply Forall_app. split; [easy|]. constructor; [unfold IsDigit; lia|constructor].
Qed.
Lemma nstr_printed n : n = 0 /\ nstr n = [48] \/ 0 < n /\ exists c r, nstr n = c :: r /\ IsDigit c /\ c <> 48 /\ Forall IsDigit r.
Proof. destruct (can_ex n) as [s H]. rewrite (can_nstr s n H). now apply can_printed. Qed.
Lemma zstr_printed z : Printed (zstr z).
Proof.
  destruct z as [|p|p]; cbn [zstr]; [constructor| |]; destruct (nstr_printed (N.pos p)) as [[H _]|(_ & c & r & -> & H1 & H2 & H3)]; try lia; now constructor.
Qed.
Lemma nstr_snoc n d : d < 10 -> nstr (n * 10 + d) = if n =? 0 then [48 + d] else nstr n ++ [48 + d].
Proof.
  intros H. destruct (N.eqb_spec n 0) as [->|N]; [apply can_nstr; cbn; now constructor|]. destruct (can_ex n) as [s Hs]. rewrite (can_nstr s n Hs). apply can_nstr. constructor; try easy. lia.
Qed.
Lemma dec_char c d : u_decimal U c = Some d -> Le [48 + d] [c].
Proof.
  intros E. destruct (N.lt_ge_cases c 128) as [H|H].
  - destruct (HU c H) as [_ K]. apply K in E. left. f_equal. lia.
  - right. unfold Lt, weight. cbn [fold_right]. pose proof (HD c d E). assert ((48 + d <? 128) = true) as -> by lia. assert ((c <? 128) = false) as -> by lia. lia.
Qed.
Lemma decimal_le s n : Decimal U s n -> s <> [] -> Le (nstr n) s.
Proof.
  induction 1 as [|s n c d H IH E]; intros N; [easy|]. rewrite nstr_snoc by (now apply (HD c)). pose proof (dec_char c d E) as D.
  destruct s as [|x s].
  - inversion H; subst; [|now destruct s]. rewrite N.eqb_refl. exact D.
  - destruct (N.eqb_spec n 0) as [->|_].
    + right. apply Le_weight in D. unfold Lt. rewrite weight_app. cbn [weight fold_right] in *. destruct (x <? 128); lia.
    + apply Le_app; [|easy]. apply IH. easy.
Qed.
Lemma printed_fun a z : Number U a z -> Printed a -> zstr z = a.
Proof.
  assert (K : forall s n, Decimal U s n -> forall x r, s = x :: r -> IsDigit x -> x <> 48 \/ r = [] -> Forall IsDigit r -> nstr n = s /\ (x <> 48 -> 0 < n)).
  { intros s n H. induction H as [|s n c d H IH E]; intros x r Es Hx Hn Hr; [easy|]. pose proof (HD c d E) as Hd. rewrite nstr_snoc by easy.
    destruct s as [|y s].
    - cbn in Es. injection Es as -> <-. inversion H; subst; [|now destruct s]. destruct (HU x) as [_ K]; [unfold IsDigit in Hx; lia|]. apply K in E. rewrite N.eqb_refl. cbn [List.app]. split; [f_equal; lia|lia].
    - cbn in Es. injection Es as -> <-. apply Forall_app in Hr as [Hr1 Hr2]. inversion Hr2 as [|? ? Hc _]; subst. destruct Hn as [Hn|Hn]; [|now destruct s].
      destruct (IH x s eq_refl Hx (or_introl Hn) Hr1) as [I1 I2]. specialize (I2 Hn). destruct (N.eqb_spec n 0); [lia|]. rewrite I1.
      destruct (HU c) as [_ K]; [unfold IsDigit in Hc; lia|]. apply K in E. split; [do 2 f_equal; lia|lia]. }
  intros [s n D H|s n D H] P.
  - rewrite zstr_pos. inversion P as [E|c r Hc Hn Hr E|c r Hc Hn Hr E]; subst s.
    + apply (K _ _ H 48 []); [reflexivity|unfold IsDigit; lia|now right|constructor].
    + apply (K _ _ H c r); [reflexivity|exact Hc|now left|exact Hr].
    + exfalso. destruct D as [_ F]. inversion F as [|? ? X _]; subst. apply HU in X; lia.
  - inversion P as [|c r Hc Hn Hr E|c r Hc Hn Hr E]; subst; [unfold IsDigit in Hc; lia|]. destruct (K _ _ H c r) as [E1 E2]; [reflexivity|exact Hc|now left|exact Hr|]. rewrite zstr_neg by auto. now rewrite E1.
Qed.
Lemma number_le a z : Number U a z -> Le (zstr z) a.
Proof.
  intros [s n [N _] H|s n [N _] H].
  - rewrite zstr_pos. now apply decimal_le.
  - pose proof (decimal_le s n H N) as D. destruct (N.eq_dec n 0) as [->|P].
    + right. unfold Lt. destruct s as [|c s]; [easy|]. change (weight (zstr (- Z.of_N 0))) with 1. change (weight (45 :: c :: s)) with (1 + ((if c <? 128 then 1 else 2) + weight s)). destruct (c <? 128); lia.
    + rewrite zstr_neg by lia. now apply Le_cons.
Qed.
Lemma number_eq a z : Number U a z -> zstr z = a <-> Printed a.
Proof. intros H. split; [intros <-; apply zstr_printed|now apply printed_fun]. Qed.

(* ---- offsets and lengths ---- *)
Lemma chars_inj a : forall b, map Ch a = map Ch b -> a = b.
Proof. induction a as [|x a IH]; intros [|y b]; cbn; try easy. intros [= -> H]. f_equal. auto. Qed.
Lemma canon_text t l : Canon t l -> str_of t = etext l.
Proof. intros H. now rewrite str_of_elems, (Canon_elems _ _ H). Qed.
Lemma quantity_text s q : Quantity U s (Some q) ->
  (forall x, numtext q = Ok x -> exists y, etext s = Ok y /\ Le x y /\ (x = y <-> Numbers [s])) /\
  (forall y, etext s = Ok y -> exists x, numtext q = Ok x).
Proof.
  intros H. inversion H as [a z N E1 E2|a N E1 E2|s' v t I C E1 E2]; subst.
  - split; [|intros y _; now exists (zstr z)]. intros x [= <-]. exists a. split; [apply etext_chars|]. split; [now apply number_le|]. rewrite (number_eq a z N). split.
    + intros P b [E|[]]. apply chars_inj in E. now subst b.
    + intros P. apply P. now left.
  - cbn [numtext]. rewrite (canon_text t s C). split; [|intros y E; now exists y]. intros x E. exists x. split; [easy|]. split; [apply Le_refl|]. split; [|easy].
    intros _ a [E'|[]]. exfalso. rewrite E' in I. apply in_map_iff in I as (c & Ec & _). discriminate Ec.
Qed.

Lemma quantity_number a q : Quantity U (map Ch a) (Some q) -> NumberText U a.
Proof.
  intros H. inversion H as [b z N E1 E2|b N E1 E2|s' v t I C E1 E2]; subst.
  - apply chars_inj in E1 as ->. destruct N; [now left|right; now exists s].
  - exfalso. apply in_map_iff in I as (c & Ec & _). discriminate Ec.
Qed.
Lemma nse_say c a l : NoSyntaxError (say c w a ++ l) -> In c syntax_classes -> False.
Proof. intros H I. apply (H (Msg c w None a)); [|exact I]. unfold say. now left. Qed.
Lemma nse_say0 c a : NoSyntaxError (say c w a) -> In c syntax_classes -> False.
Proof. intros H. apply (nse_say c a []). now rewrite app_nil_r. Qed.
Ltac nobad H := exfalso; (apply nse_say in H || apply nse_say0 in H); [exact H|cbn [syntax_classes In]; tauto].

Lemma substring_text data il n o l lg : Substring U w data il n o l lg -> NoSyntaxError lg ->
  exists q rest ps, o = Some q /\ (forall a, In (map Ch a) ps -> NumberText U a) /\ il = n ++ Ch 58 :: rest /\ Split 58 None il (n :: ps) /\ Split 58 None rest ps /\ ~ In (Ch 58) n /\
  (forall x y, numtext q = Ok x -> lentext l = Ok y -> exists z, etext rest = Ok z /\ Le (x ++ colon y) z /\ (x ++ colon y = z <-> Numbers ps)) /\
  (forall z, etext rest = Ok z -> exists x y, numtext q = Ok x /\ lentext l = Ok y).
Proof.
  intros H N.
  assert (ONE : forall s q, Split 58 None il [n; s] -> Quantity U s (Some q) -> l = None ->
    exists rest ps, (forall a, In (map Ch a) ps -> NumberText U a) /\ il = n ++ Ch 58 :: rest /\ Split 58 None il (n :: ps) /\ Split 58 None rest ps /\ ~ In (Ch 58) n /\
    (forall x y, numtext q = Ok x -> lentext l = Ok y -> exists z, etext rest = Ok z /\ Le (x ++ colon y) z /\ (x ++ colon y = z <-> Numbers ps)) /\
    (forall z, etext rest = Ok z -> exists x y, numtext q = Ok x /\ lentext l = Ok y)).
  { intros s q S Q ->. exists s, [s]. inversion S as [| |? ? ? ? _ Ni S']; subst. destruct (Split_one _ _ _ S') as [-> Ns]. repeat split; try easy.
    - intros a [E|[]]. subst s. now apply (quantity_number a q).
    - intros x y Hx [= <-]. cbn [colon]. rewrite app_nil_r. destruct (quantity_text _ _ Q) as [A _]. now apply A.
    - intros z Hz. destruct (quantity_text _ _ Q) as [_ B]. destruct (B z Hz) as [x Hx]. now exists x, None. }
  assert (TWO : forall s k q q', Split 58 None il [n; s; k] -> Quantity U s (Some q) -> Quantity U k (Some q') -> l = Some q' ->
    exists rest ps, (forall a, In (map Ch a) ps -> NumberText U a) /\ il = n ++ Ch 58 :: rest /\ Split 58 None il (n :: ps) /\ Split 58 None rest ps /\ ~ In (Ch 58) n /\
    (forall x y, numtext q = Ok x -> lentext l = Ok y -> exists z, etext rest = Ok z /\ Le (x ++ colon y) z /\ (x ++ colon y = z <-> Numbers ps)) /\
    (forall z, etext rest = Ok z -> exists x y, numtext q = Ok x /\ lentext l = Ok y)).
  { intros s k q q' S Q Q' ->. inversion S as [| |? ? r ? _ Ni S']; subst. exists r, [s; k]. inversion S' as [| |? ? ? ? _ Ns S'']; subst. destruct (Split_one _ _ _ S'') as [-> Nk]. repeat split; try easy.
    - intros a [E|[E|[]]]; subst; [now apply (quantity_number a q)|now apply (quantity_number a q')].
    - intros x y Hx Hy. cbn [lentext] in Hy. destruct (numtext q') as [x'| |] eqn:E'; cbn [bind] in Hy; try discriminate Hy. injection Hy as <-. cbn [colon].
      destruct (quantity_text _ _ Q) as [A _]. destruct (A x Hx) as (z1 & Z1 & L1 & E1). destruct (quantity_text _ _ Q') as [A' _]. destruct (A' x' E') as (z2 & Z2 & L2 & E2).
      exists (z1 ++ 58 :: z2). rewrite etext_app. cbn [etext]. rewrite Z1, Z2. cbn [bind]. split; [easy|]. split; [apply Le_app; [easy|now apply Le_cons]|]. split.
      + intros E. apply Le_parts in E as [E3 [= E4]]; [|easy|now apply Le_cons]. apply E1 in E3. apply E2 in E4. intros a [I|[I|[]]]; [apply E3|apply E4]; now left.
      + intros P. rewrite (proj2 E1), (proj2 E2); [easy| |]; intros a [I|[]]; apply P; [right; now left|now left].
    - intros z Hz. apply etext_app_ok in Hz as (z1 & z2 & H1 & H2 & _). apply etext_cons_ok in H2 as (z3 & H3 & _).
      destruct (quantity_text _ _ Q) as [_ B]. destruct (B z1 H1) as [x Hx]. destruct (quantity_text _ _ Q') as [_ B']. destruct (B' z3 H3) as [x' Hx'].
      exists x, (Some x'). split; [easy|]. cbn [lentext]. now rewrite Hx'. }
  inversion H as [s q o' l' S Q A|s more S Lm Q|s x q S Q Nx|s k z y o' l' S Q Q' Nm A|s k t S Q Q'|s k z y S Q Q' M|s k q t S Q Q'|ps x S L1 L2 E]; subst.
  - inversion A as [Z|Z]; subst; [nobad N|]. exists q. destruct (ONE s q S Q eq_refl) as (r & ps & X). exists r, ps. now split.
  - nobad N.
  - nobad N.
  - nobad N.
  - nobad N.
  - exists (NI z). destruct (TWO s k _ _ S Q Q' eq_refl) as (r & ps & X). exists r, ps. now split.
  - exists q. destruct (TWO s k _ _ S Q Q' eq_refl) as (r & ps & X). exists r, ps. now split.
  - nobad N.
Qed.

(* ---- substitutions ---- *)
Lemma truthy_canon t l : Canon t l -> truthy t = match l with [] => false | _ => true end.
Proof.
  intros H. apply Canon_elems in H. unfold truthy, tlen. rewrite <- (map_length el). change (map el (items t)) with (elems t). rewrite H. now destruct l.
Qed.
Lemma var_str t q l v : VarOf t (Some q) l v -> str_of v = let! s := str_of t in let! a := numtext q in let! b := lentext l in Ok (Var.slice_text s a b).
Proof.
  intros H. inversion H; subst; cbn [str_of numtext lentext bind option_map]; destruct (str_of t); cbn [bind]; try easy.
Qed.
Lemma funcs_str f t q l : str_of (TFuncS f t q l) = let! s := str_of t in let! a := numtext q in let! b := lentext l in Ok (Var.slice_text (f ++ L "(" ++ s ++ L ")") a b).
Proof. reflexivity. Qed.
Lemma digit_paren : ~ (u_isdigit U 41 = true).
Proof. intros H. apply HU in H; lia. Qed.
Lemma number_paren a : NumberText U a -> ~ In 41 a.
Proof.
  intros [[_ F]|(r & -> & _ & F)] I.
  - rewrite Forall_forall in F. now apply digit_paren, F.
  - destruct I as [I|I]; [lia|]. rewrite Forall_forall in F. now apply digit_paren, F.
Qed.
Lemma map_ch_app x : forall a b, map Ch x = a ++ b -> exists x1 x2, x = x1 ++ x2 /\ a = map Ch x1 /\ b = map Ch x2.
Proof.
  intros a. revert x. induction a as [|e a IH]; intros x b; cbn; [intros <-; now exists [], x|]. destruct x as [|c x]; [easy|]. cbn. intros [= <- H].
  destruct (IH x b H) as (x1 & x2 & -> & -> & ->). now exists (c :: x1), x2.
Qed.
Lemma split_piece l ps : Split 58 None l ps -> forall r c, l = map Ch r -> In c r -> c <> 58 -> exists p, In (map Ch p) ps /\ In c p.
Proof.
  intros H. remember (None : option nat) as m eqn:M. induction H as [m l N|l|m a l ls Hm N S IH]; intros r c E I D; subst.
  - exists r. split; [now left|easy].
  - easy.
  - symmetry in E. apply map_ch_app in E as (x1 & x2 & -> & -> & E). destruct x2 as [|y x2]; [easy|]. cbn in E. injection E as <- E.
    apply in_app_or in I as [I|[I|I]]; [exists x1; split; [now left|easy]|congruence|]. destruct (IH eq_refl x2 c E I D) as (p & P1 & P2). exists p. split; [now right|easy].
Qed.
Lemma cut_unique (f f' : list elem) args args' tail tail' : f ++ Ch 40 :: args ++ Ch 41 :: tail = f' ++ Ch 40 :: args' ++ Ch 41 :: tail' ->
  ~ In (Ch 40) f -> ~ In (Ch 40) f' -> ~ In (Ch 41) tail -> ~ In (Ch 41) tail' -> f = f' /\ args = args' /\ tail = tail'.
Proof.
  intros E N1 N2 N3 N4.
  assert (K : f = f' /\ args ++ Ch 41 :: tail = args' ++ Ch 41 :: tail').
  { clear N3 N4. revert f' N2 E. induction f as [|x f IH]; intros [|y f'] N2 E; cbn in E.
    - now injection E as E.
    - injection E as <- _. exfalso. apply N2. now left.
    - injection E as -> _. exfalso. apply N1. now left.
    - injection E as -> E. destruct (IH (fun H => N1 (or_intror H)) f' (fun H => N2 (or_intror H)) E) as [-> E']. easy. }
  destruct K as [-> E']. split; [easy|]. clear E N1 N2 f'. apply (f_equal (@rev elem)) in E'. rewrite !rev_app_distr in E'. cbn [rev] in E'. rewrite <- !app_assoc in E'. cbn [List.app] in E'.
  rewrite in_rev in N3, N4.
  assert (K : rev tail = rev tail' /\ rev args = rev args').
  { revert N3 N4 E'. generalize (rev tail) (rev tail') (rev args) (rev args'). clear. induction l as [|x l IH]; intros [|y l'] a a' N3 N4 E; cbn in E.
    - now injection E as E.
    - injection E as <- _. exfalso. apply N4. now left.
    - injection E as -> _. exfalso. apply N3. now left.
    - injection E as -> E. destruct (IH l' a a' (fun H => N3 (or_intror H)) (fun H => N4 (or_intror H)) E) as [-> E']. easy. }
  destruct K as [K1 K2]. apply (f_equal (@rev elem)) in K1, K2. rewrite !rev_involutive in K1, K2. easy.
Qed.
Lemma named_is t n : NameIs t n -> Named t.
Proof. intros []; constructor. Qed.

Theorem means_text il o v lg c : Means U FT w il o v lg -> Opener o c -> NoSyntaxError lg -> Forall GoodVa il ->
  (forall x, str_of v = Ok x -> exists y, etext il = Ok y /\ Le x (36 :: o :: y ++ [c]) /\ (x = 36 :: o :: y ++ [c] -> Keeps il o)) /\
  (Keeps il o -> forall y, etext il = Ok y -> str_of v = Ok (36 :: o :: y ++ [c])) /\ GoodVa (Va v).
Proof.
  intros H O N G. inversion H as [t C|t lg0 N40 N58 C NU|data n t q l v0 lg0 lg' N40 I58 C S Ct NU VO|data f args tail q l a v0 fi lg1 lg2 lg3 lg4 C CU Nf TL FO FS Ca FY FV]; subst; inversion O; subst.
  - cbn [str_of]. rewrite (truthy_canon t il C), (canon_text t il C). destruct il as [|e il]; [split; [easy|split; [|easy]]; intros K; inversion K; congruence|].
    destruct (etext (e :: il)) as [y| |]; cbn [bind]; (split; [|split; [|easy]]); try easy.
    + intros x [= <-]. exists y. split; [easy|]. split; [now left|]. intros _. now constructor.
    + intros _ y' [= <-]. reflexivity.
  - assert (GV : GoodVa (Va (TVar t))).
    { destruct t; try exact I. cbn [GoodVa]. intros J. apply N58. apply Canon_elems in C. rewrite elems_str in C. subst il. now apply in_map. }
    cbn [str_of]. rewrite (truthy_canon t il C), (canon_text t il C). destruct il as [|e il].
    { split; [easy|split; [|easy]]. intros K. inversion K as [|K1|n ps K1 K2|f args K1|f args tl ps K1]; try congruence; try easy; destruct f; discriminate K1. }
    destruct (etext (e :: il)) as [y| |]; cbn [bind]; (split; [|split; [|exact GV]]); try easy.
    + intros x [= <-]. exists y. split; [easy|]. split; [now left|]. intros _. now apply Ke_var.
    + intros _ y' [= <-]. reflexivity.
  - apply nse_app in N as [N _]. destruct (substring_text data il n q l lg0 S N) as (q' & rest & ps & -> & _ & E & Sp & Sr & Nn & A & B).
    assert (GV : GoodVa (Va v)).
    { assert (X : forall x, t = TS x -> ~ In 58 x).
      { intros x -> J. apply Nn. apply Canon_elems in Ct. rewrite elems_str in Ct. subst n. now apply in_map. }
      inversion VO; subst; cbn [GoodVa]; destruct t; try exact I; now apply X. }
    rewrite (var_str _ _ _ _ VO), (canon_text t n Ct). split; [|split; [|exact GV]].
    + intros x Hx. destruct (etext n) as [xn| |] eqn:En; cbn [bind] in Hx; try discriminate Hx.
      destruct (numtext q') as [xq| |] eqn:Eq; cbn [bind] in Hx; try discriminate Hx.
      destruct (lentext l) as [xl| |] eqn:El; cbn [bind] in Hx; try discriminate Hx. apply ok_inj in Hx as <-.
      destruct (A xq xl eq_refl eq_refl) as (z & Ez & Lz & Dz). exists (xn ++ 58 :: z). split; [rewrite E, etext_app; cbn [etext]; now rewrite En, Ez|].
      rewrite slice_text_eq. change (36 :: 123 :: (xn ++ 58 :: z) ++ [125]) with (L "${" ++ (xn ++ 58 :: z) ++ L "}").
      assert (L1 : Le (xn ++ 58 :: xq ++ colon xl) (xn ++ 58 :: z)) by (apply Le_app; [apply Le_refl|now apply Le_cons]). split.
      * apply Le_app; [apply Le_refl|]. apply Le_app; [easy|apply Le_refl].
      * intros X. apply Le_parts in X as [_ X]; [|apply Le_refl|apply Le_app; [easy|apply Le_refl]]. apply Le_parts in X as [X _]; [|easy|apply Le_refl].
        apply Le_parts in X as [_ X]; [|apply Le_refl|now apply Le_cons]. injection X as X. apply Dz in X. now apply (Ke_slice il n ps).
    + intros K y Ey. assert (P : Numbers ps).
      { inversion K as [|K1 K2 K3|n' ps' K1 K2 K3 K4|f args K1 K2|f args tl ps' K1]; try contradiction.
        - pose proof (Split_fun _ _ _ _ Sp _ K3) as [= _ <-]. exact K4.
        - exfalso. apply N40. rewrite K1. apply in_or_app. right. now left.
        - exfalso. apply N40. rewrite K1. apply in_or_app. right. now left. }
      rewrite E in Ey. apply etext_app_ok in Ey as (xn & y' & En & Ey & ->). apply etext_cons_ok in Ey as (z & Ez & ->). rewrite En. cbn [bind].
      destruct (B z Ez) as (xq & xl & Eq & El). rewrite Eq, El. cbn [bind]. destruct (A xq xl Eq El) as (z' & Ez' & _ & Dz). assert (z' = z) as -> by congruence.
      rewrite slice_text_eq. apply Dz in P. rewrite P. reflexivity.
  - assert (N1 := N). apply nse_app in N as [N N']. apply nse_app in N' as [N' _].
    inversion CU as [f' args' tail' E Nf' Nt|f' args' x E Nf' Na Ex]; subst; [|nobad N].
    assert (KU : forall ff aa tt, map Ch f ++ Ch 40 :: args ++ Ch 41 :: tail = ff ++ Ch 40 :: aa ++ Ch 41 :: tt -> ~ In (Ch 40) ff -> ~ In (Ch 41) tt -> tail = tt).
    { intros ff aa tt X Y Z. now apply cut_unique in X as (_ & _ & ->). }
    inversion TL as [Et|t il' e n' o' l' lg' x NE Cn SE SU EX|t il' o' l' lg' NE Cn SE SU]; subst.
    + inversion FV; subst. cbn [str_of]. rewrite (canon_text a args Ca). split; [|split; [|exact I]].
      * intros x Hx. destruct (etext args) as [xa| |] eqn:Ea; cbn [bind] in Hx; try discriminate Hx. apply ok_inj in Hx as <-.
        exists (f ++ 40 :: xa ++ [41]). split; [rewrite etext_app, etext_chars; cbn [etext bind]; rewrite etext_app, Ea; cbn [etext bind]; easy|]. split; [now left|]. intros _. now apply (Ke_func _ (map Ch f) args).
      * intros _ y Ey. apply etext_app_ok in Ey as (xf & y1 & Ef & Ey & ->). apply etext_cons_ok in Ey as (y2 & Ey & ->). apply etext_app_ok in Ey as (xa & y3 & Ea & Ey & ->). apply etext_cons_ok in Ey as (y4 & [= <-] & ->).
        rewrite etext_chars in Ef. injection Ef as <-. rewrite Ea. reflexivity.
    + apply nse_app in N' as [_ N']. nobad N'.
    + destruct (substring_text t il' [] q l lg2 SU N') as (q' & rest & ps & -> & NT & E & Sp & Sr & Nn & A & B). cbn [List.app] in E.
      pose proof (Canon_elems _ _ Cn) as CE.
      assert (CASES : tail = Ch 58 :: rest \/ exists s, tail = [Va (TExpr (TS (58 :: s)))] /\ rest = map Ch s).
      { inversion SE as [t' l' FL NN E1 E2|t' n' e s NI TO E1 E2|f0 n0 a0 TO E1 E2|f0 n0 a0 o0 l0 TO E1 E2|t' n' NI NX E1 E2|f0 n0 NX E1 E2|f0 n0 o0 l0 NX E1 E2]; rewrite <- E2 in E; try discriminate E.
        - left. apply Flat_fun in FL. rewrite <- CE, <- FL, <- E2. exact E.
        - right. exists s. injection E as -> E. subst t'. split; [|easy]. assert (n' = TS (58 :: s)) as -> by (now inversion TO).
          rewrite <- CE, (elems_named t (named_is _ _ NI)) in G. assert (GT : GoodVa (Va t)).
          { apply Forall_app in G as [_ G]. inversion G as [|? ? _ G1]; subst. apply Forall_app in G1 as [_ G1]. inversion G1 as [|? ? _ G2]; subst. now inversion G2. }
          rewrite <- CE, (elems_named t (named_is _ _ NI)). inversion NI; subst; cbn [GoodVa] in GT; try (exfalso; apply GT; now left). easy.
        - exfalso. assert (X : exists z, f0 ++ 40 :: a0 ++ [41] = 58 :: z /\ rest = map Ch z /\ In 41 z).
          { destruct f0 as [|e f0]; cbn in E; [easy|]. injection E as -> E. exists (f0 ++ 40 :: a0 ++ [41]). repeat split; [easy|]. apply in_or_app. right. right. apply in_or_app. right. now left. }
          destruct X as (z & _ & -> & I41). destruct (split_piece _ _ Sr z 41 eq_refl I41 ltac:(lia)) as (p & P1 & P2). now apply (number_paren p (NT p P1)).
        - exfalso. assert (X : exists z, f0 ++ 40 :: a0 ++ [41] = 58 :: z /\ rest = map Ch z /\ In 41 z).
          { destruct f0 as [|e f0]; cbn in E; [easy|]. injection E as -> E. exists (f0 ++ 40 :: a0 ++ [41]). repeat split; [easy|]. apply in_or_app. right. right. apply in_or_app. right. now left. }
          destruct X as (z & _ & -> & I41). destruct (split_piece _ _ Sr z 41 eq_refl I41 ltac:(lia)) as (p & P1 & P2). now apply (number_paren p (NT p P1)). }
      clear SE G Cn CE. inversion FV; subst. rewrite funcs_str, (canon_text a args Ca). destruct CASES as [->|(s & -> & ->)]; (split; [|split; [|exact I]]).
      * intros x Hx. destruct (etext args) as [xa| |] eqn:Ea; cbn [bind] in Hx; try discriminate Hx.
        destruct (numtext q') as [xq| |] eqn:Eq; cbn [bind] in Hx; try discriminate Hx.
        destruct (lentext l) as [xl| |] eqn:El; cbn [bind] in Hx; try discriminate Hx. apply ok_inj in Hx as <-.
        destruct (A xq xl eq_refl eq_refl) as (z & Ez & Lz & Dz). exists (f ++ 40 :: xa ++ 41 :: 58 :: z).
        split; [rewrite etext_app, etext_chars; cbn [etext bind]; rewrite etext_app, Ea; cbn [etext bind]; now rewrite Ez|].
        rewrite slice_text_eq. replace (36 :: 123 :: (f ++ 40 :: xa ++ 41 :: 58 :: z) ++ [125]) with (L "${" ++ ((f ++ L "(" ++ xa ++ L ")") ++ 58 :: z) ++ L "}").
        2:{ change (L "${") with [36; 123]. change (L "(") with [40]. change (L ")") with [41]. change (L "}") with [125]. repeat (rewrite <- ?app_assoc; cbn [List.app]). reflexivity. }
        assert (L1 : Le ((f ++ L "(" ++ xa ++ L ")") ++ 58 :: xq ++ colon xl) ((f ++ L "(" ++ xa ++ L ")") ++ 58 :: z)) by (apply Le_app; [apply Le_refl|now apply Le_cons]). split.
        -- apply Le_app; [apply Le_refl|]. apply Le_app; [easy|apply Le_refl].
        -- intros X. apply Le_parts in X as [_ X]; [|apply Le_refl|apply Le_app; [easy|apply Le_refl]]. apply Le_parts in X as [X _]; [|easy|apply Le_refl].
           apply Le_parts in X as [_ X]; [|apply Le_refl|now apply Le_cons]. injection X as X. apply Dz in X. apply (Ke_funcs _ (map Ch f) args rest ps); [reflexivity|exact Nf'|intros J; apply Nt; right; exact J|exact Sr|exact X].
      * intros K y Ey. assert (P : Numbers ps).
        { inversion K as [|K1 K2 K3|n' ps' K1 K2 K3 K4|f' args' K1 K2|f' args' tl ps' K1 K2 K3 K4 K5].
          - exfalso. apply K2, in_or_app. right. now left.
          - exfalso. apply K1, in_or_app. right. now left.
          - apply KU in K1; try easy.
          - apply KU in K1; [|easy|intros [J|J]; [discriminate J|contradiction]]. injection K1 as <-. now rewrite (Split_fun _ _ _ _ Sr _ K4). }
        apply etext_app_ok in Ey as (xf & y1 & Ef & Ey & ->). apply etext_cons_ok in Ey as (y2 & Ey & ->). apply etext_app_ok in Ey as (xa & y3 & Ea & Ey & ->). apply etext_cons_ok in Ey as (y4 & Ey & ->). apply etext_cons_ok in Ey as (z & Ez & ->).
        rewrite etext_chars in Ef. injection Ef as <-. rewrite Ea. cbn [bind]. destruct (B z Ez) as (xq & xl & Eq & El). rewrite Eq, El. cbn [bind]. destruct (A xq xl Eq El) as (z' & Ez' & _ & Dz). assert (z' = z) as -> by congruence.
        rewrite slice_text_eq. apply Dz in P. rewrite P. f_equal. change (L "${") with [36; 123]. change (L "(") with [40]. change (L ")") with [41]. change (L "}") with [125]. repeat (rewrite <- ?app_assoc; cbn [List.app]). reflexivity.
      * intros x Hx. destruct (etext args) as [xa| |] eqn:Ea; cbn [bind] in Hx; try discriminate Hx.
        destruct (numtext q') as [xq| |] eqn:Eq; cbn [bind] in Hx; try discriminate Hx.
        destruct (lentext l) as [xl| |] eqn:El; cbn [bind] in Hx; try discriminate Hx. apply ok_inj in Hx as <-.
        destruct (A xq xl eq_refl eq_refl) as (z & Ez & Lz & _). rewrite etext_chars in Ez. apply ok_inj in Ez as <-. exists (f ++ 40 :: xa ++ 41 :: L "$[" ++ (58 :: s) ++ L "]").
        assert (ET : etext [Ch 41; Va (TExpr (TS (58 :: s)))] = Ok (41 :: L "$[" ++ (58 :: s) ++ L "]")).
        { cbn [etext]. change (str_of (TExpr (TS (58 :: s)))) with (Ok (L "$[" ++ (58 :: s) ++ L "]")). cbn [bind]. now rewrite app_nil_r. }
        split; [rewrite etext_app, etext_chars; cbn [bind]; change (Ch 40 :: args ++ [Ch 41; Va (TExpr (TS (58 :: s)))]) with ([Ch 40] ++ args ++ [Ch 41; Va (TExpr (TS (58 :: s)))]); rewrite !etext_app, Ea, ET; reflexivity|].
        assert (LT : Lt (Var.slice_text (f ++ L "(" ++ xa ++ L ")") xq xl) (36 :: 123 :: (f ++ 40 :: xa ++ 41 :: L "$[" ++ (58 :: s) ++ L "]") ++ [125])).
        { rewrite slice_text_eq. apply Le_weight in Lz. unfold Lt. change (L "${") with [36; 123]. change (L "(") with [40]. change (L ")") with [41]. change (L "}") with [125].
          change (L "$[") with [36; 91]. change (L "]") with [93]. cbn [List.app].
          rewrite weight_app in Lz. repeat (rewrite ?weight_app, ?weight_cons; cbn [List.app]).
          change (wc 36) with 1. change (wc 123) with 1. change (wc 91) with 1. change (wc 93) with 1. lia. }
        split; [now right|]. intros X. apply Lt_ne in LT. contradiction.
      * intros K y Ey. exfalso. inversion K as [|K1 K2 K3|n' ps' K1 K2 K3 K4|f' args' K1 K2|f' args' tl ps' K1 K2 K3 K4 K5].
        -- apply K2, in_or_app. right. now left.
        -- apply K1, in_or_app. right. now left.
        -- apply KU in K1; try easy.
        -- apply KU in K1; [discriminate K1|easy|intros [J|J]; [discriminate J|contradiction]].
Qed.

(* ---- texts ---- *)
Lemma good_chars s : Forall GoodVa (map Ch s).
Proof. apply Forall_forall. intros e H. apply in_map_iff in H as (c & <- & _). exact I. Qed.
Theorem stands_text s dl lg : Stands U FT w s dl lg -> NoSyntaxError lg ->
  Forall GoodVa dl /\ (forall x, etext dl = Ok x -> Le x s /\ (x = s -> Verbatim U FT w s)) /\ (Verbatim U FT w s -> etext dl = Ok s).
Proof.
  induction 1 as [s NO|s pre o c rest inner rest' il v rl lg1 lg2 lg3 FO CB SI IHi ME SR IHr]; intros N.
  - split; [apply good_chars|]. rewrite etext_chars. split; [|easy]. intros x [= <-]. split; [apply Le_refl|]. intros _. now constructor.
  - apply nse_app in N as [N1 N]. apply nse_app in N as [N2 N3]. destruct (IHi N1) as (G1 & A1 & B1). destruct (IHr N3) as (G3 & A3 & B3).
    assert (O : Opener o c) by apply FO. destruct (means_text il o v lg2 c ME O N2 G1) as (A2 & B2 & G2).
    assert (ES : s = pre ++ (36 :: o :: inner ++ [c]) ++ rest').
    { destruct FO as (_ & -> & _), CB as (-> & _). repeat (rewrite <- ?app_assoc; cbn [List.app]). reflexivity. }
    split; [|split].
    + apply Forall_app. split; [apply good_chars|]. now constructor.
    + intros x Hx. apply etext_app_ok in Hx as (x1 & x2 & E1 & E2 & ->). rewrite etext_chars in E1. apply ok_inj in E1 as <-. cbn [etext] in E2.
      destruct (str_of v) as [xv| |] eqn:Ev; cbn [bind] in E2; try discriminate E2. destruct (etext rl) as [xr| |] eqn:Er; cbn [bind] in E2; try discriminate E2. apply ok_inj in E2 as <-.
      destruct (A2 xv eq_refl) as (y & Ey & L2 & K2). destruct (A1 y Ey) as [L1 V1]. destruct (A3 xr eq_refl) as [L3 V3].
      assert (L4 : Le (36 :: o :: y ++ [c]) (36 :: o :: inner ++ [c])) by (do 2 apply Le_cons; apply Le_app; [easy|apply Le_refl]).
      assert (L5 := Le_trans _ _ _ L2 L4). split.
      * rewrite ES. apply Le_app; [apply Le_refl|]. now apply Le_app.
      * intros X. rewrite ES in X. apply Le_parts in X as [_ X]; [|apply Le_refl|now apply Le_app]. apply Le_parts in X as [X1 X2]; [|easy|easy].
        assert (X3 : xv = 36 :: o :: y ++ [c]) by (apply Le_eq; [easy|]; rewrite X1; exact L4).
        assert (X4 : y = inner) by (rewrite X3 in X1; injection X1 as X1; now apply app_inj_tail in X1 as [-> _]).
        apply (Vb_sub U FT w s pre o c rest inner rest' il lg1); auto.
    + intros V. inversion V as [s' NO|s' pre' o' c' rest0 inner' rest0' il' lg' FO' CB' VI SI' KE VR]; subst s'; [exfalso; now apply first_opens in FO|].
      destruct (first_open_fun _ _ _ _ _ _ _ _ _ FO FO') as (<- & <- & <- & <-). destruct (closed_fun _ _ _ _ _ _ _ _ _ FO CB CB') as (<- & <-).
      destruct (SubstF_proofs.stands_fun U FT w HU _ _ _ _ _ SI SI') as [<- _].
      rewrite etext_app, etext_chars. cbn [etext bind]. rewrite (B2 KE inner (B1 VI)). cbn [bind]. rewrite (B3 VR). cbn [bind]. now rewrite ES.
Qed.
Theorem verbatim_iff s l t : parse_variables U FT s w = (l, Ok t) -> NoSyntaxError l -> str_of t = Ok s <-> Verbatim U FT w s.
Proof.
  intros H N. apply (SubstF_proofs.parse_iff U FT w HU) in H as (dl & S & C). rewrite (canon_text t dl C). destruct (stands_text s dl l S N) as (_ & A & B). split; [|exact B].
  intros E. destruct (A s E) as [_ K]. now apply K.
Qed.
(* what is printed is never longer *)
Theorem printed_le s l t x : parse_variables U FT s w = (l, Ok t) -> NoSyntaxError l -> str_of t = Ok x -> x = s \/ weight x < weight s.
Proof.
  intros H N E. apply (SubstF_proofs.parse_iff U FT w HU) in H as (dl & S & C). rewrite (canon_text t dl C) in E. destruct (stands_text s dl l S N) as (_ & A & _). now destruct (A x E).
Qed.
End V.
