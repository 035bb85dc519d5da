(* Proofs for C61: the words of messages. *)
From Coq Require Import ZifyBool ZifyN ZifyNat.
From Verif Require Import Base PyStr Defines Var Check Spec_Annotate Annotate_proofs Report Spec_Log Spec_Run Spec_Report.

(* ---- numbers ---- *)
Lemma hexd_digit d : d < 16 -> HexDigit (hexd d) d.
Proof. intros H. unfold hexd. destruct (N.ltb_spec d 10); constructor; lia. Qed.
Lemma digit_hexd c d : HexDigit c d -> c = hexd d /\ d < 16.
Proof. intros [e H|e H]; unfold hexd; destruct (N.ltb_spec e 10); lia. Qed.
Lemma sixteen n d : d < 16 -> (n * 16 + d) / 16 = n /\ (n * 16 + d) mod 16 = d.
Proof.
  intros H. split; [now rewrite N.div_add_l, N.div_small, N.add_0_r by lia|]. now rewrite N.add_comm, N.mod_add, N.mod_small by lia.
Qed.
Lemma hexs_length k : forall n, length (hexs k n) = k.
Proof. induction k as [|k IH]; intros n; cbn [hexs]; [easy|]. rewrite app_length, IH. cbn. lia. Qed.
Lemma hexs_hex k : forall n, Hex (hexs k n) (n mod 16 ^ N.of_nat k).
Proof.
  induction k as [|k IH]; intros n; cbn [hexs].
  - change (N.of_nat 0) with 0. rewrite N.pow_0_r, N.mod_1_r. constructor.
  - assert (E : n mod 16 ^ N.of_nat (S k) = (n / 16) mod 16 ^ N.of_nat k * 16 + n mod 16).
    { rewrite Nnat.Nat2N.inj_succ, N.pow_succ_r'. rewrite N.mod_mul_r by (try apply N.pow_nonzero; lia). lia. }
    rewrite E. constructor; [apply IH|]. apply hexd_digit, N.mod_lt. lia.
Qed.
Lemma hex_val s n : Hex s n -> s = hexs (length s) n /\ n < 16 ^ N.of_nat (length s).
Proof.
  induction 1 as [|s n c d H [E B] D]; [now split|]. apply digit_hexd in D as [-> D]. rewrite app_length. cbn [length]. rewrite Nat.add_1_r. cbn [hexs].
  destruct (sixteen n d D) as [-> ->]. split; [now rewrite <- E|]. rewrite Nnat.Nat2N.inj_succ, N.pow_succ_r'. lia.
Qed.
Lemma hex_same h h' n : Hex h n -> Hex h' n -> length h = length h' -> h = h'.
Proof. intros H H' E. apply hex_val in H as [-> _]. apply hex_val in H' as [-> _]. now rewrite E. Qed.
Lemma hex_fun h n n' : Hex h n -> Hex h n' -> n = n'.
Proof.
  intros H. revert n'. induction H as [|s n c d H IH D]; intros n' H'.
  - inversion H' as [|s m c d _ _ E]; [easy|]. now destruct s.
  - inversion H' as [E|s' m c' d' Hs D' E]; [now destruct s|]. apply app_inj_tail in E as [-> ->]. rewrite (IH _ Hs).
    apply digit_hexd in D as [E1 B1]. apply digit_hexd in D' as [E2 B2]. unfold hexd in *. destruct (N.ltb_spec d 10), (N.ltb_spec d' 10); lia.
Qed.

Lemma hex_fuel_hex f : forall n acc, n < 2 ^ N.of_nat f -> (0 < f)%nat ->
  exists s, Hex s n /\ s <> [] /\ (forall r, s = 48 :: r -> r = []) /\ hex_fuel f n acc = s ++ acc.
Proof.
  induction f as [|f IH]; intros n acc LT P; [lia|]. cbn [hex_fuel].
  pose proof (N.div_mod n 16 ltac:(lia)) as DM. pose proof (N.mod_lt n 16 ltac:(lia)) as ML.
  destruct (N.eqb_spec (n / 16) 0) as [E|NE].
  - exists [hexd (n mod 16)]. split; [|split; [easy|split; [now intros r [= _ <-]|easy]]]. replace n with (0 * 16 + n mod 16) at 2 by lia.
    apply (Hx_snoc [] 0 _ _ Hx_nil). now apply hexd_digit.
  - assert (LD : n / 16 < 2 ^ N.of_nat f).
    { rewrite Nnat.Nat2N.inj_succ, N.pow_succ_r' in LT. apply N.div_lt_upper_bound; lia. }
    destruct (IH (n / 16) (hexd (n mod 16) :: acc) LD) as (s & NS & NE' & Z & E).
    { destruct f; [|lia]. cbn in LD. lia. }
    exists (s ++ [hexd (n mod 16)]). split; [|split; [now destruct s|split]].
    + rewrite DM at 2. rewrite (N.mul_comm 16). constructor; [easy|now apply hexd_digit].
    + intros r Er. destruct s as [|c s]; [easy|]. injection Er as -> <-. exfalso. specialize (Z s eq_refl). subst s.
      inversion NS as [|s m c d Hs D Es Em]; subst. destruct s as [|? s]; [|now destruct s]. injection Es as ->.
      pose proof (hex_fun _ _ _ Hs Hx_nil) as ->. apply digit_hexd in D as [D _]. unfold hexd in D. destruct (N.ltb_spec d 10); lia.
    + rewrite E. now rewrite <- app_assoc.
Qed.
Lemma hexstr_hex n : Hex (hexstr n) n /\ Address (hexstr n).
Proof.
  unfold hexstr. destruct (hex_fuel_hex (S (N.to_nat (N.log2 n))) n []) as (s & H & NE & Z & E); [|lia|].
  - rewrite Nnat.Nat2N.inj_succ, Nnat.N2Nat.id. destruct (N.eq_dec n 0) as [->|NZ]; [reflexivity|]. apply N.log2_spec. lia.
  - rewrite E, app_nil_r. split; [easy|]. split; [easy|]. split; [now exists n|easy].
Qed.
(* no leading zero: the number determines the digits *)
Lemma lead_bound h n : Hex h n -> h <> [] -> (forall r, h = 48 :: r -> r = []) -> (length h = 1%nat /\ n < 16) \/ (16 ^ N.of_nat (length h - 1) <= n).
Proof.
  induction 1 as [|s n c d H IH D]; [easy|]. intros _ Z. destruct s as [|x s].
  - left. split; [easy|]. pose proof (hex_fun _ _ _ H Hx_nil) as ->. apply digit_hexd in D as [_ D]. lia.
  - right. destruct IH as [[E B]|B]; [easy| | |].
    + intros r [= -> ->]. specialize (Z (r ++ [c]) eq_refl). now destruct r.
    + destruct s; [|easy]. cbn. assert (n <> 0); [|lia]. intros ->. assert (x = 48) as ->; [|now specialize (Z [c] eq_refl)].
      apply hex_val in H as [H _]. injection H as ->. reflexivity.
    + rewrite app_length. cbn [length] in *. replace (S (length s) + 1 - 1)%nat with (S (length s)) by lia.
      replace (S (length s) - 1)%nat with (length s) in B by lia. rewrite Nnat.Nat2N.inj_succ, N.pow_succ_r'. lia.
Qed.
Lemma address_hexstr t : Address t -> exists n, t = hexstr n.
Proof.
  intros (NE & (n & H) & Z). exists n. destruct (hexstr_hex n) as (H' & NE' & _ & Z'). apply (hex_same _ _ n H H').
  pose proof (proj2 (hex_val _ _ H)) as B. pose proof (proj2 (hex_val _ _ H')) as B'.
  pose proof (lead_bound _ _ H NE Z) as [[E1 L1]|L1]; pose proof (lead_bound _ _ H' NE' Z') as [[E2 L2]|L2]; try lia.
  - destruct (length (hexstr n)) as [|[|k]] eqn:E; try lia. exfalso.
    replace (S (S k) - 1)%nat with (S k) in L2 by lia. rewrite Nnat.Nat2N.inj_succ, N.pow_succ_r' in L2. pose proof (N.pow_nonzero 16 (N.of_nat k) ltac:(lia)). lia.
  - destruct (length t) as [|[|k]] eqn:E; try lia. exfalso.
    replace (S (S k) - 1)%nat with (S k) in L1 by lia. rewrite Nnat.Nat2N.inj_succ, N.pow_succ_r' in L1. pose proof (N.pow_nonzero 16 (N.of_nat k) ltac:(lia)). lia.
  - destruct (Nat.lt_trichotomy (length t) (length (hexstr n))) as [C|[C|C]]; [|easy|]; exfalso.
    + assert (16 ^ N.of_nat (length t) <= 16 ^ N.of_nat (length (hexstr n) - 1)) by (apply N.pow_le_mono_r; lia). lia.
    + assert (16 ^ N.of_nat (length (hexstr n)) <= 16 ^ N.of_nat (length t - 1)) by (apply N.pow_le_mono_r; lia). lia.
Qed.

Lemma zstr_int z : IntText z (zstr z).
Proof.
  destruct z as [|p|p]; cbn [zstr].
  - exact (It_pos 0 [48] (Nu_one 0 ltac:(lia))).
  - exact (It_pos (Npos p) _ (nstr_numeral (Npos p))).
  - exact (It_neg (Npos p) _ (nstr_numeral (Npos p)) ltac:(lia)).
Qed.
Lemma int_zstr z t : IntText z t -> t = zstr z.
Proof.
  intros [n s H|n s H P].
  - destruct n as [|p]; cbn [Z.of_N zstr]; [|exact (numeral_fun _ _ H _ (nstr_numeral _))].
    apply (numeral_fun _ _ H). exact (Nu_one 0 ltac:(lia)).
  - destruct n as [|p]; [lia|]. cbn [Z.of_N Z.opp zstr]. f_equal. exact (numeral_fun _ _ H _ (nstr_numeral _)).
Qed.

Lemma app_inv_eq {A} (a : list A) : forall b c d, a ++ b = c ++ d -> length a = length c -> a = c /\ b = d.
Proof.
  induction a as [|x a IH]; intros b [|y c] d E H; cbn in *; try easy. injection E as -> E. destruct (IH b c d E) as [-> ->]; [lia|easy].
Qed.

Section Printable.
Variable printable : N -> bool.
Notation Plain := (Plain printable).
Notation Written := (Written printable).
Notation WrittenAll := (WrittenAll printable).
Notation Quoted := (Quoted printable).
Notation esc := (esc printable).
Notation pyrepr := (pyrepr printable).

(* ---- quoted texts ---- *)
Lemma esc_written q c : q = 39 \/ q = 34 -> Written q c (esc q c).
Proof.
  intros Q. unfold esc. destruct ((c =? q) || (c =? 92)) eqn:E1; [apply Wr_mark; lia|].
  destruct (N.eqb_spec c 9) as [->|N9]; [constructor|]. destruct (N.eqb_spec c 10) as [->|N10]; [constructor|].
  destruct (N.eqb_spec c 13) as [->|N13]; [constructor|].
  assert (NI : ~ In c [9; 10; 13]) by (cbn; lia).
  destruct ((c <? 32) || (c =? 127)) eqn:E2.
  { apply Wr_two; [unfold Spec_Report.Plain; lia|easy|lia| |apply hexs_length]. pose proof (hexs_hex 2 c) as H. now rewrite N.mod_small in H by (cbn; lia). }
  destruct (N.ltb_spec c 127) as [L1|L1]; [apply Wr_plain; unfold Spec_Report.Plain; lia|].
  destruct (printable c) eqn:P; [apply Wr_plain; [right; split; [lia|easy]| |]; lia|].
  assert (NP : ~ Plain c) by (unfold Spec_Report.Plain; rewrite P; intros [?|[_ ?]]; [lia|easy]).
  destruct (N.ltb_spec c 256) as [L2|L2].
  { apply Wr_two; [easy|easy|easy| |apply hexs_length]. pose proof (hexs_hex 2 c) as H. now rewrite N.mod_small in H by (cbn; lia). }
  destruct (N.ltb_spec c 65536) as [L3|L3].
  { apply Wr_four; [easy|lia| |apply hexs_length]. pose proof (hexs_hex 4 c) as H. now rewrite N.mod_small in H by (cbn; lia). }
  apply Wr_eight; [easy|easy| |apply hexs_length]. exact (hexs_hex 8 c).
Qed.
Lemma written_fun q c t t' : q = 39 \/ q = 34 -> Written q c t -> Written q c t' -> t = t'.
Proof.
  intros Q H H'. assert (P9 : ~ Plain 9) by (unfold Spec_Report.Plain; lia). assert (P10 : ~ Plain 10) by (unfold Spec_Report.Plain; lia).
  assert (P13 : ~ Plain 13) by (unfold Spec_Report.Plain; lia).
  assert (P92 : Plain 92) by (unfold Spec_Report.Plain; lia). assert (PQ : Plain q) by (unfold Spec_Report.Plain; lia).
  inversion H as [c1 D1| | | |c1 D1 D2 D3|c1 h D1 D2 D3 D4 D5|c1 h D1 D2 D4 D5|c1 h D1 D2 D4 D5]; subst;
  inversion H' as [c2 G1| | | |c2 G1 G2 G3|c2 h' G1 G2 G3 G4 G5|c2 h' G1 G2 G4 G5|c2 h' G1 G2 G4 G5]; subst; try easy; try lia;
    try (exfalso; intuition (subst; try easy; cbn in *; lia)); try (exfalso; cbn in *; tauto); f_equal.
  - eapply hex_same; [exact D4|exact G4|congruence].
  - eapply hex_same; [exact D4|exact G4|congruence].
  - eapply hex_same; [exact D4|exact G4|congruence].
Qed.
Lemma written_all q s : q = 39 \/ q = 34 -> forall b, WrittenAll q s b <-> b = flat_map (esc q) s.
Proof.
  intros Q. induction s as [|c s IH]; intros b; cbn [flat_map].
  - split; [intros H; now inversion H|intros ->; constructor].
  - split.
    + intros H. inversion H as [|c' s' a b' Hc Hs]; subst. apply IH in Hs as ->. f_equal. eapply written_fun; [exact Q|exact Hc|now apply esc_written].
    + intros ->. constructor; [now apply esc_written|now apply IH].
Qed.
Lemma quote_of_spec s : OnlySingle s /\ quote_of s = 34 \/ ~ OnlySingle s /\ quote_of s = 39.
Proof.
  unfold OnlySingle, quote_of. assert (K : forall c, existsb (N.eqb c) s = true <-> In c s).
  { intros c. rewrite existsb_exists. split; [intros (x & Hx & E)|intros Hx; exists c; split; [easy|lia]]. assert (c = x) as -> by lia. easy. }
  pose proof (K 39) as K1. pose proof (K 34) as K2. destruct (existsb (N.eqb 39) s), (existsb (N.eqb 34) s); cbn [andb negb]; intuition congruence.
Qed.
Lemma quoted_iff s t : Quoted s t <-> t = pyrepr s.
Proof.
  unfold Report.pyrepr. pose proof (quote_of_spec s) as Q. assert (Q' : quote_of s = 39 \/ quote_of s = 34) by tauto. split.
  - intros (q & b & Hq & Hb & ->). assert (quote_of s = q) as -> by (destruct Q as [[A ->]|[A ->]], Hq as [[B ->]|[B ->]]; easy).
    apply written_all in Hb; [|tauto]. now subst.
  - intros ->. exists (quote_of s), (flat_map (esc (quote_of s)) s). split; [exact Q|]. split; [now apply written_all|easy].
Qed.

(* reading back *)
Definition Unicode (s : str) : Prop := Forall (fun c => c < 1114112) s.
Lemma written_literal q c a t s : q = 39 \/ q = 34 -> c < 1114112 -> Written q c a -> Literal q t s -> Literal q (a ++ t) (c :: s).
Proof.
  intros Q B H HL. destruct H as [c D1| | | |c D1 D2 D3|c h D1 D2 D3 D4 D5|c h D1 D2 D4 D5|c h D1 D2 D4 D5].
  - apply Li_mark; [cbn; lia|easy].
  - now apply Li_tab.
  - now apply Li_nl.
  - now apply Li_cr.
  - apply Li_char; [easy|easy|unfold Spec_Report.Plain in D1; lia|easy].
  - rewrite <- app_assoc. now apply Li_two.
  - rewrite <- app_assoc. now apply Li_four.
  - rewrite <- app_assoc. apply Li_eight; [|easy|easy]. now rewrite N.mod_small in D4 by lia.
Qed.
Lemma quoted_means s t : Unicode s -> Quoted s t -> Means t s.
Proof.
  intros HU (q & b & Hq & Hb & ->). exists q, b. assert (Q : q = 39 \/ q = 34) by tauto. split; [easy|]. split; [easy|]. clear Hq.
  induction Hb as [|c s a b Hc Hb IH]; [constructor|]. inversion HU; subst. apply written_literal; auto.
Qed.
Lemma literal_fun q t s : Literal q t s -> forall s', Literal q t s' -> s = s'.
Proof.
  induction 1 as [|c t s N1 N2 N3 H IH|c t s I H IH|t s H IH|t s H IH|t s H IH|h c t s X LE H IH|h c t s X LE H IH|h c t s X LE H IH]; intros s' H'.
  - inversion H'; subst; try easy; try (match goal with E : _ = [] |- _ => apply (f_equal (@length N)) in E; cbn in E; lia end).
  - inversion H'; subst; try easy. f_equal. auto.
  - inversion H'; subst; try easy; try (cbn in I; lia). f_equal. auto.
  - change (L "\t" ++ t) with (92 :: 116 :: t) in H'. inversion H' as [|? ? ? ? K|c' t' s1 I'| | | | | | ]; subst; try easy; [cbn in I'; lia|f_equal; auto].
  - change (L "\n" ++ t) with (92 :: 110 :: t) in H'. inversion H' as [|? ? ? ? K|c' t' s1 I'| | | | | | ]; subst; try easy; [cbn in I'; lia|f_equal; auto].
  - change (L "\r" ++ t) with (92 :: 114 :: t) in H'. inversion H' as [|? ? ? ? K|c' t' s1 I'| | | | | | ]; subst; try easy; [cbn in I'; lia|f_equal; auto].
  - change (L "\x" ++ h ++ t) with (92 :: 120 :: h ++ t) in H'.
    inversion H' as [|? ? ? ? K|c' t' s1 I'| | | |h' c' t' s1 X' LE' HL' E|h' c' t' s1 X' LE' HL' E|h' c' t' s1 X' LE' HL' E]; subst; try easy; [cbn in I'; lia|].
    apply app_inv_eq in E as [-> ->]; [|congruence]. rewrite (hex_fun _ _ _ X X'). f_equal. auto.
  - change (L "\u" ++ h ++ t) with (92 :: 117 :: h ++ t) in H'.
    inversion H' as [|? ? ? ? K|c' t' s1 I'| | | |h' c' t' s1 X' LE' HL' E|h' c' t' s1 X' LE' HL' E|h' c' t' s1 X' LE' HL' E]; subst; try easy; [cbn in I'; lia|].
    apply app_inv_eq in E as [-> ->]; [|congruence]. rewrite (hex_fun _ _ _ X X'). f_equal. auto.
  - change (L "\U" ++ h ++ t) with (92 :: 85 :: h ++ t) in H'.
    inversion H' as [|? ? ? ? K|c' t' s1 I'| | | |h' c' t' s1 X' LE' HL' E|h' c' t' s1 X' LE' HL' E|h' c' t' s1 X' LE' HL' E]; subst; try easy; [cbn in I'; lia|].
    apply app_inv_eq in E as [-> ->]; [|congruence]. rewrite (hex_fun _ _ _ X X'). f_equal. auto.
Qed.
Lemma means_fun t s s' : Means t s -> Means t s' -> s = s'.
Proof.
  intros (q & b & _ & -> & H) (q' & b' & _ & E & H'). injection E as <- E. apply app_inj_tail in E as [<- _]. eapply literal_fun; eassumption.
Qed.
(* nothing in it but plain characters *)
Lemma hex_plain h n : Hex h n -> Forall (fun c => 32 <= c < 127) h.
Proof. induction 1 as [|s n c d H IH D]; [constructor|]. apply Forall_app. split; [easy|]. constructor; [|constructor]. destruct D; lia. Qed.
Lemma quoted_plain s t : Quoted s t -> Forall Plain t.
Proof.
  intros (q & b & Hq & Hb & ->). assert (Q : q = 39 \/ q = 34) by tauto. clear Hq.
  assert (PQ : Plain q) by (left; lia). assert (LP : forall l, Forall (fun c => 32 <= c < 127) l -> Forall Plain l).
  { intros l. apply Forall_impl. intros a Ha. now left. }
  apply Forall_app. split; [now constructor|]. apply Forall_app. split; [|now constructor].
  induction Hb as [|c s a b Hc Hb IH]; [constructor|]. apply Forall_app. split; [|easy].
  destruct Hc as [c D1| | | |c D1 D2 D3|c h D1 D2 D3 D4 D5|c h D1 D2 D4 D5|c h D1 D2 D4 D5].
  - constructor; [left; lia|]. constructor; [left; destruct D1; subst; lia|constructor].
  - apply LP. change (L "\t") with [92; 116]. repeat (constructor; [lia|]). constructor.
  - apply LP. change (L "\n") with [92; 110]. repeat (constructor; [lia|]). constructor.
  - apply LP. change (L "\r") with [92; 114]. repeat (constructor; [lia|]). constructor.
  - now constructor.
  - apply Forall_app. split; [apply LP; change (L "\x") with [92; 120]; repeat (constructor; [lia|]); constructor|]. apply LP. eapply hex_plain, D4.
  - apply Forall_app. split; [apply LP; change (L "\u") with [92; 117]; repeat (constructor; [lia|]); constructor|]. apply LP. eapply hex_plain, D4.
  - apply Forall_app. split; [apply LP; change (L "\U") with [92; 85]; repeat (constructor; [lia|]); constructor|]. apply LP. eapply hex_plain, D4.
Qed.

(* ---- addresses: any sequence is possible ---- *)
Notation PartsText := (PartsText printable).
Notation ArgText := (ArgText printable).
Notation Filled := (Filled printable).
Notation Words := (Words printable).
Notation Line := (Line printable).
Notation Lines := (Lines printable).
Notation parts_text := (parts_text printable).
Notation arg_text := (arg_text printable).
Notation format := (format printable).
Notation words := (words printable).
Notation report := (report printable).

Definition Real (f : (nat -> N) -> nat -> res (str * nat)) (t : str) : Prop := forall a0 k, exists a k',
  (k <= k')%nat /\ (forall i, (i < k)%nat -> a i = a0 i) /\ forall b, (forall i, (i < k')%nat -> b i = a i) -> f b k = Ok (t, k').
Lemma real_ext f g t : (forall a k, f a k = g a k) -> Real f t -> Real g t.
Proof. intros E H a0 k. destruct (H a0 k) as (a & k' & K & A & R). exists a, k'. split; [easy|]. split; [easy|]. intros b B. rewrite <- E. auto. Qed.
Lemma real_ret t : Real (fun _ k => Ok (t, k)) t.
Proof. intros a0 k. exists a0, k. easy. Qed.
Lemma real_seq f g t u : Real f t -> Real g u ->
  Real (fun a k => let! x := f a k in let! y := g a (snd x) in Ok (fst x ++ fst y, snd y)) (t ++ u).
Proof.
  intros F G a0 k. destruct (F a0 k) as (a1 & k1 & K1 & A1 & R1). destruct (G a1 k1) as (a2 & k2 & K2 & A2 & R2).
  exists a2, k2. split; [lia|]. split; [intros i Hi; rewrite A2 by lia; auto|]. intros b B. rewrite R1; cbn [bind fst snd].
  - rewrite R2 by easy. reflexivity.
  - intros i Hi. rewrite B by lia. apply A2. lia.
Qed.
Lemma real_map f t (h : str -> str) : Real f t -> Real (fun a k => let! x := f a k in Ok (h (fst x), snd x)) (h t).
Proof.
  intros F a0 k. destruct (F a0 k) as (a1 & k1 & K1 & A1 & R1). exists a1, k1. split; [easy|]. split; [easy|]. intros b B. now rewrite R1.
Qed.
Lemma real_addr t : Address t -> Real (fun a k => Ok (hexstr (a k), S k)) t.
Proof.
  intros H a0 k. apply address_hexstr in H as [n ->]. exists (fun i => if Nat.eqb i k then n else a0 i), (S k). split; [lia|]. split.
  - intros i Hi. destruct (Nat.eqb_spec i k); [lia|easy].
  - intros b B. rewrite B by lia. now rewrite Nat.eqb_refl.
Qed.

Lemma parts_sound a l : forall k, PartsText l (fst (parts_text a k l)).
Proof.
  induction l as [|[s|s|] l IH]; intros k; cbn [Report.parts_text fst]; constructor; try easy; [now apply quoted_iff|apply hexstr_hex].
Qed.
Lemma parts_real l t : PartsText l t -> Real (fun a k => Ok (parts_text a k l)) t.
Proof.
  induction 1 as [|s r t H IH|s x r t Q H IH|x r t A H IH].
  - apply real_ret.
  - refine (real_ext _ _ _ _ (real_seq _ _ _ _ (real_ret s) IH)). intros a k. reflexivity.
  - apply quoted_iff in Q as ->. refine (real_ext _ _ _ _ (real_seq _ _ _ _ (real_ret (pyrepr s)) IH)). intros a k. reflexivity.
  - refine (real_ext _ _ _ _ (real_seq _ _ _ _ (real_addr _ A) IH)). intros a k. reflexivity.
Qed.

(* ---- values ---- *)
Lemma arg_sound a k b x t k' : arg_text a k b x = Ok (t, k') -> ArgText b x t.
Proof.
  destruct x as [s|z| |[s|e|] r|r|r]; cbn [Report.arg_text bind].
  - intros [= <- _]. destruct b; constructor. now apply quoted_iff.
  - intros [= <- _]. constructor. apply zstr_int.
  - intros [= <- _]. constructor.
  - destruct b; [|intros [= <- _]; constructor]. intros [= E]. apply (f_equal fst) in E. cbn in E. subst t. constructor. apply parts_sound.
  - destruct b; [|easy]. intros [= E]. apply (f_equal fst) in E. cbn in E. subst t. constructor. apply parts_sound.
  - destruct b; [|easy]. intros [= E]. apply (f_equal fst) in E. cbn in E. subst t. constructor. apply parts_sound.
  - intros [= E]. apply (f_equal fst) in E. cbn in E. subst t. constructor. apply parts_sound.
  - intros [= <- _]. destruct b; [|constructor; apply parts_sound]. eapply At_shownq; [apply parts_sound|now apply quoted_iff].
Qed.
Lemma arg_real b x t : ArgText b x t -> Real (fun a k => arg_text a k b x) t.
Proof.
  intros [s|s u Q|c z u I|c|s r|s r u P|c r u P|r u P|r u v P Q]; cbn [Report.arg_text bind]; try apply real_ret; try now apply parts_real.
  - apply quoted_iff in Q as ->. apply real_ret.
  - apply int_zstr in I as ->. apply real_ret.
  - refine (real_ext _ _ _ _ (parts_real _ _ P)). intros a k. f_equal. apply surjective_pairing.
  - apply quoted_iff in Q as ->. refine (real_ext _ _ _ _ (real_map _ _ pyrepr (parts_real _ _ P))). intros a k. reflexivity.
Qed.
Lemma arg_fails a k b x : (exists r, arg_text a k b x = Ok r) <-> arg_ok b x = Ok tt.
Proof.
  destruct x as [s|z| |[s|e|] r|r|r]; cbn [Report.arg_text arg_ok bind]; try (split; [easy|now eexists]); destruct b; cbn; split; try easy; try (now eexists); now intros [? [=]].
Qed.

(* ---- templates ---- *)
Definition unpiece (p : piece) : str := match p with Txt s => s | Fld f true => L "{" ++ f ++ L "!r}" | Fld f false => L "{" ++ f ++ L "}" end.
Definition good_piece (p : piece) : bool :=
  match p with Txt s => negb (existsb (N.eqb 123) s) | Fld f _ => negb (existsb (N.eqb 125) f) && negb (existsb (N.eqb 33) f) end.
Definition fields (l : list piece) : list (str * bool) := flat_map (fun p => match p with Fld f b => [(f, b)] | _ => [] end) l.
Lemma all_listed c : In c all_mcls.
Proof. destruct c; vm_compute; tauto. Qed.
Lemma template_ok c : flat_map unpiece (pieces (mtemplate c)) = mtemplate c /\ forallb good_piece (pieces (mtemplate c)) = true /\
  fields (pieces (mtemplate c)) = mfields c.
Proof. destruct c; vm_compute; auto. Qed.

Lemma nmem c s : existsb (N.eqb c) s = false <-> ~ In c s.
Proof.
  rewrite <- Bool.not_true_iff_false, existsb_exists. split; intros H K; apply H; [exists c; split; [easy|lia]|]. destruct K as (x & Hx & E). now assert (c = x) as -> by lia.
Qed.
Lemma lookup_named args f a : lookup f args = Some a <-> Named args f a.
Proof.
  unfold Named. induction args as [|[k v] args IH]; cbn [lookup].
  - split; [easy|]. intros ([|] & after & E & _); easy.
  - destruct (str_eqb_spec f k) as [->|NE].
    + split; [intros [= ->]; now exists [], args|]. intros ([|[k' v'] before] & after & E & N).
      * now injection E as ->.
      * injection E as <- _ _. exfalso. apply N. now left.
    + rewrite IH. split; intros (before & after & E & N).
      * exists ((k, v) :: before), after. subst. split; [easy|]. cbn. intros [K|K]; [congruence|easy].
      * destruct before as [|[k' v'] before]; [now injection E as -> _ _|]. injection E as <- <- E. exists before, after. split; [easy|]. intros K. apply N. now right.
Qed.
Inductive FilledP (args : list (str * arg)) : list piece -> str -> Prop :=
| Fp_nil : FilledP args [] []
| Fp_txt s ps t : FilledP args ps t -> FilledP args (Txt s :: ps) (s ++ t)
| Fp_fld f b a v ps t : Named args f a -> ArgText b a v -> FilledP args ps t -> FilledP args (Fld f b :: ps) (v ++ t).
Lemma txt_filled args s r t : ~ In 123 s -> Filled args (s ++ r) t <-> exists t', t = s ++ t' /\ Filled args r t'.
Proof.
  revert t. induction s as [|c s IH]; intros t N; cbn [app].
  - split; [intros H; now exists t|]. now intros (t' & -> & H).
  - cbn in N. split.
    + intros H. inversion H as [|c' r' t' NE H1|f a v r' t' FN NA AT H1 E|f a v r' t' FN NA AT H1 E]; subst.
      * apply IH in H1 as (u & -> & H1); [|tauto]. exists u. easy.
      * exfalso. tauto.
      * exfalso. tauto.
    + intros (t' & -> & H). constructor; [intros ->; tauto|]. apply IH; [tauto|]. now exists t'.
Qed.
(* where a name ends *)
Lemma name_end f x r f' x' r' : ~ In 125 f -> ~ In 33 f -> ~ In 125 f' -> ~ In 33 f' -> (x = L "}" \/ x = L "!r}") -> (x' = L "}" \/ x' = L "!r}") ->
  f ++ x ++ r = f' ++ x' ++ r' -> f = f' /\ x = x' /\ r = r'.
Proof.
  intros A1 A2 B1 B2 X X'. change (L "}") with [125] in *. change (L "!r}") with [33; 114; 125] in *.
  revert f' B1 B2. induction f as [|c f IH]; intros [|c' f'] B1 B2 E; cbn [app] in E.
  - destruct X as [->| ->], X' as [->| ->]; cbn [app] in E; injection E; intros; subst; easy.
  - exfalso. destruct X as [->| ->]; cbn [app] in E; injection E as E _; cbn in B1, B2; lia.
  - exfalso. destruct X' as [->| ->]; cbn [app] in E; injection E as E _; cbn in A1, A2; lia.
  - injection E as <- E. cbn in *. destruct (IH ltac:(tauto) ltac:(tauto) f' ltac:(tauto) ltac:(tauto) E) as (-> & -> & ->). easy.
Qed.
Lemma fld_filled args f b r t : ~ In 125 f -> ~ In 33 f ->
  Filled args (unpiece (Fld f b) ++ r) t <-> exists a v t', Named args f a /\ ArgText b a v /\ t = v ++ t' /\ Filled args r t'.
Proof.
  intros N1 N2. split.
  - intros H. remember (unpiece (Fld f b) ++ r) as s eqn:Es. destruct H as [|c r' t' NE H1|f' a v r' t' [FN1 FN2] NA AT H1|f' a v r' t' [FN1 FN2] NA AT H1].
    + now destruct b.
    + exfalso. destruct b; cbn [unpiece] in Es; change (L "{") with [123] in Es; cbn [app] in Es; injection Es as Ec _; congruence.
    + destruct b; cbn [unpiece] in Es; rewrite <- ?app_assoc in Es; apply app_inv_head in Es; apply name_end in Es as (-> & E & ->); auto; try discriminate E.
      exists a, v, t'. easy.
    + destruct b; cbn [unpiece] in Es; rewrite <- ?app_assoc in Es; apply app_inv_head in Es; apply name_end in Es as (-> & E & ->); auto; try discriminate E.
      exists a, v, t'. easy.
  - intros (a & v & t' & NA & AT & -> & H). destruct b; cbn [unpiece]; rewrite <- !app_assoc; [eapply Fi_quoted|eapply Fi_value]; eauto; now split.
Qed.
Lemma filled_pieces args ps : forallb good_piece ps = true -> forall t, Filled args (flat_map unpiece ps) t <-> FilledP args ps t.
Proof.
  induction ps as [|p ps IH]; cbn [forallb flat_map]; intros G t.
  - split; intros H; [|inversion H; constructor]. remember [] as s0 eqn:Es0 in H. destruct H; [constructor|easy|exfalso; now destruct f|exfalso; now destruct f].
  - apply Bool.andb_true_iff in G as [G1 G2]. specialize (IH G2). destruct p as [s|f b]; cbn [good_piece] in G1.
    + cbn [unpiece]. apply Bool.negb_true_iff, nmem in G1. rewrite txt_filled by easy. split.
      * intros (t' & -> & H). constructor. now apply IH.
      * intros H. inversion H as [|s' ps' t' H1|]; subst. exists t'. split; [easy|]. now apply IH.
    + apply Bool.andb_true_iff in G1 as [G3 G4]. apply Bool.negb_true_iff, nmem in G3. apply Bool.negb_true_iff, nmem in G4.
      rewrite fld_filled by easy. split.
      * intros (a & v & t' & NA & AT & -> & H). econstructor; eauto. now apply IH.
      * intros H. inversion H as [| |f' b' a v ps' t' NA AT H1]; subst. exists a, v, t'. repeat (split; [easy|]). now apply IH.
Qed.

Lemma format_sound a args ps : forall k t k', format a k ps args = Ok (t, k') -> FilledP args ps t.
Proof.
  induction ps as [|[s|f b] ps IH]; intros k t k'; cbn [Report.format].
  - intros [= <- _]. constructor.
  - destruct (format a k ps args) as [[u j]| |] eqn:E; cbn [bind fst snd]; try easy. intros [= <- _]. constructor. eapply IH, E.
  - destruct (lookup f args) as [x|] eqn:EL; [|easy]. destruct (arg_text a k b x) as [[v j]| |] eqn:EA; cbn [bind fst snd]; try easy.
    destruct (format a j ps args) as [[u i]| |] eqn:E; cbn [bind fst snd]; try easy. intros [= <- _].
    eapply Fp_fld; [apply lookup_named, EL|eapply arg_sound, EA|eapply IH, E].
Qed.
Lemma format_real args ps t : FilledP args ps t -> Real (fun a k => format a k ps args) t.
Proof.
  induction 1 as [|s ps t H IH|f b x v ps t NA AT H IH].
  - apply real_ret.
  - refine (real_ext _ _ _ _ (real_seq _ _ _ _ (real_ret s) IH)). intros a k. reflexivity.
  - refine (real_ext _ _ _ _ (real_seq _ _ _ _ (arg_real _ _ _ AT) IH)). intros a k. cbn [Report.format]. apply lookup_named in NA. now rewrite NA.
Qed.
Lemma format_fails a args ps : forall k, (exists r, format a k ps args = Ok r) <-> format_ok (fields ps) args = Ok tt.
Proof.
  induction ps as [|[s|f b] ps IH]; intros k; cbn [Report.format fields flat_map format_ok app].
  - split; [easy|intros _; now eexists].
  - fold (fields ps). rewrite <- (IH k). destruct (format a k ps args) as [r| |]; cbn [bind]; split; intros [x [=]]; now eexists.
  - fold (fields ps). destruct (lookup f args) as [x|]; [|now split; [intros [? [=]]|]]. pose proof (arg_fails a k b x) as A.
    destruct (arg_text a k b x) as [[v j]|e|] eqn:E; cbn [bind fst snd].
    + rewrite (proj1 A (ex_intro _ _ eq_refl)). cbn [bind]. rewrite <- (IH j). destruct (format a j ps args) as [r| |]; cbn [bind]; split; intros [y [=]]; now eexists.
    + split; [intros [? [=]]|]. destruct (arg_ok b x) as [[]| |]; cbn [bind]; try easy. intros _. destruct (proj2 A eq_refl) as [? [=]].
    + split; [intros [? [=]]|]. destruct (arg_ok b x) as [[]| |]; cbn [bind]; try easy. intros _. destruct (proj2 A eq_refl) as [? [=]].
Qed.

Lemma words_sound a k m t k' : words a k m = Ok (t, k') -> Words m t.
Proof.
  intros H. apply format_sound in H. unfold Spec_Report.Words. destruct (template_ok (m_cls m)) as (E & G & _). rewrite <- E. now apply filled_pieces.
Qed.
Lemma words_real m t : Words m t -> Real (fun a k => words a k m) t.
Proof.
  intros H. apply format_real. unfold Spec_Report.Words in H. destruct (template_ok (m_cls m)) as (E & G & _). rewrite <- E in H. now apply filled_pieces in H.
Qed.
Lemma words_exist a k m : (exists r, words a k m = Ok r) <-> format_ok (mfields (m_cls m)) (m_args m) = Ok tt.
Proof. unfold Report.words. rewrite format_fails. now rewrite (proj2 (proj2 (template_ok (m_cls m)))). Qed.
Lemma words_iff m t : Words m t <-> exists a k k', words a k m = Ok (t, k').
Proof.
  split; [|intros (a & k & k' & H); exact (words_sound _ _ _ _ _ H)]. intros H. destruct (words_real _ _ H (fun _ => 0) O) as (a & k' & _ & _ & R).
  exists a, O, k'. now apply R.
Qed.
Lemma words_some m : (exists t, Words m t) <-> format_ok (mfields (m_cls m)) (m_args m) = Ok tt.
Proof.
  rewrite <- (words_exist (fun _ => 0) O). split.
  - intros [t H]. apply words_iff in H as (a & k & k' & H). apply words_exist. apply (words_exist a k). exists (t, k'). exact H.
  - intros [[t k] H]. exists t. exact (words_sound _ _ _ _ _ H).
Qed.

(* ---- without addresses ---- *)
Lemma named_fun args f a a' : Named args f a -> Named args f a' -> a = a'.
Proof. intros H H'. apply lookup_named in H, H'. congruence. Qed.
Lemma quoted_fun s t t' : Quoted s t -> Quoted s t' -> t = t'.
Proof. intros H H'. apply quoted_iff in H, H'. congruence. Qed.
Lemma int_fun z t t' : IntText z t -> IntText z t' -> t = t'.
Proof. intros H H'. apply int_zstr in H, H'. congruence. Qed.
Lemma parts_det r t : PartsText r t -> ~ In RAddr r -> forall t', PartsText r t' -> t = t'.
Proof.
  induction 1 as [|s r t H IH|s a r t Q H IH|a r t A H IH]; intros N t' H'; inversion H'; subst; clear H'.
  - easy.
  - f_equal. apply IH; [cbn in N; tauto|easy].
  - f_equal; [eapply quoted_fun; eassumption|]. apply IH; [cbn in N; tauto|easy].
  - cbn in N. tauto.
Qed.
Lemma arg_det b a t t' : ~ ShowsAddress b a -> ArgText b a t -> ArgText b a t' -> t = t'.
Proof.
  intros N H. destruct H as [s|s t Q|b z t HI|b|s r|s r t HP|b r t HP|r t HP|r t u HP Q]; intros H'; inversion H'; subst; cbn [ShowsAddress] in N; try reflexivity.
  - eapply quoted_fun; eassumption.
  - eapply int_fun; eassumption.
  - eapply parts_det; eauto.
  - eapply parts_det; eauto.
  - eapply parts_det; eauto.
  - assert (t = t0) as -> by (eapply parts_det; eauto). eapply quoted_fun; eassumption.
Qed.
Lemma words_det m t t' : ~ Addressed m -> Words m t -> Words m t' -> t = t'.
Proof.
  intros N. unfold Spec_Report.Words. destruct (template_ok (m_cls m)) as (E & G & F). rewrite <- E. rewrite !filled_pieces by easy.
  assert (N' : forall f b a, In (f, b) (fields (pieces (mtemplate (m_cls m)))) -> Named (m_args m) f a -> ~ ShowsAddress b a).
  { intros f b a I A S. apply N. rewrite F in I. now exists f, b, a. }
  clear - N'. intros H. revert N' t'. induction H as [|s ps t H IH|f b a v ps t A V H IH]; intros N t' H'; inversion H'; subst; clear H'.
  - easy.
  - f_equal. apply IH; [exact N|easy].
  - assert (a = a0) as <- by (eapply named_fun; eassumption). f_equal; [eapply arg_det; [|eassumption|eassumption]; eapply N; [now left|eassumption]|].
    apply IH; [|easy]. intros f' b' a' I. eapply N. now right.
Qed.

(* ---- lines ---- *)
Lemma line_text m num : Numeral num (w_line (m_where m)) -> num = zstr (Z.of_N (w_line (m_where m))).
Proof. intros H. apply int_zstr. now constructor. Qed.
Lemma line_num m : Numeral (zstr (Z.of_N (w_line (m_where m)))) (w_line (m_where m)).
Proof. destruct (w_line (m_where m)) as [|p]; cbn [Z.of_N zstr]; [exact (Nu_one 0 ltac:(lia))|apply nstr_numeral]. Qed.
Definition print1 (env : option str) (m : msg) (t : str) : str :=
  if muted env (m_cls m) then [] else where_text (m_where m) ++ L " " ++ mname (m_cls m) ++ L ": " ++ t ++ [10].
Lemma line_iff m t : Line m t <-> exists b, Words m b /\ t = where_text (m_where m) ++ L " " ++ mname (m_cls m) ++ L ": " ++ b ++ [10].
Proof.
  unfold Spec_Report.Line, where_text. split.
  - intros (num & b & N & W & ->). exists b. split; [easy|]. apply line_text in N as ->. now rewrite <- !app_assoc.
  - intros (b & W & ->). exists (zstr (Z.of_N (w_line (m_where m)))), b. split; [apply line_num|]. split; [easy|]. now rewrite <- !app_assoc.
Qed.
Lemma report_sound a env ms : forall k t k', report a env k ms = (t, Ok k') -> Lines (printed env ms) t.
Proof.
  induction ms as [|m ms IH]; intros k t k'; cbn [Report.report].
  - intros [= <- _]. constructor.
  - destruct (words a k m) as [[w j]| |] eqn:E; [|easy|easy]. pose proof (words_exist a k m) as [X _]. rewrite E in X. specialize (X (ex_intro _ _ eq_refl)).
    destruct (report a env j ms) as [u o] eqn:R. cbn [fst snd]. intros [= <- ->]. specialize (IH _ _ _ R).
    unfold printed. cbn [filter]. rewrite X. destruct (muted env (m_cls m)); cbn [negb app]; [exact IH|].
    apply (Ln_cons _ m _ _ _); [|exact IH]. apply line_iff. exists w. split; [exact (words_sound _ _ _ _ _ E)|easy].
Qed.
Lemma line_det m t t' : ~ Addressed m -> Line m t -> Line m t' -> t = t'.
Proof.
  intros N H H'. apply line_iff in H as (b & W & ->). apply line_iff in H' as (b' & W' & ->). now rewrite (words_det m b b' N W W').
Qed.
Lemma lines_det ms t : Lines ms t -> (forall m, In m ms -> ~ Addressed m) -> forall t', Lines ms t' -> t = t'.
Proof.
  induction 1 as [|m ms t u H HL IH]; intros N t' H'; inversion H'; subst; [easy|]. f_equal.
  - eapply line_det; [|eassumption|eassumption]. apply N. now left.
  - apply IH; [|easy]. intros m' I. apply N. now right.
Qed.
Definition reported env ms (a : nat -> N) (k : nat) : res (str * nat) :=
  let! j := snd (report a env k ms) in Ok (fst (report a env k ms), j).
Lemma report_real env ms : (forall m, In m ms -> format_ok (mfields (m_cls m)) (m_args m) = Ok tt) ->
  forall t, Lines (printed env ms) t -> Real (reported env ms) t.
Proof.
  induction ms as [|m ms IH]; intros F t HL.
  - unfold printed in HL. cbn [filter] in HL. inversion HL; subst. exact (real_ret []).
  - pose proof (F m (or_introl eq_refl)) as Fm. specialize (IH (fun x I => F x (or_intror I))).
    assert (exists w u, Words m w /\ Lines (printed env ms) u /\ t = print1 env m w ++ u) as (w & u & W & HU & ->).
    { unfold printed in HL. cbn [filter] in HL. rewrite Fm in HL. unfold print1. destruct (muted env (m_cls m)); cbn [negb] in HL.
      - apply words_some in Fm as [w W]. exists w, t. easy.
      - inversion HL as [|m' ms' t1 u H1 H2]; subst. apply line_iff in H1 as (b & W & ->). exists b, u. easy. }
    refine (real_ext _ _ _ _ (real_seq _ _ _ _ (real_map _ _ (print1 env m) (words_real _ _ W)) (IH _ HU))).
    intros a k. unfold reported. cbn [Report.report]. destruct (words a k m) as [[w' j]| |]; cbn [bind fst snd]; try easy.
    destruct (report a env j ms) as [u' [o| |]]; cbn [bind fst snd]; easy.
Qed.
Lemma report_iff env ms t : (forall m, In m ms -> format_ok (mfields (m_cls m)) (m_args m) = Ok tt) ->
  Lines (printed env ms) t <-> exists a k k', report a env k ms = (t, Ok k').
Proof.
  intros F. split; [|intros (a & k & k' & H); exact (report_sound _ _ _ _ _ _ H)].
  intros H. destruct (report_real env ms F t H (fun _ => 0) O) as (a & k' & _ & _ & R). exists a, O, k'.
  specialize (R a (fun _ _ => eq_refl)). unfold reported in R. destruct (report a env O ms) as [u [o| |]]; cbn in R; try easy. now injection R as -> ->.
Qed.
Lemma report_from env ms t : (forall m, In m ms -> format_ok (mfields (m_cls m)) (m_args m) = Ok tt) ->
  Lines (printed env ms) t -> exists a k', report a env O ms = (t, Ok k').
Proof.
  intros F H. destruct (report_real env ms F t H (fun _ => 0) O) as (a & k' & _ & _ & R). exists a, k'.
  specialize (R a (fun _ _ => eq_refl)). unfold reported in R. destruct (report a env O ms) as [u [o| |]]; cbn in R; try easy. now injection R as -> ->.
Qed.
Lemma report_total a env ms : (forall m, In m ms -> format_ok (mfields (m_cls m)) (m_args m) = Ok tt) ->
  forall k, exists t k', report a env k ms = (t, Ok k').
Proof.
  induction ms as [|m ms IH]; intros F k; cbn [Report.report]; [now eexists _, _|].
  destruct (proj2 (words_exist a k m) (F m (or_introl eq_refl))) as [[w j] E]. rewrite E.
  destruct (IH (fun x I => F x (or_intror I)) j) as (u & k' & R). rewrite R. cbn [fst snd]. now eexists _, _.
Qed.

(* ---- what a line tells ---- *)
Lemma numeral_digits s n : Numeral s n -> Forall (fun c => 48 <= c < 58) s.
Proof. induction 1 as [d H|s n d H IH P D]; [repeat constructor; lia|]. apply Forall_app. split; [easy|]. repeat constructor; lia. Qed.
Lemma numeral_val s n : Numeral s n -> forall n', Numeral s n' -> n = n'.
Proof.
  induction 1 as [d H|s n d H IH P D]; intros n' H'; inversion H' as [d' D' E|s' m d' H2 P2 D2 E]; subst.
  - lia.
  - destruct s' as [|? [|? ?]]; [|easy|easy]. now apply numeral_pos in H2.
  - destruct s as [|? [|? ?]]; [|easy|easy]. now apply numeral_pos in H.
  - apply app_inj_tail in E as [<- E]. rewrite (IH _ H2). lia.
Qed.
Lemma first_split {A} (c : A) : forall a b a' b', ~ In c a -> ~ In c a' -> a ++ c :: b = a' ++ c :: b' -> a = a' /\ b = b'.
Proof.
  induction a as [|x a IH]; intros b [|y a'] b' N N' E; cbn [app] in E.
  - now injection E as ->.
  - injection E as <- _. exfalso. apply N'. now left.
  - injection E as -> _. exfalso. apply N. now left.
  - injection E as -> E. destruct (IH b a' b') as [-> ->]; [intros K; apply N; now right|intros K; apply N'; now right|easy|easy].
Qed.
Lemma last_split {A} (c : A) a b a' b' : ~ In c b -> ~ In c b' -> a ++ c :: b = a' ++ c :: b' -> a = a' /\ b = b'.
Proof.
  intros N N' E. apply (f_equal (@rev A)) in E. rewrite !rev_app_distr in E. cbn [rev] in E. rewrite <- !app_assoc in E. cbn [app] in E.
  apply first_split in E as [E1 E2].
  - apply (f_equal (@rev A)) in E1, E2. now rewrite !rev_involutive in E1, E2.
  - now rewrite <- in_rev.
  - now rewrite <- in_rev.
Qed.
Lemma name_chars c : ~ In 58 (mname c) /\ ~ In 32 (mname c).
Proof. split; apply nmem; destruct c; vm_compute; reflexivity. Qed.
Lemma line_tells m m' t : ~ In 32 (w_file (m_where m)) -> ~ In 32 (w_file (m_where m')) -> Line m t -> Line m' t ->
  w_file (m_where m) = w_file (m_where m') /\ w_line (m_where m) = w_line (m_where m') /\ mname (m_cls m) = mname (m_cls m') /\
  exists b, Words m b /\ Words m' b.
Proof.
  intros N N' (num & b & HN & W & ->) (num' & b' & HN' & W' & E).
  assert (D : forall n s, Numeral s n -> ~ In 32 s /\ ~ In 58 s).
  { intros n s H. apply numeral_digits in H. rewrite Forall_forall in H. split; intros I; apply H in I; lia. }
  destruct (D _ _ HN) as [D1 D2]. destruct (D _ _ HN') as [D1' D2'].
  change (L " ") with [32] in E. change (L ": ") with [58; 32] in E. change (L ":") with [58] in E. cbn [app] in E.
  change (w_file (m_where m) ++ 58 :: num ++ 32 :: mname (m_cls m) ++ 58 :: 32 :: b ++ [10] = w_file (m_where m') ++ 58 :: num' ++ 32 :: mname (m_cls m') ++ 58 :: 32 :: b' ++ [10]) in E.
  replace (w_file (m_where m) ++ 58 :: num ++ 32 :: mname (m_cls m) ++ 58 :: 32 :: b ++ [10]) with ((w_file (m_where m) ++ 58 :: num) ++ 32 :: mname (m_cls m) ++ 58 :: 32 :: b ++ [10]) in E by now rewrite <- app_assoc.
  replace (w_file (m_where m') ++ 58 :: num' ++ 32 :: mname (m_cls m') ++ 58 :: 32 :: b' ++ [10]) with ((w_file (m_where m') ++ 58 :: num') ++ 32 :: mname (m_cls m') ++ 58 :: 32 :: b' ++ [10]) in E by now rewrite <- app_assoc.
  apply first_split in E as [E1 E2].
  - apply last_split in E1 as [Ef En]; [|easy|easy]. subst num'. apply first_split in E2 as [Em Eb]; [|apply name_chars|apply name_chars].
    injection Eb as Eb. apply app_inj_tail in Eb as [<- _]. split; [easy|]. split; [eapply numeral_val; eassumption|]. split; [easy|]. now exists b.
  - rewrite in_app_iff. cbn. intros [K|[K|K]]; [easy|lia|easy].
  - rewrite in_app_iff. cbn. intros [K|[K|K]]; [easy|lia|easy].
Qed.
End Printable.
