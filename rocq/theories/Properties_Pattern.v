(* Final theorems about dialplan patterns: C01-C06. *)
From Verif Require Import Base Utf8 Pattern Spec_Pattern Utf8_proofs Pattern_proofs Canon_proofs CanonConv_proofs.

(* ---- C01 ---- *)
Theorem C01_pattern_order :
  StrictTotalOrder (fun a b => pat_eqb a b = true) (fun a b => pat_ltb a b = true).
Proof. exact pat_order. Qed.
Print Assumptions C01_pattern_order.

(* The sorted list of the patterns of a context does not depend on the order in
   which the set is iterated. *)
Theorem C01_sort_order_free : forall ps order,
  Permutation order (pat_dedup ps) -> pat_sort order = pat_sort (pat_dedup ps).
Proof. exact pat_sort_order_free. Qed.
Print Assumptions C01_sort_order_free.

Theorem C01_sort_correct : forall ps,
  Permutation (pat_sort (pat_dedup ps)) (pat_dedup ps) /\
  StronglySorted (fun a b => pat_ltb a b = true \/ pat_eqb a b = true) (pat_sort (pat_dedup ps)) /\
  (forall x, In x (pat_dedup ps) -> In x ps) /\
  (forall x, In x ps -> exists y, In y (pat_dedup ps) /\ pat_eqb x y = true) /\
  ForallOrdPairs (fun a b => pat_eqb a b = false) (pat_dedup ps).
Proof.
  intros ps. split; [apply pat_sort_perm|]. split; [|split; [|split]].
  - pose proof (pat_sort_sorted (pat_dedup ps)) as H. revert H.
    generalize (pat_sort (pat_dedup ps)). intros l H. induction H as [|x l Hs IH Hf]; constructor; auto.
    eapply Forall_impl; [|exact Hf]. intros y Hy. unfold ple, pat_leb in Hy. now apply orb_true_iff in Hy.
  - apply pat_dedup_sound.
  - apply pat_dedup_complete.
  - apply pat_dedup_distinct.
Qed.
Print Assumptions C01_sort_correct.

Definition pat (s : str) : pattern := mkpat s (match parse s with Ok v => v | _ => mkv 0 [] end).

Example C01_example :
  map praw (pat_sort (pat_dedup [pat (L "_X1"); pat (L "_[0-9]1"); pat (L "_N2"); pat (L "100")]))
  = [L "100"; L "_N2"; L "_X1"] /\
  pat_sort [pat (L "_N2"); pat (L "100"); pat (L "_X1")]
  = pat_sort (pat_dedup [pat (L "_X1"); pat (L "_[0-9]1"); pat (L "_N2"); pat (L "100")]).
Proof. split; [reflexivity|]. apply C01_sort_order_free. vm_compute.
  eapply perm_trans; [apply perm_swap|]. eapply perm_trans; [apply perm_skip, perm_swap|].
  eapply perm_trans; [apply perm_swap|]. apply perm_skip, perm_swap. Qed.

(* ---- C02 ---- *)
Theorem C02_parse_ok_iff : forall raw,
  (exists v, parse raw = Ok v) <->
  raw <> [] /\ valid_str raw /\ (hd 0 raw = 0x5f -> Closed (tl raw)).
Proof. exact parse_ok_iff. Qed.
Print Assumptions C02_parse_ok_iff.

Theorem C02_parse_outcomes : forall raw,
  (raw = [] -> parse raw = Exn TypeError) /\
  (raw <> [] -> ~ valid_str raw -> parse raw = Exn UnicodeEncodeError) /\
  (raw <> [] -> valid_str raw -> hd 0 raw <> 0x5f ->
     exists v, parse raw = Ok v /\ ptype v = NOT_A_PATTERN) /\
  (valid_str raw -> hd 0 raw = 0x5f ->
     (Closed (tl raw) -> exists v, parse raw = Ok v /\ ptype v = IS_A_PATTERN) /\
     (FirstUnclosed (tl raw) -> parse raw = Exn ValueError) /\
     (FirstEmpty (tl raw) -> parse raw = Exn IndexError) /\
     (Closed (tl raw) \/ FirstUnclosed (tl raw) \/ FirstEmpty (tl raw))).
Proof. exact parse_spec. Qed.
Print Assumptions C02_parse_outcomes.

(* The three cases for a pattern text are exhaustive, and parsing always ends. *)
Theorem C02_cases_exhaustive : forall p, Closed p \/ FirstUnclosed p \/ FirstEmpty p.
Proof. exact closed_cases. Qed.
Print Assumptions C02_cases_exhaustive.
Theorem C02_parse_ends : forall raw, parse raw <> Hang.
Proof. exact parse_no_hang. Qed.
Print Assumptions C02_parse_ends.

Example C02_example_ok : is_ok (parse (L "_X[1-5a]Z.")) = true /\ Closed (L "X[1-5a]Z.").
Proof.
  split; [reflexivity|]. apply Closed_chr; [easy|].
  apply (Closed_set (hd 0 (L "1")) (L "-5a") (L "Z.")); cbn; [easy | | repeat constructor; easy].
  intuition discriminate.
Qed.
Example C02_example_bad : parse (L "_X[12") = Exn ValueError /\ parse (L "_X[]") = Exn IndexError /\ parse [] = Exn TypeError.
Proof. repeat split. Qed.

(* ---- C03 ---- *)
(* The unrestricted claim is false: the canonical spelling of these patterns
   cannot be parsed again, or means something else. *)
Definition canon_faithful (raw : str) : Prop :=
  exists v v', parse raw = Ok v /\ parse (canonical v) = Ok v' /\
    matches_same v v' = true /\ canonical v' = canonical v.

Ltac canon_refute := intros (v & v' & H1 & H2 & H3 & H4); vm_compute in H1; inversion H1; subst v; clear H1;
  vm_compute in H2; try discriminate; inversion H2; subst v'; vm_compute in H3; discriminate.

Theorem C03_canonical_faithful_refuted :
  exists raw, is_ok (parse raw) = true /\ ~ canon_faithful raw.
Proof. exists (L "_X[[]"). split; [reflexivity|]. canon_refute. Qed.
Print Assumptions C03_canonical_faithful_refuted.

(* one witness for each clause of SafePattern that is excluded *)
Theorem C03_exclusions_needed :
  ~ canon_faithful (L "_X[[]") /\          (* the single '[' *)
  ~ canon_faithful (L "_X[A-z0-9]") /\     (* ']' in a set with gaps *)
  ~ canon_faithful (L "_X[\-a0]") /\       (* the same, from a range *)
  ~ canon_faithful (L "_X[\-^]") /\        (* ']' inside a range of three *)
  ~ canon_faithful (L "_") /\              (* empty pattern *)
  ~ canon_faithful (L "_[_]1") /\          (* literal starting with '_' *)
  ~ canon_faithful (L "_[-]5") /\          (* literal dash *)
  ~ canon_faithful (L "-_X") /\            (* literal dash before an underscore *)
  ~ canon_faithful (L "-") /\              (* only dashes *)
  ~ canon_faithful [0xe9].                 (* not ASCII *)
Proof. repeat split; canon_refute. Qed.
Print Assumptions C03_exclusions_needed.

Theorem C03_canonical_pattern_partial : forall p v,
  ascii_str p -> parse (0x5f :: p) = Ok v -> SafePattern p ->
  exists v', parse (canonical v) = Ok v' /\ matches_same v v' = true /\ canonical v' = canonical v /\
    forall e, ExtenLang (0x5f :: p) e <-> ExtenLang (canonical v) e.
Proof. exact canonical_pattern_keeps. Qed.
Print Assumptions C03_canonical_pattern_partial.

Theorem C03_canonical_literal_partial : forall raw v,
  ascii_str raw -> hd 0 raw <> 0x5f -> parse raw = Ok v ->
  hd 0 (no_dash raw) <> 0x5f -> no_dash raw <> [] ->
  canonical v = no_dash raw /\
  exists v', parse (canonical v) = Ok v' /\ matches_same v v' = true /\ canonical v' = canonical v /\
    forall e, ExtenLang raw e <-> ExtenLang (canonical v) e.
Proof. exact canonical_literal_keeps. Qed.
Print Assumptions C03_canonical_literal_partial.

(* The exclusions are exact: an ASCII text whose canonical spelling can be read
   back as the same pattern is one of SafeText, and the other way around. *)
Theorem C03_exact : forall raw v, ascii_str raw -> parse raw = Ok v ->
  (exists v', parse (canonical v) = Ok v' /\ matches_same v v' = true) <-> SafeText raw.
Proof. exact canonical_exact. Qed.
Print Assumptions C03_exact.

(* the canonical spelling _[X[abc]] can be read, but as another pattern *)
Example C03_exact_example : exists v v', parse (L "_[[]X[a-c]]") = Ok v /\ canonical v = L "_[X[abc]]" /\
  parse (canonical v) = Ok v' /\ matches_same v v' = false /\ ~ SafeText (L "_[[]X[a-c]]").
Proof.
  do 2 eexists. split; [reflexivity|]. split; [reflexivity|]. split; [reflexivity|]. split; [reflexivity|].
  intros X. rewrite <- C03_exact in X; [|vm_compute; repeat constructor|reflexivity].
  destruct X as (v' & H1 & H2). vm_compute in H1. injection H1 as <-. discriminate.
Qed.

Ltac inset := repeat first [apply IS_one | apply IS_two_l | apply IS_two_r].

Example C03_example : exists v, parse (L "_x[0-26-94]-[n]!") = Ok v /\ SafePattern (L "x[0-26-94]-[n]!") /\
  canonical v = L "_X[01246-9][n]!".
Proof.
  eexists. split; [reflexivity|]. split; [|reflexivity]. eexists. split.
  - apply TK_X; [now right|]. apply (TK_set (L "0-26-94") (L "-[n]!")); [cbn; intuition discriminate|].
    apply TK_dash. apply (TK_set (L "n") (L "!")); [cbn; intuition discriminate|].
    apply TK_bang. apply TK_nil.
  - right. split.
    + intros cs H. inversion H as [|? c ? ? (P & HP & HQ) H']; subst. inversion HP; subst.
      assert (0x30 = c) by (apply HQ; lia). assert (0x31 = c) by (apply HQ; lia). lia.
    + apply Forall_cons; [split|apply Forall_cons; [split|apply Forall_cons;[split|apply Forall_cons;[exact I|constructor]]]].
      * intros H. assert (0x30 = 0x5b) by (apply H; lia). discriminate.
      * left. lia.
      * intros H. assert (InSet (L "0-26-94") 0x30) as X by (apply range_used_InSet; vm_compute; tauto). apply H in X; discriminate.
      * left. rewrite <- range_used_InSet. vm_compute. intuition discriminate.
      * intros H. assert (InSet (L "n") 0x6e) as X by (apply range_used_InSet; vm_compute; tauto). apply H in X; discriminate.
      * left. rewrite <- range_used_InSet. vm_compute. intuition discriminate.
Qed.

Example C03_example_literal : exists v, parse (L "s-1-0") = Ok v /\ canonical v = L "s10".
Proof. eexists. split; reflexivity. Qed.

(* ---- C04 ---- *)
(* H_PAT_NON_CANONICAL is raised exactly when is_canonical is false
   (dialplan.py:622-626).  Both halves of the claim fail for 'a]b'. *)
Theorem C04_hint_actionable_refuted :
  exists p, mk_pattern (L "a]b") = Ok p /\ is_canonical p = false /\ canonical (pv p) = praw p.
Proof. eexists. repeat split. Qed.
Print Assumptions C04_hint_actionable_refuted.

(* True for patterns without lone brackets, whose canonical form is faithful. *)
Theorem C04_hint_actionable_partial : forall p v,
  ascii_str p -> parse (0x5f :: p) = Ok v -> SafePattern p -> PlainPattern p ->
  (is_canonical (mkpat (0x5f :: p) v) = false -> canonical v <> 0x5f :: p) /\
  (forall q, mk_pattern (canonical v) = Ok q -> is_canonical q = true).
Proof.
  intros p v Ha Hp HS HP. pose proof (canonical_not_hinted p v Ha Hp HS HP) as H. split.
  - intros Hi E. unfold is_canonical in Hi. cbn [praw pv] in Hi. rewrite <- E, H in Hi.
    rewrite str_eqb_refl in Hi. discriminate.
  - intros q Hq. destruct (canonical_pattern_keeps p v Ha Hp HS) as (v' & Hv' & _ & Hi & _).
    unfold mk_pattern in Hq. rewrite Hv' in Hq. inversion Hq; subst q. unfold is_canonical. cbn [praw pv].
    rewrite H, Hi. apply str_eqb_refl.
Qed.
Print Assumptions C04_hint_actionable_partial.

(* Literal extensions without brackets: never hinted, whatever the dashes. *)
Theorem C04_literal_never_hinted_partial : forall raw v,
  ascii_str raw -> hd 0 raw <> 0x5f -> parse raw = Ok v ->
  ~ In 0x5b raw -> ~ In 0x5d raw -> is_canonical (mkpat raw v) = true.
Proof. exact literal_never_hinted. Qed.
Print Assumptions C04_literal_never_hinted_partial.

Example C04_example : exists v, parse (L "_x1") = Ok v /\ is_canonical (mkpat (L "_x1") v) = false /\
  canonical v = L "_X1" /\ PlainPattern (L "x1") /\ SafePattern (L "x1").
Proof.
  assert (T : Toks (L "x1") [TOne (fun d => 0x30 <= d <= 0x39); TOne (fun d => d = 0x31)]).
  { apply TK_X; [now right|]. apply TK_lit; [cbn; intuition discriminate|]. apply TK_nil. }
  eexists. repeat split.
  - eexists. split; [exact T|]. repeat constructor; cbn; try lia.
    + intros H. assert (0x30 = 0x5d) by (apply H; lia). discriminate.
    + intros H. assert (0x30 = 0x5b) by (apply H; lia). discriminate.
    + intros H. assert (0x31 = 0x5d) by (now apply H). discriminate.
    + intros H. assert (0x31 = 0x5b) by (now apply H). discriminate.
  - eexists. split; [exact T|]. right. split.
    + intros cs H. inversion H as [|? c ? ? (P & HP & HQ) H']; subst. inversion HP; subst.
      assert (0x30 = c) by (apply HQ; lia). assert (0x31 = c) by (apply HQ; lia). lia.
    + apply Forall_cons; [split|apply Forall_cons; [split|constructor]]; cbn; try (left; lia).
      * intros H. assert (0x30 = 0x5b) by (apply H; lia). discriminate.
      * intros H. assert (0x31 = 0x5b) by (now apply H). discriminate.
Qed.

(* Exactly when a text is hinted, for any text; exactly when the hint on the
   suggested spelling, or on a text that is its own suggestion, stays. *)
Theorem C04_hint_exact : forall raw v, is_canonical (mkpat raw v) = true <-> Compared raw (canonical v).
Proof. exact hint_exact. Qed.
Print Assumptions C04_hint_exact.
Theorem C04_own_suggestion : forall raw v, canonical v = raw -> is_canonical (mkpat raw v) = true <-> Lossless raw.
Proof. exact own_hint. Qed.
Print Assumptions C04_own_suggestion.
Theorem C04_followed_pattern : forall p v q, ascii_str p -> parse (0x5f :: p) = Ok v -> SafePattern p ->
  mk_pattern (canonical v) = Ok q -> is_canonical q = true <-> Lossless (canonical v).
Proof. exact canon_hint_pattern. Qed.
Print Assumptions C04_followed_pattern.
Theorem C04_followed_literal : forall raw v q, ascii_str raw -> hd 0 raw <> 0x5f -> parse raw = Ok v ->
  hd 0 (no_dash raw) <> 0x5f -> no_dash raw <> [] ->
  mk_pattern (canonical v) = Ok q -> is_canonical q = true <-> Lossless (canonical v).
Proof. exact canon_hint_literal. Qed.
Print Assumptions C04_followed_literal.
Example C04_exact_example :
  Lossless (L "_X[]-a]1") /\ Compared (L "_-X]-[a-c]") (L "_X[a-c]") /\
  (exists v q, parse (L "_1]-") = Ok v /\ canonical v = L "1]" /\ mk_pattern (canonical v) = Ok q /\ is_canonical q = false /\ ~ Lossless (L "1]")).
Proof.
  split; [|split].
  - repeat (apply Ll_chr; [cbn; intuition discriminate|]). apply (Ll_set 0x5d [0x2d; 0x61] [0x31]); [discriminate|cbn; intuition discriminate|].
    apply Ll_chr; [cbn; intuition discriminate|constructor].
  - apply Kp_chr; [cbn; intuition discriminate|]. apply Kp_drop; [now right|]. apply Kp_chr; [cbn; intuition discriminate|].
    apply Kp_drop; [now left|]. apply Kp_drop; [now right|]. apply (Kp_set 0x61 [0x2d; 0x63] [] []); [discriminate|cbn; intuition discriminate|constructor].
  - eexists _, _. split; [reflexivity|]. split; [reflexivity|]. split; [reflexivity|]. split; [reflexivity|].
    intros H. apply (lossless_iff 2) in H; [discriminate|cbn; lia].
Qed.

(* ---- C05 ---- *)
(* The exact claim is false: extra characters at the end are accepted. *)
Theorem C05_matches_exact_refuted :
  exists v, parse (L "_1X") = Ok v /\ matches_extension v (L "123") = Ok true /\ ~ PatLang (L "1X") (L "123").
Proof.
  eexists. split; [reflexivity|]. split; [reflexivity|].
  change (~ PatLang [0x31; 0x58] [0x31; 0x32; 0x33]). intros H.
  inversion H; subst; try (exfalso; lia).
  match goal with H : PatLang [0x58] _ |- _ => inversion H; subst end; try (exfalso; lia).
  - match goal with H : PatLang [] _ |- _ => inversion H end.
Qed.
Print Assumptions C05_matches_exact_refuted.

(* What matching decides: some prefix is in the language of the pattern. *)
Theorem C05_matches_pattern_partial : forall p v ext,
  parse (0x5f :: p) = Ok v -> Forall (fun c => c < 0x100) (no_dash ext) ->
  exists b, utf8_encode p = Ok b /\
  (matches_extension v ext = Ok true <-> exists e1 e2, no_dash ext = e1 ++ e2 /\ PatLang b e1).
Proof. exact matches_pattern_spec. Qed.
Print Assumptions C05_matches_pattern_partial.

(* Without a '.' or '!' the language fixes the length: matching is exact on
   extensions that are not longer than the pattern. *)
Theorem C05_matches_literal : forall raw v ext,
  hd 0 raw <> 0x5f -> parse raw = Ok v -> Forall (fun c => c < 0x100) (no_dash ext) ->
  exists b, utf8_encode raw = Ok b /\
  (matches_extension v ext = Ok true <-> no_dash b = no_dash ext).
Proof. exact matches_literal_spec. Qed.
Print Assumptions C05_matches_literal.

(* Characters above latin1 in the extension crash. *)
Theorem C05_matches_crash : forall v ext,
  ~ Forall (fun c => c < 0x100) (no_dash ext) -> matches_extension v ext = Exn UnicodeEncodeError.
Proof. exact matches_extension_crash. Qed.
Print Assumptions C05_matches_crash.

Example C05_example : exists v, parse (L "_N[1-3]X!") = Ok v /\
  matches_extension v (L "225-5") = Ok true /\ matches_extension v (L "1255") = Ok false /\
  matches_extension v (L "22") = Ok false /\ PatLang (L "N[1-3]X!") (L "2255").
Proof.
  eexists. repeat split; try reflexivity.
  apply PL_N; [now left | vm_compute; split; discriminate|]. apply (PL_set (L "1-3") (L "X!")); [cbn; intuition discriminate | apply range_used_InSet; vm_compute; tauto|].
  apply PL_X; [now left | vm_compute; split; discriminate|]. apply PL_bang.
Qed.
Example C05_example_crash : exists v, parse (L "12") = Ok v /\ matches_extension v [0x20ac] = Exn UnicodeEncodeError.
Proof. eexists; split; reflexivity. Qed.

(* ---- C06 ---- *)
Theorem C06_example_matches_refuted :
  exists v e, parse (L "_[-]") = Ok v /\ example v = Ok e /\ matches_extension v e = Ok false.
Proof. eexists. eexists. repeat split. Qed.
Print Assumptions C06_example_matches_refuted.

Theorem C06_example_pattern_partial : forall p b ts v,
  parse (0x5f :: p) = Ok v -> utf8_encode p = Ok b -> Toks b ts -> Forall LowDashFree ts ->
  exists e, example v = Ok e /\ matches_extension v e = Ok true.
Proof. exact example_pattern_matches. Qed.
Print Assumptions C06_example_pattern_partial.

(* The example is always the lowest members; with C05 this says exactly when it
   matches: a dash in it does not count. *)
Theorem C06_exact : forall p b ts v, parse (0x5f :: p) = Ok v -> utf8_encode p = Ok b -> Toks b ts ->
  exists e, example v = Ok e /\ ExampleText ts e /\
    (matches_extension v e = Ok true <-> exists e1 e2, no_dash e = e1 ++ e2 /\ PatLang b e1).
Proof. exact example_exact. Qed.
Print Assumptions C06_exact.
Theorem C06_text_unique : forall ts e e', ExampleText ts e -> ExampleText ts e' -> e = e'.
Proof. exact ExampleText_fun. Qed.
Print Assumptions C06_text_unique.
Example C06_exact_example : exists v, parse (L "_[-0].") = Ok v /\ example v = Ok (L "-0-123456789-333") /\
  matches_extension v (L "-0-123456789-333") = Ok true /\ Toks (L "[-0].") [TOne (InSet [0x2d; 0x30]); TAny1] /\
  ExampleText [TOne (InSet [0x2d; 0x30]); TAny1] (L "-0-123456789-333").
Proof.
  eexists. split; [reflexivity|]. split; [reflexivity|]. split; [reflexivity|]. split.
  - apply (TK_set [0x2d; 0x30] [0x2e]); [cbn; intuition discriminate|]. apply TK_dot, TK_nil.
  - apply (ET_one _ 0x2d _ (L "0-123456789-333")); [constructor| |apply (ET_any1 [] []); constructor].
    intros d H. inversion H; subst; lia.
Qed.

Theorem C06_example_literal : forall raw v, hd 0 raw <> 0x5f -> parse raw = Ok v ->
  exists e, example v = Ok e /\ matches_extension v e = Ok true.
Proof. exact example_literal_matches. Qed.
Print Assumptions C06_example_literal.

Example C06_example : exists v, parse (L "_x2.") = Ok v /\ example v = Ok (L "020-123456789-333") /\
  Toks (L "x2.") [TOne (fun d => 0x30 <= d <= 0x39); TOne (fun d => d = 0x32); TAny1] /\
  Forall LowDashFree [TOne (fun d => 0x30 <= d <= 0x39); TOne (fun d => d = 0x32); TAny1].
Proof.
  eexists. split; [reflexivity|]. split; [reflexivity|]. split.
  - apply TK_X; [now right|]. apply TK_lit; [cbn; intuition discriminate|]. apply TK_dot, TK_nil.
  - repeat constructor; cbn; lia.
Qed.
