(* Final theorems about variables: C27-C32. *)
From Verif Require Import Base PyStr Defines Var VarFun Tables Spec_Var Spec_VarFun Var_proofs
  Balance_proofs Match_proofs VarFun_proofs Round_proofs Slice_proofs SplitN_proofs.

Definition at0 : loc := Where (L "x") 1 [].
Lemma ascii_ok : AsciiOk uni_ascii.
Proof.
  intros c Hc. cbn. unfold ascii_digit.
  split; [|intros d]; destruct (48 <=? c) eqn:E1, (c <=? 57) eqn:E2; cbn;
    rewrite ?N.leb_le, ?N.leb_gt in *; split; try congruence; try lia; try (intros [= <-]); try lia;
    try (intros [? ->]); try easy; try lia.
Qed.

(* ---- C27 ---- *)

(* Missing for the full property: texts with '${}', '$[]', ')$[:', and slices
   whose numbers are not in the form Python prints (leading zeros, minus zero,
   digits outside ASCII); for those it is false, see below.  C27_exact in
   Properties_Subst.v has no such exceptions. *)
Theorem C27_round_trip_partial : forall U FT s w l t, AsciiOk U ->
  parse_variables U FT s w = (l, Ok t) -> NoSyntaxError l -> Plain U s -> str_of t = Ok s.
Proof. intros U FT s w l t HU. now apply round_trip. Qed.
Print Assumptions C27_round_trip_partial.

Fixpoint occ (p s : str) : bool :=
  startswith p s || match s with [] => false | _ :: r => occ p r end.
Lemma occ_Occurs p s : occ p s = false -> ~ Occurs p s.
Proof.
  intros H (a & b & ->). induction a as [|x a IH]; cbn [app occ] in H.
  - destruct (p ++ b) eqn:E; cbn in H; apply Bool.orb_false_iff in H; destruct H as [H _];
      rewrite <- E in H; rewrite (proj2 (startswith_app p (p ++ b))) in H; eauto; discriminate.
  - apply Bool.orb_false_iff in H. now apply IH.
Qed.

Definition c27_text : str := L "a${CUT(x${y:-3:2},$[1+${z}],2):0:4}b${v}".
Example C27_example :
  Plain uni_ascii c27_text /\
  exists l t, parse_variables uni_ascii funcs_v13 c27_text at0 = (l, Ok t) /\ log_msgs l = [] /\
    str_of t = Ok c27_text.
Proof.
  split.
  - assert (N : NumPlain uni_ascii c27_text).
    { split.
      - now apply occ_Occurs.
      - intros d Hd. apply occ_Occurs.
        assert (d = 0 \/ d = 1 \/ d = 2 \/ d = 3 \/ d = 4 \/ d = 5 \/ d = 6 \/ d = 7 \/ d = 8 \/ d = 9)
          as C by lia.
        repeat (destruct C as [->|C]; [vm_compute; reflexivity|]). subst d. vm_compute. reflexivity.
      - intros c H _. revert c H. apply Forall_forall. repeat constructor. }
    split; try now apply occ_Occurs.
    intros a t i r E (E' & _). apply (numplain_sub uni_ascii c27_text); [exact N|].
    exists (a ++ L "${"), (125 :: r). rewrite E, E', <- !app_assoc. reflexivity.
  - remember (parse_variables uni_ascii funcs_v13 c27_text at0) as p eqn:E. vm_compute in E. subst p.
    eexists _, _. repeat split.
Qed.

Theorem C27_round_trip_refuted :
  ~ forall s l t, parse_variables uni_ascii funcs_v13 s at0 = (l, Ok t) -> NoSyntaxError l ->
      str_of t = Ok s.
Proof.
  intros H. specialize (H (L "${foo:007}") [LVar (L "foo") at0] (TSlice (TS (L "foo")) 7 None) eq_refl).
  assert (N : NoSyntaxError [LVar (L "foo") at0]) by (intros m [|[]]; discriminate).
  specialize (H N). discriminate H.
Qed.
Print Assumptions C27_round_trip_refuted.

(* Each exception made in [Plain] is needed. *)
Definition text_of (s : str) : list str * res str :=
  let p := parse_variables uni_ascii funcs_v13 s at0 in
  (map (fun m => mname (m_cls m)) (log_msgs (fst p)), let! t := snd p in str_of t).
Example C27_minus_zero : text_of (L "${x:-0:2}") = ([], Ok (L "${x:0:2}")). Proof. vm_compute. reflexivity. Qed.
Example C27_empty_var : text_of (L "${}") = ([], Exn AttributeError). Proof. vm_compute. reflexivity. Qed.
Example C27_empty_expr : text_of (L "$[]") = ([], Exn AttributeError). Proof. vm_compute. reflexivity. Qed.
Example C27_tail : text_of (L "${LEN(a)$[:1]}") = ([], Ok (L "${LEN(a):1}")). Proof. vm_compute. reflexivity. Qed.

(* ---- C28 ---- *)

Theorem C28_unterminated : forall U FT s w,
  (snd (parse_variables U FT s w) = Exn VarParseError -> Unterminated s) /\
  (Unterminated s -> forall t, snd (parse_variables U FT s w) <> Ok t).
Proof.
  intros U FT s w. split; [apply parse_loop_vpe|]. intros H t. now apply unterminated_not_ok.
Qed.
Print Assumptions C28_unterminated.

(* Unless the code crashes on another part of the text, the error is raised
   exactly for unterminated texts. *)
Theorem C28_exact : forall U FT s w,
  (forall e, snd (parse_variables U FT s w) = Exn e -> e = VarParseError) ->
  (snd (parse_variables U FT s w) = Exn VarParseError <-> Unterminated s).
Proof.
  intros U FT s w H. split; [apply C28_unterminated|]. intros Hu.
  destruct (snd (parse_variables U FT s w)) as [t|e|] eqn:E.
  - now apply (proj2 (C28_unterminated U FT s w) Hu t) in E.
  - now rewrite (H e eq_refl).
  - now apply parse_variables_ends in E.
Qed.
Print Assumptions C28_exact.

Theorem C28_terminates : forall U FT s w, snd (parse_variables U FT s w) <> Hang.
Proof. exact parse_variables_ends. Qed.
Print Assumptions C28_terminates.

(* Text without '${' and '$[' is returned as it is. *)
Theorem C28_plain_text : forall U FT s w, ~ Opens s -> parse_variables U FT s w = ([], Ok (TS s)).
Proof.
  intros U FT s w H. unfold parse_variables. cbn [parse_loop].
  destruct (loop_cases s) as [[-> _]|(pre & x & rest & _ & (Ho & -> & _) & _)].
  - unfold mret. do 2 f_equal. now destruct s.
  - exfalso. apply H. now exists pre, x, (close_of x), rest.
Qed.
Print Assumptions C28_plain_text.

Example C28_example_unterminated :
  Unterminated (L "a${b}$[1+${c}") /\
  snd (parse_variables uni_ascii funcs_v13 (L "a${b}$[1+${c}") at0) = Exn VarParseError.
Proof.
  split; [|vm_compute; reflexivity].
  apply (proj1 (C28_unterminated uni_ascii funcs_v13 _ at0)). vm_compute. reflexivity.
Qed.
(* '}' inside '$[...]' and ']' inside '${...}' do not count *)
Example C28_example_mixed :
  snd (parse_variables uni_ascii funcs_v13 (L "${a]b}$[c}d]") at0) =
  Ok (TList [TVar (TS (L "a]b")); TExpr (TS (L "c}d"))]).
Proof. vm_compute. reflexivity. Qed.

(* ---- C29 ---- *)

(* What is reported and what is built, for every offset and length text. *)
Theorem C29_reports : forall U FT n a b w, AsciiOk U ->
  (forall c, In c (n ++ a ++ match b with Some x => x | None => [] end) ->
     ~ In c (L "${}(:") /\ c < 128) ->
  exists cs zo zl l, SliceReport a b cs zo zl /\
    parse_variables U FT (L "${" ++ (n ++ 58 :: a ++ match b with Some x => 58 :: x | None => [] end) ++ L "}") w =
      (l, Ok (match zo with None => TVar (TS n) | Some z => TSlice (TS n) z zl end)) /\
    (LegalName n -> map m_cls (log_msgs l) = cs) /\
    (~ LegalName n -> map m_cls (log_msgs l) = cs ++ [E_VAR_BAD_TOKENS]).
Proof.
  intros U FT n a b w HU Hc.
  assert (H58 : forall c, ~ In c (L "${}(:") -> c <> 58) by (intros c H ->; apply H; cbn; auto 10).
  destruct (slice_report U HU n a b w) as (cs & zo & zl & Hr & _).
  - intros H. apply (H58 58); [|easy]. apply Hc. apply in_app_iff. now left.
  - intros H. apply (H58 58); [|easy]. apply Hc. rewrite !in_app_iff. auto.
  - intros x -> H. apply (H58 58); [|easy]. apply Hc. rewrite !in_app_iff. auto.
  - apply Forall_forall. intros c H. apply Hc. rewrite !in_app_iff. auto.
  - intros x ->. apply Forall_forall. intros c H. apply Hc. rewrite !in_app_iff. auto.
  - destruct (variable_report U HU FT n a b w cs zo zl Hc Hr) as (l & Hl).
    exists cs, zo, zl, l. split; [exact Hr|exact Hl].
Qed.
Print Assumptions C29_reports.

(* A slice that is accepted can be formatted with any value, and gives the
   substring Asterisk takes, unless a negative offset with a positive length
   goes beyond the beginning of the value. *)
Theorem C29_substring_partial : forall a b cs z zl env n v,
  SliceReport a b cs (Some z) zl -> env n = Some v ->
  exists r, tformat env (TSlice (TS n) z zl) = Ok r /\
    ((z >= 0 \/ zl = None \/ (exists y, zl = Some y /\ y < 0) \/ - z <= Z.of_nat (length v))%Z ->
     AstSubstring v z zl r).
Proof.
  intros a b cs z zl env n v Hr Hv. destruct (slice_format_total env n z zl v a b cs Hr Hv) as [r Er].
  exists r. split; [exact Er|]. apply (slice_format env (TS n) z zl n v r); [reflexivity|exact Hv|exact Er].
Qed.
Print Assumptions C29_substring_partial.

(* Exactly then, or if the value is empty. *)
Theorem C29_substring_exact : forall a b cs z zl env n v,
  SliceReport a b cs (Some z) zl -> env n = Some v ->
  exists r, tformat env (TSlice (TS n) z zl) = Ok r /\
    (AstSubstring v z zl r <->
     (z >= 0 \/ zl = None \/ (exists y, zl = Some y /\ y < 0) \/ - z <= Z.of_nat (length v))%Z \/ v = []).
Proof.
  intros a b cs z zl env n v Hr Hv. destruct (slice_format_total env n z zl v a b cs Hr Hv) as [r Er].
  exists r. split; [exact Er|]. apply (slice_format_iff env (TS n) z zl n v r); [reflexivity|exact Hv|exact Er].
Qed.
Print Assumptions C29_substring_exact.

Theorem C29_substring_unique : forall v z zl r r',
  AstSubstring v z zl r -> AstSubstring v z zl r' -> r = r'.
Proof. exact AstSubstring_fun. Qed.
Print Assumptions C29_substring_unique.

Example C29_example :
  SliceReport (L "-4") (Some (L "-1")) [] (Some (-4)%Z) (Some (-1)%Z) /\
  tformat (fun _ => Some (L "ABCDEF")) (TSlice (TS (L "foo")) (-4) (Some (-1)%Z)) = Ok (L "CDE") /\
  AstSubstring (L "ABCDEF") (-4) (Some (-1)%Z) (L "CDE").
Proof.
  split; [|split].
  - apply SR_ok.
    + apply (Li_neg [52] 4). apply (Di_one 4). lia.
    + apply (Li_neg [49] 1). apply (Di_one 1). lia.
    + unfold LengthMakesSense. lia.
  - reflexivity.
  - exists (L "AB"), (L "F"). repeat split.
Qed.

(* ${foo:-5:2} of a two character value: Asterisk gives the first two
   characters, the linter nothing. *)
Theorem C29_substring_refuted : exists r,
  SliceReport (L "-5") (Some (L "2")) [] (Some (-5)%Z) (Some 2%Z) /\
  tformat (fun _ => Some (L "AB")) (TSlice (TS (L "foo")) (-5) (Some 2%Z)) = Ok [] /\
  AstSubstring (L "AB") (-5) (Some 2%Z) r /\ r <> [].
Proof.
  exists (L "AB"). repeat split; try discriminate.
  - apply SR_ok.
    + apply (Li_neg [53] 5). apply (Di_one 5). lia.
    + apply (Li_pos [50] 2). apply (Di_one 2). lia.
    + unfold LengthMakesSense. lia.
  - exists [], []. repeat split.
Qed.
Print Assumptions C29_substring_refuted.

Theorem C29_no_assertion : forall U d w, snd (process_slice U d w) <> Exn AssertionError.
Proof. exact process_slice_no_assert. Qed.
Print Assumptions C29_no_assertion.

(* A superscript two is a digit to str.isdigit() but not to int(). *)
Theorem C29_rejected_reported_refuted : exists U, AsciiOk U /\
  snd (parse_variables U funcs_v13 (L "${foo:" ++ [178] ++ L "}") at0) = Exn ValueError.
Proof.
  exists (Uni (map lower_c) (fun c => ascii_digit c || (c =? 178)) (u_decimal uni_ascii)).
  split; [|vm_compute; reflexivity].
  intros c Hc. destruct (ascii_ok c Hc) as [H1 H2]. split; [|exact H2].
  cbn in *. replace (c =? 178) with false by (symmetry; apply N.eqb_neq; lia).
  now rewrite Bool.orb_false_r.
Qed.
Print Assumptions C29_rejected_reported_refuted.

(* ---- C30 ---- *)

Theorem C30_balance : forall t l, Flat t l ->
  (check_balance (items t) = Ok tt <-> Balanced l) /\
  (~ Balanced l -> check_balance (items t) = Exn ValueError).
Proof.
  intros t l Hf. destruct (balance_exact t l Hf) as [H1 H2]. split; [exact H1|].
  intros Hn. apply H2. intros E. now apply Hn, H1.
Qed.
Print Assumptions C30_balance.

Example C30_example :
  Balanced (map Ch (L "a(b[c]'(')") ++ [Va (TVar (TS (L "x")))]) /\
  check_balance (items (vjoin [TS (L "a(b[c]'(')"); TVar (TS (L "x"))])) = Ok tt /\
  check_balance (items (TS (L "a(b]"))) = Exn ValueError /\
  check_balance (items (TS (L "it's"))) = Exn ValueError.
Proof.
  split; [|vm_compute; repeat split].
  apply (C30_balance (vjoin [TS (L "a(b[c]'(')"); TVar (TS (L "x"))])).
  - apply (Fl_list [TS (L "a(b[c]'(')"); TVar (TS (L "x"))]
             [map Ch (L "a(b[c]'(')"); [Va (TVar (TS (L "x")))]]).
    constructor; [constructor|]. constructor; [constructor; constructor|constructor].
  - vm_compute. reflexivity.
Qed.

(* Every value has such a sequence of characters and variables, and one only. *)
Theorem C30_flat_unique : forall t, exists l, Flat t l /\ forall l', Flat t l' -> l' = l.
Proof. intros t. exists (elems t). split; [apply Flat_elems|apply Flat_fun]. Qed.
Print Assumptions C30_flat_unique.

(* The arguments of a function written to may reach the check as a list of
   longer strings instead; then it is not exact: '(' behind other text is not
   seen. *)
Theorem C30_argument_list_refuted : exists t a,
  t = vjoin [TVar (TS (L "x")); TS (L "(a")] /\ a = [TVar (TS (L "x")); TS (L "(a")] /\
  slice_of (vjoin (a ++ [TS (L ")")])) (removelast (items (vjoin (a ++ [TS (L ")")])))) = SlList a /\
  check_balance a = Ok tt /\ check_balance (items t) = Exn ValueError.
Proof. eexists _, _. repeat split. Qed.
Print Assumptions C30_argument_list_refuted.

(* ---- C31 ---- *)

(* join keeps characters and variables in order; neighbouring texts become
   one, empty ones disappear. *)
Theorem C31_join : forall l ls, Forall2 Flat l ls -> Flat (vjoin l) (List.concat ls).
Proof.
  intros l ls H. apply Flat_iff. rewrite vjoin_elems. induction H as [|x y l ls Hx Hl IH]; [easy|].
  cbn. now rewrite IH, (Flat_fun _ _ Hx).
Qed.
Print Assumptions C31_join.

Theorem C31_join_shape : forall l,
  match vjoin l with
  | TS _ => True
  | TList m => Norm m /\ (length m >= 2)%nat \/ In (TList m) l
  | v => In v l
  end.
Proof. exact vjoin_norm. Qed.
Print Assumptions C31_join_shape.

(* A str, or a Var made by joining strs and named variables, is split at the
   first [max] separators, and gluing the parts gives it back. *)
Theorem C31_split_partial : forall c max t l, Shallow t -> ~ Named t -> Flat t l ->
  exists parts pl, vsplit c max t = Ok parts /\ Forall2 Flat parts pl /\
    Split c max l pl /\ glue c pl = l /\
    (forall m, max = Some m -> (length parts <= S m)%nat).
Proof.
  intros c max t l Hs Hn Hf. apply Flat_fun in Hf. subst l.
  destruct (vsplit_Split c max t Hs Hn) as (parts & E & H). exists parts, (map elems parts).
  split; [exact E|]. split; [|split; [exact H|split]].
  - clear. induction parts; constructor; [apply Flat_elems|easy].
  - now apply (Split_glue c max).
  - intros m Hm. rewrite <- (map_length elems). now apply (Split_count c max (elems t)).
Qed.
Print Assumptions C31_split_partial.

(* Splitting and gluing gives back exactly the values that are no single named
   variable. *)
Theorem C31_exact : forall c max t l, Shallow t -> Flat t l ->
  (exists parts pl, vsplit c max t = Ok parts /\ Forall2 Flat parts pl /\ glue c pl = l) <-> ~ Named t.
Proof. exact split_exact. Qed.
Print Assumptions C31_exact.
(* A single named variable is split by its name if this is a str, and is replaced
   by its name, in one part, if there are variables in it; without a name it
   cannot be split. *)
Theorem C31_named : forall c max t l, NameSeq t l ->
  (l = [] -> vsplit c max t = Exn AttributeError) /\
  (forall s, TextName t s -> s <> [] -> exists parts pl, vsplit c max t = Ok parts /\ Forall2 Flat parts pl /\ Split c max (map Ch s) pl) /\
  (forall v, In (Va v) l -> exists p, vsplit c max t = Ok [p] /\ Flat p l).
Proof. exact split_named. Qed.
Print Assumptions C31_named.
Example C31_example_named :
  vsplit 40 (Some 1%nat) (TFunc (L "CUT") (TS (L "x,(,1"))) = Ok [TS (L "CUT"); TS (L "x,(,1)")] /\
  vsplit 58 None (TVar (TList [TS (L "a:b"); TVar (TS (L "x"))])) = Ok [TList [TS (L "a:b"); TVar (TS (L "x"))]] /\
  vsplit 61 (Some 1%nat) (TVar (TS [])) = Exn AttributeError.
Proof. vm_compute. auto. Qed.
Example C31_example_names : TextName (TFunc (L "CUT") (TS (L "x,(,1"))) (L "CUT(x,(,1)") /\
  NameSeq (TVar (TList [TS (L "a:"); TVar (TS (L "x"))])) [Ch 97; Ch 58; Va (TVar (TS (L "x")))] /\ NameSeq (TVar (TS [])) [].
Proof.
  split; [apply (Tn_func (L "CUT") (L "x,(,1"))|]. split; apply Ns_var; apply Flat_iff; reflexivity.
Qed.

Theorem C31_split_unique : forall c max l p q, Split c max l p -> Split c max l q -> p = q.
Proof. intros c max l p q H. now apply Split_fun. Qed.
Print Assumptions C31_split_unique.

Example C31_example :
  vsplit 44 (Some 1%nat) (vjoin [TS (L "a,"); TVar (TS (L "x")); TS (L "b,c")]) =
  Ok [TS (L "a"); TList [TVar (TS (L "x")); TS (L "b,c")]].
Proof. reflexivity. Qed.

(* A single named variable is split by its name: $[a:b] falls apart. *)
Theorem C31_split_refuted : exists t parts, Named t /\ vsplit 58 None t = Ok parts /\
  parts = [TS (L "a"); TS (L "b")].
Proof. exists (TExpr (TS (L "a:b"))). eexists. split; [constructor|split; reflexivity]. Qed.
Print Assumptions C31_split_refuted.

(* ---- C32 ---- *)

Theorem C32_could_match_partial : forall t l s, Flat t l -> ~ In 10 s -> is_str t = false ->
  could_match t s = true <-> Instance l s.
Proof. exact could_match_exact. Qed.
Print Assumptions C32_could_match_partial.

Example C32_example :
  let t := vjoin [TS (L "a"); TVar (TS (L "x")); TS (L "c")] in
  could_match t (L "abc") = true /\ could_match t (L "ac") = true /\ could_match t (L "ab") = false /\
  Instance [Ch 97; Va (TVar (TS (L "x"))); Ch 99] (L "abc").
Proof.
  repeat split. constructor. apply (In_var _ [98]). constructor. constructor.
Qed.

(* All targets: a variable in a larger text takes no line feed, and one line feed
   at the end is not looked at. *)
Theorem C32_exact : forall t l s, Flat t l -> is_str t = false -> could_match t s = true <-> CouldBe t l s.
Proof. exact could_match_all. Qed.
Print Assumptions C32_exact.
Example C32_exact_example :
  let t := vjoin [TS (L "a"); TVar (TS (L "x"))] in
  could_match t [97; 98; 10] = true /\ could_match t [97; 10; 98] = false /\ could_match (TVar (TS (L "x"))) [10; 98] = true /\
  CouldBe t [Ch 97; Va (TVar (TS (L "x")))] [97; 98; 10] /\ Nameless (TVar (TS [])) /\ could_match (TVar (TS [])) [10; 98] = false.
Proof.
  split; [reflexivity|]. split; [reflexivity|]. split; [reflexivity|]. split; [|split; [|reflexivity]].
  - apply C32_exact; [apply Flat_iff| |]; reflexivity.
  - constructor. constructor 1 with (s := []).
Qed.

(* '.' does not match a line feed. *)
Theorem C32_could_match_refuted : exists t l s, Flat t l /\ is_str t = false /\
  Instance l s /\ could_match t s = false.
Proof.
  exists (TList [TS (L "a"); TVar (TS (L "x"))]), [Ch 97; Va (TVar (TS (L "x")))], [97; 10; 98].
  split; [|split; [reflexivity|split; [|reflexivity]]].
  - apply Flat_iff. reflexivity.
  - constructor. change [10; 98] with ([10; 98] ++ []). constructor. constructor.
Qed.
Print Assumptions C32_could_match_refuted.
