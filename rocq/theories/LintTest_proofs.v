(* Proofs about the test harness: C64. *)
From Coq Require Import Permutation Sorted.
From Verif Require Import Base PyStr Defines Commands Check Spec_Commands Spec_Check Commands_proofs Modules_proofs LintTest Spec_LintTest.

(* ---- ignoring ---- *)
Lemma split_value s : (exists p, split_on 42 s = [p]) \/ (exists p, split_on 42 s = [p; []]) <-> Value s.
Proof.
  split.
  - intros [[p E]|[p E]]; pose proof (join_split_on 42 s) as J; pose proof (split_on_free 42 s) as F; rewrite E in J, F; cbn in J.
    + subst s. inversion F; subst. now constructor.
    + inversion F; subst. now constructor.
  - intros [s' H|p H].
    + left. exists s'. change s' with (join [42] [s']) at 1. apply split_on_unique; [easy|]. now constructor.
    + right. exists p. change (p ++ [42]) with (join [42] [p; []]). apply split_on_unique; [easy|]. constructor; [easy|]. constructor; [easy|constructor].
Qed.
Lemma item_eq s p : ignore_item (Some s) = Ok (IEq p) <-> s = p /\ ~ In 42 p.
Proof.
  unfold ignore_item. split.
  - pose proof (join_split_on 42 s) as J. pose proof (split_on_free 42 s) as F. destruct (split_on 42 s) as [|a [|b [|c r]]]; try easy.
    + intros [= <-]. cbn in J. inversion F; subst. easy.
    + destruct b; easy.
    + destruct b; easy.
  - intros [-> H]. change p with (join [42] [p]) at 1. rewrite split_on_unique; [easy|easy|]. now constructor.
Qed.
Lemma item_start s p : ignore_item (Some s) = Ok (IStart p) <-> s = p ++ [42] /\ ~ In 42 p.
Proof.
  unfold ignore_item. split.
  - pose proof (join_split_on 42 s) as J. pose proof (split_on_free 42 s) as F. destruct (split_on 42 s) as [|a [|b [|c r]]]; try easy.
    + destruct b; [|easy]. intros [= <-]. cbn in J. inversion F; subst. easy.
    + destruct b; easy.
  - intros [-> H]. change (p ++ [42]) with (join [42] [p; []]). rewrite split_on_unique; [easy|easy|]. constructor; [easy|]. constructor; [easy|constructor].
Qed.
Lemma item_some s : (exists i, ignore_item (Some s) = Ok i) <-> Value s.
Proof.
  split.
  - intros [[p|p] E]; [apply item_eq in E as [-> H]|apply item_start in E as [-> H]]; now constructor.
  - intros [s' H|p H]; [exists (IEq s'); now apply item_eq|exists (IStart p); now apply item_start].
Qed.
Lemma item_fails v : (exists i, ignore_item v = Ok i) \/ v = None /\ ignore_item v = Exn TypeError \/ (exists s, v = Some s) /\ ignore_item v = Exn ValueError.
Proof.
  destruct v as [s|]; [|now right; left]. unfold ignore_item. destruct (split_on 42 s) as [|a [|b [|c r]]]; try (right; right; split; [now exists s|easy]).
  - left. now eexists.
  - destruct b; [left; now eexists|right; right; split; [now exists s|easy]].
  - destruct b; right; right; (split; [now exists s|easy]).
Qed.
Theorem ignore_exact vs g : ignore_of (map Some vs) = Ok g -> forall k, ignored g k = true <-> Ignored vs k.
Proof.
  revert g. induction vs as [|v vs IH]; intros g H k; cbn [map ignore_of] in H.
  - injection H as <-. cbn. split; [easy|]. intros [[[] _]|(p & r & [] & _)].
  - destruct (ignore_item (Some v)) as [i|e|] eqn:E; cbn [bind] in H; try discriminate H.
    destruct (ignore_of (map Some vs)) as [g'|e|]; cbn [bind] in H; try discriminate H. specialize (IH g' eq_refl k). injection H as <-.
    unfold ignored in *. destruct i as [s|s]; cbn [ig_equals ig_starts existsb].
    + apply item_eq in E as [-> N]. rewrite <- orb_assoc, orb_true_iff, IH. destruct (str_eqb_spec k s) as [->|D].
      * split; [intros _; left; split; [now left|easy]|]. now left.
      * split.
        -- intros [H|[[H1 H2]|(p & r & H1 & H2)]]; [easy|left; split; [now right|easy]|right; exists p, r; split; [now right|easy]].
        -- intros [[[H|H] N']|(p & r & [H|H] & ->)]; [congruence|right; left; easy| |right; right; now exists p, r].
           exfalso. apply N. rewrite H. apply in_or_app. right. now left.
    + apply item_start in E as [-> N]. rewrite orb_true_iff in *. rewrite orb_true_iff. split.
      * intros [H|[H|H]].
        -- destruct (proj1 IH (or_introl H)) as [[H1 H2]|(p & r & H1 & H2)]; [left; split; [now right|easy]|right; exists p, r; split; [now right|easy]].
        -- apply startswith_app in H as [r ->]. right. exists s, r. split; [now left|easy].
        -- destruct (proj1 IH (or_intror H)) as [[H1 H2]|(p & r & H1 & H2)]; [left; split; [now right|easy]|right; exists p, r; split; [now right|easy]].
      * intros [[[H|H] N']|(p & r & [H|H] & ->)].
        -- exfalso. apply N'. rewrite <- H. apply in_or_app. right. now left.
        -- assert (X : Ignored vs k) by (left; easy). apply IH in X as [X|X]; [now left|right; now right].
        -- apply app_inj_tail in H as [-> _]. right. left. apply startswith_app. now exists r.
        -- assert (X : Ignored vs (p ++ r)) by (right; now exists p, r). apply IH in X as [X|X]; [now left|right; now right].
Qed.
Theorem ignore_some vs : (exists g, ignore_of vs = Ok g) <-> forall v, In v vs -> exists s, v = Some s /\ Value s.
Proof.
  induction vs as [|v vs IH]; cbn [ignore_of]; [split; [easy|now eexists]|]. split.
  - intros [g H]. destruct (ignore_item v) as [i|e|] eqn:E; cbn [bind] in H; try discriminate H.
    destruct (ignore_of vs) as [g'|e|]; cbn [bind] in H; try discriminate H.
    intros x [<-|I]; [|now apply (proj1 IH (ex_intro _ g' eq_refl))]. destruct v as [s|]; [|easy]. exists s. split; [easy|]. apply item_some. now exists i.
  - intros H. destruct (H v (or_introl eq_refl)) as (s & -> & V). apply item_some in V as [i ->]. cbn [bind].
    destruct (proj2 IH (fun x I => H x (or_intror I))) as [g ->]. cbn. now eexists.
Qed.

(* ---- counting ---- *)
Lemma lookup_add k n d x : lookup x (count_add k n d) =
  if str_eqb x k then Some (match lookup k d with Some m => m + n | None => n end) else lookup x d.
Proof.
  induction d as [|[k' n'] d IH]; cbn; [now destruct (str_eqb x k)|]. destruct (str_eqb_spec k k') as [->|D]; cbn.
  - now destruct (str_eqb x k').
  - rewrite IH. destruct (str_eqb_spec x k') as [->|D']; [|easy]. destruct (str_eqb_spec k' k) as [->|]; [contradiction|easy].
Qed.
Definition Counts (l : list str) (d : counts) : Prop :=
  NoDup (map fst d) /\ forall k, lookup k d = if existsb (str_eqb k) l then Some (times k l) else None.
Lemma keys_add k n d : incl (map fst (count_add k n d)) (k :: map fst d) /\ (NoDup (map fst d) -> NoDup (map fst (count_add k n d))).
Proof.
  induction d as [|[k' n'] d [IH1 IH2]]; cbn; [split; [intros x H; exact H|constructor; [easy|constructor]]|].
  destruct (str_eqb_spec k k') as [->|D]; cbn.
  - split; [now right|easy].
  - split.
    + intros x [<-|H]; [right; now left|]. destruct (IH1 x H) as [->|K]; [now left|right; now right].
    + intros H. inversion H as [|? ? N ND]; subst. constructor; [|now apply IH2]. intros I. destruct (IH1 k' I); [congruence|contradiction].
Qed.
Lemma times_none k l : existsb (str_eqb k) l = false -> times k l = 0.
Proof. unfold times. induction l as [|x l IH]; cbn; [easy|]. now destruct (str_eqb k x). Qed.
Lemma times_app k a b : times k (a ++ b) = times k a + times k b.
Proof. unfold times. rewrite filter_app, app_length. lia. Qed.
Lemma counts_nil : Counts [] [].
Proof. split; [constructor|easy]. Qed.
Lemma counts_raise l d k : Counts l d -> Counts (l ++ [k]) (count_add k 1 d).
Proof.
  intros [ND H]. split; [now apply keys_add|]. intros x. rewrite lookup_add, !H, existsb_app. cbn [existsb]. rewrite orb_false_r.
  destruct (str_eqb_spec x k) as [->|D].
  - rewrite orb_true_r. rewrite times_app. f_equal. destruct (existsb (str_eqb k) l) eqn:E; [|rewrite (times_none k l E)]; unfold times; cbn; rewrite str_eqb_refl; cbn; lia.
  - rewrite orb_false_r. destruct (existsb (str_eqb x) l); [|easy]. rewrite times_app. f_equal. unfold times at 3. cbn. destruct (str_eqb_spec x k); [contradiction|]. cbn. lia.
Qed.
Lemma lookup_not_in {A} k (d : list (str * A)) : ~ In k (map fst d) -> lookup k d = None.
Proof. induction d as [|[k' x] d IH]; cbn; [easy|]. intros N. destruct (str_eqb_spec k k') as [->|]; [exfalso; apply N; now left|]. apply IH. tauto. Qed.
Lemma add_all_spec new : NoDup (map fst new) -> forall d, (NoDup (map fst d) -> NoDup (map fst (add_all d new))) /\ forall k,
  lookup k (add_all d new) = match lookup k d, lookup k new with Some x, Some y => Some (x + y) | Some x, None => Some x | None, o => o end.
Proof.
  induction new as [|[k n] new IH]; intros ND d; cbn [add_all fold_left].
  - split; [easy|]. intros k. cbn. now destruct (lookup k d).
  - inversion ND as [|? ? N ND']; subst. destruct (IH ND' (count_add k n d)) as [I1 I2]. split; [intros H; apply I1; now apply keys_add|].
    intros x. cbn [fst snd]. unfold add_all in I2. rewrite I2, lookup_add. cbn [lookup]. destruct (str_eqb_spec x k) as [->|D]; [|easy].
    rewrite (lookup_not_in k new N). now destruct (lookup k d).
Qed.
Lemma counts_app a b d new : Counts a d -> Counts b new -> Counts (a ++ b) (add_all d new).
Proof.
  intros [N1 H1] [N2 H2]. destruct (add_all_spec new N2 d) as [S1 S2]. split; [now apply S1|]. intros k. rewrite S2, H1, H2, existsb_app, times_app.
  destruct (existsb (str_eqb k) a) eqn:A, (existsb (str_eqb k) b) eqn:B; cbn; try easy; f_equal; [rewrite (times_none k b B)|rewrite (times_none k a A)]; lia.
Qed.
Lemma counts_in l d k : Counts l d -> In k (map fst d) <-> In k l.
Proof.
  intros [_ H]. specialize (H k). destruct (existsb (str_eqb k) l) eqn:E.
  - apply existsb_exists in E as (x & I & E). destruct (str_eqb_spec k x) as [->|]; [|easy]. split; [easy|]. intros _.
    destruct (in_dec str_eq_dec x (map fst d)) as [K|K]; [easy|]. rewrite (lookup_not_in x d K) in H. discriminate H.
  - split; intros I; exfalso.
    + apply in_map_iff in I as ([k' n] & <- & I). clear - H I. cbn in *. induction d as [|[a b] d IH]; [easy|]. cbn in H. destruct (str_eqb_spec k' a) as [->|D]; [discriminate|].
      destruct I as [[= -> ->]|I]; [congruence|auto].
    + assert (X : existsb (str_eqb k) l = true) by (apply existsb_exists; exists k; split; [easy|apply str_eqb_refl]). congruence.
Qed.

(* ---- assertLinted ---- *)
Lemma dict_iff a b : dict_eqb a b = true <-> forall k, lookup k a = lookup k b.
Proof.
  unfold dict_eqb. rewrite forallb_forall. unfold same_at. split.
  - intros H k. destruct (in_dec str_eq_dec k (map fst a ++ map fst b)) as [I|I].
    + specialize (H k I). destruct (lookup k a), (lookup k b); try easy. apply N.eqb_eq in H. congruence.
    + rewrite !lookup_not_in; [easy| |]; intros K; apply I, in_or_app; auto.
  - intros H k _. rewrite (H k). destruct (lookup k b); [apply N.eqb_refl|easy].
Qed.
Definition skips (ig : option ignore) (k : str) : Prop := match ig with Some g => ignored g k = true | None => False end.
Lemma lookup_filter (p : str -> bool) (d : counts) k : lookup k (filter (fun kn => p (fst kn)) d) = if p k then lookup k d else None.
Proof.
  induction d as [|[k' n] d IH]; cbn; [now destruct (p k)|]. destruct (p k') eqn:E; cbn.
  - rewrite IH. destruct (str_eqb_spec k k') as [->|]; [now rewrite E|easy].
  - rewrite IH. destruct (str_eqb_spec k k') as [->|]; [now rewrite E|easy].
Qed.
Lemma assert_iff ig e l st : Counts l (ts_raised st) -> snd (assert_linted ig e st) = true <-> Expects (skips ig) l e.
Proof.
  intros [ND H]. unfold assert_linted. cbn [snd]. rewrite dict_iff.
  assert (K : forall k, lookup k (match ig with Some g => filter (fun kn => negb (ignored g (fst kn))) (ts_raised st) | None => ts_raised st end) =
    if existsb (str_eqb k) l && negb (match ig with Some g => ignored g k | None => false end) then Some (times k l) else None).
  { intros k. destruct ig as [g|]; [rewrite (lookup_filter (fun k => negb (ignored g k)))|]; rewrite H; destruct (existsb (str_eqb k) l); cbn; try easy; now destruct (ignored g k). }
  assert (I : forall k, existsb (str_eqb k) l = true <-> In k l).
  { intros k. rewrite existsb_exists. split; [intros (x & J & E); destruct (str_eqb_spec k x) as [->|]; easy|]. intros J. exists k. split; [easy|apply str_eqb_refl]. }
  assert (S : forall k, match ig with Some g => ignored g k | None => false end = true <-> skips ig k) by (intros k; destruct ig; cbn; [easy|split; easy]).
  split.
  - intros E k. rewrite <- E, K. specialize (I k). specialize (S k). set (b := match ig with Some g => ignored g k | None => false end) in *.
    destruct (existsb (str_eqb k) l), b; cbn; split; intros X; try easy; exfalso; intuition congruence.
  - intros E k. rewrite K. destruct (E k) as [E1 E2]. specialize (I k). specialize (S k). set (b := match ig with Some g => ignored g k | None => false end) in *.
    destruct (existsb (str_eqb k) l) eqn:X, b eqn:B; cbn; symmetry; try (apply E1; intuition congruence); apply E2; intuition congruence.
Qed.
(* ---- a test ---- *)
Lemma body_raise ig seg : forall rest st, run_body ig (map Raise seg ++ rest) st =
  run_body ig rest (TState (fold_left (fun d k => count_add k 1 d) seg (ts_raised st)) (ts_linted st)).
Proof. induction seg as [|k seg IH]; intros rest st; cbn [map List.app run_body fold_left]; [now destruct st|]. now rewrite IH. Qed.
Lemma body_end ig seg st : run_body ig (map Raise seg) st = (TState (fold_left (fun d k => count_add k 1 d) seg (ts_raised st)) (ts_linted st), true).
Proof. rewrite <- (app_nil_r (map Raise seg)), body_raise. easy. Qed.
Lemma counts_raises seg : forall l d, Counts l d -> Counts (l ++ seg) (fold_left (fun d k => count_add k 1 d) seg d).
Proof.
  induction seg as [|k seg IH]; intros l d H; cbn [fold_left]; [now rewrite app_nil_r|]. change (k :: seg) with ([k] ++ seg). rewrite app_assoc. apply IH. now apply counts_raise.
Qed.
Lemma cut_body l : exists seg, l = map Raise seg \/ exists a rest, l = map Raise seg ++ a :: rest /\ forall k, a <> Raise k.
Proof.
  induction l as [|[k|e|] l IH]; [exists []; now left| |exists []; right; now exists (Assert e), l|exists []; right; now exists Stop, l].
  destruct IH as [seg [->|(a & rest & -> & N)]]; exists (k :: seg); [now left|right; now exists a, rest].
Qed.
Lemma body_len (seg : list str) a (rest : list act) : (length rest < length (map Raise seg ++ a :: rest))%nat.
Proof. rewrite app_length. cbn. lia. Qed.
Lemma raise_inj a : forall b, map Raise a = map Raise b -> a = b.
Proof. induction a as [|x a IH]; intros [|y b]; cbn; try easy. intros [= -> H]. f_equal. auto. Qed.
Lemma raise_cut a : forall b x r y q, map Raise a ++ x :: r = map Raise b ++ y :: q -> (forall k, x <> Raise k) -> (forall k, y <> Raise k) -> a = b /\ x = y /\ r = q.
Proof.
  induction a as [|k a IH]; intros [|k' b] x r y q; cbn.
  - intros [= -> ->]. easy.
  - intros [= -> _] N. now destruct (N k').
  - intros [= <- _] _ N. now destruct (N k).
  - intros [= -> H] N N'. destruct (IH b x r y q H N N') as (-> & -> & ->). easy.
Qed.
Lemma raise_end a : forall b y q, map Raise a = map Raise b ++ y :: q -> (forall k, y <> Raise k) -> False.
Proof.
  induction a as [|k a IH]; intros [|k' b] y q; cbn; try easy.
  - intros [= <- _] N. now destruct (N k).
  - intros [= _ H] N. now apply (IH b y q).
Qed.
Lemma expects_nil skip seg : (forall k, skip k \/ ~ skip k) -> Expects skip seg [] <-> forall k, In k seg -> skip k.
Proof.
  intros D. split.
  - intros H k I. destruct (D k) as [?|N]; [easy|]. discriminate (proj1 (H k) (conj I N)).
  - intros H k. split; [|easy]. intros [I N]. destruct (N (H k I)).
Qed.
Lemma skips_dec ig k : skips ig k \/ ~ skips ig k.
Proof. destruct ig as [g|]; cbn; [destruct (ignored g k); [now left|now right]|now right]. Qed.
Theorem test_spec ig : forall n l, (length l < n)%nat -> forall linted seen, Counts seen linted ->
  let x := run_body ig l (TState [] linted) in
  let y := if snd x then (ts_linted (fst (assert_linted ig [] (fst x))), snd (assert_linted ig [] (fst x))) else (ts_linted (fst x), false) in
  (snd y = true <-> Passes (skips ig) l) /\ exists t, Tested (skips ig) l t /\ Counts (seen ++ t) (fst y).
Proof.
  induction n as [|n IH]; intros l Hl linted seen C; [lia|]. destruct (cut_body l) as [seg [->|(a & rest & -> & N)]]; cbv zeta.
  - rewrite body_end. cbn [run_body fst snd ts_raised ts_linted].
    pose proof (counts_raises seg [] [] counts_nil) as CR. cbn [List.app] in CR. split.
    + rewrite (assert_iff ig [] seg) by exact CR. rewrite (expects_nil _ _ (skips_dec ig)). split; [now constructor|]. intros H. inversion H as [s' H' E|s' e r _ _ E].
      * apply raise_inj in E as ->. easy.
      * exfalso. symmetry in E. now apply raise_end in E.
    + exists seg. split; [constructor|]. unfold assert_linted. cbn [fst ts_linted ts_raised]. now apply counts_app.
  - rewrite body_raise. cbn [ts_raised ts_linted]. pose proof (counts_raises seg [] [] counts_nil) as CR. cbn [List.app] in CR. destruct a as [k|e|]; [now destruct (N k)| |].
    + cbn [run_body]. set (st := TState _ linted). pose proof (assert_iff ig e seg st CR) as A. destruct (assert_linted ig e st) as [st' b] eqn:E. cbn [fst snd] in *.
      assert (E' : st' = TState [] (add_all linted (fold_left (fun d k => count_add k 1 d) seg []))) by (unfold assert_linted in E; cbn [ts_raised ts_linted st] in E; congruence). subst st'.
      assert (C' := counts_app _ _ _ _ C CR). destruct b.
      * assert (X : Expects (skips ig) seg e) by now apply A. pose proof (body_len seg (Assert e) rest) as BL.
        destruct (IH rest ltac:(lia) _ _ C') as [I1 (t & T & CT)]. split.
        -- rewrite I1. split; [intros P; now constructor|]. intros P. inversion P as [s' H' Q|s' e' r' X' P' Q]; [exfalso; now apply raise_end in Q|]. apply raise_cut in Q as (_ & _ & ->); easy.
        -- exists (seg ++ t). split; [now constructor|]. now rewrite app_assoc.
      * assert (X : ~ Expects (skips ig) seg e) by (intros K; apply A in K; discriminate). cbn [fst snd]. split.
        -- split; [easy|]. intros P. inversion P as [s' H' Q|s' e' r' X' P' Q]; [exfalso; now apply raise_end in Q|]. apply raise_cut in Q as (-> & [= ->] & ->); easy.
        -- exists seg. split; [now constructor|]. exact C'.
    + cbn [run_body fst snd ts_linted]. split.
      * split; [easy|]. intros P. inversion P as [s' H' Q|s' e' r' X' P' Q]; [exfalso; now apply raise_end in Q|]. apply raise_cut in Q as (_ & Q & _); easy.
      * exists []. split; [constructor|]. now rewrite app_nil_r.
Qed.
Lemma tested_fun skip l a : Tested skip l a -> forall b, Tested skip l b -> a = b.
Proof.
  induction 1 as [seg|seg rest|seg e rest t X T IH|seg e rest X]; intros b B; inversion B as [s' Q|s' r' Q|s' e' r' t' X' T' Q|s' e' r' X' Q]; subst;
    try (apply raise_inj in Q as ->; easy);
    try (exfalso; symmetry in Q; now apply raise_end in Q); try (exfalso; now apply raise_end in Q);
    apply raise_cut in Q as (-> & Q' & ->); try easy; try discriminate Q'; injection Q' as ->; try contradiction.
  f_equal. now apply IH.
Qed.
Definition skip_of (t : test) : str -> Prop := skips (ignore_for t).
Theorem test_exact t : exists linted l, run_test [] t = ([], linted, snd (run_test [] t)) /\
  (snd (run_test [] t) = true <-> Passes (skip_of t) (t_body t)) /\ Tested (skip_of t) (t_body t) l /\ Counts l linted.
Proof.
  unfold run_test, skip_of. set (x := run_body (ignore_for t) (t_body t) (TState [] [])).
  destruct (test_spec (ignore_for t) (S (length (t_body t))) (t_body t) ltac:(lia) [] [] counts_nil) as [A (l & T & C)]. fold x in A, C. cbv zeta in *.
  destruct (snd x); cbn [fst snd List.app] in *; eexists; exists l; repeat split; try easy; try apply A; apply C.
Qed.
Lemma run_test_left raised t : fst (fst (run_test raised t)) = [].
Proof. unfold run_test. now destruct (snd (run_body _ _ _)). Qed.

(* ---- a run of tests ---- *)
Theorem suite_exact ts : forall total seen, Counts seen total -> exists ls,
  Forall2 (fun t l => Tested (skip_of t) (t_body t) l) ts ls /\ Counts (seen ++ List.concat ls) (fst (run_suite [] total ts)) /\
  Forall2 (fun t ok => ok = true <-> Passes (skip_of t) (t_body t)) ts (snd (run_suite [] total ts)).
Proof.
  induction ts as [|t ts IH]; intros total seen C; cbn [run_suite].
  - exists []. cbn. rewrite app_nil_r. repeat split; try constructor; apply C.
  - destruct (test_exact t) as (linted & l & E & P & T & CT). rewrite E. cbn [fst snd].
    destruct (IH _ _ (counts_app _ _ _ _ C CT)) as (ls & F & CC & V). exists (l :: ls). cbn [List.concat]. rewrite app_assoc. repeat split; try (now constructor); apply CC.
Qed.
Lemma join_lines l : l <> [] -> [10] ++ L " - " ++ join ([10] ++ L " - ") l = flat_map (fun k => [10] ++ L " - " ++ k) l.
Proof.
  induction l as [|a l IH]; [easy|]. intros _. destruct l as [|b l]; [cbn [flat_map join]; now rewrite !app_nil_r|].
  cbn [flat_map] in *. rewrite <- IH by easy. cbn [join]. now rewrite <- !app_assoc.
Qed.
Theorem untested_exact types l total : Counts l total -> forall page, untested types total = page <-> Untested types l page.
Proof.
  intros C. set (u := sorted_set (filter (fun k => negb (existsb (str_eqb k) (map fst total))) types)).
  assert (I : forall k, In k u <-> In k types /\ ~ In k l).
  { intros k. unfold u. rewrite sorted_set_in, filter_In, negb_true_iff. rewrite <- (counts_in l total k C). split; intros [H1 H2]; split; try easy.
    - intros H. assert (X : existsb (str_eqb k) (map fst total) = true) by (apply existsb_exists; exists k; split; [easy|apply str_eqb_refl]). congruence.
    - apply not_true_iff_false. intros H. apply H2. apply existsb_exists in H as (x & J & E). destruct (str_eqb_spec k x) as [->|]; easy. }
  assert (E : untested types total = match u with [] => [] | _ => [10; 10] ++ L "Still untested messages:" ++ flat_map (fun k => [10] ++ L " - " ++ k) u ++ [10] end).
  { unfold untested. fold u. destruct u as [|a r] eqn:Eu; [easy|]. rewrite <- join_lines by easy. now rewrite <- !app_assoc. }
  intros page. rewrite E. split.
  - intros <-. exists u. repeat split; try apply I; try easy; [apply sorted_set_sorted|apply sorted_set_nodup].
  - intros (u' & S & N & I' & ->). replace u' with u; [easy|]. apply (Commands_proofs.sorted_unique StrLe); [apply sorted_set_sorted|easy|apply NoDup_Permutation; [apply sorted_set_nodup|easy|]; intros k; rewrite I, I'; easy|]. intros a b _ _. apply Commands_proofs.strle_antisym.
Qed.

(* ---- generated tests ---- *)
Lemma join_flat a r : join (L "_") (a :: r) = a ++ flat_map (fun b => L "_" ++ b) r.
Proof. revert a. induction r as [|b r IH]; intros a; [cbn [join flat_map]; now rewrite app_nil_r|]. cbn [flat_map]. rewrite <- app_assoc, <- IH. easy. Qed.
Lemma case_exact args n : case_name args = n <-> CaseName args n.
Proof.
  unfold case_name, CaseName. split.
  - intros <-. eexists. split; [reflexivity|]. destruct args as [|a r]; [easy|]. now rewrite join_flat.
  - intros (s & -> & H). destruct args as [|a r]; [now subst s|]. now rewrite join_flat, <- H.
Qed.
Lemma lookup_set k v d x : lookup x (dict_set k v d) = if str_eqb x k then Some v else lookup x d.
Proof.
  induction d as [|[k' v'] d IH]; cbn; [now destruct (str_eqb x k)|]. destruct (str_eqb_spec k k') as [->|D]; cbn.
  - now destruct (str_eqb x k').
  - rewrite IH. destruct (str_eqb_spec x k') as [->|D']; [|easy]. destruct (str_eqb_spec k' k) as [->|]; [contradiction|easy].
Qed.
Theorem generate_exact dct argslist n m : lookup n (generate dct argslist) = Some m <-> Has dct argslist n m.
Proof.
  unfold generate. revert m. induction argslist as [|a l IH] using rev_ind; intros m.
  - cbn. split; [intros H; apply Hs_written; easy|]. intros H. inversion H as [b a r E|]; [now destruct b|easy].
  - rewrite fold_left_app. cbn [fold_left]. rewrite lookup_set. destruct (str_eqb_spec n (case_name a)) as [->|D].
    + split.
      * intros [= <-]. apply (Hs_case _ _ _ l a []); [easy|now apply case_exact|easy].
      * intros H. inversion H as [b a' r E C N|m' N]; subst.
        -- destruct r as [|zz r' _] using rev_ind; [apply app_inj_tail in E as [_ ->]; easy|]. rewrite app_comm_cons, app_assoc in E. apply app_inj_tail in E as [_ <-].
           exfalso. apply (N a); [apply in_or_app; right; now left|now apply case_exact].
        -- exfalso. apply (N a); [apply in_or_app; right; now left|now apply case_exact].
    + rewrite IH. split; intros H; inversion H as [b a' r E C N|m' N K]; subst.
      * apply (Hs_case _ _ _ b a' (r ++ [a])); [now rewrite <- app_assoc|easy|]. intros x I. apply in_app_or in I as [I|[<-|[]]]; [now apply N|]. intros X. apply case_exact in X. congruence.
      * apply Hs_written; [|easy]. intros x I. apply in_app_or in I as [I|[<-|[]]]; [now apply N|]. intros X. apply case_exact in X. congruence.
      * destruct r as [|zz r' _] using rev_ind; [apply app_inj_tail in E as [_ ->]; apply case_exact in C; congruence|]. rewrite app_comm_cons, app_assoc in E. apply app_inj_tail in E as [-> ->].
        apply (Hs_case _ _ _ b a' r'); [easy|easy|]. intros x I. apply N, in_or_app. now left.
      * apply Hs_written; [|easy]. intros x I. apply N, in_or_app. now left.
Qed.
Lemma last_of {A} (p : A -> bool) l : (exists x, In x l /\ p x = true) -> exists b c r, l = b ++ c :: r /\ p c = true /\ forall x, In x r -> p x = false.
Proof.
  induction l as [|x l IH] using rev_ind; [now intros (? & [] & _)|]. intros (y & I & P). destruct (p x) eqn:E; [now exists l, x, []|].
  destruct IH as (b & c & r & -> & C & N); [exists y; split; [|easy]; apply in_app_or in I as [I|[<-|[]]]; [easy|congruence]|].
  exists b, c, (r ++ [x]). split; [now rewrite <- app_assoc|]. split; [easy|]. intros z J. apply in_app_or in J as [J|[<-|[]]]; auto.
Qed.
(* every argument list has its test, just when no two have the same name *)
Theorem generate_all dct argslist : (forall a, In a argslist -> lookup (case_name a) (generate dct argslist) = Some (Generated a)) <->
  forall a b n, In a argslist -> In b argslist -> CaseName a n -> CaseName b n -> a = b.
Proof.
  split.
  - intros H a b n Ia Ib Ca Cb. apply case_exact in Ca, Cb. pose proof (H a Ia) as A. pose proof (H b Ib) as B. rewrite Ca in A. rewrite Cb in B. congruence.
  - intros H a I. apply generate_exact.
    destruct (last_of (fun x => str_eqb (case_name x) (case_name a)) argslist) as (b & c & r & E & C & N); [exists a; split; [easy|apply str_eqb_refl]|].
    destruct (str_eqb_spec (case_name c) (case_name a)) as [K|]; [|discriminate C].
    assert (X : a = c) by (apply (H a c (case_name a)); [easy|rewrite E; apply in_or_app; right; now left|now apply case_exact|now apply case_exact]). subst c.
    apply (Hs_case _ _ _ b a r); [easy|now apply case_exact|]. intros x J Y. apply case_exact in Y. specialize (N x J). cbn beta in N. rewrite Y, str_eqb_refl in N. discriminate N.
Qed.

(* ---- from the values of the decorators ---- *)
Definition Made (o : option (list str)) (g : option ignore) : Prop :=
  match o, g with
  | Some vs, Some g => ignore_of (map Some vs) = Ok g
  | None, None => True
  | _, _ => False
  end.
Lemma skip_exact c m t : Made c (t_class t) -> Made m (t_method t) -> forall k, skip_of t k <-> Skip c m k.
Proof.
  unfold skip_of, ignore_for, Skip, Made. intros C M k. destruct (t_class t) as [g|], c as [vs|]; try easy; [now apply ignore_exact|].
  destruct (t_method t) as [g|], m as [vs|]; try easy. now apply ignore_exact.
Qed.
Section Ext.
Variables s1 s2 : str -> Prop.
Hypothesis E : forall k, s1 k <-> s2 k.
Lemma expects_ext seg e : Expects s1 seg e -> Expects s2 seg e.
Proof. intros H k. rewrite <- (E k). apply H. Qed.
Lemma expects_ext' seg e : Expects s2 seg e -> Expects s1 seg e.
Proof. intros H k. rewrite (E k). apply H. Qed.
Lemma passes_ext l : Passes s1 l -> Passes s2 l.
Proof. induction 1; constructor; try easy; [intros k I; apply E; auto|now apply expects_ext]. Qed.
Lemma tested_ext l t : Tested s1 l t -> Tested s2 l t.
Proof. induction 1; constructor; try easy; [now apply expects_ext|]. intros X. apply expects_ext' in X. contradiction. Qed.
End Ext.
Theorem test_says c m t : Made c (t_class t) -> Made m (t_method t) ->
  (snd (run_test [] t) = true <-> Passes (Skip c m) (t_body t)) /\
  exists l, Tested (Skip c m) (t_body t) l /\ forall k, lookup k (snd (fst (run_test [] t))) = if existsb (str_eqb k) l then Some (times k l) else None.
Proof.
  intros C M. pose proof (skip_exact c m t C M) as K. destruct (test_exact t) as (linted & l & E & P & T & CT). split.
  - rewrite P. split; apply passes_ext; [easy|]. intros k. now rewrite K.
  - exists l. rewrite E. cbn [fst snd]. split; [now apply (tested_ext _ _ K)|]. apply CT.
Qed.
Theorem suite_says ts : (forall t c m, In (t, c, m) ts -> Made c (t_class t) /\ Made m (t_method t)) ->
  let run := run_suite [] [] (map (fun x => fst (fst x)) ts) in
  Forall2 (fun x ok => ok = true <-> Passes (Skip (snd (fst x)) (snd x)) (t_body (fst (fst x)))) ts (snd run) /\
  exists ls, Forall2 (fun x l => Tested (Skip (snd (fst x)) (snd x)) (t_body (fst (fst x))) l) ts ls /\
             forall types page, untested types (fst run) = page <-> Untested types (List.concat ls) page.
Proof.
  intros H run. destruct (suite_exact (map (fun x => fst (fst x)) ts) [] [] counts_nil) as (ls & F & C & V). fold run in C, V. cbn [List.app] in C. split.
  - clear C F ls. clearbody run. revert H V. generalize (snd run). clear run. induction ts as [|[[t c] m] ts IH]; intros oks H V; cbn [map] in V; inversion V as [|? ok ? r P V']; subst; constructor.
    + cbn [fst snd] in *. destruct (H t c m (or_introl eq_refl)) as [A B]. pose proof (skip_exact c m t A B) as K. rewrite P. split; apply passes_ext; [easy|]. intros k. now rewrite K.
    + apply IH; [|easy]. intros t' c' m' I. apply H. now right.
  - exists ls. split; [|intros types page; now apply untested_exact]. clear C V run. revert ls H F. induction ts as [|[[t c] m] ts IH]; intros ls H F; cbn [map] in F; inversion F as [|? l ? r P F']; subst; constructor.
    + cbn [fst snd] in *. destruct (H t c m (or_introl eq_refl)) as [A B]. now apply (tested_ext _ _ (skip_exact c m t A B)).
    + apply IH; [|easy]. intros t' c' m' I. apply H. now right.
Qed.
(* what was raised before the first test counts as raised by it *)
Theorem test_before pre t : run_test (fold_left (fun d k => count_add k 1 d) pre []) t =
  run_test [] (Test (t_class t) (t_method t) (map Raise pre ++ t_body t)).
Proof. unfold run_test, ignore_for. cbn [t_class t_method t_body]. now rewrite body_raise. Qed.
(* the first of the values that is none *)
Theorem ignore_error vs e : ignore_of vs = Exn e <-> exists a v r, vs = map Some a ++ v :: r /\ (forall s, In s a -> Value s) /\
  (v = None /\ e = TypeError \/ exists s, v = Some s /\ ~ Value s /\ e = ValueError).
Proof.
  revert e. induction vs as [|v vs IH]; intros e; cbn [ignore_of].
  - split; [easy|]. intros ([|x a] & v & r & H & _); discriminate H.
  - destruct (item_fails v) as [[i E]|[[-> E]|[[s ->] E]]]; rewrite E; cbn [bind].
    + destruct v as [s|]; [|easy]. assert (V : Value s) by (apply item_some; now exists i). split.
      * intros H. destruct (ignore_of vs) as [g|e'|]; cbn [bind] in H; try discriminate H.
        destruct (proj1 (IH e)) as (a & v & r & -> & A & B); [congruence|]. exists (s :: a), v, r. repeat split; try easy. intros x [<-|I]; auto.
      * intros ([|x a] & v & r & H & A & B); cbn [map List.app] in H.
        -- injection H as <- <-. exfalso. destruct B as [[X _]|(s' & [= <-] & X & _)]; [discriminate X|contradiction].
        -- injection H as <- H. rewrite (proj2 (IH e)); [easy|]. exists a, v, r. repeat split; try easy. intros y I. apply A. now right.
    + split; [intros [= <-]; exists [], None, vs; repeat split; try easy; now left|]. intros ([|x a] & v & r & H & A & B); cbn [map List.app] in H; [|discriminate H]. injection H as <- <-. destruct B as [[_ ->]|(s' & [=] & _)]; easy.
    + assert (V : ~ Value s) by (intros V; apply item_some in V as [i V]; congruence). split.
      * intros [= <-]. exists [], (Some s), vs. repeat split; try easy. right. now exists s.
      * intros ([|x a] & v & r & H & A & B); cbn [map List.app] in H; injection H as H1 H2; subst; [destruct B as [[X _]|(s' & X & Y & ->)]; [discriminate X|easy]|]. exfalso. apply V, A. now left.
Qed.
