(* Proofs about ls and the choice of a command (C40, C52). *)
From Verif Require Import Base PyStr Regex Defines VarFun Commands CmdLs Spec_Commands Spec_CmdLs Commands_proofs.
From Coq Require Import Lia Arith Sorting.Sorted Sorting.Permutation.

(* ---- main ---- *)
Lemma dash_iff a : startswith (L "-") a = true <-> Option_ a.
Proof. rewrite startswith_app. reflexivity. Qed.
Lemma first_command args : match filter (fun a => negb (startswith (L "-") a)) args with
  | [] => forall a, In a args -> Option_ a
  | c :: _ => exists a b, args = a ++ c :: b /\ remove_first c args = a ++ b /\ (forall y, In y a -> Option_ y) /\ ~ Option_ c end.
Proof.
  induction args as [|x args IH]; cbn [filter]; [easy|]. destruct (startswith (L "-") x) eqn:E; cbn [negb].
  - apply dash_iff in E. destruct (filter _ args) as [|c l].
    + intros a [<-|HA]; auto.
    + destruct IH as (a & b & E1 & E2 & F & NS). exists (x :: a), b. split; [cbn; now rewrite <- E1|]. split.
      * cbn [remove_first]. destruct (str_eqb_spec c x) as [->|]; [easy|]. cbn. now rewrite E2.
      * split; [|easy]. intros y [<-|HY]; auto.
  - exists [], args. cbn [remove_first app]. rewrite str_eqb_refl. repeat split; try easy. rewrite <- dash_iff. congruence.
Qed.
Lemma first_file_none isfile dirs file : first_file isfile dirs file = None <-> forall d, In d dirs -> isfile (path_join d file) = false.
Proof.
  induction dirs as [|d dirs IH]; cbn [first_file]; [easy|]. destruct (isfile (path_join d file)) eqn:E.
  - split; [easy|]. intros H. rewrite (H d (or_introl eq_refl)) in E. discriminate.
  - rewrite IH. split; [intros H x [<-|HX]; auto|intros H x HX; apply H; now right].
Qed.
Lemma main_choice isfile dirs args : Choice isfile dirs args (main isfile dirs args).
Proof.
  unfold main. pose proof (first_command args) as F. destruct (filter _ args) as [|c l]; [now constructor|].
  destruct F as (a & b & E1 & E2 & F & NS). rewrite E2.
  destruct (str_eqb_spec c (L "ls")) as [->|NL]; [now constructor|].
  unfold load_command. destruct (command_re c) eqn:CR.
  - apply command_iff in CR. destruct (first_file isfile dirs (c ++ L ".py")) as [p|] eqn:FF.
    + apply first_file_spec in FF as (before & d & after & E & -> & T & N). now apply (Ch_run _ _ _ a c b before d after).
    + apply (Ch_lost _ _ _ a c b); try easy. now apply first_file_none.
  - apply (Ch_bad _ _ _ a c b); try easy. rewrite <- command_iff. congruence.
Qed.
Lemma split_first {A} (P : A -> Prop) a1 c1 b1 a2 c2 b2 : a1 ++ c1 :: b1 = a2 ++ c2 :: b2 ->
  (forall x, In x a1 -> P x) -> (forall x, In x a2 -> P x) -> ~ P c1 -> ~ P c2 -> a1 = a2 /\ c1 = c2 /\ b1 = b2.
Proof.
  revert a2. induction a1 as [|x a1 IH]; intros [|y a2] E H1 H2 N1 N2; cbn in E; injection E as -> E.
  - auto.
  - exfalso. apply N1, H2. now left.
  - exfalso. apply N2, H1. now left.
  - destruct (IH a2) as (-> & -> & ->); auto; intros; [apply H1|apply H2]; now right.
Qed.
Lemma ls_no_option : ~ Option_ (L "ls").
Proof. intros [r E]. discriminate. Qed.
Lemma name_no_option c : CommandName c -> ~ Option_ c.
Proof. intros H [r ->]. destruct (name_safe _ H) as (_ & _ & _ & _ & E). discriminate E. Qed.
Lemma ls_name : CommandName (L "ls").
Proof. apply command_iff. reflexivity. Qed.
Lemma choice_fun isfile dirs args x : Choice isfile dirs args x -> forall y, Choice isfile dirs args y -> x = y.
Proof.
  pose proof ls_no_option as LO. pose proof ls_name as LN.
  assert (NO : forall a c b, (forall z, In z (a ++ c :: b) -> Option_ z) -> Option_ c) by (intros a c b H; apply H, in_elt).
  assert (SF : forall P, ~ P false -> forall b : bool, P b -> b = true) by (intros P H [|] HB; [easy|contradiction]).
  assert (SP : forall a c b a' c' b', a ++ c :: b = a' ++ c' :: b' -> (forall x, In x a -> Option_ x) -> (forall x, In x a' -> Option_ x) ->
    ~ Option_ c -> ~ Option_ c' -> a = a' /\ c = c' /\ b = b') by (intros; now apply (split_first Option_)).
  destruct 1 as [H|a b E H|a c b E H NO1 NN|a c b E H NL NN FF|a c b before d after E H NL NN ED FB FD];
    destruct 1 as [H'|a' b' E' H'|a' c' b' E' H' NO1' NN'|a' c' b' E' H' NL' NN' FF'|a' c' b' before' d' after' E' H' NL' NN' ED' FB' FD'];
    try reflexivity;
    try (exfalso; rewrite ?E, ?E' in H; first [apply NO in H | rewrite ?E, ?E' in H'; apply NO in H']; first [easy | now apply name_no_option in NN | now apply name_no_option in NN'] );
    subst args; try (apply SP in E'; [destruct E' as (E1 & E2 & E3)|easy|easy|easy || now apply name_no_option|easy || now apply name_no_option]);
    subst; try easy; try congruence.
  - exfalso. rewrite FF in FD' by apply in_elt. discriminate.
  - exfalso. rewrite FF' in FD by apply in_elt. discriminate.
  - apply (split_first (fun d => isfile (file_in d c') = false)) in ED' as (-> & -> & ->); try easy; rewrite ?FD, ?FD'; congruence.
Qed.

(* ---- what is found ---- *)
Section Ls.
Variable listdir : str -> option (list str).
Variable load : str -> str -> loaded.

Lemma file_name f : endswith (L ".py") f = true -> f = firstn (length f - 3) f ++ L ".py".
Proof.
  intros H. apply endswith_app in H as [r ->]. rewrite app_length. change (length (L ".py")) with 3%nat.
  rewrite Nat.add_sub, firstn_app, Nat.sub_diag. cbn [firstn]. now rewrite firstn_all, app_nil_r.
Qed.
Lemma name_of c : firstn (length (c ++ L ".py") - 3) (c ++ L ".py") = c.
Proof.
  rewrite app_length. change (length (L ".py")) with 3%nat.
  rewrite Nat.add_sub, firstn_app, Nat.sub_diag. cbn [firstn]. now rewrite firstn_all, app_nil_r.
Qed.

Definition avail_in (before : list str) (d c : str) : Prop :=
  CommandName c /\ exists b1 b2, before = b1 ++ d :: b2 /\ Lists listdir d c /\ forall x, In x b1 -> ~ Lists listdir x c.
Lemma avail_more before d c more : avail_in before d c -> avail_in (before ++ more) d c.
Proof.
  intros (N & b1 & b2 & -> & LI & NB). split; [easy|]. exists b1, (b2 ++ more). now rewrite <- app_assoc.
Qed.
Lemma avail_fun dirs d d' c : Available listdir dirs d c -> Available listdir dirs d' c -> d = d'.
Proof.
  intros (_ & b1 & a1 & E1 & L1 & N1) (_ & b2 & a2 & E2 & L2 & N2).
  assert (E : b1 ++ d :: a1 = b2 ++ d' :: a2) by congruence. clear E1 E2. revert b2 E N2.
  induction b1 as [|x b1 IH]; intros [|y b2] E N2; cbn in E; injection E as -> E.
  - easy.
  - exfalso. apply (N2 y); [now left|easy].
  - exfalso. apply (N1 d'); [now left|easy].
  - apply (IH (fun x H => N1 x (or_intror H)) b2 E). intros x HX. apply N2. now right.
Qed.

(* The state after some directories and some files of the next. *)
Definition Known (before : list str) (d : str) (fs : list str) (c : str) : Prop :=
  CommandName c /\ ((exists x, In x before /\ Lists listdir x c) \/ In (c ++ L ".py") fs).
Definition Src (before : list str) (d : str) (fs : list str) (e : str) (c : str) : Prop :=
  avail_in before e c \/ (e = d /\ CommandName c /\ In (c ++ L ".py") fs /\ forall x, In x before -> ~ Lists listdir x c).
Definition Inv before d fs (used : list str) (acc : list entry) : Prop :=
  (forall c, In c used <-> Known before d fs c) /\
  map (fun e : entry => snd (fst e)) acc = used /\ NoDup used /\
  (forall e c t, In (e, c, t) acc -> Src before d fs e c /\ describe load c (file_in e c) = Some t).

Lemma inv_skip before d fs used acc f : Inv before d fs used acc ->
  endswith (L ".py") f && command_re (firstn (length f - 3) f) && negb (smem (firstn (length f - 3) f) used) = false ->
  Inv before d (fs ++ [f]) used acc.
Proof.
  intros (K & M & ND & S) H. split; [|split; [easy|split; [easy|]]].
  - intros c. rewrite K. unfold Known. split.
    + intros (N & [X|X]); split; auto. right. apply in_or_app. now left.
    + intros (N & [X|X]); split; auto. apply in_app_or in X as [X|[X|[]]]; [auto|]. subst f. rewrite name_of in H.
      assert (EW : endswith (L ".py") (c ++ L ".py") = true) by (apply endswith_app; now exists c).
      apply command_iff in N. rewrite EW, N in H. cbn [andb] in H. apply negb_false_iff, smem_In, K in H. apply H.
  - intros e c t HI. destruct (S e c t HI) as [[X|(-> & N & X & NB)] D]; split; try easy; [now left|].
    right. repeat split; auto. apply in_or_app. now left.
Qed.
Lemma inv_add before d fs used acc c t : Inv before d fs used acc -> CommandName c -> ~ In c used ->
  describe load c (file_in d c) = Some t -> Inv before d (fs ++ [c ++ L ".py"]) (used ++ [c]) (acc ++ [(d, c, t)]).
Proof.
  intros (K & M & ND & S) N NI D. split; [|split; [|split]].
  - intros c'. split.
    + intros HI. apply in_app_or in HI as [HI|[<-|[]]].
      * apply K in HI as (N' & [X|X]); split; auto. right. apply in_or_app. now left.
      * split; [easy|]. right. apply in_or_app. right. now left.
    + intros (N' & X). apply in_or_app. destruct X as [X|X]; [left; apply K; split; auto|].
      apply in_app_or in X as [X|[X|[]]]; [left; apply K; split; auto|]. right. left. now apply app_inv_tail in X.
  - rewrite map_app. cbn. now rewrite M.
  - rewrite NoDup_nth_error in *. apply NoDup_nth_error. apply (Permutation_NoDup (l := c :: used)).
    + apply Permutation_cons_append.
    + constructor; [easy|]. now apply NoDup_nth_error.
  - intros e c' t' HI. apply in_app_or in HI as [HI|[HI|[]]].
    + destruct (S e c' t' HI) as [[X|(-> & N' & X & NB)] D']; split; try easy; [now left|].
      right. repeat split; auto. apply in_or_app. now left.
    + injection HI as <- <- <-. split; [|easy]. right. split; [easy|]. split; [easy|]. split; [apply in_or_app; right; now left|].
      intros x HX LX. apply NI, K. split; [easy|]. left. now exists x.
Qed.
Lemma files_spec before d files : forall fs used acc, Inv before d fs used acc ->
  match ls_files load d files used acc with
  | Some (used', acc') => Inv before d (fs ++ files) used' acc'
  | None => exists c, CommandName c /\ In (c ++ L ".py") files /\ (forall x, In x before -> ~ Lists listdir x c) /\
      describe load c (file_in d c) = None
  end.
Proof.
  induction files as [|f files IH]; intros fs used acc I; cbn [ls_files].
  - now rewrite app_nil_r.
  - destruct (_ && _ && _) eqn:E.
    + apply andb_prop in E as [E NU]. apply andb_prop in E as [EW CR]. apply file_name in EW.
      set (c := firstn (length f - 3) f) in *. clearbody c. subst f.
      apply command_iff in CR. assert (NI : ~ In c used) by (rewrite <- smem_In; destruct (smem c used); easy).
      change (path_join d (c ++ L ".py")) with (file_in d c).
      destruct (describe load c (file_in d c)) as [t|] eqn:D.
      * specialize (IH _ _ _ (inv_add _ _ _ _ _ _ _ I CR NI D)). destruct (ls_files load d files _ _) as [[u a]|].
        -- now rewrite <- app_assoc in IH.
        -- destruct IH as (c' & X1 & X2 & X3). exists c'. split; [easy|]. split; [now right|easy].
      * exists c. repeat split; auto; [now left|]. intros x HX LX. apply NI. apply I. split; [easy|]. left. now exists x.
    + specialize (IH _ _ _ (inv_skip _ _ _ _ _ _ I E)). destruct (ls_files load d files used acc) as [[u a]|].
      * now rewrite <- app_assoc in IH.
      * destruct IH as (c' & X1 & X2 & X3). exists c'. split; [easy|]. split; [now right|easy].
Qed.
Lemma inv_next before d d' used acc files : listdir d = Some files -> Inv before d files used acc -> Inv (before ++ [d]) d' [] used acc.
Proof.
  intros LD (K & M & ND & S).
  assert (LI : forall c, Lists listdir d c <-> In (c ++ L ".py") files).
  { intros c. unfold Lists. rewrite LD. split; [intros (g & [= <-] & H); easy|intros H; now exists files]. }
  split; [|split; [easy|split; [easy|]]].
  - intros c. rewrite K. unfold Known. split.
    + intros (N & [(x & HX & LX)|X]); split; auto; left.
      * exists x. split; [apply in_or_app; now left|easy].
      * exists d. split; [apply in_or_app; right; now left|now apply LI].
    + intros (N & [(x & HX & LX)|[]]). split; auto. apply in_app_or in HX as [HX|[<-|[]]]; [left; now exists x|right; now apply LI].
  - intros e c t HI. destruct (S e c t HI) as [[X|(-> & N & X & NB)] D]; split; try easy; left.
    + now apply avail_more.
    + split; [easy|]. exists before, []. split; [easy|]. split; [now apply LI|easy].
Qed.
Lemma inv_oserror before d d' used acc : listdir d = None -> Inv before d [] used acc -> Inv (before ++ [d]) d' [] used acc.
Proof.
  intros LD (K & M & ND & S). split; [|split; [easy|split; [easy|]]].
  - intros c. rewrite K. unfold Known. split.
    + intros (N & [(x & HX & LX)|[]]). split; auto. left. exists x. split; [apply in_or_app; now left|easy].
    + intros (N & [(x & HX & LX)|[]]). split; auto. left. apply in_app_or in HX as [HX|[<-|[]]]; [now exists x|].
      destruct LX as (g & E & _). congruence.
  - intros e c t HI. destruct (S e c t HI) as [[X|(-> & N & [] & NB)] D]. split; try easy. left. now apply avail_more.
Qed.
Lemma dirs_spec dirs : forall before d used acc, Inv before d [] used acc ->
  match ls_dirs listdir load dirs used acc with
  | Some acc' => exists used', Inv (before ++ dirs) d [] used' acc'
  | None => exists e c, Available listdir (before ++ dirs) e c /\ describe load c (file_in e c) = None
  end.
Proof.
  induction dirs as [|x dirs IH]; intros before d used acc I; cbn [ls_dirs].
  - exists used. now rewrite app_nil_r.
  - assert (I' : Inv before x [] used acc).
    { destruct I as (K & M & ND & S). split; [easy|]. split; [easy|]. split; [easy|].
      intros e c t HI. destruct (S e c t HI) as [[X|(-> & N & [] & NB)] D]. split; [now left|easy]. }
    destruct (listdir x) as [files|] eqn:LD.
    + pose proof (files_spec before x files [] used acc I') as F. destruct (ls_files load x files used acc) as [[u a]|].
      * cbn [app] in F. specialize (IH _ d _ _ (inv_next _ _ d _ _ _ LD F)). rewrite <- app_assoc in IH. exact IH.
      * destruct F as (c & N & HI & NB & D). exists x, c. split; [|easy]. split; [easy|]. exists before, dirs.
        split; [easy|]. split; [|easy]. exists files. auto.
    + specialize (IH _ d _ _ (inv_oserror _ _ d _ _ LD I')). rewrite <- app_assoc in IH. exact IH.
Qed.
Lemma inv_start d : Inv [] d [] [] [].
Proof.
  split; [|split; [easy|split; [constructor|easy]]]. intros c. split; [easy|]. intros (_ & [(x & [] & _)|[]]).
Qed.
Lemma describe_none c p : describe load c p = None <-> load c p = LoRaise.
Proof. unfold describe. destruct (load c p) as [[d|]| |]; easy. Qed.

Lemma found_spec dirs es : ls_dirs listdir load dirs [] [] = Some es ->
  NoDup (map (fun e : entry => snd (fst e)) es) /\
  (forall d c, (exists t, In (d, c, t) es) <-> Available listdir dirs d c) /\
  (forall d c t, In (d, c, t) es -> describe load c (file_in d c) = Some t).
Proof.
  intros E. pose proof (dirs_spec dirs [] [] [] [] (inv_start [])) as X. rewrite E in X. destruct X as (used & K & M & ND & S).
  cbn [app] in *.
  assert (A : forall d c t, In (d, c, t) es -> Available listdir dirs d c).
  { intros d c t HI. destruct (S d c t HI) as [[X|(_ & _ & [] & _)] D]. exact X. }
  split; [now rewrite M|]. split.
  - intros d c. split; [intros [t HI]; now apply (A d c t)|]. intros AV.
    assert (HU : In c used).
    { apply K. destruct AV as (N & b & a & -> & LI & _). split; [easy|]. left. exists d. split; [apply in_elt|easy]. }
    rewrite <- M in HU. apply in_map_iff in HU as ([[d' c'] t] & E1 & HI). cbn in E1. subst c'.
    pose proof (avail_fun _ _ _ _ (A _ _ _ HI) AV) as ->. now exists t.
  - intros d c t HI. now destruct (S d c t HI).
Qed.
Lemma found_none dirs : ls_dirs listdir load dirs [] [] = None <-> exists d c, Available listdir dirs d c /\ Raises load d c.
Proof.
  pose proof (dirs_spec dirs [] [] [] [] (inv_start [])) as X. destruct (ls_dirs listdir load dirs [] []) as [es|] eqn:E; cbn [app] in X.
  - split; [easy|]. intros (d & c & AV & R). destruct (found_spec _ _ E) as (_ & A & D). apply A in AV as [t HI].
    apply D in HI. apply describe_none in R. congruence.
  - split; [intros _|easy]. destruct X as (e & c & AV & D). exists e, c. split; [easy|now apply describe_none].
Qed.
End Ls.

(* ---- order ---- *)
Definition ELe (a b : entry) : Prop := le entry_ltb a b.
Definition ELt (a b : entry) : Prop :=
  StrLt (fst (fst a)) (fst (fst b)) \/ (fst (fst a) = fst (fst b) /\ StrLt (snd (fst a)) (snd (fst b))).
Lemma strle_total a : forall b, StrLe a b \/ StrLe b a.
Proof.
  induction a as [|x a IH]; intros [|y b]; [left; constructor|left; constructor|right; constructor|].
  destruct (N.lt_trichotomy x y) as [H|[->|H]]; [left; now constructor| |right; now constructor].
  destruct (IH b); [left|right]; now constructor.
Qed.
Lemma str_ltb_lt a b : str_ltb a b = true <-> StrLt a b.
Proof.
  unfold StrLt. split.
  - intros H. split; [now apply str_ltb_asym|]. intros ->.
    pose proof (proj2 (str_ltb_le b b) (strle_refl b)). congruence.
  - intros [H N]. destruct (str_ltb a b) eqn:E; [easy|]. apply str_ltb_le in E. exfalso. apply N. now apply strle_antisym.
Qed.
Lemma entry_le a b : ELe a b <-> (ELt a b \/ (fst a = fst b /\ StrLe (snd a) (snd b))).
Proof.
  unfold ELe, le, entry_ltb, ELt. destruct a as [[d1 n1] t1], b as [[d2 n2] t2]. cbn [fst snd].
  assert (T : forall a b, str_ltb a b = false -> str_ltb b a = false -> a = b).
  { intros a b H1 H2. apply str_ltb_le in H1, H2. now apply strle_antisym. }
  assert (R : forall a, ~ StrLt a a) by (intros a [_ N]; now apply N).
  assert (AS : forall a b, StrLt a b -> StrLt b a -> False) by (intros a b [X N] [Y _]; apply N; now apply strle_antisym).
  destruct (str_ltb d2 d1) eqn:E1.
  - apply str_ltb_lt in E1. split; [easy|]. intros [[X|[-> X]]|[X _]]; [now elim (AS d1 d2)|now apply R in E1|]. injection X as -> _. now apply R in E1.
  - destruct (str_ltb d1 d2) eqn:E2.
    + apply str_ltb_lt in E2. split; [intros _; left; now left|easy].
    + pose proof (T _ _ E2 E1) as ->. destruct (str_ltb n2 n1) eqn:E3.
      * apply str_ltb_lt in E3. split; [easy|]. intros [[X|[_ X]]|[X _]]; [now apply R in X|now elim (AS n1 n2)|]. injection X as ->. now apply R in E3.
      * destruct (str_ltb n1 n2) eqn:E4.
        -- apply str_ltb_lt in E4. split; [intros _; left; now right|easy].
        -- pose proof (T _ _ E4 E3) as ->. rewrite str_ltb_le. split; [intros H; right; now split|].
           intros [[X|[_ X]]|[_ X]]; [now apply R in X|now apply R in X|easy].
Qed.
Lemma entry_asym a b : entry_ltb a b = true -> ELe a b.
Proof.
  intros H. unfold ELe, le. destruct (entry_ltb b a) eqn:E; [|easy]. exfalso.
  assert (AS : forall a b, str_ltb a b = true -> str_ltb b a = true -> False).
  { intros x y X Y. apply str_ltb_lt in X, Y. destruct X as [X N], Y as [Y _]. apply N. now apply strle_antisym. }
  unfold entry_ltb in *. destruct a as [[d1 n1] t1], b as [[d2 n2] t2].
  repeat match goal with
  | H : (if str_ltb ?a ?b then _ else _) = true |- _ => destruct (str_ltb a b) eqn:?
  end; try discriminate; try congruence; eauto.
Qed.
Lemma strlt_trans a b c : StrLt a b -> StrLt b c -> StrLt a c.
Proof.
  intros [X N] [Y M]. split; [now apply strle_trans with b|]. intros ->. apply M. now apply strle_antisym.
Qed.
Lemma entry_trans a b c : ELe a b -> ELe b c -> ELe a c.
Proof.
  rewrite !entry_le. unfold ELt. destruct a as [[d1 n1] t1], b as [[d2 n2] t2], c as [[d3 n3] t3]. cbn [fst snd].
  intros [[X|[-> X]]|[[= -> ->] X]] [[Y|[<- Y]]|[[= <- <-] Y]].
  all: try (left; left; assumption). all: try (left; left; eapply strlt_trans; eassumption).
  all: try (left; right; split; [reflexivity|assumption]).
  - left. right. split; [reflexivity|]. eapply strlt_trans; eassumption.
  - right. split; [easy|]. now apply strle_trans with t2.
Qed.
Lemma sorted_strict es : NoDup (map (fun e : entry => snd (fst e)) es) -> StronglySorted ELe es -> StronglySorted ELt es.
Proof.
  intros ND S. induction S as [|a l S IH F]; [constructor|]. cbn in ND. inversion ND as [|? ? NI ND']; subst. constructor; [now apply IH|].
  rewrite Forall_forall in *. intros b HB. specialize (F b HB). apply entry_le in F as [F|[E _]]; [easy|]. exfalso. apply NI.
  rewrite E. apply in_map_iff. now exists b.
Qed.
Lemma elt_asym a b : ELt a b -> ELt b a -> False.
Proof.
  unfold ELt. assert (AS : forall a b, StrLt a b -> StrLt b a -> False) by (intros x y [X N] [Y _]; apply N; now apply strle_antisym).
  intros [X|[E X]] [Y|[E' Y]]; [now apply (AS _ _ X)| | |now apply (AS _ _ X)].
  - rewrite E' in X. now apply (AS _ _ X).
  - rewrite E in Y. now apply (AS _ _ Y).
Qed.

(* ---- printing ---- *)
Notation group_t := (str * list (str * str))%type (only parsing).
Fixpoint group (es : list entry) : list group_t :=
  match es with
  | [] => []
  | (p, n, d) :: r =>
    match group r with
    | (q, items) :: gs => if str_eqb q p then (p, (n, d) :: items) :: gs else (p, [(n, d)]) :: (q, items) :: gs
    | [] => [(p, [(n, d)])]
    end
  end.
Definition ungroup (gs : list group_t) : list entry := flat_map (fun g => map (fun x => (fst g, fst x, snd x)) (snd g)) gs.
Lemma ungroup_group es : ungroup (group es) = es.
Proof.
  induction es as [|[[p n] d] es IH]; [easy|]. cbn [group]. destruct (group es) as [|[q items] gs].
  - cbn in *. now rewrite <- IH.
  - destruct (str_eqb_spec q p) as [->|]; cbn in *; now rewrite <- IH.
Qed.
Definition rows (items : list (str * str)) : list str := map (fun x => column (fst x) (wrap (snd x) 24 80)) items.
Lemma print_groups es : ls_print None es = flat_map block (group es) /\
  forall p, ls_print (Some p) es = match group es with
    | (q, items) :: gs => if str_eqb p q then rows items ++ flat_map block gs else flat_map block (group es)
    | [] => [] end.
Proof.
  induction es as [|[[p n] d] es [IH1 IH2]]; [easy|].
  assert (X : ls_line n (wrap d 24 80) :: ls_print (Some p) es ++ [] =
    match group ((p, n, d) :: es) with (q, items) :: gs => rows items ++ flat_map block gs | [] => [] end).
  { rewrite app_nil_r, IH2. cbn [group]. destruct (group es) as [|[q items] gs]; [easy|].
    destruct (str_eqb_spec q p) as [->|NE].
    - rewrite str_eqb_refl. easy.
    - assert (str_eqb p q = false) as -> by (apply str_eqb_neq; congruence). easy. }
  rewrite app_nil_r in X.
  assert (Y : exists items gs, group ((p, n, d) :: es) = (p, items) :: gs).
  { cbn [group]. destruct (group es) as [|[q items] gs]; [now eexists _, _|]. destruct (str_eqb q p); now eexists _, _. }
  destruct Y as (items & gs & E). cbn [ls_print]. rewrite E in X. rewrite X, E. split.
  - cbn [flat_map]. unfold block at 1. cbn [fst snd app]. unfold rows. now rewrite <- ?app_assoc.
  - intros p'. destruct (str_eqb_spec p' p) as [->|]; [easy|]. cbn [flat_map]. unfold block at 1. cbn [fst snd app]. unfold rows. now rewrite <- ?app_assoc.
Qed.
Lemma group_head es : match group es with
  | [] => es = []
  | (q, items) :: gs => exists n d r its, es = (q, n, d) :: r /\ items = (n, d) :: its end.
Proof.
  destruct es as [|[[p n] d] es]; [easy|]. cbn [group]. destruct (group es) as [|[q items] gs]; [now exists n, d, es, []|].
  destruct (str_eqb q p); now eexists n, d, es, _.
Qed.
Lemma in_group es d c t : In (d, c, t) es <-> exists items, In (d, items) (group es) /\ In (c, t) items.
Proof.
  rewrite <- (ungroup_group es) at 1. unfold ungroup. rewrite in_flat_map. split.
  - intros ([q items] & HG & HI). apply in_map_iff in HI as ([n x] & E & HI). cbn in E. injection E as -> -> ->. now exists items.
  - intros (items & HG & HI). exists (d, items). split; [easy|]. apply in_map_iff. now exists (c, t).
Qed.
Lemma group_ordered es : StronglySorted ELt es -> Ordered (group es).
Proof.
  induction 1 as [|[[p n] d] es S [IH1 IH2] F]; [split; [constructor|easy]|]. rewrite Forall_forall in F.
  assert (FG : forall q items, In (q, items) (group es) -> items <> [] -> StrLt p q \/ (p = q /\ forall x, In x items -> StrLt n (fst x))).
  { intros q items HG NE. destruct items as [|[c0 t0] items]; [easy|].
    assert (X : In (q, c0, t0) es) by (apply in_group; eexists; split; [exact HG|now left]).
    apply F in X. destruct X as [X|[E _]]; [now left|]. cbn in E. subst q. right. split; [easy|]. intros [c t] HI.
    assert (Y : In (p, c, t) es) by (apply in_group; exists ((c0, t0) :: items); split; assumption).
    apply F in Y. destruct Y as [[_ Y]|[_ Y]]; [now elim Y|exact Y]. }
  cbn [group]. destruct (group es) as [|[q items] gs] eqn:EG.
  - split; [repeat constructor|]. intros g [<-|[]]. split; [easy|]. repeat constructor.
  - cbn [map fst] in IH1. inversion IH1 as [|? ? S1 F1]; subst. destruct (IH2 (q, items) (or_introl eq_refl)) as [NE SI]. cbn [snd] in *.
    rewrite Forall_forall in F1. destruct (str_eqb_spec q p) as [->|NQ].
    + split; [cbn [map fst]; constructor; [easy|now apply Forall_forall]|]. intros g [<-|HG]; [|apply IH2; now right]. cbn [snd]. split; [easy|].
      cbn [map fst]. constructor; [easy|]. rewrite Forall_forall. intros c HC. apply in_map_iff in HC as (x & <- & HX).
      destruct (FG p items (or_introl eq_refl) NE) as [[_ X]|[_ X]]; [now elim X|now apply X].
    + assert (PQ : StrLt p q) by (destruct (FG q items (or_introl eq_refl) NE) as [X|[E _]]; [easy|congruence]).
      split.
      * cbn [map fst]. constructor; [easy|]. constructor; [easy|]. rewrite Forall_forall. intros z HZ.
        apply strlt_trans with q; [easy|now apply F1].
      * intros g [<-|HG]; [|now apply IH2]. cbn [snd]. split; [easy|]. repeat constructor.
Qed.

Lemma sort_entries es : NoDup (map (fun e : entry => snd (fst e)) es) -> StronglySorted ELt (sort_by entry_ltb es).
Proof.
  intros ND. apply sorted_strict.
  - apply (Permutation_NoDup (l := map (fun e : entry => snd (fst e)) es)); [|easy]. apply Permutation_map. symmetry. apply sort_perm.
  - apply sort_sorted; [exact entry_asym|exact entry_trans].
Qed.

Lemma words_app_space a ws t : Words a ws -> forallb isspace t = true -> Words (a ++ t) ws.
Proof.
  intros W F. destruct t as [|x t]; [now rewrite app_nil_r|]. rewrite <- (app_nil_r (x :: t)), <- (app_nil_r ws).
  apply words_glue; try easy. now apply W_none.
Qed.
Lemma words_strip d ws : Words (strip_p isspace d) ws <-> Words d ws.
Proof.
  assert (X : Words d (words (strip_p isspace d))).
  { unfold strip_p. destruct (lstrip_p_split isspace d) as (l & E1 & F1 & _). destruct (rstrip_p_split isspace (lstrip_p isspace d)) as (t & E2 & F2).
    rewrite E1 at 1. rewrite E2 at 1. set (m := rstrip_p isspace (lstrip_p isspace d)). clearbody m.
    clear E1 E2. induction l as [|c l IH]; cbn [app].
    - apply words_app_space; [apply words_spec|easy].
    - cbn in F1. apply andb_prop in F1 as [F1 F1']. apply words_space; [easy|now apply IH]. }
  split; intros W.
  - rewrite (words_fun _ _ W _ (words_spec _)). exact X.
  - rewrite (words_fun _ _ W _ X). apply words_spec.
Qed.
Lemma quote_plain s : ~ In 10 s -> flat_map (fun c => if c =? 10 then L "\n" else [c]) s = s.
Proof.
  induction s as [|c s IH]; intros H; [easy|]. cbn [flat_map]. destruct (N.eqb_spec c 10) as [->|]; [elim H; now left|].
  cbn [app]. f_equal. apply IH. intros X. apply H. now right.
Qed.
Lemma quote_name c : CommandName c -> Quoted c (repr_name c).
Proof.
  intros (x & r & F & R & H). unfold repr_name.
  assert (NI : ~ In 10 (x :: r)).
  { intros [->|HI]; [destruct F; lia|]. destruct (R 10 HI) as [[?|?]|[?|?]]; lia. }
  destruct H as [->| ->].
  - rewrite quote_plain by easy. now apply Qu_plain.
  - rewrite app_comm_cons, flat_map_app, quote_plain by easy.
    change (flat_map (fun c => if c =? 10 then L "\n" else [c]) [10]) with (L "\n"). rewrite <- app_assoc.
    apply (Qu_lf _ (x :: r)); easy.
Qed.
Lemma describe_about load d c t : CommandName c -> describe load c (file_in d c) = Some t -> About load d c t.
Proof.
  intros CN. unfold describe. destruct (load c (file_in d c)) as [[doc|]| |] eqn:E; intros [= <-].
  - apply (Ab_doc _ _ _ doc); [easy|]. apply words_strip.
  - now apply Ab_nodoc.
  - apply (Ab_noentry load d c (repr_name c) E). now apply quote_name.
Qed.

Lemma list_some listdir load dirs out : list_commands listdir load dirs = Some out -> exists groups,
  out = Page groups /\ Ordered groups /\
  (forall d c, (exists items t, In (d, items) groups /\ In (c, t) items) <-> Available listdir dirs d c) /\
  (forall d c t items, In (d, items) groups -> In (c, t) items -> About load d c t).
Proof.
  unfold list_commands. destruct (ls_dirs listdir load dirs [] []) as [es|] eqn:E; [|discriminate]. intros [= <-].
  destruct (found_spec _ _ _ _ E) as (ND & A & D). exists (group (sort_by entry_ltb es)).
  assert (IN : forall d c t, In (d, c, t) (sort_by entry_ltb es) <-> In (d, c, t) es).
  { intros d c t. split; apply Permutation_in; [|symmetry]; apply sort_perm. }
  split; [|split; [|split]].
  - unfold Page. now rewrite (proj1 (print_groups _)).
  - now apply group_ordered, sort_entries.
  - intros d c. rewrite <- A. split.
    + intros (items & t & HG & HI). exists t. apply IN, in_group. now exists items.
    + intros (t & HI). apply IN, in_group in HI as (items & HG & HI). now exists items, t.
  - intros d c t items HG HI. assert (X : In (d, c, t) es) by (apply IN, in_group; now exists items).
    apply describe_about; [|now apply D]. apply (A d c). now exists t.
Qed.
Lemma list_none listdir load dirs : list_commands listdir load dirs = None <-> exists d c, Available listdir dirs d c /\ Raises load d c.
Proof.
  rewrite <- found_none. unfold list_commands. now destruct (ls_dirs listdir load dirs [] []).
Qed.
Lemma avail_same listdir listdir' dirs : (forall d c, In d dirs -> CommandName c -> (Lists listdir d c <-> Lists listdir' d c)) ->
  forall d c, Available listdir dirs d c <-> Available listdir' dirs d c.
Proof.
  intros H d c. split; intros (N & b & a & -> & LI & NB); (split; [easy|]); exists b, a; (split; [easy|]); split.
  - apply H; [apply in_elt|easy|easy].
  - intros x HX LX. apply (NB x HX), H; [apply in_or_app; now left|easy|easy].
  - apply H; [apply in_elt|easy|easy].
  - intros x HX LX. apply (NB x HX), H; [apply in_or_app; now left|easy|easy].
Qed.
Lemma list_same listdir listdir' load dirs : (forall d c, In d dirs -> CommandName c -> (Lists listdir d c <-> Lists listdir' d c)) ->
  list_commands listdir load dirs = list_commands listdir' load dirs.
Proof.
  intros H. pose proof (avail_same _ _ _ H) as AS.
  assert (X : forall l l' es es', (forall d c, Available l dirs d c <-> Available l' dirs d c) ->
    ls_dirs l load dirs [] [] = Some es -> ls_dirs l' load dirs [] [] = Some es' -> sort_by entry_ltb es = sort_by entry_ltb es').
  { clear. intros l l' es es' AS E E'. destruct (found_spec _ _ _ _ E) as (ND & A & D), (found_spec _ _ _ _ E') as (ND' & A' & D').
    apply (sorted_unique ELt); try now apply sort_entries.
    - rewrite !sort_perm. apply NoDup_Permutation.
      + now apply NoDup_map_inv in ND.
      + now apply NoDup_map_inv in ND'.
      + intros [[d c] t]. split; intros HI.
        * assert (Y : exists t, In (d, c, t) es') by (apply A', AS, A; now exists t). destruct Y as [t' HI'].
          pose proof (D _ _ _ HI). pose proof (D' _ _ _ HI'). congruence.
        * assert (Y : exists t, In (d, c, t) es) by (apply A, AS, A'; now exists t). destruct Y as [t' HI'].
          pose proof (D' _ _ _ HI). pose proof (D _ _ _ HI'). congruence.
    - intros a b _ _ X Y. now elim (elt_asym _ _ X Y). }
  unfold list_commands. destruct (ls_dirs listdir load dirs [] []) as [es|] eqn:E, (ls_dirs listdir' load dirs [] []) as [es'|] eqn:E'; try easy.
  - now rewrite (X _ _ _ _ AS E E').
  - apply found_none in E' as (d & c & AV & R). apply AS in AV.
    assert (ls_dirs listdir load dirs [] [] = None) by (apply found_none; eauto). congruence.
  - apply found_none in E as (d & c & AV & R). apply AS in AV.
    assert (ls_dirs listdir' load dirs [] [] = None) by (apply found_none; eauto). congruence.
Qed.

(* ---- listed and run ---- *)
Lemma runs_iff isfile listdir dirs c rest : c <> L "ls" -> CommandName c ->
  (forall d, In d dirs -> (isfile (file_in d c) = true <-> Lists listdir d c)) ->
  (forall d, Available listdir dirs d c -> main isfile dirs (c :: rest) = ChRun (file_in d c) rest) /\
  (forall p, main isfile dirs (c :: rest) = ChRun p rest -> exists d, Available listdir dirs d c /\ p = file_in d c).
Proof.
  intros NL N H. split.
  - intros d (_ & b & a & -> & LI & NB). apply (choice_fun isfile (b ++ d :: a) (c :: rest)); [apply main_choice|].
    apply (Ch_run _ _ _ [] c rest b d a); try easy.
    + intros x HX. destruct (isfile (file_in x c)) eqn:E; [|easy]. apply H in E; [|apply in_or_app; now left]. now elim (NB x HX).
    + apply H; [apply in_elt|easy].
  - intros p E. pose proof (main_choice isfile dirs (c :: rest)) as X. rewrite E in X.
    inversion X as [| | | |a c' b before d after E1 HO NL' NN ED FB FD E2]; subst.
    destruct a as [|y a].
    + cbn in E1. injection E1 as <-. exists d. split; [|easy]. split; [easy|]. exists before, after. split; [easy|]. split.
      * apply H; [apply in_elt|easy].
      * intros x HX LX. apply H in LX; [|apply in_or_app; now left]. rewrite (FB x HX) in LX. discriminate.
    + injection E1 as <- _. elim (name_no_option _ N). apply HO. now left.
Qed.
