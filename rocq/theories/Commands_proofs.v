(* Proofs about the front end (C38-C41). *)
From Verif Require Import Base PyStr Regex Defines VarFun Commands Spec_Commands.
From Coq Require Import Lia Arith Sorting.Sorted Sorting.Permutation.

(* ---- words ---- *)
Lemma words_space c s ws : isspace c = true -> Words s ws -> Words (c :: s) ws.
Proof.
  intros H W. destruct W as [gap G|gap w rest ws G NE NS R W].
  - apply W_none. cbn. now rewrite H.
  - change (c :: gap ++ w ++ rest) with ((c :: gap) ++ w ++ rest). apply W_word; try easy. cbn. now rewrite H.
Qed.
Lemma words_from_spec s : forall cur, (forall c, In c cur -> isspace c = false) -> Words (cur ++ s) (words_from cur s).
Proof.
  induction s as [|c s IH]; intros cur NS; cbn [words_from].
  - rewrite app_nil_r. destruct cur as [|x cur]; [now apply W_none|].
    rewrite <- (app_nil_r (x :: cur)) at 1. apply (W_word [] (x :: cur) [] []); try easy. now apply W_none.
  - destruct (isspace c) eqn:EC.
    + specialize (IH [] (fun _ H => match H with end)). cbn [app] in IH. destruct cur as [|x cur].
      * now apply words_space.
      * apply (W_word [] (x :: cur) (c :: s)); try easy.
        -- now intros c' r [= <- <-].
        -- now apply words_space.
    + specialize (IH (cur ++ [c])). rewrite <- app_assoc in IH. apply IH.
      intros x H. apply in_app_or in H as [H|[<-|[]]]; [now apply NS|easy].
Qed.
Lemma words_spec s : Words s (words s).
Proof. now apply (words_from_spec s []). Qed.

Lemma words_inv w rest gap w' rest' gap' : gap ++ w ++ rest = gap' ++ w' ++ rest' ->
  forallb isspace gap = true -> forallb isspace gap' = true -> w <> [] -> w' <> [] ->
  (forall c, In c w -> isspace c = false) -> (forall c, In c w' -> isspace c = false) ->
  (forall c r, rest = c :: r -> isspace c = true) -> (forall c r, rest' = c :: r -> isspace c = true) ->
  w = w' /\ rest = rest'.
Proof.
  intros E G G' NE NE' NS NS' R R'.
  assert (EW : w ++ rest = w' ++ rest').
  { revert gap' G' E. induction gap as [|c gap IH]; intros [|c' gap'] G' E; cbn [app] in E.
    - exact E.
    - destruct w as [|x w]; [easy|]. injection E as -> E. cbn in G'. rewrite (NS c') in G' by now left. easy.
    - destruct w' as [|x w']; [easy|]. injection E as <- E. cbn in G. rewrite (NS' c) in G by now left. easy.
    - injection E as <- E. cbn in G, G'. apply andb_prop in G as [_ G]. apply andb_prop in G' as [_ G'].
      now apply (IH G gap' G'). }
  clear E G G' NE NE' gap gap'. revert w' NS' EW. induction w as [|x w IH]; intros [|x' w'] NS' EW; cbn [app] in EW.
  - easy.
  - specialize (R x' (w' ++ rest') EW). rewrite (NS' x') in R by now left. easy.
  - symmetry in EW. specialize (R' x (w ++ rest) EW). rewrite (NS x) in R' by now left. easy.
  - injection EW as <- EW. destruct (IH (fun c H => NS c (or_intror H)) w') as [-> ->]; try easy.
    intros c H. apply NS'. now right.
Qed.
Lemma space_word gap w rest : forallb isspace (gap ++ w ++ rest) = true -> w <> [] -> (forall c, In c w -> isspace c = false) -> False.
Proof.
  intros F NE NS. rewrite !forallb_app in F. apply andb_prop in F as [_ F]. apply andb_prop in F as [F _].
  destruct w as [|c w]; [easy|]. cbn in F. now rewrite (NS c (or_introl eq_refl)) in F.
Qed.
Lemma words_fun s ws : Words s ws -> forall ws', Words s ws' -> ws = ws'.
Proof.
  induction 1 as [gap G|gap w rest ws G NE NS R W IH]; intros ws' W'.
  - inversion W' as [|gap' w' rest' ws2 G' NE' NS' R' W2 E]; subst; [easy|]. now apply space_word in G.
  - inversion W' as [gap' G' E|gap' w' rest' ws2 G' NE' NS' R' W2 E]; subst.
    + now apply space_word in G'.
    + symmetry in E. destruct (words_inv _ _ _ _ _ _ E) as [<- <-]; try easy. f_equal. now apply IH.
Qed.
Lemma words_glue a ws1 : Words a ws1 -> forall sep b ws2, Words b ws2 -> sep <> [] -> forallb isspace sep = true ->
  Words (a ++ sep ++ b) (ws1 ++ ws2).
Proof.
  induction 1 as [gap G|gap w rest ws G NE NS R W IH]; intros sep b ws2 WB NSEP FS.
  - assert (X : forall g, forallb isspace g = true -> Words (g ++ b) ws2).
    { clear - WB. induction g as [|c g IH]; cbn; intros G; [easy|]. apply andb_prop in G as [G1 G2]. apply words_space; auto. }
    rewrite app_assoc. cbn [app]. apply X. rewrite forallb_app. now rewrite G, FS.
  - rewrite <- !app_assoc. cbn [app]. apply W_word; try easy.
    + intros c r E. destruct rest as [|x rest].
      * destruct sep as [|y sep]; [easy|]. cbn in E. injection E as <- _. cbn in FS. now apply andb_prop in FS as [FS _].
      * cbn in E. injection E as <- _. now apply (R x rest).
    + now apply IH.
Qed.
Lemma words_one w : w <> [] -> (forall c, In c w -> isspace c = false) -> Words w [w].
Proof.
  intros NE NS. rewrite <- (app_nil_r w) at 1. apply (W_word [] w [] []); try easy. now apply W_none.
Qed.
Lemma words_all s ws : Words s ws -> forall w, In w ws -> w <> [] /\ forall c, In c w -> isspace c = false.
Proof. induction 1; intros x HX; [easy|]. destruct HX as [<-|HX]; auto. Qed.
Lemma words_join sep l : sep <> [] -> forallb isspace sep = true -> forall wss, Forall2 Words l wss -> Words (join sep l) (List.concat wss).
Proof.
  intros NE FS wss F. induction F as [|s ws l wss W F IH]; [now apply W_none|].
  destruct l as [|s2 l].
  - inversion F; subst. cbn [join List.concat]. now rewrite app_nil_r.
  - change (join sep (s :: s2 :: l)) with (s ++ sep ++ join sep (s2 :: l)). cbn [List.concat]. now apply words_glue.
Qed.

(* ---- wrap ---- *)
Lemma line_snoc g w : g <> [] -> line_of (g ++ [w]) = line_of g ++ [32] ++ w.
Proof.
  unfold line_of. induction g as [|x g IH]; intros NE; [easy|]. destruct g as [|y g]; [easy|].
  change (join [32] ((x :: y :: g) ++ [w])) with (x ++ [32] ++ join [32] ((y :: g) ++ [w])).
  rewrite IH by easy. change (join [32] (x :: y :: g)) with (x ++ [32] ++ join [32] (y :: g)). now rewrite <- !app_assoc.
Qed.
Lemma last_opt_snoc {A} (l : list A) x : last_opt (l ++ [x]) = Some x.
Proof. apply last_opt_app. Qed.
Lemma snoc_split {A} (gs : list A) g a x b : gs ++ [g] = a ++ x :: b ->
  (b = [] /\ gs = a /\ g = x) \/ (exists b', b = b' ++ [g] /\ gs = a ++ x :: b').
Proof.
  intros E. destruct (exists_last (l := x :: b)) as (b' & y & EB); [easy|]. rewrite EB, app_assoc in E.
  apply app_inj_tail in E as [-> ->]. destruct b' as [|z b']; cbn [app] in EB; inversion EB; subst.
  - left. now rewrite app_nil_r.
  - right. now exists b'.
Qed.

Lemma wrap_step width groups word : Filled width groups ->
  exists groups2, wrap_add width (map line_of groups) word = map line_of groups2 /\ Filled width groups2 /\
    List.concat groups2 = List.concat groups ++ [word].
Proof.
  intros [F1 F2]. destruct groups as [|g0 gs0].
  - exists [[word]]. split; [easy|]. split; [|easy]. split.
    + intros g [<-|[]]. split; [easy|now left].
    + intros [|x a] g w g' b E; [discriminate|]. injection E as _ E. now destruct a.
  - destruct (exists_last (l := g0 :: gs0)) as (gs & g & E); [easy|]. rewrite E in *. clear E g0 gs0.
    unfold wrap_add. rewrite map_app. cbn [map]. rewrite last_opt_snoc, removelast_last.
    destruct (Nat.leb_spec width (length (line_of g) + length word)) as [LE|GT].
    + exists (gs ++ [g] ++ [[word]]). split; [now rewrite !map_app, <- app_assoc|]. split; [split|].
      * intros h HI. rewrite app_assoc in HI. apply in_app_or in HI as [HI|[<-|[]]]; [now apply F1|].
        split; [easy|now left].
      * intros a h w g' b E. rewrite app_assoc in E. apply snoc_split in E as [(E1 & E2 & E3)|(b' & E1 & E2)]; [|].
        -- easy.
        -- destruct b' as [|z b']; cbn [app] in E1; inversion E1; subst.
           ++ apply app_inj_tail in E2 as [-> ->]. exact LE.
           ++ now apply (F2 a h w g' b').
      * rewrite !concat_app. cbn. now rewrite app_nil_r, <- app_assoc.
    + assert (NG : g <> []) by (apply F1, in_or_app; right; now left).
      exists (gs ++ [g ++ [word]]). split; [rewrite map_app; cbn [map]; now rewrite line_snoc|]. split; [split|].
      * intros h HI. apply in_app_or in HI as [HI|[<-|[]]]; [apply F1, in_or_app; now left|]. split.
        -- intros E. now apply app_eq_nil in E as [_ E].
        -- right. rewrite line_snoc, !app_length by easy. cbn [length]. lia.
      * intros a h w g' b E. apply snoc_split in E as [(E1 & E2 & E3)|(b' & E1 & ->)]; [easy|].
        destruct b' as [|z b']; cbn [app] in E1; injection E1 as E1 E2.
        -- destruct g as [|w2 g2]; [easy|]. cbn [app] in E1. injection E1 as <- _.
           apply (F2 a h w g2 []). now rewrite <- app_assoc.
        -- subst. apply (F2 a h w g' (b' ++ [g])). now rewrite <- app_assoc.
      * rewrite !concat_app. cbn. now rewrite !app_nil_r, <- app_assoc.
Qed.
Lemma wrap_fold width ws : forall groups, Filled width groups ->
  exists groups2, fold_left (wrap_add width) ws (map line_of groups) = map line_of groups2 /\ Filled width groups2 /\
    List.concat groups2 = List.concat groups ++ ws.
Proof.
  induction ws as [|w ws IH]; intros groups F; cbn [fold_left].
  - exists groups. now rewrite app_nil_r.
  - destruct (wrap_step width groups w F) as (g2 & -> & F2 & E2). destruct (IH g2 F2) as (g3 & E3 & F3 & E4).
    exists g3. split; [easy|]. split; [easy|]. now rewrite E4, E2, <- app_assoc.
Qed.
Lemma space_repeat n : forallb isspace (repeat 32 n) = true.
Proof. now induction n. Qed.
Lemma wrap_spec text skip maxlen ws : Words text ws -> exists groups,
  List.concat groups = ws /\ Filled (maxlen - (skip + 1)) groups /\
  wrap text skip maxlen = join ([10] ++ repeat 32 skip) (map line_of groups) /\
  Words (wrap text skip maxlen) ws.
Proof.
  intros W. pose proof (words_fun _ _ W _ (words_spec text)). subst ws. unfold wrap, wrap_lines.
  destruct (wrap_fold (maxlen - (skip + 1)) (words text) []) as (groups & E & F & EC).
  { split; [easy|]. intros [|x a] g w g' b; discriminate. }
  cbn [map] in E. rewrite E. cbn [List.concat app] in EC. exists groups. split; [easy|]. split; [easy|]. split; [easy|].
  rewrite <- EC. apply words_join; [easy|cbn; apply space_repeat|].
  assert (A : forall g, In g groups -> forall w, In w g -> w <> [] /\ forall c, In c w -> isspace c = false).
  { intros g HG w HW. apply (words_all _ _ W). rewrite <- EC. apply in_concat. now exists g. }
  clear - A. induction groups as [|g groups IH]; [constructor|]. constructor.
  - assert (B := A g (or_introl eq_refl)). clear - B. unfold line_of.
    assert (X : Words (join [32] g) (List.concat (map (fun w => [w]) g))).
    { apply words_join; [easy|easy|]. induction g as [|w g IH]; [constructor|]. constructor.
      - apply words_one; apply B; now left.
      - apply IH. intros x HX. apply B. now right. }
    replace (List.concat (map (fun w => [w]) g)) with g in X; [easy|]. clear. induction g as [|x g IH]; [easy|]. cbn. now rewrite <- IH.
  - apply IH. intros h HH. apply A. now right.
Qed.

(* ---- command names ---- *)
Lemma cmd_first_iff c : cmd_first c = true <-> name_first c.
Proof. unfold cmd_first, name_first. rewrite orb_true_iff, !andb_true_iff, !N.leb_le. tauto. Qed.
Lemma cmd_rest_iff c : cmd_rest c = true <-> name_char c.
Proof. unfold cmd_rest, name_char. rewrite !orb_true_iff, cmd_first_iff, !N.eqb_eq. tauto. Qed.
Lemma greedy_end p s : p 10 = false ->
  ((exists g, greedy (fun s => if at_end s then Some [] else None) p s = Some g) <->
   exists r, (forall x, In x r -> p x = true) /\ (s = r \/ s = r ++ [10])).
Proof.
  intros NL. induction s as [|c s IH]; cbn [greedy].
  - split; [|intros _; now exists [[]]]. intros _. exists []. split; [easy|now left].
  - destruct (p c) eqn:EP.
    + assert (AE : forall x, option_map (cons []) (if at_end (c :: s) then Some [] else None) = Some (x : list str) -> s = [] /\ c = 10).
      { intros x. cbn. destruct s as [|d s]; [|easy]. destruct (N.eqb_spec c 10); easy. }
      destruct (greedy _ p s) as [[|seg segs]|] eqn:EG.
      * split; [intros [g H]; destruct (AE g H) as [_ ->]; congruence|].
        intros (r & HR & H). exfalso. clear - EG. revert EG. clear. 
        assert (X : forall s, greedy (fun s => if at_end s then Some [] else None) p s <> Some []).
        { induction s0 as [|c s0 IH]; cbn [greedy]; [easy|]. destruct (p c).
          - destruct (greedy _ p s0) as [[|a b]|]; try easy; now destruct (at_end (c :: s0)).
          - now destruct (at_end (c :: s0)). }
        intros E. now apply X in E.
      * split; [intros _|intros _; now eexists]. destruct IH as [IH _]. destruct IH as (r & HR & H); [now eexists|].
        exists (c :: r). split; [intros x [<-|HX]; auto|]. destruct H as [->| ->]; [now left|now right].
      * split; [intros [g H]; destruct (AE g H) as [_ ->]; congruence|].
        intros (r & HR & H). exfalso. destruct IH as [_ IH]. destruct IH as [g IH]; [|discriminate].
        destruct r as [|x r].
        { destruct H as [H|H]; [discriminate|]. injection H as -> ->. congruence. }
        exists r. split; [intros y HY; apply HR; now right|]. destruct H as [H|H]; injection H as _ H; [now left|now right].
    + split.
      * intros [g H]. cbn in H. destruct s as [|d s]; [|discriminate]. destruct (N.eqb_spec c 10) as [->|]; [|discriminate].
        exists []. split; [easy|now right].
      * intros (r & HR & H). destruct r as [|x r].
        { destruct H as [H|H]; [discriminate|]. injection H as -> ->. cbn. now eexists. }
        exfalso. destruct H as [H|H]; injection H as <- _; rewrite (HR c (or_introl eq_refl)) in EP; discriminate.
Qed.
Lemma command_iff s : command_re s = true <-> CommandName s.
Proof.
  unfold command_re. destruct s as [|c s]; cbn [re_match].
  - split; [easy|]. intros (c & r & _ & _ & [H|H]); discriminate.
  - destruct (cmd_first c) eqn:EC.
    + pose proof (greedy_end cmd_rest s eq_refl) as G. destruct (greedy _ cmd_rest s) as [g|] eqn:EG; cbn [option_map].
      * split; [intros _|easy]. destruct (proj1 G) as (r & HR & H); [now exists g|].
        exists c, r. split; [now apply cmd_first_iff|]. split; [intros x HX; apply cmd_rest_iff; auto|].
        destruct H as [->| ->]; [now left|now right].
      * split; [easy|]. intros (c' & r & HC & HR & H). exfalso. destruct (proj2 G) as [g E]; [|discriminate].
        exists r. split; [intros x HX; apply cmd_rest_iff; auto|]. destruct H as [H|H]; injection H as _ H; [now left|now right].
    + split; [easy|]. intros (c' & r & HC & HR & H). apply cmd_first_iff in HC.
      destruct H as [H|H]; injection H as <- _; congruence.
Qed.
Lemma name_safe s : CommandName s -> ~ In 47 s /\ ~ In 46 s /\ ~ In 0 s /\ startswith (L "_") s = false /\ startswith (L "-") s = false.
Proof.
  intros (c & r & HC & HR & H).
  assert (X : forall x, In x s -> name_char x \/ x = 10).
  { intros x HX. destruct H as [->| ->]; cbn in HX; destruct HX as [<-|HX]; try (left; now left); auto.
    apply in_app_or in HX as [HX|[<-|[]]]; auto. }
  unfold name_char, name_first in *.
  split; [intros HX; apply X in HX; lia|]. split; [intros HX; apply X in HX; lia|]. split; [intros HX; apply X in HX; lia|].
  destruct H as [->| ->]; cbn; split; destruct (N.eqb_spec 95 c), (N.eqb_spec 45 c); try lia; easy.
Qed.

Lemma first_file_spec isfile dirs file p : first_file isfile dirs file = Some p <->
  exists a d b, dirs = a ++ d :: b /\ p = path_join d file /\ isfile p = true /\
    forall x, In x a -> isfile (path_join x file) = false.
Proof.
  induction dirs as [|d dirs IH]; cbn [first_file].
  - split; [easy|]. intros (a & d & b & E & _). now destruct a.
  - destruct (isfile (path_join d file)) eqn:EF.
    + split.
      * intros [= <-]. exists [], d, dirs. easy.
      * intros (a & d' & b & E & -> & F & N). destruct a as [|x a]; injection E as -> E; [easy|].
        rewrite (N x (or_introl eq_refl)) in EF. discriminate.
    + rewrite IH. split.
      * intros (a & d' & b & -> & E2 & F & N). exists (d :: a), d', b. repeat split; try easy. intros x [<-|HX]; auto.
      * intros (a & d' & b & E & -> & F & N). destruct a as [|x a]; injection E as -> E; [congruence|].
        exists a, d', b. repeat split; try easy. intros y HY. apply N. now right.
Qed.

Lemma upto_no s : ~ In 47 s -> upto_last_slash s = [].
Proof.
  induction s as [|c s IH]; intros H; [easy|]. cbn. rewrite IH by (intros X; apply H; now right).
  unfold is_slash. destruct (N.eqb_spec c 47) as [->|]; [exfalso; apply H; now left|easy].
Qed.
Lemma upto_slash d s : ~ In 47 s -> upto_last_slash (d ++ 47 :: s) = d ++ [47].
Proof.
  intros H. induction d as [|c d IH]; cbn [app upto_last_slash].
  - now rewrite (upto_no s H).
  - rewrite IH. now destruct d.
Qed.
Lemma rstrip_slash d x : is_slash x = false -> rstrip_p is_slash ((d ++ [x]) ++ [47]) = d ++ [x].
Proof.
  intros H. induction d as [|c d IH]; cbn [app rstrip_p].
  - cbn. now rewrite H.
  - cbn [app] in IH. rewrite IH. destruct (d ++ [x]) eqn:E; [now destruct d|]. easy.
Qed.
Lemma dirname_join d x file : is_slash x = false -> ~ In 47 file -> dirname (path_join (d ++ [x]) file) = d ++ [x].
Proof.
  intros NX NF. unfold path_join. assert (S : startswith (L "/") file = false).
  { destruct file as [|c f]; [easy|]. change (L "/") with [47]. cbn [startswith]. destruct (N.eqb_spec 47 c) as [<-|]; [exfalso; apply NF; now left|easy]. }
  rewrite S, last_opt_snoc, NX. unfold dirname. change (L "/" ++ file) with (47 :: file). rewrite upto_slash by easy.
  assert (F : forallb is_slash ((d ++ [x]) ++ [47]) = false).
  { rewrite !forallb_app. cbn. rewrite NX. cbn. now rewrite !andb_false_r. }
  rewrite F. now apply rstrip_slash.
Qed.

(* ---- singletons ---- *)
Lemma lookup_snoc {A} k k' (l : list (str * A)) v : lookup k (l ++ [(k', v)]) =
  match lookup k l with Some x => Some x | None => if str_eqb k k' then Some v else None end.
Proof.
  induction l as [|[k2 v2] l IH]; cbn [app lookup]; [now destruct (str_eqb k k')|].
  destruct (str_eqb k k2); [easy|exact IH].
Qed.
Section Single.
Context {Arg Inst : Type}.
Variable init : str -> Arg -> option Inst.
Variable reinit : str -> option (Inst -> Arg -> bool).
Lemma single_keep calls : forall st st' ans, single_run init reinit st calls = (st', ans) ->
  (forall c i, lookup c st = Some i -> lookup c st' = Some i) /\
  Forall2 (fun call a => a = None \/ a = lookup (fst call) st') calls ans.
Proof.
  induction calls as [|[c a] calls IH]; intros st st' ans R; cbn [single_run] in R.
  - injection R as <- <-. now split.
  - destruct (single_call init reinit st c a) as [st1 x] eqn:E1.
    destruct (single_run init reinit st1 calls) as [st2 xs] eqn:E2. injection R as <- <-.
    destruct (IH _ _ _ E2) as [K F].
    assert (K1 : forall c i, lookup c st = Some i -> lookup c st1 = Some i).
    { intros c' i H. unfold single_call in E1. destruct (lookup c st) as [i0|] eqn:EL.
      - destruct (reinit c); injection E1 as <- _; easy.
      - destruct (init c a); injection E1 as <- _; [|easy]. rewrite lookup_snoc. now rewrite H. }
    split; [intros c' i H; now apply K, K1|]. constructor; [|easy]. cbn [fst].
    unfold single_call in E1. destruct (lookup c st) as [i0|] eqn:EL.
    + apply K1 in EL. apply K in EL. destruct (reinit c) as [f|]; injection E1 as _ <-.
      * destruct (f i0 a); [right; now rewrite EL|now left].
      * right. now rewrite EL.
    + destruct (init c a) as [i|]; injection E1 as <- <-; [|now left]. right.
      symmetry. apply K. rewrite lookup_snoc, EL. now rewrite str_eqb_refl.
Qed.
End Single.

Definition is_ver {A} (x : str * A) : bool := str_eqb (fst x) ver_cls.
Lemma ver_later other calls : forall st st' ans v, lookup ver_cls st = Some v -> sys_run other st calls = (st', ans) ->
  Forall2 (fun r a => (a = Some v /\ (requested r = None \/ requested r = Some v)) \/
                      (a = None /\ exists o, requested r = Some o /\ o <> v))
    (map snd (filter is_ver calls)) (map snd (filter (fun x => is_ver (fst x)) (combine calls ans))).
Proof.
  induction calls as [|[c r] calls IH]; intros st st' ans v EL R; unfold sys_run in *; cbn [single_run] in R.
  - injection R as <- <-. constructor.
  - destruct (single_call _ _ st c r) as [st1 x] eqn:E1.
    destruct (single_run _ _ st1 calls) as [st2 xs] eqn:E2. injection R as <- <-.
    assert (K : lookup ver_cls st1 = Some v).
    { unfold single_call in E1. destruct (lookup c st) as [i0|] eqn:EL2.
      - destruct (sys_reinit c); injection E1 as <- _; easy.
      - destruct (sys_init other c r); injection E1 as <- _; [|easy]. now rewrite lookup_snoc, EL. }
    specialize (IH _ _ _ _ K E2). cbn [combine filter fst]. change (is_ver (c, r)) with (str_eqb c ver_cls).
    destruct (str_eqb_spec c ver_cls) as [->|NE]; [|exact IH]. cbn [map snd]. constructor; [|exact IH].
    unfold single_call in E1. rewrite EL in E1. unfold sys_reinit in E1. rewrite str_eqb_refl in E1. injection E1 as _ <-.
    unfold ver_reinit, requested. destruct r as [[|z r]|]; [left; auto| |left; auto].
    destruct (str_eqb_spec v (z :: r)) as [->|NV]; [left; auto|]. right. split; [easy|]. exists (z :: r). split; [easy|congruence].
Qed.
Lemma ver_answers other calls st' ans : sys_run other [] calls = (st', ans) ->
  VersionAnswers (map snd (filter is_ver calls)) (map snd (filter (fun x => is_ver (fst x)) (combine calls ans))).
Proof.
  assert (G : forall st, lookup ver_cls st = None -> sys_run other st calls = (st', ans) ->
    VersionAnswers (map snd (filter is_ver calls)) (map snd (filter (fun x => is_ver (fst x)) (combine calls ans)))).
  { revert st' ans. induction calls as [|[c r] calls IH]; intros st' ans st EL R; unfold sys_run in *; cbn [single_run] in R.
    - injection R as <- <-. reflexivity.
    - destruct (single_call _ _ st c r) as [st1 x] eqn:E1.
      destruct (single_run _ _ st1 calls) as [st2 xs] eqn:E2. injection R as <- <-.
      cbn [combine filter fst]. change (is_ver (c, r)) with (str_eqb c ver_cls). destruct (str_eqb_spec c ver_cls) as [->|NE].
      + unfold single_call in E1. rewrite EL in E1. unfold sys_init in E1. rewrite str_eqb_refl in E1. injection E1 as <- <-.
        assert (K : lookup ver_cls (st ++ [(ver_cls, ver_init r)]) = Some (ver_init r)).
        { now rewrite lookup_snoc, EL, str_eqb_refl. }
        pose proof (ver_later other calls _ _ _ _ K E2) as F. cbn [map snd VersionAnswers]. exists (ver_init r).
        assert (C : requested r = Some (ver_init r) \/ requested r = None /\ ver_init r = L "v13").
        { destruct r as [[|z r]|]; cbn; auto. }
        split; [exact C|]. constructor; [|exact F]. left. split; [easy|]. tauto.
      + apply (IH st2 xs st1); [|easy]. unfold single_call in E1. destruct (lookup c st) as [i0|] eqn:EL2.
        * destruct (sys_reinit c); injection E1 as <- _; easy.
        * destruct (sys_init other c r); injection E1 as <- _; [|easy]. rewrite lookup_snoc, EL.
          destruct (str_eqb_spec ver_cls c); [congruence|easy]. }
  now apply G.
Qed.

(* ---- sorting ---- *)
Section Sort.
Context {A : Type}.
Variable lt : A -> A -> bool.
Definition le (a b : A) : Prop := lt b a = false.
Hypothesis asym : forall a b, lt a b = true -> le a b.
Hypothesis trans : forall a b c, le a b -> le b c -> le a c.
Lemma insert_perm x l : Permutation (sort_insert lt x l) (x :: l).
Proof.
  induction l as [|y l IH]; cbn [sort_insert]; [easy|]. destruct (lt y x); [|easy].
  rewrite IH. apply perm_swap.
Qed.
Lemma sort_perm l : Permutation (sort_by lt l) l.
Proof. induction l as [|x l IH]; cbn [sort_by]; [easy|]. rewrite insert_perm. now constructor. Qed.
Lemma insert_sorted x l : StronglySorted le l -> StronglySorted le (sort_insert lt x l).
Proof.
  induction 1 as [|y l S IH F]; cbn [sort_insert]; [repeat constructor|].
  destruct (lt y x) eqn:E.
  - constructor; [easy|]. apply Forall_forall. intros z HZ. apply (Permutation_in _ (insert_perm x l)) in HZ.
    destruct HZ as [<-|HZ]; [now apply asym|]. rewrite Forall_forall in F. now apply F.
  - constructor; [now constructor|]. constructor; [easy|]. apply Forall_forall. intros z HZ. rewrite Forall_forall in F.
    apply trans with y; [easy|now apply F].
Qed.
Lemma sort_sorted l : StronglySorted le (sort_by lt l).
Proof. induction l as [|x l IH]; cbn [sort_by]; [constructor|]. now apply insert_sorted. Qed.
End Sort.

Lemma sorted_unique {A} (R : A -> A -> Prop) l1 : forall l2, StronglySorted R l1 -> StronglySorted R l2 -> Permutation l1 l2 ->
  (forall a b, In a l1 -> In b l1 -> R a b -> R b a -> a = b) -> l1 = l2.
Proof.
  induction l1 as [|x l1 IH]; intros l2 S1 S2 P AS.
  - apply Permutation_nil in P. now subst.
  - destruct l2 as [|y l2]; [symmetry in P; apply Permutation_nil in P; discriminate|].
    inversion S1 as [|? ? S1' F1]; subst. inversion S2 as [|? ? S2' F2]; subst.
    assert (x = y) as ->.
    { assert (HX : In x (y :: l2)) by (apply (Permutation_in _ P); now left).
      assert (HY : In y (x :: l1)) by (apply (Permutation_in _ (Permutation_sym P)); now left).
      destruct HX as [<-|HX]; [easy|]. destruct HY as [<-|HY]; [easy|].
      rewrite Forall_forall in F1, F2. apply AS; [now left|now right|now apply F1|now apply F2]. }
    f_equal. apply IH; try easy.
    + now apply Permutation_cons_inv in P.
    + intros a b HA HB. apply AS; now right.
Qed.

Lemma str_ltb_le a : forall b, str_ltb b a = false <-> StrLe a b.
Proof.
  induction a as [|x a IH]; intros [|y b]; cbn [str_ltb].
  - split; [constructor|easy].
  - split; [constructor|easy].
  - split; [easy|]. intros H. inversion H.
  - destruct (N.ltb_spec y x) as [LT|GE].
    + split; [easy|]. intros H. inversion H; subst; lia.
    + destruct (N.ltb_spec x y) as [LT2|GE2].
      * split; [intros _; now constructor|easy].
      * assert (x = y) as -> by lia. rewrite IH. split; [intros H; now constructor|]. intros H. inversion H; subst; [lia|easy].
Qed.
Lemma strle_refl a : StrLe a a.
Proof. induction a; now constructor. Qed.
Lemma strle_trans a b : StrLe a b -> forall c, StrLe b c -> StrLe a c.
Proof.
  induction 1 as [b|x a y b LT|x a b H IH]; intros c H2; [constructor| |].
  - inversion H2; subst; constructor; lia.
  - inversion H2; subst; [now constructor|]. apply SL_eq. now apply IH.
Qed.
Lemma strle_antisym a b : StrLe a b -> StrLe b a -> a = b.
Proof.
  induction 1 as [b|x a y b LT|x a b H IH]; intros H2; [now inversion H2| |].
  - inversion H2; subst; lia.
  - inversion H2; subst; [lia|]. f_equal. now apply IH.
Qed.
Lemma str_ltb_asym a b : str_ltb a b = true -> StrLe a b.
Proof.
  intros H. apply str_ltb_le. revert b H. induction a as [|x a IH]; intros [|y b] H; cbn [str_ltb] in *; try easy.
  destruct (N.ltb_spec x y) as [LT|GE].
  - destruct (N.ltb_spec y x); [lia|easy].
  - destruct (N.ltb_spec y x); [easy|]. now apply IH.
Qed.

Lemma ss_impl {A} (R1 R2 : A -> A -> Prop) : (forall a b, R1 a b -> R2 a b) -> forall l, StronglySorted R1 l -> StronglySorted R2 l.
Proof. intros H l S. induction S as [|? ? S IH F]; constructor; [easy|]. eapply Forall_impl; [|exact F]. apply H. Qed.

Section Scan.
Variable lower : str -> str.
Variables isupper islower isdigit : str -> bool.
Variable dist : str -> str -> nat.

Lemma le_name a b : le (lt_name lower) a b <-> ByName lower a b.
Proof. unfold le, lt_name, ByName. apply str_ltb_le. Qed.
Lemma le_len a b : le (lt_len lower) a b <-> ByLen lower a b.
Proof.
  unfold le, lt_len, ByLen. destruct (Nat.ltb_spec (length b) (length a)); [split; [easy|lia]|].
  destruct (Nat.ltb_spec (length a) (length b)); [split; [now left|easy]|].
  rewrite str_ltb_le. split; [intros X; right; split; [lia|easy]|]. intros [X|[_ X]]; [lia|easy].
Qed.
Lemma lt_name_asym a b : lt_name lower a b = true -> le (lt_name lower) a b.
Proof. intros H. apply le_name. now apply str_ltb_asym. Qed.
Lemma lt_len_asym a b : lt_len lower a b = true -> le (lt_len lower) a b.
Proof.
  intros H. apply le_len. unfold lt_len in H. destruct (Nat.ltb_spec (length a) (length b)); [now left|].
  destruct (Nat.ltb_spec (length b) (length a)); [easy|]. right. split; [lia|]. now apply str_ltb_asym.
Qed.
Lemma le_name_trans a b c : le (lt_name lower) a b -> le (lt_name lower) b c -> le (lt_name lower) a c.
Proof. rewrite !le_name. intros H1 H2. now apply strle_trans with (lower b). Qed.
Lemma le_len_trans a b c : le (lt_len lower) a b -> le (lt_len lower) b c -> le (lt_len lower) a c.
Proof.
  rewrite !le_len. unfold ByLen. intros [H1|[E1 H1]] [H2|[E2 H2]]; [left; lia|left; lia|left; lia|].
  right. split; [lia|]. now apply strle_trans with (lower b).
Qed.

Lemma sort_name_same ids ids' : Permutation ids ids' -> (forall a b, In a ids -> In b ids -> lower a = lower b -> a = b) ->
  sort_by (lt_name lower) ids = sort_by (lt_name lower) ids'.
Proof.
  intros P INJ. apply (sorted_unique (le (lt_name lower))).
  - apply sort_sorted; [apply lt_name_asym|apply le_name_trans].
  - apply sort_sorted; [apply lt_name_asym|apply le_name_trans].
  - rewrite !sort_perm. easy.
  - intros a b HA HB H1 H2. apply (Permutation_in _ (sort_perm _ ids)) in HA. apply (Permutation_in _ (sort_perm _ ids)) in HB.
    apply INJ; try easy. apply le_name in H1. apply le_name in H2. now apply strle_antisym.
Qed.
Lemma sort_len_same ids ids' : Permutation ids ids' -> (forall a b, In a ids -> In b ids -> lower a = lower b -> a = b) ->
  sort_by (lt_len lower) ids = sort_by (lt_len lower) ids'.
Proof.
  intros P INJ. apply (sorted_unique (le (lt_len lower))).
  - apply sort_sorted; [apply lt_len_asym|apply le_len_trans].
  - apply sort_sorted; [apply lt_len_asym|apply le_len_trans].
  - rewrite !sort_perm. easy.
  - intros a b HA HB H1 H2. apply (Permutation_in _ (sort_perm _ ids)) in HA. apply (Permutation_in _ (sort_perm _ ids)) in HB.
    apply INJ; try easy. apply le_len in H1. apply le_len in H2. unfold ByLen in *.
    destruct H1 as [H1|[?E1 H1]], H2 as [H2|[?E2 H2]]; try lia. now apply strle_antisym.
Qed.
Notation pd := (print_distance lower isupper islower isdigit dist).
Lemma distance_same ids ids' : Permutation ids ids' -> (forall a b, In a ids -> In b ids -> lower a = lower b -> a = b) ->
  pd ids = pd ids'.
Proof. intros P INJ. unfold print_distance. now rewrite (sort_name_same ids ids'), (sort_len_same ids ids'). Qed.

Lemma argn_iff s : startswith (L "ARG") s && isdigit (skipn 3 s) = true <-> ArgN isdigit s.
Proof.
  rewrite andb_true_iff, startswith_app. split.
  - intros [[r ->] D]. now exists r.
  - intros (d & -> & D). split; [now exists d|exact D].
Qed.
Lemma similar_iff a b : is_similar lower isupper islower isdigit dist a b = true <-> Similar lower isupper islower isdigit dist a b.
Proof.
  unfold is_similar, Similar. cbn zeta. set (d := dist (lower a) (lower b)).
  replace (startswith (L "ARG") a && startswith (L "ARG") b && isdigit (skipn 3 a) && isdigit (skipn 3 b))
    with ((startswith (L "ARG") a && isdigit (skipn 3 a)) && (startswith (L "ARG") b && isdigit (skipn 3 b)))
    by (destruct (startswith (L "ARG") a), (startswith (L "ARG") b), (isdigit (skipn 3 a)); easy).
  assert (C1 : Nat.eqb d 0 && (isupper a && islower b || islower a && isupper b) = true <->
     (d = 0%nat /\ ((isupper a = true /\ islower b = true) \/ (islower a = true /\ isupper b = true)))).
  { now rewrite andb_true_iff, orb_true_iff, !andb_true_iff, Nat.eqb_eq. }
  destruct (Nat.eqb d 0 && _) eqn:E1.
  - split; [easy|]. intros [H _]. exfalso. apply H. now apply C1.
  - assert (N1 : ~ (d = 0%nat /\ ((isupper a = true /\ islower b = true) \/ (islower a = true /\ isupper b = true)))).
    { rewrite <- C1. easy. }
    assert (C2 : (startswith (L "ARG") a && isdigit (skipn 3 a)) && (startswith (L "ARG") b && isdigit (skipn 3 b)) = true
       <-> (ArgN isdigit a /\ ArgN isdigit b)).
    { rewrite (andb_true_iff (startswith (L "ARG") a && isdigit (skipn 3 a))). now rewrite !argn_iff. }
    destruct ((startswith (L "ARG") a && isdigit (skipn 3 a)) && _) eqn:E2.
    + split; [easy|]. intros (_ & H & _). exfalso. apply H. now apply C2.
    + rewrite !andb_true_iff, Nat.leb_le, !Nat.ltb_lt. split; [|tauto]. intros [[X1 X2] X3]. split; [easy|]. split; [|tauto].
      intros X. apply C2 in X. discriminate.
Qed.

Lemma sim_add_nonempty s k v : sim_add s k v <> [].
Proof. destruct s as [|[k' vs] s]; cbn [sim_add]; [easy|]. now destruct (str_eqb k k'). Qed.
Lemma scan_nonempty l : forall s prev, scan_list lower isupper islower isdigit dist s prev l <> [] <->
  s <> [] \/ exists a x y b, x <> [] /\ prev :: l = a ++ x :: y :: b /\ Similar lower isupper islower isdigit dist x y.
Proof.
  induction l as [|cur l IH]; intros s prev; cbn [scan_list].
  - split; [now left|]. intros [H|(a & x & y & b & _ & E & _)]; [easy|]. destruct a as [|? [|]]; discriminate.
  - rewrite IH. clear IH. split.
    + intros [H|(a & x & y & b & NE & E & S)].
      * destruct prev as [|c p]; [now left|]. destruct (is_similar _ _ _ _ _ (c :: p) cur) eqn:ES; [|now left].
        right. exists [], (c :: p), cur, l. split; [easy|]. split; [easy|]. now apply similar_iff.
      * right. exists (prev :: a), x, y, b. split; [easy|]. split; [cbn; now rewrite E|easy].
    + intros [H|(a & x & y & b & NE & E & S)].
      * left. destruct prev as [|c p]; [easy|]. destruct (is_similar _ _ _ _ _ (c :: p) cur); [apply sim_add_nonempty|easy].
      * destruct a as [|z a]; cbn [app] in E; injection E as E1 E2.
        -- subst. left. destruct x as [|c x]; [easy|]. apply similar_iff in S. rewrite S. apply sim_add_nonempty.
        -- right. now exists a, x, y, b.
Qed.
Lemma status_iff ids : snd (pd ids) = 1 <-> exists l a x y b, x <> [] /\ l = a ++ x :: y :: b /\
  (l = sort_by (lt_name lower) ids \/ l = sort_by (lt_len lower) ids) /\ Similar lower isupper islower isdigit dist x y.
Proof.
  unfold print_distance. set (s1 := scan_list _ _ _ _ _ [] [] (sort_by (lt_name lower) ids)).
  set (s2 := scan_list _ _ _ _ _ s1 [] (sort_by (lt_len lower) ids)).
  assert (X : snd (match s2 with [] => ([], 0) | _ => (L "Identifiers with similar names include:"
       :: map (fun kv => L "  " ++ ljust32 (fst kv) ++ L "  [similar to: " ++ join (L ", ") (sort_by str_ltb (snd kv)) ++ L "]")
            (sort_by (fun a b => lt_name lower (fst a) (fst b)) s2) ++ [[]], 1) end) = 1 <-> s2 <> []).
  { destruct s2; cbn [snd]; split; easy. }
  rewrite X. clear X. unfold s2, s1. rewrite !scan_nonempty. clear s1 s2.
  assert (K : forall l, (exists a x y b, x <> [] /\ [] :: l = a ++ x :: y :: b /\ Similar lower isupper islower isdigit dist x y) <->
     (exists a x y b, x <> [] /\ l = a ++ x :: y :: b /\ Similar lower isupper islower isdigit dist x y)).
  { intros l. split.
    - intros (a & x & y & b & NE & E & S). destruct a as [|z a]; cbn [app] in E; injection E as E1 E2; [congruence|].
      now exists a, x, y, b.
    - intros (a & x & y & b & NE & E & S). exists ([] :: a), x, y, b. split; [easy|]. split; [cbn; now rewrite E|easy]. }
  rewrite !K. split.
  - intros [[H|(a & x & y & b & NE & E & S)]|(a & x & y & b & NE & E & S)]; [easy| |].
    + exists (sort_by (lt_name lower) ids), a, x, y, b. auto.
    + exists (sort_by (lt_len lower) ids), a, x, y, b. auto.
  - intros (l & a & x & y & b & NE & E & [->| ->] & S).
    + left. right. now exists a, x, y, b.
    + right. now exists a, x, y, b.
Qed.
Lemma status_spec ids : (forall a b, In a ids -> In b ids -> lower a = lower b -> a = b) ->
  (snd (pd ids) = 1 <-> exists l a x y b, Permutation l ids /\ (StronglySorted (ByName lower) l \/ StronglySorted (ByLen lower) l) /\
     l = a ++ x :: y :: b /\ x <> [] /\ Similar lower isupper islower isdigit dist x y).
Proof.
  intros INJ. rewrite status_iff. split.
  - intros (l & a & x & y & b & NE & E & H & S). exists l, a, x, y, b.
    destruct H as [->| ->]; (split; [apply sort_perm|]); (split; [|easy]).
    + left. apply (ss_impl (le (lt_name lower))); [intros; now apply le_name|]. apply sort_sorted; [apply lt_name_asym|apply le_name_trans].
    + right. apply (ss_impl (le (lt_len lower))); [intros; now apply le_len|]. apply sort_sorted; [apply lt_len_asym|apply le_len_trans].
  - intros (l & a & x & y & b & P & H & E & NE & S). exists l, a, x, y, b. split; [easy|]. split; [easy|]. split; [|easy].
    assert (INJ' : forall a b, In a l -> In b l -> lower a = lower b -> a = b).
    { intros u v HU HV. apply INJ; now apply (Permutation_in _ P). }
    destruct H as [H|H]; [left|right].
    + apply (sorted_unique (ByName lower)); try easy.
      * apply (ss_impl (le (lt_name lower))); [intros; now apply le_name|]. apply sort_sorted; [apply lt_name_asym|apply le_name_trans].
      * rewrite sort_perm. easy.
      * intros u v HU HV H1 H2. apply INJ'; try easy. now apply strle_antisym.
    + apply (sorted_unique (ByLen lower)); try easy.
      * apply (ss_impl (le (lt_len lower))); [intros; now apply le_len|]. apply sort_sorted; [apply lt_len_asym|apply le_len_trans].
      * rewrite sort_perm. easy.
      * intros u v HU HV H1 H2. apply INJ'; try easy. unfold ByLen in *.
        destruct H1 as [H1|[?E1 H1]], H2 as [H2|[?E2 H2]]; try lia. now apply strle_antisym.
Qed.
End Scan.

(* ---- main ---- *)
Lemma main_run isfile dirs args path rest : main isfile dirs args = ChRun path rest ->
  exists command a b d x before after, args = a ++ command :: b /\ rest = a ++ b /\
    (forall y, In y a -> exists r, y = 45 :: r) /\ CommandName command /\ command <> L "ls" /\
    dirs = before ++ d :: after /\ path = path_join d x /\ x = command ++ L ".py" /\ isfile path = true /\
    (forall d', In d' before -> isfile (path_join d' x) = false).
Proof.
  intros H. unfold main in H.
  assert (F : forall args, match filter (fun a => negb (startswith (L "-") a)) args with [] => True | c :: _ =>
     exists a b, args = a ++ c :: b /\ remove_first c args = a ++ b /\ (forall y, In y a -> exists r, y = 45 :: r) /\ startswith (L "-") c = false end).
  { clear. induction args as [|x args IH]; cbn [filter]; [easy|]. destruct (startswith (L "-") x) eqn:E; cbn [negb].
    - destruct (filter _ args) as [|c l]; [easy|]. destruct IH as (a & b & E1 & E2 & F & NS).
      exists (x :: a), b. split; [cbn; now rewrite <- E1|]. split.
      + cbn [remove_first]. destruct (str_eqb_spec c x) as [->|]; [congruence|]. cbn. now rewrite E2.
      + split; [|easy]. intros y [<-|HY]; [|now apply F]. apply startswith_app in E. destruct E as [r ->]. now exists r.
    - exists [], args. cbn [remove_first app]. rewrite str_eqb_refl. repeat split; try easy. }
  specialize (F args). destruct (filter _ args) as [|c l]; [discriminate|]. destruct F as (a & b & E1 & E2 & F & NS).
  destruct (str_eqb_spec c (L "ls")) as [|NL]; [discriminate|].
  unfold load_command in H. destruct (command_re c) eqn:CR; [|discriminate].
  destruct (first_file isfile dirs (c ++ L ".py")) as [p|] eqn:FF; [|discriminate]. injection H as <- <-.
  apply first_file_spec in FF. destruct FF as (before & d & after & X). 
  exists c, a, b, d, (c ++ L ".py"), before, after. repeat split; try easy; try apply X. now apply command_iff.
Qed.
