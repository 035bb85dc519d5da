(* C57: functions. *)
From Coq Require Import ZifyBool ZifyN ZifyNat.
From Verif Require Import Base PyStr Defines Var VarFun AppM Spec_Var Spec_VarFun Spec_App Spec_Args Spec_Crash Spec_Subst
  Var_proofs Balance_proofs Match_proofs VarFun_proofs Round_proofs Slice_proofs App_proofs Tok_proofs AppT_proofs Loader_proofs
  Args_proofs Crash_proofs CrashV_proofs CrashA_proofs Subst_proofs.
Notation canons ps := (Forall (fun t => Canon t (elems t)) ps) (only parsing).

Lemma infix_close c s : s <> [] -> is_infix (c :: s) (L ")}]") = existsb (str_eqb (c :: s)) [L ")}"; L ")}]"; L "}]"].
Proof.
  intros H. change (L ")}]") with [41; 125; 93]. change (L ")}") with [41; 125]. change (L "}]") with [125; 93]. 
  destruct s as [|d [|e s]]; [easy| |]; cbn [is_infix startswith existsb str_eqb];
  repeat match goal with |- context [?a =? ?b] => destruct (N.eqb_spec a b); subst; cbn [andb orb] end; try easy; try lia; now destruct s.
Qed.

(* A stack with something on it that is never taken off. *)
Definition stuck (st : list str) : Prop := exists x, In x st /\ (2 <= length x)%nat.
Lemma stuck_step st x st' : stuck st -> balance_step st x = Ok st' -> stuck st'.
Proof.
  intros (y & Hy & Hl) H. 
  assert (K : forall z, stuck (z :: st)) by (intros z; exists y; split; [now right|easy]).
  assert (T : (length (top st) <= 1)%nat -> stuck (tl st)).
  { intros Ht. destruct st as [|z st]; [easy|]. cbn in Ht. destruct Hy as [->|Hy]; [lia|]. now exists y. }
  assert (S0 : stuck st) by (now exists y).
  unfold balance_step in H. destruct x as [s| | | | | | |]; try (injection H as <-; exact S0).
  destruct (str_eqb s dq) eqn:E1.
  { destruct (str_eqb (top st) dq) eqn:E2; [apply str_eqb_eq in E2; injection H as <-; apply T; rewrite E2; easy|].
    destruct (str_eqb (top st) sq); injection H as <-; easy. }
  destruct (str_eqb s sq) eqn:E3.
  { destruct (str_eqb (top st) sq) eqn:E2; [apply str_eqb_eq in E2; injection H as <-; apply T; rewrite E2; easy|].
    destruct (str_eqb (top st) dq); injection H as <-; easy. }
  destruct (is_infix s (L "({[")); [destruct (is_infix (top st) _); injection H as <-; easy|].
  destruct (is_infix s (L ")}]")); [|injection H as <-; easy].
  destruct (is_infix (top st) _); [injection H as <-; easy|].
  match type of H with (if str_eqb _ ?f then _ else _) = _ => destruct (str_eqb (top st) f) eqn:E4 end; [|easy].
  injection H as <-. apply T. apply str_eqb_eq in E4. rewrite E4. apply firstn_le_length.
Qed.
Lemma stuck_run m : forall st, stuck st -> balance_from st m <> Ok tt.
Proof.
  induction m as [|x m IH]; intros st H; cbn [balance_from].
  - destruct H as (y & Hy & _). now destruct st.
  - destruct (balance_step st x) as [st'| |] eqn:E; cbn [bind]; [|easy|easy]. apply IH. eapply stuck_step; eauto.
Qed.
Lemma top_quoted st : Forall opening st -> is_infix (top (map sing st)) (sq ++ dq) = quoted st.
Proof.
  destruct 1 as [|o st Ho _]; [reflexivity|]. unfold opening in Ho. destruct Ho as [->|[->|[->|[->| ->]]]]; reflexivity.
Qed.
Lemma long_step st c d s : balance_step st (TS (c :: d :: s)) =
  if existsb (str_eqb (c :: d :: s)) [L "({"; L "{["; L "({["] then (if is_infix (top st) (sq ++ dq) then Ok st else Ok ((c :: d :: s) :: st))
  else if existsb (str_eqb (c :: d :: s)) [L ")}"; L ")}]"; L "}]"] then
    (if is_infix (top st) (sq ++ dq) then Ok st
     else if str_eqb (top st) (firstn 1 (skipn (find_sub (c :: d :: s) (L ")}]")) (L "({["))) then Ok (tl st) else Exn ValueError)
  else Ok st.
Proof.
  rewrite <- infix_open, <- infix_close by easy. unfold balance_step.
  assert (str_eqb (c :: d :: s) dq = false) as -> by (apply str_eqb_neq; discriminate).
  assert (str_eqb (c :: d :: s) sq = false) as -> by (apply str_eqb_neq; discriminate). reflexivity.
Qed.
Lemma pieces_run m : Forall Part m -> forall st, Forall opening st ->
  balance_from (map sing st) m = Ok tt <-> brun st (flat_map piece m) = Ok tt.
Proof.
  induction 1 as [|t m Ht Hm IH]; intros st Hs; [now destruct st|]. cbn [balance_from flat_map].
  assert (V : forall u, brun st ([Va u] ++ flat_map piece m) = brun st (flat_map piece m)) by reflexivity.
  destruct Ht as [Ht|(c & s & ->)].
  { destruct Ht; cbn [balance_step bind piece]; rewrite V; now apply IH. }
  destruct s as [|d s].
  { cbn [piece app brun]. rewrite bstep_step by easy. destruct (bstep st c) as [st'| |] eqn:E; cbn [bind]; [|easy|easy].
    apply IH. eapply bstep_opening; eauto. }
  rewrite long_step. set (s0 := c :: d :: s).
  assert (P : piece (TS s0) = if existsb (str_eqb s0) [L ")}"; L ")}]"] then [Ch 41] else if str_eqb s0 (L "}]") then [Ch 125]
     else if existsb (str_eqb s0) [L "({"; L "{["; L "({["] then [Ch 40; Ch 93] else [Va (TS s0)]) by reflexivity.
  rewrite P. clear P. rewrite top_quoted by easy. subst s0.
  destruct (existsb (str_eqb (c :: d :: s)) [L "({"; L "{["; L "({["]) eqn:E1.
  - assert (E2 : existsb (str_eqb (c :: d :: s)) [L ")}"; L ")}]"] = false /\ str_eqb (c :: d :: s) (L "}]") = false).
    { cbn [existsb] in E1. rewrite !orb_true_iff in E1. destruct E1 as [E1|[E1|[E1|E1]]]; [| | |easy]; apply str_eqb_eq in E1; rewrite E1; split; reflexivity. }
    destruct E2 as [-> ->]. cbn [app brun].
    assert (Q : bstep st 40 = if quoted st then Ok st else Ok (40 :: st)) by reflexivity. rewrite Q. destruct (quoted st) eqn:Eq; cbn [bind].
    + assert (bstep st 93 = Ok st) as -> by (unfold bstep; now rewrite Eq). cbn [bind]. now apply IH.
    + cbn. split; [|easy]. intros H. exfalso. revert H. apply stuck_run. exists (c :: d :: s). split; [now left|cbn; lia].
  - destruct (existsb (str_eqb (c :: d :: s)) [L ")}"; L ")}]"; L "}]"]) eqn:E2.
    + assert (G : exists k, (if existsb (str_eqb (c :: d :: s)) [L ")}"; L ")}]"] then [Ch 41] else if str_eqb (c :: d :: s) (L "}]") then [Ch 125] else [Va (TS (c :: d :: s))]) = [Ch k] /\
        ((k = 41 /\ firstn 1 (skipn (find_sub (c :: d :: s) (L ")}]")) (L "({[")) = [40]) \/ (k = 125 /\ firstn 1 (skipn (find_sub (c :: d :: s) (L ")}]")) (L "({[")) = [123]))).
      { cbn [existsb] in E2. rewrite !orb_true_iff in E2. destruct E2 as [E2|[E2|[E2|E2]]]; [| | |easy]; apply str_eqb_eq in E2; rewrite E2; eexists; (split; [reflexivity|]); auto. }
      destruct G as (k & -> & Hk). cbn [app brun].
      assert (Q : bstep st k = if quoted st then Ok st else match st with o :: r => if closes o k then Ok r else Exn ValueError | [] => Exn ValueError end)
        by (destruct Hk as [[-> _]|[-> _]]; reflexivity). rewrite Q.
      destruct (quoted st) eqn:Eq; cbn [bind]; [now apply IH|].
      inversion Hs as [|o r Ho Hr]; subst.
      * destruct Hk as [[_ ->]|[_ ->]]; easy.
      * cbn [map top tl]. assert (str_eqb (sing o) (firstn 1 (skipn (find_sub (c :: d :: s) (L ")}]")) (L "({["))) = closes o k) as ->.
        { unfold opening in Ho. destruct Hk as [[-> ->]|[-> ->]]; destruct Ho as [->|[->|[->|[->| ->]]]]; reflexivity. }
        destruct (closes o k); cbn [bind]; [now apply IH|easy].
    + assert (E3 : existsb (str_eqb (c :: d :: s)) [L ")}"; L ")}]"] = false /\ str_eqb (c :: d :: s) (L "}]") = false).
      { cbn [existsb] in *. rewrite !orb_false_iff in *. tauto. }
      destruct E3 as [-> ->]. cbn [bind]. rewrite V. now apply IH.
Qed.
Lemma pieces_exact m : Forall Part m -> check_balance m = Ok tt <-> Balanced (flat_map piece m).
Proof.
  intros H. unfold check_balance. rewrite (pieces_run m H [] (Forall_nil _)). split.
  - intros E. apply (brun_rest _ [] so_nil E).
  - intros E. pose proof (balanced_brun _ E [] [] eq_refl) as E'. now rewrite app_nil_r in E'.
Qed.

Section Tables.
Variable U : uni.
Variable FT : ftable.
Variable w : loc.
Hypothesis HU : AsciiOk U.

Definition GoodArg (sl : sliced) : Prop := match sl with SlTok _ => True | SlList m => Forall Part m end.
Lemma brackets_iff sl l : GoodArg sl -> base_call sl w = (l, Ok tt) <-> Brackets w sl l.
Proof.
  intros HG. unfold base_call.
  assert (S : forall a, memit W_FUNC_BALANCE w [(L "data", AStr a)] = (say W_FUNC_BALANCE w [(L "data", AStr a)], Ok tt)) by reflexivity.
  destruct sl as [t|m]; cbn [sl_items].
  - destruct (balance_exact t (elems t) (Flat_elems t)) as [B1 B2]. destruct (balance_any (items t)) as [E|E]; rewrite E.
    + unfold mret. split.
      * intros [= <-]. econstructor; [apply Flat_elems|]. now apply B1.
      * intros H. inversion H as [t' l' Hf Hb|t' l' s Hf Hb| |]; subst; [easy|]. apply Flat_fun in Hf. subst. exfalso. apply Hb. now apply B1.
    + assert (NB : ~ Balanced (elems t)) by (intros H; apply B1 in H; congruence).
      cbn [is_value_error sl_str sl_arg]. destruct (str_of t) as [s| |] eqn:Es; cbn [bind].
      * rewrite lift_bind, S. split; [intros [= <-]; econstructor; eauto using Flat_elems|].
        intros H. inversion H as [t' l' Hf Hb|t' l' s' Hf Hb Hs| |]; subst; [apply Flat_fun in Hf; now subst|]. rewrite Es in Hs. now injection Hs as ->.
      * split; [easy|]. intros H. inversion H as [t' l' Hf Hb|t' l' s' Hf Hb Hs| |]; subst; [apply Flat_fun in Hf; now subst|congruence].
      * split; [easy|]. intros H. inversion H as [t' l' Hf Hb|t' l' s' Hf Hb Hs| |]; subst; [apply Flat_fun in Hf; now subst|congruence].
  - pose proof (pieces_exact m HG) as B1. destruct (balance_any m) as [E|E]; rewrite E.
    + unfold mret. split.
      * intros [= <-]. constructor. now apply B1.
      * intros H. inversion H as [| |m' Hb|m' Hb]; subst; [easy|]. exfalso. apply Hb. now apply B1.
    + assert (NB : ~ Balanced (flat_map piece m)) by (intros H; apply B1 in H; congruence).
      cbn [is_value_error sl_str sl_arg]. rewrite lift_bind. change (memit W_FUNC_BALANCE w [(L "data", AShown (lrepr m))]) with (say W_FUNC_BALANCE w [(L "data", AShown (lrepr m))], @Ok unit tt).
      split; [intros [= <-]; now constructor|]. intros H. inversion H as [| |m' Hb|m' Hb]; subst; easy.
Qed.

(* ---- names ---- *)
Lemma counted_iff v l : count_var v w = (l, Ok tt) <-> Counted w v l.
Proof.
  unfold count_var. destruct (forallb legal_var_token v) eqn:E.
  - apply legal_iff in E. rewrite ret_bind. unfold mlog. split; [intros [= <-]; now constructor|]. intros H; inversion H; subst; easy.
  - assert (E' : ~ LegalName v) by (intros H; apply legal_iff in H; congruence).
    change (memit E_VAR_BAD_TOKENS w [(L "data", AStr v)]) with (say E_VAR_BAD_TOKENS w [(L "data", AStr v)], @Ok unit tt).
    unfold mbind, mlog. cbn [fst snd]. split; [intros [= <-]; now constructor|]. intros H; inversion H; subst; easy.
Qed.
Lemma use_iff t il l : Canon t il -> (match t with TS s => count_var s w | _ => mret tt end) = (l, Ok tt) <-> NameUse w il l.
Proof.
  intros HC. destruct (all_chars il) as [[s ->]|[v Hv]].
  - rewrite (canon_text _ _ s HC eq_refl), counted_iff. split; [intros H; now apply (Nu_text w _ s)|].
    intros H; inversion H as [s' l' E Hc|v Hv]; subst; [apply map_Ch_inj in E; now subst|now apply chars_no_va in Hv].
  - pose proof (canon_var_str _ _ _ HC Hv) as Es. assert (E : (match t with TS s => count_var s w | _ => mret tt end) = mret tt) by (now destruct t).
    rewrite E. unfold mret. split; [intros [= <-]; now apply (Nu_dynamic w _ v)|].
    intros H; inversion H as [s' l' E' Hc|v' Hv']; subst; [now apply chars_no_va in Hv|easy].
Qed.
Lemma check_iff f l fi : func_check U FT f w = (l, Ok fi) <-> exists l2, FuncOf U FT f fi /\ FuncSpelling w fi f l2 /\ l = LFunc (u_lower U f) :: l2.
Proof.
  split; [apply func_check_report|]. intros (l2 & HF & HS & ->). unfold func_check.
  assert (G : func_get FT (u_lower U f) = ([LFunc (u_lower U f)], Ok fi)).
  { unfold func_get. destruct HF as [->|[-> ->]]; reflexivity. }
  rewrite G. unfold mbind at 1. unfold mret at 2.
  assert (G2 : (if str_eqb (VarFun.f_name fi) f then mret tt
     else if str_eqb (VarFun.f_name fi) (L "UNKNOWN") then memit E_FUNC_MISSING w [(L "func", AStr f)]
     else memit E_FUNC_BAD_CASE w [(L "func", AStr f); (L "proper", AStr (VarFun.f_name fi))]) = (l2, Ok tt)).
  { inversion HS as [H|H H'|H H']; subst.
    - now rewrite str_eqb_refl.
    - destruct (str_eqb (VarFun.f_name fi) f) eqn:E; [apply str_eqb_eq in E; congruence|]. rewrite H, str_eqb_refl. reflexivity.
    - apply str_eqb_neq in H, H'. rewrite H, H'. reflexivity. }
  rewrite G2. cbn [mbind fst snd]. now rewrite app_nil_r.
Qed.

(* ---- values as they are split ---- *)
Lemma ssplit_none c max s : ~ In c s -> ssplit c max s = [s].
Proof.
  induction s as [|x s IH]; intros H; [easy|]. cbn [ssplit]. replace (x =? c) with false by (symmetry; apply N.eqb_neq; intros ->; apply H; now left).
  cbn [andb]. rewrite IH; [easy|]. intros Hx; apply H; now right.
Qed.
Lemma split_items_text c max s : max <> Some O -> split_items c max 0 [] [TS s] = map TS (ssplit c max s).
Proof.
  intros Hm. cbn [split_items].
  assert ((match max with Some m => Nat.eqb m 0 | None => false end) = false) as ->.
  { destruct max as [[|m]|]; [easy|reflexivity|reflexivity]. }
  assert (option_map (fun m => (m - 0)%nat) max = max) as -> by (destruct max as [m|]; [cbn; now rewrite Nat.sub_0_r|easy]).
  destruct (memb c s) eqn:E; cbn [negb orb].
  - destruct (add_parts_TS (ssplit c max s) (ssplit_ne _ _ _)) as (lst & cur' & Ea & Hc & Hp).
    rewrite Ea, Hc. rewrite Hp at 2. now rewrite map_app.
  - rewrite ssplit_none; [now destruct s|]. intros H. apply memb_In in H. congruence.
Qed.
Lemma text_truthy n s : TextOnly n s -> truthy n = true -> n = TS s.
Proof. intros [x|m Hf]; [easy|]. intros H. apply Flat_fun in Hf. apply truthy_elems in H. now rewrite Hf in H. Qed.
Lemma notext n : NoText n <-> is_str n = false /\ truthy n = true.
Proof.
  split.
  - intros H. split; [destruct n; try easy; exfalso; now apply (H s), To_str|].
    destruct (truthy n) eqn:E; [easy|]. exfalso. apply falsy_elems in E. apply (H []). apply To_empty. rewrite <- E. apply Flat_elems.
  - intros [H1 H2] s Hs. apply text_truthy in Hs; [|easy]. now subst.
Qed.
Lemma text_or n : (exists s, TextOnly n s) \/ NoText n.
Proof.
  destruct (is_str n) eqn:E1; [destruct n; try easy; left; eexists; apply To_str|].
  destruct (truthy n) eqn:E2; [right; now apply notext|]. left. exists []. apply To_empty. apply falsy_elems in E2. rewrite <- E2. apply Flat_elems.
Qed.
Lemma text_fun n s s' : TextOnly n s -> TextOnly n s' -> s = s'.
Proof.
  intros H H'. inversion H as [x|m Hf]; subst; inversion H' as [x'|m' Hf']; subst; try easy.
  - apply Flat_fun in Hf'. rewrite elems_str in Hf'. now destruct s.
  - apply Flat_fun in Hf. rewrite elems_str in Hf. now destruct s'.
Qed.
Lemma call_text f n a : TextOnly n a -> vjoin [TS f; TS (L "("); n; TS (L ")")] = TS (f ++ 40 :: a ++ [41]).
Proof.
  intros H. assert (E : push [TS (f ++ [40])] n = [TS ((f ++ [40]) ++ a)]).
  { unfold push. destruct (truthy n) eqn:E; cbn [negb].
    - rewrite (text_truthy n a H E). reflexivity.
    - apply falsy_elems in E. assert (a = []) as ->; [|now rewrite app_nil_r]. inversion H; subst; [|easy]. rewrite elems_str in E. now destruct a. }
  unfold vjoin. cbn [fold_left].
  assert (push (push [] (TS f)) (TS (L "(")) = [TS (f ++ [40])]) as -> by (destruct f; reflexivity).
  rewrite E. cbn. now rewrite <- !app_assoc.
Qed.
Lemma call_lump f n : NoText n -> vjoin [TS f; TS (L "("); n; TS (L ")")] = TList [TS (f ++ [40]); n; TS [41]].
Proof.
  intros H. apply notext in H as [H1 H2]. unfold vjoin. cbn [fold_left].
  assert (push (push [] (TS f)) (TS (L "(")) = [TS (f ++ [40])]) as -> by (destruct f; reflexivity).
  assert (push [TS (f ++ [40])] n = [n; TS (f ++ [40])]) as -> by (unfold push; rewrite H2; now destruct n).
  unfold push. cbn. now destruct n.
Qed.
Lemma named_dec t : Named t \/ ~ Named t.
Proof. destruct t; try (left; now constructor); right; intros H; inversion H. Qed.

Lemma split_canons c max s : canons (map TS (ssplit c max s)).
Proof. apply Forall_forall. intros x Hx. apply in_map_iff in Hx as (y & <- & _). rewrite elems_str. apply Canon_TS. Qed.
Lemma split_text c max s : Split c max (map Ch s) (map elems (map TS (ssplit c max s))).
Proof.
  destruct (vsplit_Split c max (TS s)) as (ps & E & H); [constructor|intros H; inversion H|]. injection E as <-. now rewrite elems_str in H.
Qed.
Lemma seen_cases c max t l : Canon t l -> max <> Some O ->
  (exists il ps, Seen t il /\ vsplit c max t = Ok ps /\ canons ps /\ Split c max il (map elems ps)) \/
  (exists p, Seen t [Va t] /\ vsplit c max t = Ok [p] /\ truthy p = true /\ Named t) \/
  ((forall il, ~ Seen t il) /\ exists e, vsplit c max t = Exn e).
Proof.
  intros HC Hm. destruct (named_dec t) as [Hn|Hn].
  2:{ left. destruct (vsplit_Split c max t (Canon_shallow _ _ HC) Hn) as (ps & E & HS). exists (elems t), ps.
      split; [apply Se_value; [apply Flat_elems|easy]|]. split; [easy|]. split; [|easy]. eapply vsplit_canon; eauto. }
  assert (E : forall n, name_of t = Some n -> vsplit c max t = if truthy n then Ok (split_items c max 0 [] [n]) else Exn AttributeError).
  { intros n En. destruct Hn; cbn [vsplit]; now rewrite En. }
  assert (G1 : forall s x, name_of t = Some (TS (x :: s)) -> Seen t (map Ch (x :: s)) -> exists il ps, Seen t il /\ vsplit c max t = Ok ps /\ canons ps /\ Split c max il (map elems ps)).
  { intros s x En HS. exists (map Ch (x :: s)), (map TS (ssplit c max (x :: s))). split; [easy|]. rewrite (E _ En), split_items_text by easy.
    split; [reflexivity|]. split; [apply split_canons|apply split_text]. }
  assert (G2 : forall n, name_of t = Some n -> is_str n = false -> truthy n = true -> Seen t [Va t] -> exists p, Seen t [Va t] /\ vsplit c max t = Ok [p] /\ truthy p = true /\ Named t).
  { intros n En Es Et HS. exists n. split; [easy|]. rewrite (E _ En), Et. split; [|easy]. now destruct n. }
  assert (GN : forall n, NameIs t n -> name_of t = Some n) by (intros n H; now destruct H).
  assert (G3 : forall n, NameIs t n -> (forall il, Seen t il -> exists n', NameIs t n' /\ ((exists x s, TextOnly n' (x :: s)) \/ NoText n')) ->
    (exists il ps, Seen t il /\ vsplit c max t = Ok ps /\ canons ps /\ Split c max il (map elems ps)) \/
    (exists p, Seen t [Va t] /\ vsplit c max t = Ok [p] /\ truthy p = true /\ Named t) \/
    ((forall il, ~ Seen t il) /\ exists e, vsplit c max t = Exn e)).
  { intros n HN HI. pose proof (GN n HN) as En. destruct (text_or n) as [[[|x s] Hx]|Hx].
    - right. right. assert (truthy n = false) as Ht.
      { destruct (truthy n) eqn:Et; [|easy]. pose proof (text_truthy _ _ Hx Et). now subst. }
      split; [|rewrite (E _ En), Ht; eauto]. intros il HS. apply HI in HS as (n' & HN' & HS). apply GN in HN'. rewrite En in HN'. injection HN' as <-.
      destruct HS as [(x & s & HS)|HS]; [pose proof (text_fun _ _ _ HS Hx); easy|now apply (HS [])].
    - left. assert (n = TS (x :: s)) as -> by (inversion Hx; subst; easy). apply (G1 s x); [easy|]. now apply (Se_name t (TS (x :: s))).
    - right. left. pose proof (proj1 (notext _) Hx) as [H1 H2]. apply (G2 n); try easy. now apply (Se_lump t n). }
  destruct Hn as [n|n|n s l0|n s l0|f n|f n o l0].
  1-4: apply (G3 n); [constructor|]; intros il HS; inversion HS as [t' l' _ Hv|t' n' x s' HN HT|?|?|t' n' HN HT|?|?]; subst; [exfalso; apply Hv; constructor|eauto 6|eauto 6].
  - destruct (text_or n) as [[a Ha]|Hx].
    + left. assert (exists x s, f ++ 40 :: a ++ [41] = x :: s) as (x & s & Es) by (destruct f; eexists _, _; reflexivity).
      apply (G1 s x); [cbn [name_of]; now rewrite (call_text f n a Ha), Es|]. rewrite <- Es. now apply Se_call.
    + right. left. apply (G2 (TList [TS (f ++ [40]); n; TS [41]])); [cbn [name_of]; now rewrite call_lump|easy| |now apply Se_lumpcall].
      apply truthy_elems. intros H. unfold elems in H. cbn [items flat_map] in H. rewrite map_app in H. destruct f; discriminate.
  - destruct (text_or n) as [[a Ha]|Hx].
    + left. assert (exists x s, f ++ 40 :: a ++ [41] = x :: s) as (x & s & Es) by (destruct f; eexists _, _; reflexivity).
      apply (G1 s x); [cbn [name_of]; now rewrite (call_text f n a Ha), Es|]. rewrite <- Es. now apply Se_calls.
    + right. left. apply (G2 (TList [TS (f ++ [40]); n; TS [41]])); [cbn [name_of]; now rewrite call_lump|easy| |now apply Se_lumpcalls].
      apply truthy_elems. intros H. unfold elems in H. cbn [items flat_map] in H. rewrite map_app in H. destruct f; discriminate.
Qed.
Lemma Seen_fun t il il' : Seen t il -> Seen t il' -> il = il'.
Proof.
  intros H H'. assert (TN : forall n s, TextOnly n s -> NoText n -> False) by (intros n s Hs HN; now apply (HN s)).
  assert (NI : forall u n n', NameIs u n -> NameIs u n' -> n = n') by (intros u n n' K K'; inversion K; subst; now inversion K').
  assert (NV : forall u n, NameIs u n -> Named u) by (intros u n K; destruct K; constructor).
  inversion H as [t1 l1 K1 K2|t1 n1 c1 s1 K1 K2|f1 n1 a1 K1|f1 n1 a1 o1 l1 K1|t1 n1 K1 K2|f1 n1 K1|f1 n1 o1 l1 K1]; subst;
  inversion H' as [t2 l2 J1 J2|t2 n2 c2 s2 J1 J2|f2 n2 a2 J1|f2 n2 a2 o2 l2 J1|t2 n2 J1 J2|f2 n2 J1|f2 n2 o2 l2 J1]; subst; try easy;
    try (exfalso; apply K2; first [now apply (NV _ n2)|constructor]); try (exfalso; apply J2; first [now apply (NV _ n1)|constructor]);
    try (rewrite (NI _ _ _ K1 J1) in *); try (now inversion K1); try (now inversion J1); try (exfalso; eauto; fail).
  - apply Flat_fun in K1, J1. congruence.
  - now rewrite (text_fun _ _ _ K2 J2).
  - now rewrite (text_fun _ _ _ K1 J1).
  - now rewrite (text_fun _ _ _ K1 J1).
Qed.

(* ---- name:offset:length ---- *)
Lemma canon_truthy v n : Canon v n -> truthy v = true <-> n <> [].
Proof. intros H. now rewrite truthy_elems, (Canon_elems _ _ H). Qed.
Lemma parts_iff data il p ps lg v o y : canons (p :: ps) -> Split 58 None il (map elems (p :: ps)) ->
  slice_body U w data (p :: ps) = (lg, Ok (v, o, y)) <-> exists n, Canon v n /\ Substring U w data il n o y lg.
Proof.
  intros HF HS. inversion HF as [|? ? Hp Hps]; subst. rewrite body_iff by easy. split.
  - intros [-> H]. exists (elems p). split; [easy|]. apply substring_iff. exists (map elems ps). easy.
  - intros (n & Hv & H). apply substring_iff in H as (ps' & HS' & H). pose proof (Split_fun _ _ _ _ HS _ HS') as E. injection E as <- <-.
    split; [|easy]. eapply Canon_fun; eauto.
Qed.
Lemma slice_iff data il lg v o y : Canon data il -> (forall x, il <> [Va x]) ->
  split_slice U data w = (lg, Ok (v, o, y)) <-> exists n, Canon v n /\ Substring U w data il n o y lg.
Proof.
  intros HC Hn. destruct (split_parts _ _ HC Hn) as (p & ps & E & HS & HF). rewrite split_slice_body, E, lift_bind. now apply parts_iff.
Qed.
Lemma split_one il : Split 58 None il [il] -> forall ls, Split 58 None il ls -> ls = [il].
Proof. intros H ls H'. symmetry. eapply Split_fun; eauto. Qed.

Definition tail_prog (data t : tok) : M (option (num tok) * option (num tok)) :=
  if truthy t then
    do* x <- split_slice U t w;
    let '(v, st, ln) := x in
    if truthy v then do* _ <- memit E_FUNC_TAIL w [(L "data", targ data)]; mret (None, None)
    else mret (st, ln)
  else mret (None, None).
Lemma tail_iff data t tail lg o y : Canon t tail -> tail_prog data t = (lg, Ok (o, y)) <-> Tail U w data tail o y lg.
Proof.
  intros HC. unfold tail_prog. destruct (truthy t) eqn:Et.
  2:{ assert (tail = []) as -> by (rewrite <- (Canon_elems _ _ HC); now apply falsy_elems). unfold mret. split.
      - intros [= <- <- <-]. now constructor.
      - intros H. inversion H; subst; easy. }
  apply (canon_truthy _ _ HC) in Et.
  assert (J : forall lg0 v o0 y0, split_slice U t w = (lg0, Ok (v, o0, y0)) -> truthy v = true ->
     forall lg o y, (do* x <- split_slice U t w; let '(v, st, ln) := x in
        if truthy v then do* _ <- memit E_FUNC_TAIL w [(L "data", targ data)]; mret (None, None) else mret (st, ln)) = (lg, Ok (o, y)) <->
     (exists x, str_of data = Ok x) /\ o = None /\ y = None /\ lg = lg0 ++ say E_FUNC_TAIL w [(L "data", targ data)]).
  { intros lg0 v o0 y0 -> Hv lg' o' y'. rewrite bind_eq. split.
    - intros (l1 & a & l2 & [= <- <-] & H & ->). rewrite Hv in H. apply bind_eq in H as (l3 & a & l4 & H & H2 & ->).
      unfold mret in H2. injection H2 as <- <- <-. apply data_iff in H as [-> H]; [|easy|easy]. now rewrite app_nil_r.
    - intros (Hx & -> & -> & ->). exists lg0, (v, o0, y0), (say E_FUNC_TAIL w [(L "data", targ data)]). split; [easy|]. split; [|easy]. rewrite Hv.
      apply bind_eq. exists (say E_FUNC_TAIL w [(L "data", targ data)]), tt, []. split; [now apply data_iff|]. split; [easy|]. now rewrite app_nil_r. }
  assert (J0 : forall lg0 v o0 y0, split_slice U t w = (lg0, Ok (v, o0, y0)) -> truthy v = false ->
     forall lg o y, (do* x <- split_slice U t w; let '(v, st, ln) := x in
        if truthy v then do* _ <- memit E_FUNC_TAIL w [(L "data", targ data)]; mret (None, None) else mret (st, ln)) = (lg, Ok (o, y)) <->
     o = o0 /\ y = y0 /\ lg = lg0).
  { intros lg0 v o0 y0 -> Hv lg' o' y'. unfold mbind. rewrite Hv. unfold mret. cbn [fst snd]. rewrite app_nil_r. split; [now intros [= <- <- <-]|now intros (-> & -> & ->)]. }
  destruct (seen_cases 58 None t tail HC ltac:(easy)) as [(il & ps & HS & Ev & HF & HSp)|[(p & HS & Ev & Hp & Hn)|[HS [e Ev]]]].
  - destruct ps as [|p ps]; [inversion HSp|].
    assert (SB : forall lg0 v o0 y0, split_slice U t w = (lg0, Ok (v, o0, y0)) <-> exists n, Canon v n /\ Substring U w t il n o0 y0 lg0).
    { intros. rewrite split_slice_body, Ev, lift_bind. now apply parts_iff. }
    split.
    + intros H. pose proof H as H'. apply bind_eq in H' as (l1 & [[v o0] y0] & l2 & E & _ & _). pose proof E as E'. apply SB in E' as (n & Hv & Hsub).
      destruct (truthy v) eqn:Etv.
      * destruct (proj1 (J _ _ _ _ E Etv _ _ _) H) as ([x Hx] & -> & -> & ->). apply (canon_truthy _ _ Hv) in Etv. destruct n as [|c n]; [easy|]. eapply Tl_junk; eauto.
      * destruct (proj1 (J0 _ _ _ _ E Etv _ _ _) H) as (-> & -> & ->). apply falsy_elems in Etv. rewrite (Canon_elems _ _ Hv) in Etv. subst n. eapply Tl_slice; eauto.
    + intros H. inversion H as [E|t' il' c n o0 y0 lg0 x H1 H2 H3 H4 H5|t' il' o0 y0 lg0 H1 H2 H3 H4]; subst; [easy| |]; rewrite (Canon_fun _ _ _ H2 HC) in *; rewrite (Seen_fun _ _ _ H3 HS) in *.
      * assert (Cp : Canon p (c :: n)) by (apply substring_iff in H4 as (ps' & HS' & _); pose proof (Split_fun _ _ _ _ HSp _ HS') as E; injection E as E _; rewrite <- E; now inversion HF).
        eapply J; [apply SB; exists (c :: n); split; [exact Cp|exact H4]|now apply (canon_truthy _ _ Cp)|eauto].
      * assert (Cp : Canon p []) by (apply substring_iff in H4 as (ps' & HS' & _); pose proof (Split_fun _ _ _ _ HSp _ HS') as E; injection E as E _; rewrite <- E; now inversion HF).
        eapply J0; [apply SB; exists []; split; [exact Cp|exact H4]| |eauto]. apply falsy_elems. now rewrite (Canon_elems _ _ Cp).
  - assert (HO : Split 58 None [Va t] [[Va t]]) by (constructor; now intros [|]).
    split.
    + intros H. pose proof H as H'. apply bind_eq in H' as (l1 & [[v o0] y0] & l2 & E & _ & _). pose proof E as E'.
      rewrite split_slice_body, Ev, lift_bind in E'. apply body_iff in E' as [-> Hsub]; [|easy|constructor]. cbn [map] in Hsub.
      destruct (proj1 (J _ _ _ _ E Hp _ _ _) H) as ([x Hx] & -> & -> & ->). eapply (Tl_junk U w data tail t [Va t] (Va t) []); eauto.
      apply substring_iff. exists []. split; [exact HO|exact Hsub].
    + intros H. inversion H as [E|t' il' c n o0 y0 lg0 x H1 H2 H3 H4 H5|t' il' o0 y0 lg0 H1 H2 H3 H4]; subst; [easy| |]; rewrite (Canon_fun _ _ _ H2 HC) in *; rewrite (Seen_fun _ _ _ H3 HS) in *;
        apply substring_iff in H4 as (ps' & HS' & H4); apply (split_one _ HO) in HS'; [|discriminate HS']. injection HS' as -> -> ->.
      eapply J; [rewrite split_slice_body, Ev, lift_bind; apply body_iff; [easy|constructor|split; [reflexivity|exact H4]]|exact Hp|eauto].
  - split.
    + intros H. apply bind_eq in H as (l1 & a & l2 & E & _ & _). rewrite split_slice_body, Ev in E. discriminate E.
    + intros H. inversion H as [E|t' il' c n o0 y0 lg0 x H1 H2 H3 H4 H5|t' il' o0 y0 lg0 H1 H2 H3 H4]; subst; [easy| |]; rewrite (Canon_fun _ _ _ H2 HC) in *; exfalso; eapply HS; eauto.
Qed.

(* ---- calls ---- *)
Definition GoodCall (sl : sliced) : Prop := match sl with SlTok t => Canon t (elems t) | SlList m => Forall Part m /\ (2 <= length m)%nat end.
Lemma good_arg sl : GoodCall sl -> GoodArg sl.
Proof. destruct sl; [easy|]. now intros [H _]. Qed.
Lemma name_iff c t lg u : mdupe c = false -> mfields c = [(L "name", false)] ->
  memit c w [(L "name", targ t)] = (lg, Ok u) <-> lg = say c w [(L "name", targ t)] /\ exists s, str_of t = Ok s.
Proof.
  intros Hd Hf. split.
  - intros H. split; [now apply memit_ok in H|]. unfold memit, mw, emit in H. rewrite Hd, Hf in H. cbn [format_ok lookup] in H.
    rewrite str_eqb_refl in H. cbn [fst snd] in H. destruct (arg_ok false (targ t)) as [x| |] eqn:E; [|easy|easy]. now apply shown_targ in E.
  - intros [-> [s Hs]]. destruct u. apply memit_say; [easy|]. rewrite Hf. cbn [format_ok lookup]. rewrite str_eqb_refl, (targ_shown _ _ Hs). reflexivity.
Qed.
Lemma spaces_iff a name l : Canon a name ->
  (if tin 32 a then memit W_ASSIGN_SPACES w [(L "name", targ a)] else mret tt) = (l, Ok tt) <-> Spaces w name l.
Proof.
  intros HC. destruct (tin 32 a) eqn:E.
  - apply tin_In in E. rewrite (Canon_elems _ _ HC) in E. rewrite name_iff by easy. split.
    + intros [-> [s Hs]]. now apply (Sc_some w name a s).
    + intros H. inversion H as [Hn|t x Hi Ht Hx]; subst; [easy|]. rewrite (Canon_fun _ _ _ Ht HC) in *. eauto.
  - assert (E' : ~ In (Ch 32) name). { intros H. rewrite <- (Canon_elems _ _ HC) in H. apply tin_In in H. congruence. }
    unfold mret. split; [intros [= <-]; now constructor|]. intros H. inversion H; subst; easy.
Qed.
Lemma split1 c il ls : Split c (Some 1%nat) il ls ->
  (ls = [il] /\ ~ In (Ch c) il) \/ exists a b, ls = [a; b] /\ il = a ++ Ch c :: b /\ ~ In (Ch c) a.
Proof.
  intros H. inversion H as [mx l Hn|l|mx a l ls' Hm Hn HS]; subst; [now left|]. right. cbn in HS. apply Split0 in HS. subst. now exists a, l.
Qed.
Lemma seen_empty t il : Flat t [] -> Seen t il -> il = [].
Proof.
  intros Hf HS. apply Flat_fun in Hf. assert (Hn : ~ Named t) by (intros Hn; rewrite elems_named in Hf by easy; discriminate).
  inversion HS as [t1 l1 K1 K2|t1 n1 c1 s1 K1 K2|f1 n1 a1 K1|f1 n1 a1 o1 l1 K1|t1 n1 K1 K2|f1 n1 K1|f1 n1 o1 l1 K1]; subst; try (exfalso; apply Hn; first [destruct K1; constructor|constructor]; fail).
  apply Flat_fun in K1. congruence.
Qed.
Lemma argslice_fun args sl sl' : ArgSlice args sl -> ArgSlice args sl' -> sl = sl'.
Proof.
  intros H H'. inversion H as [a E|v E|m v Hv HP Hl]; subst; inversion H' as [a' E'|v' E'|m' v' Hv' HP' Hl']; subst; try easy.
  - apply map_Ch_inj in E'. now subst.
  - now destruct a as [|? [|? ?]].
  - now apply chars_no_va in Hv'.
  - now destruct a' as [|? [|? ?]].
  - now injection E' as ->.
  - apply parts_va in HP' as (u & Hu & Hn); [|easy]. destruct Hu as [Hu|[]]; now rewrite Hu in Hn.
  - now apply chars_no_va in Hv.
  - apply parts_va in HP as (u & Hu & Hn); [|easy]. destruct Hu as [Hu|[]]; now rewrite Hu in Hn.
  - now rewrite (Parts_fun _ _ _ HP HP').
Qed.
Lemma argof_slice args sl : ArgOf args sl -> ArgSlice args sl /\ GoodCall sl.
Proof.
  intros [t HC [[s ->]|Hn]|m HP Hl].
  - split; [|rewrite <- (Canon_elems _ _ HC) in HC; exact HC]. apply As_text. now rewrite <- (Canon_elems _ _ HC), elems_str.
  - split; [|exact (canon_self _ _ HC)]. apply As_one. now rewrite <- (Canon_elems _ _ HC), elems_named.
  - destruct (parts_va _ _ HP Hl) as (v & Hv & _). split; [now apply (As_list _ m v)|]. split; [now apply Parts_iff in HP|easy].
Qed.
Lemma write_parts dest fname args sl' : Canon dest (map Ch fname ++ Ch 40 :: args ++ [Ch 41]) -> ~ In 40 fname -> ArgSlice args sl' ->
  GoodCall sl' /\ (sl_size sl' < tsize dest)%nat.
Proof.
  intros HC Hf HA'.
  assert (Hn : ~ Named dest). { eapply canon_not_named; [exact HC|]. intros v E. destruct fname; discriminate. }
  destruct (vsplit_two 40 dest _ HC Hn) as [(Hno & _)|(fa & b & la & lb & Ev & HCa & HCb & Er & Hna)]; [exfalso; apply Hno, in_app_iff; right; now left|].
  apply split_unique in Er as [<- <-]; [|now rewrite in_map_Ch|easy]. pose proof (Canon_elems _ _ HCb) as Eb.
  destruct (last_opt (items b)) as [c|] eqn:El2.
  2:{ apply last_items_none in El2. rewrite El2 in Eb. now destruct args. }
  apply last_items in El2 as [Hi Ec]. rewrite Eb in Ec. apply app_inj_tail in Ec as [Eargs Ec].
  assert (HA : ArgOf args (slice_of b (removelast (items b)))).
  { apply slice_argof; [intros x; apply removelast_in|easy|now rewrite Eb|]. destruct (all_chars args) as [[s ->]|Hv]; [left|now right].
    exists (s ++ [41]). eapply canon_text; [exact HCb|]. now rewrite map_app. }
  apply argof_slice in HA as [HA HG]. rewrite (argslice_fun _ _ _ HA' HA). split; [easy|].
  pose proof (vsplit_size _ _ _ _ Ev) as Hsz. pose proof (slice_size b (removelast (items b))) as H1.
  pose proof (sum_removelast (items b)) as H2. pose proof (items_size b) as H3.
  rewrite !sum_cons in *. cbn [length] in *. unfold sum in *. cbn [map list_sum fold_right] in *. lia.
Qed.
Lemma write_iff call dest r l : Canon dest (r ++ [Ch 41]) ->
  process_write U FT call dest w = (l, Ok tt) <->
  exists fname args fi' sl' l2 l3, r ++ [Ch 41] = map Ch fname ++ Ch 40 :: args ++ [Ch 41] /\ ~ In 40 fname /\
    FuncOf U FT fname fi' /\ FuncSpelling w fi' fname l2 /\ ArgSlice args sl' /\ call fi' sl' w = (l3, Ok tt) /\
    l = LFunc (u_lower U fname) :: l2 ++ l3.
Proof.
  intros HC. pose proof (Canon_elems _ _ HC) as El. unfold process_write.
  assert (Hn : ~ Named dest). { eapply canon_not_named; [exact HC|]. intros v E. destruct r as [|? [|? ?]]; discriminate. }
  destruct (tin 40 dest) eqn:E40.
  2:{ split; [easy|]. intros (fname & args & fi' & sl' & l2 & l3 & E & _). assert (tin 40 dest = true); [|congruence].
      apply tin_In. rewrite El, E. apply in_app_iff. right. now left. }
  apply tin_In in E40. rewrite El in E40.
  destruct (vsplit_two 40 dest _ HC Hn) as [(Hno & _)|(fa & b & la & lb & Ev & HCa & HCb & Er & Hna)]; [easy|].
  rewrite Ev, lift_bind.
  assert (exists args, lb = args ++ [Ch 41] /\ r = la ++ Ch 40 :: args) as (args & -> & Er').
  { destruct lb as [|x lb _] using rev_ind; [apply app_inj_tail in Er as [_ Er]; discriminate|].
    rewrite app_comm_cons, app_assoc in Er. apply app_inj_tail in Er as [-> <-]. now exists lb. }
  pose proof (Canon_elems _ _ HCb) as Eb.
  destruct (last_opt (items b)) as [c|] eqn:El2.
  2:{ apply last_items_none in El2. rewrite El2 in Eb. now destruct args. }
  apply last_items in El2 as [Hi Ec]. rewrite Eb in Ec. apply app_inj_tail in Ec as [Eargs Ec].
  assert (tok_isc c 41 = true) as -> by (apply tok_isc_el; easy).
  assert (HA : ArgOf args (slice_of b (removelast (items b)))).
  { apply slice_argof; [intros x; apply removelast_in|easy|now rewrite Eb|]. destruct (all_chars args) as [[s ->]|Hv]; [left|now right].
    exists (s ++ [41]). eapply canon_text; [exact HCb|]. now rewrite map_app. }
  apply argof_slice in HA as [HA HG].
  assert (Hu : forall fname args', r ++ [Ch 41] = map Ch fname ++ Ch 40 :: args' ++ [Ch 41] -> ~ In 40 fname -> la = map Ch fname /\ args' = args).
  { intros fname args' E Hf. rewrite Er in E. apply split_unique in E as [-> E]; [|easy|now rewrite in_map_Ch]. apply app_inj_tail in E as [-> _]. easy. }
  destruct (all_chars la) as [[f ->]|[v Hv]].
  - rewrite (canon_text _ _ f HCa eq_refl), bind_eq. split.
    + intros (l1 & fi & l4 & H1 & H2 & ->). apply check_iff in H1 as (l2 & HF & HS & ->).
      exists f, args, fi, (slice_of b (removelast (items b))), l2, l4. rewrite in_map_Ch in Hna. rewrite Er', <- app_assoc. tauto.
    + intros (fname & args' & fi' & sl' & l2 & l3 & E & Hf & HF & HS & HA' & Hc & ->). destruct (Hu _ _ E Hf) as [E2 ->]. apply map_Ch_inj in E2. subst fname.
      rewrite (argslice_fun _ _ _ HA' HA) in Hc. exists (LFunc (u_lower U f) :: l2), fi', l3. split; [apply check_iff; eauto|]. split; easy.
  - assert (E : is_str fa = false) by (now apply (canon_var_str _ _ _ HCa Hv)). split.
    + intros H. now destruct fa.
    + intros (fname & args' & fi' & sl' & l2 & l3 & E' & Hf & _). destruct (Hu _ _ E' Hf) as [-> _]. now apply chars_no_va in Hv.
Qed.

Notation Assigned := (Spec_Subst.Assigned U FT w) (only parsing).
Lemma set_iff fi sl l : f_kind fi = FSet -> FuncSays U FT w fi sl l <-> exists t l1 l2, sl = SlTok t /\ Assigned t l1 /\ Brackets w sl l2 /\ l = l1 ++ l2.
Proof.
  intros Hk. split.
  - intros H. inversion H; subst; try congruence.
    + eexists _, _, _. split; [reflexivity|]. split; [now apply Ag_empty|]. split; [eassumption|reflexivity].
    + eexists _, _, _. split; [reflexivity|]. split; [eapply Ag_noequals; eassumption|]. split; [eassumption|reflexivity].
    + eexists _, _, _. split; [reflexivity|]. split; [eapply Ag_var; eassumption|]. split; [eassumption|reflexivity].
    + eexists _, _, _. split; [reflexivity|]. split; [eapply Ag_func; eassumption|]. split; [eassumption|]. now rewrite <- !app_assoc.
  - intros (t & l1 & l2 & -> & H & HB & ->). inversion H; subst.
    + now apply (Fn_set_empty U FT w fi (SlTok t) t).
    + eapply Fn_set_noequals; eauto.
    + eapply Fn_set_var; eauto.
    + rewrite <- app_assoc. eapply Fn_set_func; eauto.
Qed.

Lemma assign_iff call t l : Canon t (elems t) ->
  (forall fi' sl' l', (sl_size sl' < tsize t)%nat -> GoodCall sl' -> call fi' sl' w = (l', Ok tt) <-> FuncSays U FT w fi' sl' l') ->
  parse_assignment U FT call (SlTok t) w = (l, Ok tt) <-> Assigned t l.
Proof.
  intros HC Hcall. unfold parse_assignment. cbn [sl_truthy]. destruct (truthy t) eqn:Et; cbn [negb].
  2:{ apply falsy_elems in Et. assert (Hf : Flat t []) by (rewrite <- Et; apply Flat_elems).
      change (memit E_ASSIGN_EMPTY w []) with (say E_ASSIGN_EMPTY w [], @Ok unit tt). split.
      - intros [= <-]. now apply Ag_empty.
      - intros H. inversion H as [_|il x Hn|name value l1 HS|fname args value l1 l2 l3 fi' sl' HS]; subst; [easy|easy| |]; apply (seen_empty _ _ Hf) in HS; [now destruct name|].
        destruct fname; discriminate HS. }
  apply truthy_elems in Et. assert (Hf : ~ Flat t []) by (intros H; apply Flat_fun in H; congruence).
  assert (NE : forall il, Seen t il -> ~ In (Ch 61) il -> memit E_ASSIGN_NO_EQUALS w [(L "data", targ t)] = (l, Ok tt) <-> Assigned t l).
  { intros il HS Hno. rewrite data_iff by easy. split.
    - intros [-> [x Hx]]. now apply (Ag_noequals U FT w t il x).
    - assert (K : forall a b, Seen t (a ++ Ch 61 :: b) -> False).
      { intros a b H. apply (Seen_fun _ _ _ HS) in H. apply Hno. rewrite H. apply in_app_iff. right. now left. }
      intros H. inversion H as [H1|il' x _ _ _ Hx|name value l1 HS'|fname args value l1 l2 l3 fi' sl' HS']; subst; [easy|eauto|now apply K in HS'|now apply K in HS']. }
  destruct (seen_cases 61 (Some 1%nat) t (elems t) HC ltac:(easy)) as [(il & ps & HS & Ev & HF & HSp)|[(p & HS & Ev & Hp & Hn)|[HS [e Ev]]]]; rewrite Ev.
  - rewrite lift_bind. apply split1 in HSp as [[Ep Hno]|(na & nb & Ep & -> & Hno)].
    + destruct ps as [|p [|? ?]]; try discriminate. now apply (NE il).
    + destruct ps as [|a [|b [|? ?]]]; try discriminate. cbn [map] in Ep. injection Ep as <- <-. inversion HF as [|? ? HCa _]; subst.
      assert (Hsz : (tsize a < tsize t)%nat).
      { pose proof (vsplit_size _ _ _ _ Ev) as Hsz. rewrite !sum_cons in *. cbn [length] in *. unfold sum in *. cbn [map list_sum fold_right] in *. lia. }
      assert (Hu : forall x y, Seen t (x ++ Ch 61 :: y) -> ~ In (Ch 61) x -> x = elems a /\ y = elems b).
      { intros x y H Hx. apply (Seen_fun _ _ _ HS) in H. apply split_unique in H as [-> ->]; easy. }
      assert (K : (forall r, elems a <> r ++ [Ch 41]) -> (do* _ <- (if tin 32 a then memit W_ASSIGN_SPACES w [(L "name", targ a)] else mret tt); mret tt) = (l, Ok tt) <-> Assigned t l).
      { intros Hr. rewrite bind_eq. split.
        - intros (l1 & [] & l2 & H1 & H2 & ->). unfold mret in H2. injection H2 as <-. rewrite app_nil_r. apply (spaces_iff a (elems a)) in H1; [|easy]. eapply Ag_var; eauto.
        - intros H. inversion H as [H1|il' x _ HS' Hn' Hx|name value l1 HS' H1 H2 H3|fname args value l1 l2 l3 fi' sl' HS' H1 H2]; subst; [easy| | |].
          + apply (Seen_fun _ _ _ HS) in HS'. subst il'. exfalso. apply Hn', in_app_iff. right. now left.
          + apply Hu in HS' as [-> ->]; [|easy]. exists l, tt, []. split; [now apply (spaces_iff a (elems a))|]. split; [easy|now rewrite app_nil_r].
          + apply Hu in HS' as [E _]; [|easy]. exfalso. apply (Hr (map Ch fname ++ Ch 40 :: args)). rewrite <- E, <- app_assoc. easy. }
      destruct (last_opt (items a)) as [c|] eqn:Ec.
      2:{ apply last_items_none in Ec. apply K. intros r Er. rewrite Ec in Er. now destruct r. }
      apply last_items in Ec as [Hi Ec]. destruct (tok_isc c 41) eqn:E41.
      2:{ apply K. intros r Er. rewrite Ec in Er. apply app_inj_tail in Er as [_ Er]. apply tok_isc_el in Er; [congruence|easy]. }
      apply tok_isc_el in E41; [|easy]. rewrite E41 in Ec. set (r := map el (removelast (items a))) in *. clearbody r.
      assert (HCa' : Canon a (r ++ [Ch 41])) by (now rewrite <- Ec).
      rewrite bind_eq. split.
      * intros (l1 & [] & l2 & H1 & H2 & ->). apply (spaces_iff a (elems a)) in H1; [|easy].
        apply (write_iff call a r _ HCa') in H2 as (fname & args & fi' & sl' & l3 & l4 & E & Hf' & HF' & HSp & HA & Hc & ->).
        rewrite Ec, E in *. destruct (write_parts a fname args sl' HCa Hf' HA) as [HG Hs]. eapply Ag_func; eauto. apply Hcall; [lia|easy|easy].
      * intros H. inversion H as [H1|il' x _ HS' Hn' Hx|name value l1 HS' H1 H2 H3|fname args value l1 l2 l3 fi' sl' HS' H1 H2 H3 H4 H5 H6 H7]; subst; [easy| | |].
        -- apply (Seen_fun _ _ _ HS) in HS'. subst il'. exfalso. apply Hn', in_app_iff. right. now left.
        -- apply Hu in HS' as [-> ->]; [|easy]. now apply H3 in Ec.
        -- apply Hu in HS' as [E ->]; [|easy]. exists l1, tt, (LFunc (u_lower U fname) :: l2 ++ l3). split; [apply (spaces_iff a (elems a)); [easy|now rewrite <- E]|].
           split; [|easy]. apply (write_iff call a r _ HCa'). exists fname, args, fi', sl', l2, l3.
           assert (G : GoodCall sl' /\ (sl_size sl' < tsize a)%nat) by (apply (write_parts a fname args); [now rewrite E|easy|easy]).
           destruct G as [HG Hs]. rewrite <- Ec, <- E. repeat (split; [easy|]). split; [apply Hcall; [lia|easy|easy]|easy].
  - rewrite lift_bind. apply (NE [Va t]); [easy|]. now intros [|].
  - split; [easy|]. intros H. exfalso. inversion H as [H1|il' x _ HS' Hn' Hx|name value l1 HS' H1 H2 H3|fname args value l1 l2 l3 fi' sl' HS' H1 H2]; subst; [easy| | |]; now apply HS in HS'.
Qed.
Lemma call_iff k : forall fi sl l, (sl_size sl < k)%nat -> GoodCall sl -> func_call U FT k fi sl w = (l, Ok tt) <-> FuncSays U FT w fi sl l.
Proof.
  induction k as [|k IH]; intros fi sl l Hk HG; [lia|]. cbn [func_call]. pose proof (fun l0 => brackets_iff sl l0 (good_arg _ HG)) as HB.
  destruct (f_kind fi) eqn:Ek.
  - rewrite HB. split; [intros H; now apply Fn_plain|]. intros H; inversion H; subst; congruence.
  - rewrite set_iff, bind_eq by easy. split.
    + intros (l1 & [] & l2 & H1 & H2 & ->). apply HB in H2. destruct sl as [t|m].
      * exists t, l1, l2. split; [easy|]. split; [|easy]. eapply assign_iff in H1; [exact H1|easy|]. intros. apply IH; [cbn [sl_size] in Hk; lia|easy].
      * destruct m; [|discriminate H1]. exfalso. destruct HG as [_ HG]. cbn in HG. lia.
    + intros (t & l1 & l2 & -> & H1 & H2 & ->). exists l1, tt, l2. split; [|now apply HB in H2]. apply assign_iff; [easy| |easy]. intros. apply IH; [cbn [sl_size] in Hk; lia|easy].
  - rewrite bind_eq. split.
    + intros (l1 & [] & l2 & H1 & H2 & ->). apply HB in H1. destruct sl as [[s| | | | | | |]|]; try discriminate H2. apply counted_iff in H2. eapply Fn_count; eauto.
    + intros H; inversion H; subst; try congruence. eexists _, tt, _. split; [apply HB; eassumption|]. split; [apply counted_iff; eassumption|easy].
  - rewrite bind_eq. split.
    + intros (l1 & [] & l2 & H1 & H2 & ->). apply HB in H2. apply Fn_audio; [easy| |easy].
      assert (K : (exists v, sl = SlTok (TS v)) \/ forall v, sl <> SlTok (TS v)) by (destruct sl as [[]|]; eauto; right; intros; discriminate).
      destruct K as [[v ->]|K].
      * destruct (smem v audio_args) eqn:E.
        -- unfold mret in H1. injection H1 as <-. right. left. exists v. split; [easy|]. split; [now apply smem_In in E|easy].
        -- right. right. exists v. split; [easy|]. split; [intros H; apply smem_In in H; unfold audio_args in E; unfold audio_names in H; congruence|]. now injection H1 as <-.
      * left. split; [easy|]. destruct sl as [[]|]; try (unfold mret in H1; now injection H1 as <-). now destruct (K s).
    + intros H; inversion H as [|l1 l2 K1 K2 K3| | | | |]; subst; try congruence. exists l1, tt, l2. split; [|split; [now apply HB|easy]].
      destruct K2 as [[K2 ->]|[(v & -> & K2 & ->)|(v & -> & K2 & ->)]].
      * destruct sl as [[]|]; try easy. now destruct (K2 s).
      * assert (smem v audio_args = true) as -> by (now apply smem_In). easy.
      * destruct (smem v audio_args) eqn:E; [exfalso; apply K2; now apply smem_In in E|]. reflexivity.
Qed.
Lemma callf_iff fi a args l : Canon a args -> call_func U FT fi (SlTok a) w = (l, Ok tt) <-> FuncSays U FT w fi (SlTok a) l.
Proof. intros HC. unfold call_func. apply call_iff; [cbn [sl_size]; lia|]. exact (canon_self _ _ HC). Qed.

(* ---- substitutions ---- *)
Lemma substring_sense data il n o y lg : Substring U w data il n (Some (NI o)) (Some (NI y)) lg -> LengthMakesSense o y.
Proof.
  intros H. inversion H; subst; try easy;
  match goal with K : Alone _ _ _ _ |- _ => inversion K end.
Qed.
Lemma substring_nv data il n t y lg : ~ Substring U w data il n (Some (NV t)) (Some (NI y)) lg.
Proof. intros H. inversion H. Qed.
Lemma substring_none data il n y lg : ~ Substring U w data il n None (Some y) lg.
Proof. intros H. inversion H. Qed.
Lemma tail_value data tail o y lg f a v : Tail U w data tail o y lg -> read_result f a o y = Ok v <-> FuncVal f a o y v.
Proof.
  intros H. destruct o as [o|]; [|split; [intros [= <-]; constructor|intros K; now inversion K]].
  assert (E : read_result f a (Some o) y = Ok (TFuncS f a o y)).
  { cbn [read_result]. unfold mk_func_slice. destruct y as [[y|t]|]; try easy.
    inversion H as [| |t il o' l' lg' K1 K2 K3 K4]; subst. destruct o as [z|u]; [|now apply substring_nv in K4].
    apply substring_sense in K4. destruct (Slice_proofs.sense_endpos z y K4) as [e ->]. reflexivity. }
  rewrite E. split; [intros [= <-]; constructor|]. intros K; now inversion K.
Qed.
Lemma cut_last_none c its : Forall Item its -> cut_last c its = None -> ~ In (Ch c) (map el its).
Proof.
  induction 1 as [|y its Hy Hi IH]; intros E; [easy|]. cbn [cut_last] in E. destruct (cut_last c its) as [[? ?]|]; [easy|].
  destruct (tok_isc y c) eqn:E2; [easy|]. cbn [map In]. intros [H|H]; [|now apply IH]. apply tok_isc_el in H; [congruence|easy].
Qed.
Lemma cut_iff data il before after a t l : Canon data il -> (forall y, In y after -> In y (items data)) ->
  il = map el before ++ Ch 40 :: map el after -> ~ In (Ch 40) (map el before) ->
  (match cut_last 41 after with
   | Some (a, t) => mret (vjoin (sl_items (slice_of data a)), vjoin (sl_items (slice_of data t)))
   | None => do* _ <- memit E_FUNC_PARENS w [(L "data", targ data)];
             mret (vjoin (sl_items (slice_of data after)), TS [])
   end) = (l, Ok (a, t)) <-> exists args tail, Canon a args /\ Canon t tail /\ Cut w data il (map el before) args tail l.
Proof.
  intros HC Ha Eil Hn. destruct (cut_last 41 after) as [[a' t']|] eqn:Ecl.
  - destruct (cut_last_some _ _ _ _ Ecl (its_item data after Ha)) as (y & Ea & Ey & Hny).
    assert (Ca : Canon (vjoin (sl_items (slice_of data a'))) (map el a')) by (apply join_canon; intros z Hz; apply Ha; rewrite Ea; apply in_app_iff; now left).
    assert (Ct : Canon (vjoin (sl_items (slice_of data t'))) (map el t')) by (apply join_canon; intros z Hz; apply Ha; rewrite Ea; apply in_app_iff; right; now right).
    assert (E2 : map el after = map el a' ++ Ch 41 :: map el t') by (rewrite Ea, map_app; cbn [map]; now rewrite Ey).
    unfold mret. split.
    + intros [= <- <- <-]. exists (map el a'), (map el t'). split; [easy|]. split; [easy|]. apply Cu_closed; [|easy|easy]. now rewrite Eil, E2.
    + intros (args & tail & K1 & K2 & K3). inversion K3 as [f0 a0 t0 E K4 K5|f0 a0 x E K4 K5 K6]; subst; rewrite Eil in E || idtac.
      * apply split_unique in E as [_ E]; [|easy|easy]. rewrite E2 in E.
        assert (G : args = map el a' /\ tail = map el t').
        { assert (E3 : rev (map el t') ++ Ch 41 :: rev (map el a') = rev tail ++ Ch 41 :: rev args).
          { apply (f_equal (@rev elem)) in E. rewrite !rev_app_distr in E. cbn [rev] in E. rewrite <- !app_assoc in E. exact E. }
          apply split_unique in E3 as [E3 E4]; [|now rewrite <- in_rev|now rewrite <- in_rev].
          apply (f_equal (@rev elem)) in E3, E4. rewrite !rev_involutive in E3, E4. easy. }
        destruct G as [-> ->]. rewrite (Canon_fun _ _ _ K1 Ca), (Canon_fun _ _ _ K2 Ct). easy.
      * apply split_unique in E as [_ E]; [|easy|easy]. exfalso. apply K5. rewrite <- E, E2. apply in_app_iff. right. now left.
  - pose proof (cut_last_none _ _ (its_item data after Ha) Ecl) as Hno.
    assert (Ca : Canon (vjoin (sl_items (slice_of data after))) (map el after)) by (now apply join_canon).
    rewrite bind_eq. split.
    + intros (l1 & u & l2 & H1 & H2 & ->). unfold mret in H2. injection H2 as <- <- <-. apply data_iff in H1 as [-> [x Hx]]; [|easy|easy].
      rewrite app_nil_r. exists (map el after), []. split; [easy|]. split; [apply (Canon_TS [])|]. now apply (Cu_open w data il _ _ x).
    + intros (args & tail & K1 & K2 & K3). inversion K3 as [f0 a0 t0 E K4 K5|f0 a0 x E K4 K5 K6]; subst.
      * exfalso. apply split_unique in E as [_ E]; [|easy|easy]. apply Hno. rewrite E. apply in_app_iff. right. now left.
      * apply split_unique in E as [_ E]; [|easy|easy]. subst args. exists (say E_FUNC_PARENS w [(L "data", targ data)]), tt, [].
        split; [apply data_iff; [easy|easy|eauto]|]. rewrite app_nil_r. split; [|easy]. rewrite (Canon_fun _ _ _ K1 Ca), (Canon_fun _ _ _ K2 (Canon_TS [])). easy.
Qed.
Lemma cut40 data il f args tail l : Cut w data il f args tail l -> exists rest, il = f ++ Ch 40 :: rest /\ ~ In (Ch 40) f.
Proof. intros [f0 a0 t0 E K4 K5|f0 a0 x E K4 K5 K6]; eauto. Qed.

Lemma read_iff data il l v : Canon data il -> In (Ch 40) il -> process_read U FT data w = (l, Ok v) <-> Means U FT w il 123 v l.
Proof.
  intros HC H40. pose proof (Canon_elems _ _ HC) as El. unfold process_read.
  destruct (cut_first 40 (items data)) as [[before after]|] eqn:Ec.
  2:{ apply cut_first_none in Ec; [|apply items_Item]. exfalso. apply Ec. unfold elems in El. now rewrite El. }
  destruct (cut_first_some _ _ _ _ Ec (items_Item data)) as (x & Ei & Ex & Hn).
  assert (Eil : il = map el before ++ Ch 40 :: map el after). { rewrite <- El. unfold elems. rewrite Ei, map_app. cbn [map]. now rewrite Ex. }
  assert (Hb : forall y, In y before -> In y (items data)) by (intros y Hy; rewrite Ei; apply in_app_iff; now left).
  assert (Ha : forall y, In y after -> In y (items data)) by (intros y Hy; rewrite Ei; apply in_app_iff; right; now right).
  assert (MI : Means U FT w il 123 v l <-> exists f args tail o y a fi lg1 lg2 lg3 lg4, Cut w data il (map Ch f) args tail lg1 /\ f <> [] /\
     Tail U w data tail o y lg2 /\ FuncOf U FT f fi /\ FuncSpelling w fi f lg3 /\ Canon a args /\ FuncSays U FT w fi (SlTok a) lg4 /\ FuncVal f a o y v /\
     l = lg1 ++ lg2 ++ LFunc (u_lower U f) :: lg3 ++ lg4).
  { split.
    - intros H. inversion H as [|t lg K1|d n t o y v' lg lg' K1|d f args tail o y a v' fi lg1 lg2 lg3 lg4 K1 K2 K3 K4 K5 K6 K7 K8 K9]; subst; try easy.
      rewrite (Canon_fun _ _ _ K1 HC) in *. exists f, args, tail, o, y, a, fi, lg1, lg2, lg3, lg4. tauto.
    - intros (f & args & tail & o & y & a & fi & lg1 & lg2 & lg3 & lg4 & K2 & K3 & K4 & K5 & K6 & K7 & K8 & K9 & ->). eapply Me_func; eauto. }
  rewrite MI. clear MI.
  assert (Hu : forall f args tail lg, Cut w data il f args tail lg -> f = map el before).
  { intros f args tail lg H. apply cut40 in H as (rest & E & Hf). rewrite Eil in E. now apply split_unique in E as [-> _]. }
  destruct (all_chars (map el before)) as [[f Ef]|[u Hv]].
  2:{ split.
      - intros H. exfalso. destruct (negb _); [easy|].
        apply bind_eq in H as (l1 & [a t] & l2 & _ & H & _). apply bind_eq in H as (l3 & sl & l4 & _ & H & _).
        destruct (slice_of data before) as [[s| | | | | | |]|m] eqn:Es; try (apply bind_eq in H as (? & ? & ? & _ & H & _); discriminate H).
        + now apply (slice_vars data before u s Hb Hv).
        + easy.
      - intros (f & args & tail & o & y & a & fi & lg1 & lg2 & lg3 & lg4 & K2 & _). apply Hu in K2. rewrite <- K2 in Hv. now apply chars_no_va in Hv. }
  destruct f as [|c f].
  { destruct before; [|discriminate]. rewrite slice_none. cbn [negb]. split; [easy|].
    intros (f & args & tail & o & y & a & fi & lg1 & lg2 & lg3 & lg4 & K2 & K3 & _). apply Hu in K2. now destruct f. }
  rewrite (CrashV_proofs.slice_text data before (c :: f) Hb Ef ltac:(easy)). cbn [sl_truthy].
  assert (truthy (TS (c :: f)) = true) as -> by (apply truthy_elems; now rewrite elems_str). cbn [negb].
  pose proof (fun a t l0 => cut_iff data il before after a t l0 HC Ha Eil Hn) as CI. rewrite bind_eq. split.
  - intros (l1 & [a t] & l2 & H1 & H2 & ->). apply CI in H1 as (args & tail & Ca & Ct & HCut). rewrite Ef in HCut.
    apply bind_eq in H2 as (l3 & [o y] & l4 & H2 & H3 & ->). apply (tail_iff data t tail _ _ _ Ct) in H2. cbn [fst snd] in H3.
    apply bind_eq in H3 as (l5 & fi & l6 & H3 & H4 & ->). apply check_iff in H3 as (l7 & HF & HS & ->).
    apply bind_eq in H4 as (l8 & [] & l9 & H4 & H5 & ->). apply (callf_iff fi a args _ Ca) in H4. unfold mlift in H5. injection H5 as <- H5.
    apply (tail_value _ _ _ _ _ _ _ _ H2) in H5. exists (c :: f), args, tail, o, y, a, fi, l1, l3, l7, l8.
    rewrite app_nil_r. repeat (split; [easy|]). easy.
  - intros (g & args & tail & o & y & a & fi & lg1 & lg2 & lg3 & lg4 & K2 & K3 & K4 & K5 & K6 & K7 & K8 & K9 & ->).
    pose proof (Hu _ _ _ _ K2) as E. rewrite Ef in E. apply map_Ch_inj in E. subst g.
    assert (exists t, Canon t tail) as [t Ct].
    { inversion K4 as [->|t il' c' n o' l' lg' x' G1 G2|t il' o' l' lg' G1 G2]; subst; [exists (TS []); apply (Canon_TS [])|eauto|eauto]. }
    exists lg1, (a, t), (lg2 ++ LFunc (u_lower U (c :: f)) :: lg3 ++ lg4). split; [apply CI; exists args, tail; now rewrite Ef|]. split; [|easy].
    apply bind_eq. exists lg2, (o, y), (LFunc (u_lower U (c :: f)) :: lg3 ++ lg4). split; [now apply (tail_iff data t tail)|]. split; [|easy].
    apply bind_eq. exists (LFunc (u_lower U (c :: f)) :: lg3), fi, lg4. split; [apply check_iff; eauto|]. split; [|easy].
    apply bind_eq. exists lg4, tt, []. split; [now apply (callf_iff fi a args)|]. rewrite app_nil_r. split; [|easy].
    cbn [fst snd]. unfold mlift. f_equal. now apply (tail_value _ _ _ _ _ _ _ _ K4).
Qed.

Lemma slice_value_iff data il n o y lg v v' : Substring U w data il n o y lg ->
  match o, y with
  | None, _ => mret (TVar v)
  | Some (NI s), None => mlift (mk_slice v s None)
  | Some (NI s), Some (NI l) => mlift (mk_slice v s (Some l))
  | Some s, l => mret (TDyn v s l)
  end = ([], Ok v') <-> VarOf v o y v'.
Proof.
  intros H. destruct o as [[z|t]|].
  - destruct y as [[y|t]|].
    + apply substring_sense in H. destruct (Slice_proofs.sense_endpos z y H) as [e E]. unfold mk_slice. rewrite E. cbn [bind]. unfold mlift.
      split; [intros [= <-]; constructor|]. intros K; inversion K; now subst.
    + unfold mret. split; [intros [= <-]; constructor|]. intros K; inversion K; now subst.
    + unfold mlift, mk_slice. split; [intros [= <-]; constructor|]. intros K; inversion K; now subst.
  - unfold mret. split; [intros E; assert (v' = TDyn v (NV t) y) as -> by (destruct y as [[|]|]; now injection E); constructor|].
    intros K; inversion K; subst. now destruct y as [[|]|].
  - unfold mret. destruct y; [now apply substring_none in H|]. split; [intros [= <-]; constructor|]. intros K; inversion K; now subst.
Qed.
Lemma variable_iff data il l v : Canon data il -> process_variable U FT data w = (l, Ok v) <-> Means U FT w il 123 v l.
Proof.
  intros HC. unfold process_variable. destruct (tin 40 data) eqn:E40.
  { apply tin_In in E40. rewrite (Canon_elems _ _ HC) in E40. now apply read_iff. }
  assert (N40 : ~ In (Ch 40) il). { rewrite <- (Canon_elems _ _ HC). intros H. apply tin_In in H. congruence. }
  destruct (tin 58 data) eqn:E58.
  - apply tin_In in E58. rewrite (Canon_elems _ _ HC) in E58. unfold process_slice.
    assert (Hone : forall x, il <> [Va x]) by (intros x ->; now destruct E58).
    rewrite bind_eq. split.
    + intros (l1 & [[n o] y] & l2 & H1 & H2 & ->). apply (slice_iff data il) in H1 as (nl & Cn & HS); [|easy|easy].
      apply bind_eq in H2 as (l3 & [] & l4 & H2 & H3 & ->). apply (use_iff n nl _ Cn) in H2.
      assert (E4 : l4 = []) by (destruct o as [[|]|]; [destruct y as [[|]|]| |]; now injection H3). subst l4.
      apply (slice_value_iff _ _ _ _ _ _ n v HS) in H3. rewrite app_nil_r. eapply Me_slice; eauto.
    + intros H. inversion H as [|t lg K1 K2|d n t o y v' lg lg' K1 K2 K3 K4 K5 K6 K7|d f args tail o y a v' fi lg1 lg2 lg3 lg4 K1 K2]; subst; try easy.
      * rewrite (Canon_fun _ _ _ K3 HC) in *. exists lg, (t, o, y), lg'. split; [apply (slice_iff data il); [easy|easy|eauto]|]. split; [|easy].
        apply bind_eq. exists lg', tt, []. split; [now apply (use_iff t n)|]. rewrite app_nil_r. split; [|easy]. now apply (slice_value_iff _ _ _ _ _ _ t v K4).
      * exfalso. apply cut40 in K2 as (rest & -> & _). apply N40, in_app_iff. right. now left.
  - assert (N58 : ~ In (Ch 58) il). { rewrite <- (Canon_elems _ _ HC). intros H. apply tin_In in H. congruence. }
    rewrite bind_eq. split.
    + intros (l1 & [] & l2 & H1 & H2 & ->). apply (use_iff data il _ HC) in H1. unfold mret in H2. injection H2 as <- <-. rewrite app_nil_r. now apply Me_var.
    + intros H. inversion H as [|t lg K1 K2 K3 K4|d n t o y v' lg lg' K1 K2|d f args tail o y a v' fi lg1 lg2 lg3 lg4 K1 K2]; subst; try easy.
      * rewrite (Canon_fun _ _ _ K3 HC) in *. exists l, tt, []. split; [now apply (use_iff data il)|]. rewrite app_nil_r. easy.
      * exfalso. apply cut40 in K2 as (rest & -> & _). apply N40, in_app_iff. right. now left.
Qed.

(* ---- texts ---- *)
Lemma means_named il o v l : Means U FT w il o v l -> Named v.
Proof.
  intros [t K|t lg K1 K2 K3 K4|d n t o' y v' lg lg' K1 K2 K3 K4 K5 K6 K7|d f args tail o' y a v' fi lg1 lg2 lg3 lg4 K1 K2 K3 K4 K5 K6 K7 K8 K9]; try constructor.
  - destruct K7; constructor.
  - destruct K9; constructor.
Qed.
Lemma loop_iff k : forall acc s l t, (length s < k)%nat -> Forall Flatish acc ->
  parse_loop U FT k acc s w = (l, Ok t) <-> exists dl, Stands U FT w s dl l /\ Canon t (flat_map elems (rev acc) ++ dl).
Proof.
  induction k as [|k IH]; intros acc s l t Hl HA; [lia|]. cbn [parse_loop].
  destruct (loop_cases s) as [[-> Hn]|(pre & x & rest & -> & Ho & Hcase)].
  { assert (Cv : Canon (vjoin (rev (TS s :: acc))) (flat_map elems (rev acc) ++ map Ch s)).
    { rewrite <- elems_str. cbn [rev]. replace (elems (TS s)) with (flat_map elems [TS s]) by (cbn [flat_map]; now rewrite app_nil_r).
      rewrite <- flat_map_app. apply canon_vjoin. apply Forall_app. split; [now apply Forall_rev|]. constructor; [left; eauto|constructor]. }
    unfold mret. split.
    - intros [= <- <-]. exists (map Ch s). split; [now constructor|easy].
    - intros (dl & HS & HC). inversion HS as [s' Hn'|s' pre o c rest inner rest' il v rl lg1 lg2 lg3 Ho]; subst; [|now apply first_opens in Ho].
      now rewrite (Canon_fun _ _ _ HC Cv). }
  destruct Hcase as [[-> Hn]|(i & r & m & -> & Hc & Hm)].
  { split; [easy|]. intros (dl & HS & _). inversion HS as [s' Hn'|s' pre' o c rest' inner rest'' il v rl lg1 lg2 lg3 Ho' Hc']; subst; [now apply first_opens in Ho|].
    destruct (first_open_fun _ _ _ _ _ _ _ _ _ Ho Ho') as (<- & <- & <- & <-). now apply Hn in Hc'. }
  pose proof (closed_by_len _ _ _ _ _ Hc) as [Li Lr].
  assert (Ls : (length rest < length s)%nat) by (destruct Ho as (_ & -> & _); rewrite app_length; cbn; lia).
  assert (GI : forall l0 d, (if m then parse_loop U FT k [] i w else mret (TS i)) = (l0, Ok d) <-> exists il, Stands U FT w i il l0 /\ Canon d il).
  { intros l0 d. destruct m; [apply (IH [] i l0 d); [lia|constructor]|]. assert (Hni : ~ Opens i) by (intros H; apply Hm in H; discriminate).
    unfold mret. split.
    - intros [= <- <-]. exists (map Ch i). split; [now constructor|apply Canon_TS].
    - intros (il & HS & HC). inversion HS as [s' Hn'|s' pre' o c rest' inner rest'' il' v rl lg1 lg2 lg3 Ho']; subst; [|now apply first_opens in Ho'].
      now rewrite (canon_text _ _ i HC eq_refl). }
  assert (Hopen : x = 123 \/ x = 91) by (destruct Ho as ([] & _); auto).
  assert (GM : forall d il l0 v, Canon d il -> (if x =? 123 then process_variable U FT d w else mret (TExpr d)) = (l0, Ok v) <-> Means U FT w il x v l0).
  { intros d il l0 v Cd. destruct Hopen as [-> | ->].
    - change (123 =? 123) with true. cbv iota. now apply variable_iff.
    - change (91 =? 123) with false. cbv iota. unfold mret. split; [intros [= <- <-]; now constructor|].
      intros H; inversion H as [t' K| | |]; subst. now rewrite (Canon_fun _ _ _ K Cd). }
  assert (GR : forall v l0 t0, Named v -> parse_loop U FT k (v :: TS pre :: acc) r w = (l0, Ok t0) <->
     exists rl, Stands U FT w r rl l0 /\ Canon t0 (flat_map elems (rev acc) ++ map Ch pre ++ Va v :: rl)).
  { intros v l0 t0 Hv. rewrite IH; [|lia|constructor; [now right|constructor; [left; eauto|easy]]].
    assert (E : forall rl, flat_map elems (rev (v :: TS pre :: acc)) ++ rl = flat_map elems (rev acc) ++ map Ch pre ++ Va v :: rl).
    { intros rl. cbn [rev]. rewrite <- app_assoc, flat_map_app. cbn [app flat_map]. rewrite app_nil_r, elems_str, elems_named by easy. now rewrite <- !app_assoc. }
    split; intros (rl & HS & HC); exists rl; (split; [easy|]); [rewrite <- E|rewrite E]; easy. }
  rewrite bind_eq. split.
  - intros (l1 & d & l2 & H1 & H2 & ->). apply GI in H1 as (il & HS & Cd). apply bind_eq in H2 as (l3 & v & l4 & H2 & H3 & ->).
    apply (GM d il l3 v Cd) in H2. apply (GR v l4 t (means_named _ _ _ _ H2)) in H3 as (rl & HS2 & HC). exists (map Ch pre ++ Va v :: rl). split; [|easy].
    eapply St_sub; eauto.
  - intros (dl & HS & HC). inversion HS as [s' Hn'|s' pre' o c rest' inner rest'' il v rl lg1 lg2 lg3 Ho' Hc' HSi HM HSr]; subst; [now apply first_opens in Ho|].
    destruct (first_open_fun _ _ _ _ _ _ _ _ _ Ho Ho') as (<- & <- & <- & <-).
    destruct (closed_fun _ _ _ _ _ _ _ _ _ Ho Hc Hc') as (<- & <-).
    assert (exists d, Canon d il) as [d Cd].
    { inversion HM; subst; eauto. }
    exists lg1, d, (lg2 ++ lg3). split; [apply GI; eauto|]. split; [|easy].
    apply bind_eq. exists lg2, v, lg3. split; [now apply (GM d il)|]. split; [|easy].
    apply GR; [exact (means_named _ _ _ _ HM)|]. eauto.
Qed.
Lemma parse_iff s l t : parse_variables U FT s w = (l, Ok t) <-> exists dl, Stands U FT w s dl l /\ Canon t dl.
Proof. unfold parse_variables. apply (loop_iff (S (length s)) [] s l t); [lia|constructor]. Qed.

Lemma bind_vpe {A B} (m : M A) (f : A -> M B) l : mbind m f = (l, Exn VarParseError) <->
  m = (l, Exn VarParseError) \/ exists l1 x l2, m = (l1, Ok x) /\ f x = (l2, Exn VarParseError) /\ l = l1 ++ l2.
Proof.
  destruct m as [lm [x|e|]]; cbn [mbind].
  - split.
    + intros H. right. exists lm, x, (fst (f x)). split; [easy|]. destruct (f x); cbn [fst snd] in *. injection H as <- <-. easy.
    + intros [H|(l1 & y & l2 & H1 & H2 & ->)]; [discriminate|]. injection H1 as <- <-. now rewrite H2.
  - split; [intros [= <- <-]; now left|]. intros [[= <- <-]|(l1 & y & l2 & H1 & _)]; [easy|discriminate].
  - split; [discriminate|]. intros [H|(l1 & y & l2 & H1 & _)]; discriminate.
Qed.
Lemma stands_unclosed s dl l : Stands U FT w s dl l -> ~ Unclosed s.
Proof.
  intros HS (pre & o & c & rest & Ho & Hn). inversion HS as [s' Hn'|s' pre' o' c' rest' i r il v rl lg1 lg2 lg3 Ho' Hc']; subst; [now apply first_opens in Ho|].
  destruct (first_open_fun _ _ _ _ _ _ _ _ _ Ho Ho') as (<- & <- & <- & <-). now apply Hn in Hc'.
Qed.
Lemma loop_vpe k : forall acc s l, (length s < k)%nat -> Forall Flatish acc ->
  parse_loop U FT k acc s w = (l, Exn VarParseError) <-> Unfinished U FT w s l.
Proof.
  induction k as [|k IH]; intros acc s l Hl HA; [lia|]. cbn [parse_loop].
  destruct (loop_cases s) as [[-> Hn]|(pre & x & rest & -> & Ho & Hcase)].
  { split; [easy|]. intros HS. exfalso. inversion HS as [? (? & ? & ? & ? & Ho & _)|? ? ? ? ? ? ? ? Ho|? ? ? ? ? ? ? ? ? ? ? ? Ho]; subst; now apply first_opens in Ho. }
  destruct Hcase as [[-> Hn]|(i & r & m & -> & Hc & Hm)].
  { split; [intros [= <-]; apply Un_here; exists pre, x, (close_of x), rest; split; [easy|now intros]|].
    intros HS. inversion HS as [? H|? pre' o' c' rest' i r lg Ho' Hc'|? pre' o' c' rest' i r il v lg1 lg2 lg3 Ho' Hc']; subst; [easy| |];
      destruct (first_open_fun _ _ _ _ _ _ _ _ _ Ho Ho') as (<- & <- & <- & <-); now apply Hn in Hc'. }
  pose proof (closed_by_len _ _ _ _ _ Hc) as [Li Lr].
  assert (Ls : (length rest < length s)%nat) by (destruct Ho as (_ & -> & _); rewrite app_length; cbn; lia).
  assert (GI : forall l0, (if m then parse_loop U FT k [] i w else mret (TS i)) = (l0, Exn VarParseError) <-> Unfinished U FT w i l0).
  { intros l0. destruct m; [apply IH; [lia|constructor]|]. split; [easy|]. intros HS. exfalso.
    assert (Hni : ~ Opens i) by (intros H; apply Hm in H; discriminate).
    inversion HS as [? (? & ? & ? & ? & Ho' & _)|? ? ? ? ? ? ? ? Ho'|? ? ? ? ? ? ? ? ? ? ? ? Ho']; subst; now apply first_opens in Ho'. }
  assert (GI' : forall l0 d, (if m then parse_loop U FT k [] i w else mret (TS i)) = (l0, Ok d) <-> exists il, Stands U FT w i il l0 /\ Canon d il).
  { intros l0 d. destruct m; [apply (loop_iff k [] i l0 d); [lia|constructor]|]. assert (Hni : ~ Opens i) by (intros H; apply Hm in H; discriminate).
    unfold mret. split.
    - intros [= <- <-]. exists (map Ch i). split; [now constructor|apply Canon_TS].
    - intros (il & HS & HC). inversion HS as [s' Hn'|s' pre' o c rest' inner rest'' il' v rl lg1 lg2 lg3 Ho']; subst; [|now apply first_opens in Ho'].
      now rewrite (canon_text _ _ i HC eq_refl). }
  assert (Hopen : x = 123 \/ x = 91) by (destruct Ho as ([] & _); auto).
  assert (GM : forall d il l0 v, Canon d il -> (if x =? 123 then process_variable U FT d w else mret (TExpr d)) = (l0, Ok v) <-> Means U FT w il x v l0).
  { intros d il l0 v Cd. destruct Hopen as [-> | ->].
    - change (123 =? 123) with true. cbv iota. now apply variable_iff.
    - change (91 =? 123) with false. cbv iota. unfold mret. split; [intros [= <- <-]; now constructor|].
      intros H; inversion H as [t' K| | |]; subst. now rewrite (Canon_fun _ _ _ K Cd). }
  assert (GN : forall d l0, (if x =? 123 then process_variable U FT d w else mret (TExpr d)) <> (l0, Exn VarParseError)).
  { intros d l0 H. destruct (x =? 123); [|easy]. apply (nv_process_variable U FT d w). now rewrite H. }
  rewrite bind_vpe. split.
  - intros [H|(l1 & d & l2 & H1 & H2 & ->)]; [apply GI in H; eapply Un_inner; eauto|].
    apply GI' in H1 as (il & HS & Cd). apply bind_vpe in H2 as [H2|(l3 & v & l4 & H2 & H3 & ->)]; [now apply GN in H2|].
    apply (GM d il l3 v Cd) in H2. apply IH in H3; [|lia|constructor; [right; exact (means_named _ _ _ _ H2)|constructor; [left; eauto|easy]]].
    eapply Un_after; eauto.
  - intros HS. inversion HS as [? (pre' & o' & c' & rest' & Ho' & Hn)|? pre' o' c' rest' i' r' lg Ho' Hc' HU'|? pre' o' c' rest' i' r' il v lg1 lg2 lg3 Ho' Hc' HSi HM HU']; subst;
      destruct (first_open_fun _ _ _ _ _ _ _ _ _ Ho Ho') as (<- & <- & <- & <-).
    + now apply Hn in Hc.
    + destruct (closed_fun _ _ _ _ _ _ _ _ _ Ho Hc Hc') as (<- & <-). left. now apply GI.
    + destruct (closed_fun _ _ _ _ _ _ _ _ _ Ho Hc Hc') as (<- & <-). right.
      assert (exists d, Canon d il) as [d Cd] by (inversion HM; subst; eauto).
      exists lg1, d, (lg2 ++ lg3). split; [apply GI'; eauto|]. split; [|easy].
      apply bind_vpe. right. exists lg2, v, lg3. split; [now apply (GM d il)|]. split; [|easy].
      apply IH; [lia| |easy]. constructor; [right; exact (means_named _ _ _ _ HM)|]. constructor; [left; eauto|easy].
Qed.
Lemma parse_vpe s l : parse_variables U FT s w = (l, Exn VarParseError) <-> Unfinished U FT w s l.
Proof. apply loop_vpe; [lia|constructor]. Qed.
Lemma inner_iff app s l t : parse_inner U FT app s w = (l, Ok t) <-> exists dl, Data U FT w app s dl l /\ Canon t dl.
Proof.
  pose proof (parse_iff s) as HP. pose proof (parse_vpe s) as HV. unfold parse_inner.
  assert (HE : forall l0, (let m := do* _ <- memit E_APP_PARSE_ERROR w [(L "app", AStr app); (L "args", AStr s)]; mret (TS s) in
     (l0 ++ fst m, snd m)) = (l0 ++ say E_APP_PARSE_ERROR w [(L "app", AStr app); (L "args", AStr s)], Ok (TS s))) by easy.
  destruct (has_sub s) eqn:Eh.
  - destruct (parse_variables U FT s w) as [l0 r] eqn:Ep.
    assert (HU' : r <> Exn VarParseError -> forall l1, ~ Unfinished U FT w s l1) by (intros Hr l1 H; apply HV in H; congruence).
    assert (G : r <> Exn VarParseError -> (l0, r) = (l, Ok t) <-> exists dl, Data U FT w app s dl l /\ Canon t dl).
    { intros Hr. rewrite HP. split; intros (dl & HS & HC); exists dl; [split; [now apply Da_stands|easy]|].
      destruct HS as [dl lg HS|lg HS]; [easy|]. now apply (HU' Hr) in HS. }
    destruct r as [t'|[]|]; try (now apply G). cbv zeta in *. rewrite (HE l0). destruct (HV l0) as [HV1 _]. specialize (HV1 eq_refl). split.
    + intros [= <- <-]. exists (map Ch s). split; [now apply Da_text|apply Canon_TS].
    + intros (dl & [dl' lg HS|lg HS] & HC).
      * exfalso. assert (exists t', Canon t' dl') as [t' Ht'] by eauto. assert (K : (l0, @Exn tok VarParseError) = (lg, Ok t')) by (apply HP; eauto). discriminate.
      * apply HV in HS. injection HS as <-. now rewrite (canon_text _ _ s HC eq_refl).
  - assert (Hno : ~ Opens s) by (rewrite <- has_sub_opens, Eh; discriminate).
    unfold mret. split.
    + intros [= <- <-]. exists (map Ch s). split; [now apply Da_stands, St_text|apply Canon_TS].
    + intros (dl & [dl' lg HS|lg HS] & HC).
      * inversion HS as [s' Hn'|s' pre' o c rest' inner rest'' il' v rl lg1 lg2 lg3 Ho']; subst; [|now apply first_opens in Ho']. now rewrite (canon_text _ _ s HC eq_refl).
      * exfalso. inversion HS as [? (? & ? & ? & ? & Ho & _)|? ? ? ? ? ? ? ? Ho|? ? ? ? ? ? ? ? ? ? ? ? Ho]; subst; now apply first_opens in Ho.
Qed.

Lemma stands_canon s dl l : Stands U FT w s dl l -> exists t, Canon t dl.
Proof.
  intros HS. assert (exists m, Forall Flatish m /\ flat_map elems m = dl) as (m & HF & <-); [|exists (vjoin m); now apply canon_vjoin].
  induction HS as [s Hn|s pre o c rest inner rest' il v rl lg1 lg2 lg3 Ho Hc HSi _ HM HSr (m & HF & <-)].
  - exists [TS s]. split; [constructor; [left; eauto|constructor]|]. cbn [flat_map]. now rewrite elems_str, app_nil_r.
  - pose proof (means_named _ _ _ _ HM) as Hv. exists (TS pre :: v :: m). split; [constructor; [left; eauto|constructor; [now right|easy]]|].
    cbn [flat_map]. now rewrite elems_str, elems_named.
Qed.
Lemma stands_fun s dl l dl' l' : Stands U FT w s dl l -> Stands U FT w s dl' l' -> dl = dl' /\ l = l'.
Proof.
  intros H H'. destruct (stands_canon _ _ _ H) as [t Ht]. destruct (stands_canon _ _ _ H') as [t' Ht'].
  assert (E : parse_variables U FT s w = (l, Ok t)) by (apply parse_iff; eauto).
  assert (E' : parse_variables U FT s w = (l', Ok t')) by (apply parse_iff; eauto).
  rewrite E in E'. injection E' as <- <-. split; [|easy]. rewrite <- (Canon_elems _ _ Ht). now apply Canon_elems.
Qed.
Lemma parse_fails s : (exists l e, parse_variables U FT s w = (l, Exn e) /\ e <> VarParseError) <->
  (forall dl l, ~ Stands U FT w s dl l) /\ (forall l, ~ Unfinished U FT w s l).
Proof.
  split.
  - intros (l & e & E & He). split.
    + intros dl l' H. destruct (stands_canon _ _ _ H) as [t Ht]. assert (E' : parse_variables U FT s w = (l', Ok t)) by (apply parse_iff; eauto). congruence.
    + intros l' H. apply parse_vpe in H. congruence.
  - intros [H1 H2]. destruct (parse_variables U FT s w) as [l [t|e|]] eqn:E.
    + exfalso. apply parse_iff in E as (dl & HS & _). now apply H1 in HS.
    + exists l, e. split; [easy|]. intros ->. now apply parse_vpe, H2 in E.
    + exfalso. apply (parse_variables_ends U FT s w). now rewrite E.
Qed.
Lemma data_determined app s dl l dl' l' : Data U FT w app s dl l -> Data U FT w app s dl' l' -> dl = dl' /\ l = l'.
Proof.
  assert (HC : forall dl l, Data U FT w app s dl l -> exists t, Canon t dl).
  { intros d l0 [d' lg HS|lg HS]; [eapply stands_canon; eauto|exists (TS s); apply Canon_TS]. }
  intros H H'. destruct (HC _ _ H) as [t Ht]. destruct (HC _ _ H') as [t' Ht'].
  assert (E : parse_inner U FT app s w = (l, Ok t)) by (apply inner_iff; eauto).
  assert (E' : parse_inner U FT app s w = (l', Ok t')) by (apply inner_iff; eauto).
  rewrite E in E'. injection E' as <- <-. split; [|easy]. rewrite <- (Canon_elems _ _ Ht). now apply Canon_elems.
Qed.
End Tables.
