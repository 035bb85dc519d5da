(* C27: printing what was parsed. *)
From Coq Require Import ZifyBool ZifyN ZifyNat.
From Verif Require Import Base PyStr Defines Var VarFun Spec_Var Spec_VarFun Var_proofs Balance_proofs
  VarFun_proofs.
Ltac Zify.zify_post_hook ::= Z.div_mod_to_equations.

(* ---- text of a sequence ---- *)
Fixpoint etext (l : list elem) : res str :=
  match l with
  | [] => Ok []
  | Ch c :: r => let! b := etext r in Ok (c :: b)
  | Va t :: r => let! a := str_of t in let! b := etext r in Ok (a ++ b)
  end.

Lemma etext_chars s : etext (map Ch s) = Ok s.
Proof. induction s; [easy|]. cbn [map etext]. now rewrite IHs. Qed.

Lemma etext_app a b : etext (a ++ b) = let! x := etext a in let! y := etext b in Ok (x ++ y).
Proof.
  induction a as [|[c|t] a IH]; cbn [app etext].
  - cbn. now destruct (etext b).
  - rewrite IH. destruct (etext a); cbn; try easy. now destruct (etext b).
  - rewrite IH. destruct (str_of t); cbn; try easy. destruct (etext a); cbn; try easy.
    destruct (etext b); cbn; try easy. now rewrite app_assoc.
Qed.

Lemma etext_app_ok a b s : etext (a ++ b) = Ok s ->
  exists x y, etext a = Ok x /\ etext b = Ok y /\ s = x ++ y.
Proof.
  rewrite etext_app. destruct (etext a) as [x| |]; cbn; try easy.
  destruct (etext b) as [y| |]; cbn; try easy. intros [= <-]. now exists x, y.
Qed.
Lemma etext_cons_ok c b s : etext (Ch c :: b) = Ok s -> exists y, etext b = Ok y /\ s = c :: y.
Proof. cbn. destruct (etext b) as [y| |]; cbn; try easy. intros [= <-]. now exists y. Qed.

Lemma str_of_elems t : str_of t = etext (elems t).
Proof.
  assert (N1 : forall t, Named t -> str_of t = etext (elems t)).
  { intros u Hu. rewrite elems_named by easy. cbn [etext].
    destruct (str_of u); cbn; [now rewrite app_nil_r|easy|easy]. }
  induction t using tok_ind2; try (apply N1; constructor).
  - now rewrite elems_str, etext_chars.
  - rewrite elems_list. induction H as [|x l Hx Hl IH]; [easy|].
    cbn [flat_map]. rewrite etext_app, <- Hx, <- IH. reflexivity.
Qed.

Lemma str_of_vjoin l s : etext (flat_map elems l) = Ok s -> str_of (vjoin l) = Ok s.
Proof. now rewrite str_of_elems, vjoin_elems. Qed.

Lemma falsy_text t : truthy t = false -> str_of t = Ok [].
Proof. intros H. rewrite str_of_elems. apply falsy_elems in H. now rewrite H. Qed.
Lemma truthy_text t c s : str_of t = Ok (c :: s) -> truthy t = true.
Proof.
  intros H. destruct (truthy t) eqn:E; [easy|]. rewrite (falsy_text _ E) in H. easy.
Qed.

(* ---- Occurs ---- *)
Lemma occurs_trans p q s : Occurs p q -> Occurs q s -> Occurs p s.
Proof.
  intros (a & b & ->) (c & d & ->). exists (c ++ a), (b ++ d). now rewrite !app_assoc.
Qed.
Lemma occurs_l a b : Occurs a (a ++ b). Proof. now exists [], b. Qed.
Lemma occurs_r a b : Occurs b (a ++ b). Proof. exists a, []. now rewrite app_nil_r. Qed.
Lemma occurs_mid a b c : Occurs b (a ++ b ++ c). Proof. now exists a, c. Qed.

(* ---- numbers ---- *)
Inductive Can : str -> N -> Prop :=
| Can_one d : d < 10 -> Can [48 + d] d
| Can_snoc s n d : Can s n -> 0 < n -> d < 10 -> Can (s ++ [48 + d]) (n * 10 + d).

Lemma can_digits s n : Can s n -> forall f acc, n < 2 ^ N.of_nat f -> (0 < f)%nat ->
  digits_fuel f n acc = s ++ acc.
Proof.
  induction 1 as [d Hd|s n d Hs IH Hn Hd]; intros [|f] acc Hf H0; try lia; cbn [digits_fuel].
  - replace (d mod 10) with d by (symmetry; now apply N.mod_small).
    now replace (d / 10) with 0 by (symmetry; now apply N.div_small).
  - replace ((n * 10 + d) / 10) with n.
    2:{ apply (N.div_unique _ _ _ d); lia. }
    replace ((n * 10 + d) mod 10) with d.
    2:{ apply (N.mod_unique _ _ n); lia. }
    replace (n =? 0) with false by lia.
    replace (N.of_nat (S f)) with (N.succ (N.of_nat f)) in Hf by lia.
    rewrite N.pow_succ_r' in Hf.
    rewrite IH; [now rewrite <- app_assoc|lia|].
    destruct f; [cbn in Hf; lia|lia].
Qed.

Lemma can_nstr s n : Can s n -> nstr n = s.
Proof.
  intros H. unfold nstr. rewrite (can_digits _ _ H), app_nil_r; [easy| |lia].
  replace (N.of_nat (S (N.to_nat (N.log2 n)))) with (N.succ (N.log2 n)) by lia.
  destruct (N.eq_dec n 0) as [->|Hn]; [easy|]. apply N.log2_spec. lia.
Qed.

Section R.
Variable U : uni.
Variable FT : ftable.
Hypothesis HU : AsciiOk U.

Lemma dec_digit c d : c < 128 -> u_isdigit U c = true -> u_decimal U c = Some d ->
  c = 48 + d /\ d < 10.
Proof.
  intros Hc Hd E. destruct (HU c Hc) as [_ H2]. apply H2 in E. lia.
Qed.

Lemma digits_can x : forall s acc n, Can s acc -> 0 < acc ->
  (forall c, In c x -> c < 128) -> forallb (u_isdigit U) x = true -> digits_val U acc x = Ok n ->
  Can (s ++ x) n /\ 0 < n.
Proof.
  induction x as [|c x IH]; intros s acc n Hs Ha Hx Hd E; cbn in *.
  - injection E as <-. now rewrite app_nil_r.
  - apply andb_prop in Hd as [Hd1 Hd2]. destruct (u_decimal U c) as [d|] eqn:Ed; [|easy].
    destruct (dec_digit c d) as [-> Hlt]; auto.
    replace (s ++ 48 + d :: x) with ((s ++ [48 + d]) ++ x) by (now rewrite <- app_assoc).
    apply (IH (s ++ [48 + d]) (acc * 10 + d)); auto; [now constructor|lia].
Qed.

Lemma digits_nstr c x n : c <> 48 \/ x = [] ->
  (forall y, In y (c :: x) -> c < 128 /\ y < 128) -> forallb (u_isdigit U) (c :: x) = true ->
  digits_val U 0 (c :: x) = Ok n -> nstr n = c :: x /\ (c <> 48 -> 0 < n).
Proof.
  intros Hz Hx Hd E. cbn in Hd, E. apply andb_prop in Hd as [Hd1 Hd2].
  destruct (u_decimal U c) as [d|] eqn:Ed; [|easy].
  destruct (Hx c (or_introl eq_refl)) as [Hc _].
  destruct (dec_digit c d Hc Hd1 Ed) as [-> Hlt].
  replace (0 * 10 + d) with d in E by lia.
  assert (Hone : Can [48 + d] d) by now constructor.
  destruct x as [|y x].
  - cbn in E. injection E as <-. split; [now apply can_nstr|lia].
  - assert (d <> 0) by (destruct Hz as [Hz|]; [lia|easy]).
    destruct (digits_can (y :: x) [48 + d] d n Hone ltac:(lia)) as [Hcan Hpos]; auto.
    + intros z Hz'. apply Hx. now right.
    + split; [now apply can_nstr|easy].
Qed.

Lemma int_of_neg r : int_of U (45 :: r) = let! n := digits_val U 0 r in Ok (- Z.of_N n)%Z.
Proof. reflexivity. Qed.
Lemma int_of_pos c r : c <> 45 ->
  int_of U (c :: r) = let! n := digits_val U 0 (c :: r) in Ok (Z.of_N n).
Proof.
  intros H. unfold int_of. destruct c as [|p]; [easy|].
  repeat (destruct p as [p|p|]; try easy).
Qed.

Lemma zstr_pos n : zstr (Z.of_N n) = nstr n.
Proof. now destruct n. Qed.
Lemma zstr_neg n : 0 < n -> zstr (- Z.of_N n) = 45 :: nstr n.
Proof. now destruct n. Qed.

Lemma int_like_cases x : int_like U x = true ->
  (exists c r, x = c :: r /\ c <> 45 /\ forallb (u_isdigit U) x = true) \/
  (exists c r, x = 45 :: c :: r /\ forallb (u_isdigit U) (c :: r) = true).
Proof.
  unfold int_like, sisdigit. destruct x as [|c r]; [easy|]. cbn [str_eqb negb andb].
  destruct (N.eq_dec c 45) as [->|Hne].
  - intros H. right. apply orb_prop in H as [H|H].
    + cbn in H. apply andb_prop in H as [H _]. destruct (HU 45 ltac:(lia)) as [H1 _].
      apply H1 in H. lia.
    + destruct r as [|c r]; [easy|]. exists c, r. now cbn in H.
  - intros H. left. exists c, r. repeat split; try easy.
    apply orb_prop in H as [H|H]; [easy|]. exfalso. clear - H Hne.
    destruct c as [|p]; [easy|]. repeat (destruct p as [p|p|]; try easy).
Qed.

Lemma int_plain i x z : NumPlain U i -> Occurs (58 :: x) i ->
  int_like U x = true -> int_of U x = Ok z -> zstr z = x.
Proof.
  intros [Hn Hz Ha] Ho Hl E.
  assert (Hin : forall c, In c x -> In c i).
  { intros c Hc. destruct Ho as (a & b & ->). apply in_app_iff. right. right. apply in_app_iff. now left. }
  destruct (int_like_cases x Hl) as [(c & r & -> & Hc & Hd)|(c & r & -> & Hd)].
  - rewrite int_of_pos in E by easy. destruct (digits_val U 0 (c :: r)) as [n| |] eqn:En; cbn in E; try easy.
    injection E as <-. rewrite zstr_pos.
    assert (Hall : forall y, In y (c :: r) -> y < 128).
    { intros y Hy. apply Ha; [now apply Hin|]. rewrite forallb_forall in Hd. now apply Hd. }
    eapply digits_nstr; eauto.
    + destruct (N.eq_dec c 48) as [->|]; [|now left]. right. destruct r as [|d r]; [easy|]. exfalso.
      assert (H48 : 48 <= d <= 57).
      { apply HU; [apply Hall; right; now left|]. rewrite forallb_forall in Hd. apply Hd. right; now left. }
      apply (Hz (d - 48) ltac:(lia)). replace (48 + (d - 48)) with d by lia.
      eapply occurs_trans; [|exact Ho]. change (Occurs ([58; 48; d]) ([58; 48; d] ++ r)). apply occurs_l.
    + intros y Hy. split; [apply Hall; now left|now apply Hall].
  - rewrite int_of_neg in E. destruct (digits_val U 0 (c :: r)) as [n| |] eqn:En; cbn in E; try easy.
    injection E as <-.
    assert (Hall : forall y, In y (c :: r) -> y < 128).
    { intros y Hy. apply Ha; [apply Hin; now right|]. rewrite forallb_forall in Hd. now apply Hd. }
    assert (Hc : c <> 48).
    { intros ->. apply Hn. eapply occurs_trans; [|exact Ho].
      change (Occurs [58; 45; 48] ([58; 45; 48] ++ r)). apply occurs_l. }
    destruct (digits_nstr c r n) as [H1 H2]; auto.
    { intros y Hy. split; [apply Hall; now left|now apply Hall]. }
    rewrite zstr_neg by auto. now rewrite H1.
Qed.

(* ---- messages ---- *)
Lemma nse_app a b : NoSyntaxError (a ++ b) -> NoSyntaxError a /\ NoSyntaxError b.
Proof. intros H. split; intros m Hm; apply H; apply in_app_iff; auto. Qed.

Lemma emit_bad c w args l a : memit c w args = (l, Ok a) -> In c syntax_classes -> mdupe c = false ->
  ~ NoSyntaxError l.
Proof.
  unfold memit, mw, emit. intros H Hc Hd. rewrite Hd in H. cbn in H. injection H as <- _.
  intros Hn. apply (Hn (Msg c w None args)); [now left|easy].
Qed.

Ltac mok H := let l1 := fresh "l" in let a := fresh "a" in let l2 := fresh "l" in
  let E1 := fresh "E" in let E2 := fresh "E" in
  apply mbind_ok in H as (l1 & a & l2 & E1 & E2 & ->).
Ltac bad := exfalso; match goal with
  | E : memit ?c ?w ?args = (?l, Ok _), H : NoSyntaxError ?l |- _ =>
    eapply (emit_bad c w args l); [exact E|cbn; tauto|reflexivity|exact H] end.

(* ---- slices ---- *)
Definition numtext (x : num tok) : res str := match x with NI z => Ok (zstr z) | NV v => str_of v end.
Definition lentext (x : option (num tok)) : res (option str) :=
  match x with None => Ok None | Some y => let! s := numtext y in Ok (Some s) end.
Definition colon (x : option str) : str := match x with Some s => 58 :: s | None => [] end.

Lemma sl_start_text i x t len w l st len' : NumPlain U i -> Occurs (58 :: x) i -> str_of t = Ok x ->
  sl_start U (Some t) len w = (l, Ok (st, len')) -> NoSyntaxError l ->
  exists s, st = Some s /\ numtext s = Ok x /\ len' = len.
Proof.
  intros Hp Ho Ht H Hn. unfold sl_start in H.
  assert (G : forall v, mret (Some (NV v), len) = (l, Ok (st, len')) -> str_of v = Ok x ->
    exists s, st = Some s /\ numtext s = Ok x /\ len' = len).
  { intros v E Ev. injection E as <- <- <-. now exists (NV v). }
  destruct t as [y| | | | | | |]; try (eapply G; eassumption).
  cbn in Ht. injection Ht as ->. destruct (int_like U x) eqn:El.
  - mok H. injection E as <- E. injection E0 as <- <- <-. exists (NI a). repeat split.
    cbn. f_equal. eapply int_plain; eassumption.
  - mok H. apply nse_app in Hn as [Hn _]. bad.
Qed.

Lemma sl_length_text i x t s w l st' len' : NumPlain U i -> Occurs (58 :: x) i -> str_of t = Ok x ->
  sl_length U (Some s) (Some t) w = (l, Ok (st', len')) -> NoSyntaxError l ->
  exists n, st' = Some s /\ len' = Some n /\ numtext n = Ok x.
Proof.
  intros Hp Ho Ht H Hn. unfold sl_length in H.
  assert (G : forall v, mret (Some s, Some (NV v)) = (l, Ok (st', len')) -> str_of v = Ok x ->
    exists n, st' = Some s /\ len' = Some n /\ numtext n = Ok x).
  { intros v E Ev. injection E as <- <- <-. now exists (NV v). }
  destruct t as [y| | | | | | |]; try (eapply G; eassumption).
  cbn in Ht. injection Ht as ->. destruct (int_like U x) eqn:El.
  - mok H. injection E as <- E. mok E0. destruct a0.
    + mok E2. apply nse_app in Hn as [_ Hn]. apply nse_app in Hn as [_ Hn]. apply nse_app in Hn as [Hn _]. bad.
    + injection E2 as <- <- <-. exists (NI a). repeat split. cbn. f_equal. eapply int_plain; eassumption.
  - mok H. apply nse_app in Hn as [Hn _]. bad.
Qed.

Lemma Split_cons2 c l p q ls : Split c None l (p :: q :: ls) ->
  ~ In (Ch c) p /\ exists r, l = p ++ Ch c :: r /\ Split c None r (q :: ls).
Proof.
  intros H. inversion H; subst. split; [easy|]. eexists. split; [reflexivity|easy].
Qed.
Lemma Split_one c l p : Split c None l [p] -> l = p /\ ~ In (Ch c) p.
Proof.
  intros H. inversion H; subst; [easy|].
  match goal with H : Split _ _ _ [] |- _ => now apply Split_nonempty in H end.
Qed.

Lemma split_slice_text d w l v st ln i : split_slice U d w = (l, Ok (v, st, ln)) -> NoSyntaxError l ->
  Shallow d -> ~ Named d -> str_of d = Ok i -> NumPlain U i ->
  exists s sv ss sl, st = Some s /\ str_of v = Ok sv /\ numtext s = Ok ss /\ lentext ln = Ok sl /\
    i = sv ++ 58 :: ss ++ colon sl /\ ~ In (Ch 58) (elems v).
Proof.
  intros H Hn Hs Hd Hi Hp. unfold split_slice in H.
  destruct (vsplit_Split 58 None d Hs Hd) as (parts & Ev & Hsp).
  rewrite Ev in H. mok H. injection E as <- <-. rewrite str_of_elems in Hi.
  mok E0. apply nse_app in Hn as [_ Hn]. apply nse_app in Hn as [Hn0 Hn].
  destruct a as [[v' s'] l'].
  assert (Cases : (exists p q, parts = [p; q] /\ v' = p /\ s' = Some q /\ l' = None) \/
                  (exists p q r, parts = [p; q; r] /\ v' = p /\ s' = Some q /\ l' = Some r)).
  { destruct parts as [|p [|q [|r [|? ?]]]]; try (mok E; apply nse_app in Hn0 as [Hn0 _]; bad).
    - easy.
    - injection E as _ <- <- <-. left. eauto 10.
    - injection E as _ <- <- <-. right. eauto 10. }
  clear E. mok E1. apply nse_app in Hn as [Hn1 Hn]. destruct a as [st1 len1]. mok E0.
  apply nse_app in Hn as [Hn2 Hn]. destruct a as [st2 len2]. cbn [fst snd] in *.
  assert (Last : forall s n, st2 = Some s -> len2 = n -> v = v' /\ st = Some s /\ ln = n).
  { intros s n -> ->. destruct s as [[| |]|], n;
      try (injection E2 as _ <- <- <-; easy).
    mok E2. apply nse_app in Hn as [Hn _]. bad. }
  destruct Cases as [(p & q & -> & -> & -> & ->)|(p & q & r & -> & -> & -> & ->)]; cbn [map] in Hsp.
  - apply Split_cons2 in Hsp as (Hnp & lq & Heq & Hq). apply Split_one in Hq as [-> _].
    rewrite Heq in Hi.
    apply etext_app_ok in Hi as (xp & y & Hxp & Hy & ->). apply etext_cons_ok in Hy as (xq & Hxq & ->).
    assert (Ho : Occurs (58 :: xq) (xp ++ 58 :: xq)) by apply occurs_r.
    rewrite <- str_of_elems in Hxp, Hxq.
    destruct (sl_start_text _ _ _ _ _ _ _ _ Hp Ho Hxq E Hn1) as (s & -> & Hs1 & ->).
    cbn in E1. injection E1 as <- <- <-. destruct (Last s None eq_refl eq_refl) as (-> & -> & ->).
    exists s, xp, xq, None. repeat split; try easy. cbn. now rewrite app_nil_r.
  - apply Split_cons2 in Hsp as (Hnp & lq & Heq & Hq). apply Split_cons2 in Hq as (Hnq & lr & -> & Hr).
    apply Split_one in Hr as [-> _]. rewrite Heq in Hi.
    apply etext_app_ok in Hi as (xp & y & Hxp & Hy & ->). apply etext_cons_ok in Hy as (y' & Hy & ->).
    apply etext_app_ok in Hy as (xq & y2 & Hxq & Hy & ->). apply etext_cons_ok in Hy as (xr & Hxr & ->).
    assert (Ho : Occurs (58 :: xq) (xp ++ 58 :: xq ++ 58 :: xr)).
    { exists xp, (58 :: xr). now rewrite <- app_comm_cons. }
    assert (Ho2 : Occurs (58 :: xr) (xp ++ 58 :: xq ++ 58 :: xr)).
    { exists (xp ++ 58 :: xq), []. now rewrite app_nil_r, <- app_assoc. }
    rewrite <- str_of_elems in Hxp, Hxq, Hxr.
    destruct (sl_start_text _ _ _ _ _ _ _ _ Hp Ho Hxq E Hn1) as (s & -> & Hs1 & ->).
    destruct (sl_length_text _ _ _ _ _ _ _ _ Hp Ho2 Hxr E1 Hn2) as (n & -> & -> & Hs2).
    destruct (Last s (Some n) eq_refl eq_refl) as (-> & -> & ->).
    exists s, xp, xq, (Some xr). repeat split; try easy. cbn. now rewrite Hs2.
Qed.

(* what must hold of variables inside the data of a function call *)
Definition GoodVa (e : elem) : Prop :=
  match e with
  | Va (TVar (TS s)) | Va (TSlice (TS s) _ _) | Va (TDyn (TS s) _ _) => ~ In 58 s
  | _ => True
  end.
Definition Inv (t : tok) : Prop := Shallow t /\ Forall GoodVa (elems t).

Lemma no58 s : ~ In (Ch 58) (elems (TS s)) -> ~ In 58 s.
Proof. rewrite elems_str. intros H Hs. apply H. now apply in_map. Qed.

Lemma slice_str n st ln s ss sl : str_of n = Ok s -> numtext st = Ok ss -> lentext ln = Ok sl ->
  str_of (TDyn n st ln) = Ok (slice_text s ss sl).
Proof.
  intros H1 H2 H3. cbn [str_of]. rewrite H1. cbn [bind].
  change (match st with NI z => Ok (zstr z) | NV v => str_of v end) with (numtext st). rewrite H2. cbn [bind].
  destruct ln as [y|]; cbn in H3 |- *.
  - change (match y with NI z => Ok (zstr z) | NV v => str_of v end) with (numtext y).
    destruct (numtext y); cbn in *; try easy. now injection H3 as <-.
  - now injection H3 as <-.
Qed.
Lemma func_slice_str f n st ln s ss sl : str_of n = Ok s -> numtext st = Ok ss -> lentext ln = Ok sl ->
  str_of (TFuncS f n st ln) = Ok (slice_text (f ++ L "(" ++ s ++ L ")") ss sl).
Proof.
  intros H1 H2 H3. cbn [str_of]. rewrite H1. cbn [bind].
  change (match st with NI z => Ok (zstr z) | NV v => str_of v end) with (numtext st). rewrite H2. cbn [bind].
  destruct ln as [y|]; cbn in H3 |- *.
  - change (match y with NI z => Ok (zstr z) | NV v => str_of v end) with (numtext y).
    destruct (numtext y); cbn in *; try easy. now injection H3 as <-.
  - now injection H3 as <-.
Qed.

Lemma slice_text_eq s ss sl : slice_text s ss sl = L "${" ++ (s ++ 58 :: ss ++ colon sl) ++ L "}".
Proof.
  unfold slice_text. change (L ":") with [58]. cbn [app]. rewrite <- !app_assoc. cbn [app].
  rewrite <- app_assoc. now destruct sl.
Qed.

Lemma process_slice_text d w l t i : process_slice U d w = (l, Ok t) -> NoSyntaxError l ->
  Shallow d -> ~ Named d -> str_of d = Ok i -> NumPlain U i ->
  str_of t = Ok (L "${" ++ i ++ L "}") /\ Named t /\ GoodVa (Va t).
Proof.
  intros H Hn Hs Hd Hi Hp. unfold process_slice in H. mok H. apply nse_app in Hn as [Hn1 Hn].
  destruct a as [[v st] ln].
  destruct (split_slice_text _ _ _ _ _ _ _ E Hn1 Hs Hd Hi Hp) as (s & sv & ss & sl & -> & Hv & Hss & Hsl & -> & Hc).
  mok E0. rewrite <- slice_text_eq.
  assert (Hg : forall x, v = TS x -> ~ In 58 x) by (intros x ->; now apply no58).
  assert (GD : TDyn v s ln = t -> str_of t = Ok (slice_text sv ss sl) /\ Named t /\ GoodVa (Va t)).
  { intros <-. split; [now apply slice_str|]. split; [constructor|].
    cbn. destruct v; try easy. now apply Hg. }
  assert (GS : forall z ln', s = NI z -> option_map NI ln' = ln -> TSlice v z ln' = t ->
            str_of t = Ok (slice_text sv ss sl) /\ Named t /\ GoodVa (Va t)).
  { intros z ln' -> El <-. split; [|split; [constructor|]].
    - cbn [str_of]. rewrite Hv. cbn [bind]. cbn in Hss. injection Hss as <-.
      subst ln. destruct ln'; cbn in Hsl; injection Hsl as <-; easy.
    - cbn. destruct v; try easy. now apply Hg. }
  unfold mret in E2. destruct s as [z|y]; [|apply GD; congruence].
  destruct ln as [[lz|ly]|].
  - unfold mk_slice, mlift in E2. injection E2 as _ E2. destruct (slice_endpos z lz); cbn in E2; try easy.
    injection E2 as <-. now apply (GS z (Some lz)).
  - apply GD. congruence.
  - unfold mlift, mk_slice in E2. apply (GS z None); try easy. congruence.
Qed.

(* ---- functions ---- *)
Lemma cut_first_some c its a b : cut_first c its = Some (a, b) -> Forall Item its ->
  exists x, its = a ++ x :: b /\ el x = Ch c /\ ~ In (Ch c) (map el a).
Proof.
  revert a b. induction its as [|y its IH]; intros a b H Hi; [easy|]. cbn in H. inversion Hi; subst.
  destruct (tok_isc y c) eqn:E.
  - injection H as <- <-. exists y. repeat split; auto. now apply tok_isc_el.
  - destruct (cut_first c its) as [[a' b']|]; [|easy]. injection H as <- <-.
    destruct (IH _ _ eq_refl ltac:(easy)) as (x & -> & Hx & Hn). exists x. repeat split; auto.
    cbn. intros [He|He]; [|easy]. apply tok_isc_el in He; [congruence|easy].
Qed.
Lemma cut_last_some c its a b : cut_last c its = Some (a, b) -> Forall Item its ->
  exists x, its = a ++ x :: b /\ el x = Ch c /\ ~ In (Ch c) (map el b).
Proof.
  assert (Hnone : forall its, cut_last c its = None -> Forall Item its -> ~ In (Ch c) (map el its)).
  { clear. induction its as [|y its IH]; intros H Hi; [easy|]. cbn in H. inversion Hi; subst.
    destruct (cut_last c its) as [[? ?]|]; [easy|]. destruct (tok_isc y c) eqn:E; [easy|].
    cbn. intros [He|He]; [|now apply IH]. apply tok_isc_el in He; [congruence|easy]. }
  revert a b. induction its as [|y its IH]; intros a b H Hi; [easy|]. cbn in H. inversion Hi; subst.
  destruct (cut_last c its) as [[a' b']|] eqn:E.
  - injection H as <- <-. destruct (IH _ _ eq_refl ltac:(easy)) as (x & -> & Hx & Hn).
    now exists x.
  - destruct (tok_isc y c) eqn:Ey; [|easy]. injection H as <- <-. exists y. repeat split.
    + now apply tok_isc_el.
    + now apply Hnone.
Qed.

Lemma item_elems x : Item x -> elems x = [el x].
Proof. intros []; [reflexivity|]. rewrite elems_named, named_el; easy. Qed.
Lemma items_flat its : Forall Item its -> flat_map elems its = map el its.
Proof. induction 1; [easy|]. cbn. rewrite item_elems by easy. cbn. now f_equal. Qed.
Lemma flat_items x : flat_map elems (items x) = elems x.
Proof. now rewrite items_flat by apply items_Item. Qed.

Lemma strjoin_elems l : forall c, flat_map elems (strjoin_from c l) =
  match c with Some s => map Ch s | None => [] end ++ flat_map elems l.
Proof.
  induction l as [|t l IH]; intros c; cbn [strjoin_from].
  - destruct c; cbn; [now rewrite elems_str|easy].
  - assert (G : flat_map elems (match c with Some s => TS s :: t :: strjoin_from None l
                                | None => t :: strjoin_from None l end) =
         match c with Some s => map Ch s | None => [] end ++ flat_map elems (t :: l)).
    { destruct c; cbn [flat_map app]; rewrite IH; cbn [app]; [now rewrite elems_str|easy]. }
    destruct t; try exact G. rewrite IH. cbn [flat_map]. rewrite elems_str. destruct c; [|easy].
    now rewrite map_app, <- app_assoc.
Qed.

Definition TSN (t : tok) : Prop := (exists s, t = TS s) \/ Named t.

Lemma slice_elems d its : (forall x, In x its -> In x (items d)) ->
  flat_map elems (sl_items (slice_of d its)) = map el its.
Proof.
  intros Hin.
  assert (Hi : Forall Item its).
  { apply Forall_forall. intros x Hx. pose proof (items_Item d) as H. rewrite Forall_forall in H. auto. }
  assert (G : flat_map elems (sl_items (match strjoin its with [x] => SlTok x | l => SlList l end)) = map el its).
  { rewrite <- items_flat by easy. pose proof (strjoin_elems its None) as H. cbn [app] in H.
    unfold strjoin. destruct (strjoin_from None its) as [|x [|y r]]; cbn [sl_items].
    - easy.
    - rewrite flat_items. cbn in H. now rewrite app_nil_r in H.
    - easy. }
  destruct d; try exact G. cbn [slice_of sl_items]. rewrite flat_items, elems_str. clear G.
  cbn in Hin. unfold chars in Hin. induction its as [|x its IH]; [easy|].
  assert (Hx : exists c, x = TS [c]).
  { specialize (Hin x (or_introl eq_refl)). apply in_map_iff in Hin as (c & <- & _). now exists c. }
  destruct Hx as [c ->]. cbn [flat_map map app el]. f_equal. apply IH.
  - intros y Hy. apply Hin. now right.
  - now inversion Hi.
Qed.

Lemma strjoin_TSN l : forall c, Forall TSN l -> Forall TSN (strjoin_from c l).
Proof.
  induction l as [|t l IH]; intros c Hl; cbn [strjoin_from].
  - destruct c; [|constructor]. constructor; [left; now eexists|constructor].
  - inversion Hl; subst.
    assert (G : Forall TSN (match c with Some s => TS s :: t :: strjoin_from None l
                                | None => t :: strjoin_from None l end)).
    { assert (G1 : Forall TSN (t :: strjoin_from None l)) by (constructor; auto).
      destruct c; [|exact G1]. constructor; [left; now eexists|exact G1]. }
    destruct t; auto.
Qed.
Lemma item_TSN x : Item x -> TSN x.
Proof. intros []; [left; now eexists|now right]. Qed.
Lemma slice_TSN d its : (forall x, In x its -> In x (items d)) -> Forall TSN (sl_items (slice_of d its)).
Proof.
  intros Hin.
  assert (Hi : Forall TSN its).
  { apply Forall_forall. intros x Hx. pose proof (items_Item d) as H. rewrite Forall_forall in H.
    apply item_TSN. auto. }
  assert (Gi : forall x, Forall TSN (items x)).
  { intros x. eapply Forall_impl; [|apply items_Item]. apply item_TSN. }
  assert (G : Forall TSN (sl_items (match strjoin its with [x] => SlTok x | l => SlList l end))).
  { pose proof (strjoin_TSN its None Hi) as H. unfold strjoin.
    destruct (strjoin_from None its) as [|x [|y r]]; cbn [sl_items]; auto. }
  destruct d; try exact G. cbn [slice_of sl_items]. apply Gi.
Qed.

Lemma push_TSN copy v : Forall TSN copy -> TSN v -> Forall TSN (push copy v).
Proof.
  intros Hc Hv. unfold push. destruct (negb (truthy v)); [easy|].
  assert (G : Forall TSN (v :: copy)) by now constructor.
  destruct v; try exact G. destruct copy as [|[y| | | | | | |] r]; try exact G.
  inversion Hc; subst. constructor; [|easy]. left. now eexists.
Qed.
Lemma vjoin_shallow l : Forall TSN l -> Shallow (vjoin l).
Proof.
  intros Hl.
  assert (H : Forall TSN (rev (fold_left push l []))).
  { apply Forall_rev. assert (G : forall l copy, Forall TSN l -> Forall TSN copy -> Forall TSN (fold_left push l copy)).
    { clear. induction l; intros copy Hl Hc; [easy|]. inversion Hl; subst. cbn. apply IHl; [easy|]. now apply push_TSN. }
    now apply G. }
  unfold vjoin. destruct (rev (fold_left push l [])) as [|x [|y r]].
  - constructor.
  - inversion H; subst. destruct H2 as [[s ->]|Hx]; now constructor.
  - now constructor.
Qed.

Lemma numplain_sub i x : NumPlain U i -> Occurs x i -> NumPlain U x.
Proof.
  intros [H1 H2 H3] Ho. split.
  - intros H. apply H1. eapply occurs_trans; eassumption.
  - intros d Hd H. apply (H2 d Hd). eapply occurs_trans; eassumption.
  - intros c Hc. apply H3. destruct Ho as (a & b & ->). rewrite !in_app_iff. auto.
Qed.

Lemma split_single n : is_str n = false -> split_items 58 None 0 [] [n] = [n].
Proof. now destruct n. Qed.
Lemma add_parts_TS ps : ps <> [] -> exists lst cur', add_parts [] ps = (map TS (removelast ps), cur') /\
  close_group cur' = TS lst /\ ps = removelast ps ++ [lst].
Proof.
  assert (Hone : forall p, close_group (opt_cons p []) = TS p) by (intros []; easy).
  induction ps as [|p [|q ps] IH]; intros H; [easy| |].
  - exists p, (opt_cons p []). easy.
  - destruct (IH ltac:(easy)) as (lst & cur' & E & Hc & Hp). exists lst, cur'.
    change (add_parts [] (p :: q :: ps)) with
      (let '(gs, cur') := add_parts [] (q :: ps) in (close_group (opt_cons p []) :: gs, cur')).
    rewrite E, Hone. repeat split; try easy.
    change (removelast (p :: q :: ps)) with (p :: removelast (q :: ps)). cbn [app]. now rewrite <- Hp.
Qed.
Lemma ssplit_ne c m s : ssplit c m s <> [].
Proof. intros E. pose proof (ssplit_size c s m) as H. rewrite E in H. cbn in H. lia. Qed.
Lemma split_str nm : split_items 58 None 0 [] [TS nm] = map TS (ssplit 58 None nm).
Proof.
  cbn [split_items]. destruct (memb 58 nm) eqn:E; cbn [negb orb].
  - destruct (add_parts_TS (ssplit 58 None nm) (ssplit_ne _ _ _)) as (lst & cur' & Ea & Hc & Hp).
    cbn [option_map]. rewrite Ea, Hc. rewrite Hp at 2. now rewrite map_app.
  - assert (H : ssplit 58 None nm = [nm]).
    { assert (Hn : ~ In 58 nm) by (intros H; apply memb_In in H; congruence). clear E.
      induction nm as [|c nm IH]; [easy|]. cbn. replace (c =? 58) with false.
      - cbn. rewrite IH; [easy|]. intros H; apply Hn; now right.
      - symmetry. apply N.eqb_neq. intros ->. apply Hn. now left. }
    rewrite H. now destruct nm.
Qed.

Lemma not_int x : In 40 x -> int_like U x = false.
Proof.
  intros H. destruct (int_like U x) eqn:E; [|easy]. exfalso.
  assert (H40 : u_isdigit U 40 = false).
  { destruct (u_isdigit U 40) eqn:Ed; [|easy]. apply HU in Ed; lia. }
  destruct (int_like_cases x E) as [(c & r & -> & _ & Hd)|(c & r & -> & Hd)];
    rewrite forallb_forall in Hd.
  - rewrite Hd in H40; easy.
  - destruct H as [H|H]; [lia|]. rewrite Hd in H40; easy.
Qed.

Lemma tail_named tail w l v st ln : Named tail -> GoodVa (Va tail) -> NoSyntaxError l ->
  split_slice U tail w = (l, Ok (v, st, ln)) ->
  truthy v = true \/ exists nm, tail = TExpr (TS (58 :: nm)).
Proof.
  intros Hnm Hg Hn H. unfold split_slice in H. mok H. injection E as <- E. cbn [app] in Hn.
  mok E0. apply nse_app in Hn as [Hn1 Hn]. destruct a0 as [[v' s'] l'].
  mok E2. apply nse_app in Hn as [Hn2 Hn]. destruct a0 as [st1 len1].
  mok E3. apply nse_app in Hn as [Hn3 Hn]. destruct a0 as [st2 len2]. cbn [fst snd] in *.
  assert (Hv : v = v').
  { clear - E4. destruct st2 as [[[]|]|], len2; try (unfold mret in E4; congruence).
    mok E4. unfold mret in E0. congruence. }
  subst v'. clear E4.
  assert (Hname : exists n, name_of tail = Some n /\ truthy n = true /\ a = split_items 58 None 0 [] [n]).
  { destruct tail; try (now inversion Hnm); unfold vsplit in E;
      match type of E with (match ?x with _ => _ end) = _ => destruct x as [n|] eqn:En end; try easy;
      destruct (truthy n) eqn:Et; try easy; exists n; repeat split; try easy; congruence. }
  destruct Hname as (n & En & Ht & ->).
  destruct (is_str n) eqn:Es.
  2:{ rewrite split_single in E1 by easy. mok E1. apply nse_app in Hn1 as [Hn1 _]. bad. }
  destruct n as [nm| | | | | | |]; try easy. clear Es. rewrite split_str in E1.
  pose proof (ssplit_Split 58 nm None) as Hsp.
  destruct (ssplit 58 None nm) as [|p [|q [|r [|? ?]]]] eqn:Ess; cbn [map] in E1, Hsp;
    try (mok E1; apply nse_app in Hn1 as [Hn1 _]; bad); [easy| |].
  - unfold mret in E1. injection E1 as _ <- <- <-.
    destruct p as [|c p]; [right|now left].
    apply Split_glue in Hsp. cbn in Hsp.
    assert (Enm : nm = 58 :: q).
    { destruct nm as [|c nm]; [easy|]. cbn in Hsp. injection Hsp as <- Hsp. f_equal.
      clear - Hsp. revert q Hsp. induction nm; intros [|? ?]; cbn; try easy. intros [= <- H]. f_equal. now apply IHnm. }
    clear Hsp. assert (H58 : In 58 nm) by (rewrite Enm; now left).
    assert (Hfun : In 40 nm -> False).
    { intros H40. rewrite Enm in H40. destruct H40 as [|H40]; [easy|].
      unfold sl_start in E0. rewrite (not_int q H40) in E0. mok E0. apply nse_app in Hn2 as [Hn2 _]. bad. }
    destruct tail; cbn [name_of] in En; try easy; injection En as En; try (subst tail; exfalso; now apply Hg).
    + subst tail. exists q. now rewrite Enm.
    + exfalso. apply Hfun.
      assert (Hi : In (Ch 40) (elems (TS nm))).
      { rewrite <- En, vjoin_elems. cbn [flat_map]. rewrite !in_app_iff. right. left. now left. }
      rewrite elems_str in Hi. apply in_map_iff in Hi as (c & [= ->] & Hi). easy.
    + exfalso. apply Hfun.
      assert (Hi : In (Ch 40) (elems (TS nm))).
      { rewrite <- En, vjoin_elems. cbn [flat_map]. rewrite !in_app_iff. right. left. now left. }
      rewrite elems_str in Hi. apply in_map_iff in Hi as (c & [= ->] & Hi). easy.
  - unfold mret in E1. injection E1 as _ <- <- <-.
    destruct p as [|c p]; [right|now left].
    apply Split_glue in Hsp. cbn in Hsp.
    assert (Enm : nm = 58 :: q ++ 58 :: r).
    { change (Ch 58 :: map Ch q ++ Ch 58 :: map Ch r) with (map Ch [58] ++ map Ch q ++ map Ch (58 :: r)) in Hsp.
      rewrite <- !map_app in Hsp. change (58 :: q ++ 58 :: r) with ([58] ++ q ++ 58 :: r).
      generalize dependent ([58] ++ q ++ 58 :: r). clear. induction nm; intros [|? ?]; cbn; try easy. intros [= <- H]. f_equal. now apply IHnm. }
    clear Hsp. assert (H58 : In 58 nm) by (rewrite Enm; now left).
    assert (Hfun : In 40 nm -> False).
    { intros H40. rewrite Enm in H40. destruct H40 as [|H40]; [easy|].
      unfold sl_start in E0. destruct (int_like U q) eqn:Eq.
      2:{ mok E0. apply nse_app in Hn2 as [Hn2 _]. bad. }
      apply in_app_iff in H40 as [H40|[H40|H40]]; [rewrite (not_int q H40) in Eq; easy|easy|].
      mok E0. unfold mret in E3. injection E3 as _ <- <-. unfold sl_length in E2.
      rewrite (not_int r H40) in E2. mok E2. apply nse_app in Hn3 as [Hn3 _]. bad. }
    destruct tail; cbn [name_of] in En; try easy; injection En as En; try (subst tail; exfalso; now apply Hg).
    + subst tail. exists (q ++ 58 :: r). now rewrite Enm.
    + exfalso. apply Hfun.
      assert (Hi : In (Ch 40) (elems (TS nm))).
      { rewrite <- En, vjoin_elems. cbn [flat_map]. rewrite !in_app_iff. right. left. now left. }
      rewrite elems_str in Hi. apply in_map_iff in Hi as (c & [= ->] & Hi). easy.
    + exfalso. apply Hfun.
      assert (Hi : In (Ch 40) (elems (TS nm))).
      { rewrite <- En, vjoin_elems. cbn [flat_map]. rewrite !in_app_iff. right. left. now left. }
      rewrite elems_str in Hi. apply in_map_iff in Hi as (c & [= ->] & Hi). easy.
Qed.

Lemma process_read_text d w l t i : process_read U FT d w = (l, Ok t) -> NoSyntaxError l ->
  Forall GoodVa (elems d) -> str_of d = Ok i -> NumPlain U i -> ~ Occurs (L ")$[:") i ->
  str_of t = Ok (L "${" ++ i ++ L "}") /\ Named t /\ GoodVa (Va t).
Proof.
  intros H Hn Hg Hi Hp Ht. unfold process_read in H.
  destruct (cut_first 40 (items d)) as [[before after]|] eqn:Ec; [|easy].
  pose proof (items_Item d) as HI.
  destruct (cut_first_some _ _ _ _ Ec HI) as (x40 & Ei & Hx40 & _).
  destruct (negb (sl_truthy (slice_of d before))); [easy|].
  mok H. apply nse_app in Hn as [Hn1 Hn]. destruct a as [args tail].
  destruct (cut_last 41 after) as [[ia it]|] eqn:El.
  2:{ mok E. apply nse_app in Hn1 as [Hn1 _]. bad. }
  assert (HIa : Forall Item after).
  { rewrite Ei in HI. apply Forall_app in HI as [_ HI]. now inversion HI. }
  destruct (cut_last_some _ _ _ _ El HIa) as (x41 & Ea & Hx41 & _).
  unfold mret in E. injection E as _ <- <-.
  assert (Sub : forall its, (forall x, In x its -> In x (before ++ x40 :: ia ++ x41 :: it)) ->
            forall x, In x its -> In x (items d)).
  { intros its Hs x Hx. rewrite Ei, Ea. auto. }
  assert (Sb : forall x, In x before -> In x (items d)).
  { apply Sub. intros x Hx. apply in_app_iff. now left. }
  assert (Sa : forall x, In x ia -> In x (items d)).
  { apply Sub. intros x Hx. apply in_app_iff. right. right. apply in_app_iff. now left. }
  assert (St : forall x, In x it -> In x (items d)).
  { apply Sub. intros x Hx. apply in_app_iff. right. right. apply in_app_iff. right. now right. }
  set (args := vjoin (sl_items (slice_of d ia))) in *.
  set (tail := vjoin (sl_items (slice_of d it))) in *.
  assert (Hargs : elems args = map el ia) by (unfold args; rewrite vjoin_elems; now apply slice_elems).
  assert (Htail : elems tail = map el it) by (unfold tail; rewrite vjoin_elems; now apply slice_elems).
  assert (Stail : Shallow tail) by (apply vjoin_shallow, slice_TSN; exact St).
  rewrite str_of_elems in Hi.
  assert (Eel : elems d = map el before ++ Ch 40 :: map el ia ++ Ch 41 :: map el it).
  { unfold elems. rewrite Ei, Ea, map_app. cbn. rewrite Hx40, map_app. cbn. now rewrite Hx41. }
  rewrite Eel in Hi, Hg.
  apply etext_app_ok in Hi as (xb & y & Hxb & Hy & ->). apply etext_cons_ok in Hy as (y' & Hy & ->).
  apply etext_app_ok in Hy as (xa & y2 & Hxa & Hy & ->). apply etext_cons_ok in Hy as (xt & Hxt & ->).
  rewrite <- Hargs, <- str_of_elems in Hxa. rewrite <- Htail, <- str_of_elems in Hxt.
  mok E0. apply nse_app in Hn as [Hn2 Hn]. destruct a as [st ln]. cbn [fst snd] in E1.
  assert (Slice : (xt = [] /\ st = None) \/
     exists s ss sl, st = Some s /\ numtext s = Ok ss /\ lentext ln = Ok sl /\ xt = 58 :: ss ++ colon sl).
  { destruct (truthy tail) eqn:Et.
    - right. mok E. apply nse_app in Hn2 as [Hn2 Hn3]. destruct a as [[v st0] ln0].
      destruct (truthy v) eqn:Ev.
      { mok E2. apply nse_app in Hn3 as [Hn3 _]. bad. }
      unfold mret in E2. injection E2 as _ <- <-.
      destruct (named_cases tail) as [Hnm|Hnm].
      + exfalso. destruct (tail_named tail w l1 v st0 ln0 Hnm) as [Hv|[nm Hnm']]; try easy.
        * apply Forall_app in Hg as [_ Hg]. inversion Hg; subst. apply Forall_app in H2 as [_ H2].
          inversion H2; subst. rewrite <- Htail, elems_named in H4 by easy. now inversion H4.
        * congruence.
        * apply Ht. rewrite Hnm' in Hxt. cbn in Hxt. injection Hxt as <-.
          exists (xb ++ 40 :: xa), (nm ++ L "]"). now rewrite <- app_assoc.
      + destruct (split_slice_text tail w l1 v st0 ln0 xt E0 Hn2 Stail) as
          (s & sv & ss & sl & Hs1 & Hs2 & Hs3 & Hs4 & Hs5 & _); auto.
        * destruct Hnm as [[sx Hsx]|[lx Hlx]]; [rewrite Hsx|rewrite Hlx]; inversion 1.
        * eapply numplain_sub; [exact Hp|]. exists (xb ++ 40 :: xa ++ [41]), [].
          rewrite app_nil_r, <- app_assoc. cbn. now rewrite <- app_assoc.
        * exists s, ss, sl. repeat split; auto. rewrite (falsy_text v Ev) in Hs2. now injection Hs2 as <-.
    - left. unfold mret in E. injection E as _ <- _. rewrite (falsy_text _ Et) in Hxt. now injection Hxt as <-. }
  destruct (slice_of d before) as [tf|] eqn:Ef; [|easy].
  assert (Hf : exists fname, tf = TS fname).
  { destruct tf as [fname| | | | | | |]; [now exists fname|..]; exfalso; mok E1; easy. }
  destruct Hf as [fname ->]. mok E1. mok E2. unfold mlift in E3. injection E3 as _ E3.
  assert (Exb : xb = fname).
  { pose proof (slice_elems d before Sb) as Hb. rewrite Ef in Hb. cbn [sl_items] in Hb.
    rewrite flat_items in Hb. rewrite <- Hb, elems_str, etext_chars in Hxb. now injection Hxb as <-. }
  subst xb. clear E.
  assert (Etext : L "${" ++ (fname ++ 40 :: xa ++ 41 :: xt) ++ L "}" =
     L "${" ++ ((fname ++ L "(" ++ xa ++ L ")") ++ xt) ++ L "}").
  { change (L "(") with [40]. change (L ")") with [41]. repeat (rewrite <- ?app_assoc; cbn [app]). reflexivity. }
  rewrite Etext. clear Etext. unfold read_result in E3.
  destruct Slice as [[-> ->]|(s & ss & sl & -> & Hss & Hsl & ->)].
  - injection E3 as <-. split; [|now split; [constructor|]].
    cbn [str_of]. rewrite Hxa. cbn [bind]. now rewrite app_nil_r.
  - assert (Et : t = TFuncS fname args s ln).
    { clear - E3. unfold mk_func_slice in E3. destruct ln as [[lz|]|]; try congruence.
      destruct s as [z|].
      - destruct (slice_endpos z lz); cbn in E3; congruence.
      - destruct (lz =? 0)%Z; [easy|]. destruct (lz <? 0)%Z; congruence. }
    subst t. split; [|now split; [constructor|]].
    rewrite (func_slice_str fname args s ln xa ss sl Hxa Hss Hsl), slice_text_eq. reflexivity.
Qed.

(* ---- the parser ---- *)
Lemma closed_by_app o c t i r x : ClosedBy o c t i r -> ClosedBy o c (t ++ x) i (r ++ x).
Proof. intros (-> & H1 & H2). split; [now rewrite <- app_assoc|easy]. Qed.

Lemma plain_sub s q : Plain U s -> Occurs q s -> Plain U q.
Proof.
  intros [H1 H2 H3 H4] Ho. split.
  - intros H. apply H1. eapply occurs_trans; eassumption.
  - intros H. apply H2. eapply occurs_trans; eassumption.
  - intros H. apply H3. eapply occurs_trans; eassumption.
  - intros a t i r -> Hc. destruct Ho as (p & z & ->).
    apply (H4 (p ++ a) (t ++ z) i (r ++ z)); [|now apply closed_by_app].
    now rewrite <- !app_assoc.
Qed.

Lemma process_variable_text d w l t i : process_variable U FT d w = (l, Ok t) -> NoSyntaxError l ->
  Inv d -> str_of d = Ok i -> i <> [] -> NumPlain U i -> ~ Occurs (L ")$[:") i ->
  str_of t = Ok (L "${" ++ i ++ L "}") /\ Named t /\ GoodVa (Va t).
Proof.
  intros H Hn [Hs Hg] Hi Hne Hp Ht. unfold process_variable in H.
  assert (Hnn : forall c, tin c d = true -> ~ Named d).
  { intros c Hc Hd. apply tin_In in Hc. rewrite elems_named in Hc by easy. now destruct Hc. }
  destruct (tin 40 d) eqn:E40; [eapply process_read_text; eassumption|].
  destruct (tin 58 d) eqn:E58; [eapply process_slice_text; eauto|].
  mok H. unfold mret in E0. injection E0 as _ <-. split; [|split; [constructor|]].
  - cbn [str_of]. destruct i as [|c i]; [easy|]. rewrite (truthy_text d c i Hi), Hi. reflexivity.
  - cbn. destruct d; try easy. apply no58. intros H. apply tin_In in H. congruence.
Qed.

Lemma loop_text fuel : forall acc data w l t pa, parse_loop U FT fuel acc data w = (l, Ok t) ->
  NoSyntaxError l -> Plain U data -> Forall TSN acc -> Forall GoodVa (flat_map elems (rev acc)) ->
  etext (flat_map elems (rev acc)) = Ok pa -> str_of t = Ok (pa ++ data) /\ Inv t.
Proof.
  induction fuel as [|k IH]; intros acc data w l t pa H Hn Hp Ha Hg Hpa; [easy|]. cbn [parse_loop] in H.
  destruct (loop_cases data) as [[Es _]|(pre & x & rest & Es & (Ho & Ed & Hno) & Hc)]; rewrite Es in H.
  { unfold mret in H. injection H as _ <-. cbn [rev].
    assert (Hel : flat_map elems (rev acc ++ [TS data]) = flat_map elems (rev acc) ++ map Ch data).
    { rewrite flat_map_app. cbn. now rewrite elems_str, app_nil_r. }
    split.
    - apply str_of_vjoin. rewrite Hel, etext_app, Hpa, etext_chars. reflexivity.
    - split.
      + apply vjoin_shallow. apply Forall_app. split; [now apply Forall_rev|].
        constructor; [left; now eexists|constructor].
      + rewrite vjoin_elems, Hel. apply Forall_app. split; [easy|].
        apply Forall_map, Forall_forall. easy. }
  destruct Hc as [[E2 _]|(i & r & m & E2 & Hc & Hm)]; rewrite E2 in H; [easy|].
  assert (Er : rest = i ++ close_of x :: r) by apply Hc.
  mok H. apply nse_app in Hn as [Hn1 Hn]. mok E0. apply nse_app in Hn as [Hn2 Hn].
  assert (Oi : Occurs i data).
  { rewrite Ed, Er. exists (pre ++ [36; x]), (close_of x :: r). now rewrite <- app_assoc. }
  assert (Or : Occurs r data).
  { rewrite Ed, Er. exists (pre ++ 36 :: x :: i ++ [close_of x]), []. rewrite app_nil_r, <- app_assoc.
    cbn. now rewrite <- app_assoc. }
  assert (Hd : str_of a = Ok i /\ Inv a).
  { destruct m.
    - apply (IH [] i w l0 a []); [exact E|exact Hn1|now apply (plain_sub data)|constructor|constructor|reflexivity].
    - unfold mret in E. injection E as _ <-. split; [easy|]. split; [constructor|].
      rewrite elems_str. apply Forall_map, Forall_forall. easy. }
  destruct Hd as [Hdt Hdi].
  assert (Hx : x = 123 \/ x = 91) by (inversion Ho; auto).
  assert (Hne : i <> []).
  { intros ->. cbn in Er. destruct Hx as [-> | ->].
    - apply (pl_var _ _ Hp). rewrite Ed, Er. exists pre, r. reflexivity.
    - apply (pl_expr _ _ Hp). rewrite Ed, Er. exists pre, r. reflexivity. }
  assert (Hv : str_of a0 = Ok (36 :: x :: i ++ [close_of x]) /\ Named a0 /\ GoodVa (Va a0)).
  { destruct Hx as [-> | ->].
    - cbn [N.eqb Pos.eqb] in E1.
      destruct (process_variable_text a w l a0 i E1 Hn2 Hdi Hdt Hne) as (H1 & H2 & H3).
      + apply (pl_num _ _ Hp pre rest i r); [exact Ed|exact Hc].
      + intros H. apply (pl_tail _ _ Hp). eapply occurs_trans; eassumption.
      + split; [exact H1|easy].
    - cbn [N.eqb Pos.eqb] in E1. unfold mret in E1. injection E1 as _ <-. split; [|now split; [constructor|]].
      cbn [str_of]. destruct i as [|c i]; [easy|]. rewrite (truthy_text a c i Hdt), Hdt. reflexivity. }
  destruct Hv as (Hvt & Hvn & Hvg).
  assert (Hel : flat_map elems (rev (a0 :: TS pre :: acc)) =
                flat_map elems (rev acc) ++ map Ch pre ++ [Va a0]).
  { cbn [rev]. rewrite !flat_map_app. cbn [flat_map]. rewrite elems_str, (elems_named a0 Hvn), !app_nil_r.
    now rewrite <- app_assoc. }
  destruct (IH (a0 :: TS pre :: acc) r w l2 t (pa ++ pre ++ 36 :: x :: i ++ [close_of x]) E3 Hn) as [Ht Hi].
  - now apply (plain_sub data).
  - constructor; [now right|]. constructor; [left; now eexists|easy].
  - rewrite Hel. apply Forall_app. split; [easy|]. apply Forall_app. split.
    + apply Forall_map, Forall_forall. easy.
    + now constructor.
  - rewrite Hel, !etext_app, Hpa, etext_chars. cbn [etext]. rewrite Hvt. cbn [bind]. now rewrite app_nil_r.
  - split; [|easy]. rewrite Ht, Ed, Er. f_equal. rewrite <- !app_assoc. cbn [app]. now rewrite <- app_assoc.
Qed.

Lemma round_trip data w l t : parse_variables U FT data w = (l, Ok t) -> NoSyntaxError l ->
  Plain U data -> str_of t = Ok data.
Proof.
  intros H Hn Hp. destruct (loop_text _ _ _ _ _ _ [] H Hn Hp) as [Ht _]; [constructor|constructor|reflexivity|exact Ht].
Qed.
End R.
