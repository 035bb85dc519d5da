(* Proofs about which applications the linter survives: C23. *)
From Verif Require Import Base PyStr Defines Var VarFun AppM Spec_Var Spec_VarFun Spec_App Spec_Args Spec_Crash Var_proofs VarFun_proofs
  Balance_proofs Round_proofs App_proofs Tok_proofs AppT_proofs Loader_proofs Args_proofs Crash_proofs CrashV_proofs.

(* ---- printing ---- *)
Scheme Text_ind2 := Minimality for Text Sort Prop
with Texts_ind2 := Minimality for Texts Sort Prop
with NumText_ind2 := Minimality for NumText Sort Prop
with LenText_ind2 := Minimality for LenText Sort Prop.
Combined Scheme text_ind from Text_ind2, Texts_ind2, NumText_ind2, LenText_ind2.

Definition num_text (x : num tok) : res str := match x with NI z => Ok (zstr z) | NV v => str_of v end.
Definition len_text (x : option (num tok)) : res (option str) :=
  match x with None => Ok None | Some y => let! s := num_text y in Ok (Some s) end.
Lemma flat_text n nl s : Flat n nl -> etext nl = Ok s -> str_of n = Ok s.
Proof. intros H E. apply Flat_fun in H as ->. now rewrite str_of_elems. Qed.
Lemma flat_truthy n nl : Flat n nl -> nl <> [] -> truthy n = true.
Proof. intros H Hn. apply Flat_fun in H as ->. now apply truthy_elems. Qed.
Lemma slice_printed n s a b : Var.slice_text n s b = a -> a = L "${" ++ n ++ 58 :: s ++ opt_text b ++ L "}".
Proof. intros <-. unfold Var.slice_text. destruct b; cbn [opt_text]; rewrite ?app_nil_l; now repeat (rewrite <- app_assoc; cbn [app L]). Qed.

Lemma str_of_dyn n o l : str_of (TDyn n o l) = let! s := str_of n in let! a := num_text o in let! b := len_text l in Ok (Var.slice_text s a b).
Proof. reflexivity. Qed.
Lemma str_of_func f n : str_of (TFunc f n) = let! s := str_of n in Ok (L "${" ++ f ++ 40 :: s ++ L ")}").
Proof. cbn [str_of]. destruct (str_of n); cbn [bind]; try easy. apply f_equal. now rewrite <- !app_assoc. Qed.
Lemma str_of_funcs f n o l : str_of (TFuncS f n o l) = let! s := str_of n in let! a := num_text o in let! b := len_text l in
  Ok (L "${" ++ f ++ 40 :: s ++ 41 :: 58 :: a ++ opt_text b ++ L "}").
Proof.
  change (str_of (TFuncS f n o l)) with (let! s := str_of n in let! a := num_text o in let! b := len_text l in Ok (Var.slice_text (f ++ [40] ++ s ++ [41]) a b)).
  destruct (str_of n); cbn [bind]; try easy. destruct (num_text o); cbn [bind]; try easy. destruct (len_text l); cbn [bind]; try easy.
  apply f_equal. etransitivity; [eapply slice_printed; reflexivity|]. now rewrite <- !app_assoc.
Qed.

Lemma texts_sound :
  (forall v x, Text v x -> str_of v = Ok x) /\ (forall l s, Texts l s -> etext l = Ok s) /\
  (forall n s, NumText n s -> num_text n = Ok s) /\ (forall n s, LenText n s -> len_text n = Ok s).
Proof.
  apply text_ind.
  - intros n nl s Hf Hn _ IH. cbn [str_of]. now rewrite (flat_truthy _ _ Hf Hn), (flat_text _ _ _ Hf IH).
  - intros n nl s Hf Hn _ IH. cbn [str_of]. now rewrite (flat_truthy _ _ Hf Hn), (flat_text _ _ _ Hf IH).
  - intros n nl s st l Hf _ IH. cbn [str_of]. rewrite (flat_text _ _ _ Hf IH). cbn [bind]. apply f_equal. eapply slice_printed; reflexivity.
  - intros n nl s o x l y Hf _ IH _ IHo _ IHl. rewrite str_of_dyn. rewrite (flat_text _ _ _ Hf IH). cbn [bind].
    rewrite IHo. cbn [bind]. rewrite IHl. cbn [bind]. apply f_equal. eapply slice_printed; reflexivity.
  - intros f a al s Hf _ IH. cbn [str_of]. rewrite (flat_text _ _ _ Hf IH). cbn [bind]. apply f_equal. now rewrite <- !app_assoc.
  - intros f a al s o x l y Hf _ IH _ IHo _ IHl. rewrite str_of_funcs. rewrite (flat_text _ _ _ Hf IH). cbn [bind].
    rewrite IHo. cbn [bind]. rewrite IHl. cbn [bind]. reflexivity.
  - reflexivity.
  - intros c l s _ IH. cbn [etext]. now rewrite IH.
  - intros v x l s _ IHv _ IH. cbn [etext]. now rewrite IHv, IH.
  - reflexivity.
  - intros t tl s Hf _ IH. cbn [num_text]. now apply (flat_text _ _ _ Hf).
  - reflexivity.
  - intros o s _ IH. cbn [len_text]. now rewrite IH.
Qed.
Lemma texts_app l s m r : Texts l s -> Texts m r -> Texts (l ++ m) (s ++ r).
Proof.
  intros H Hm. induction H as [|c l s Hl IH|v x l s Hv Hl IH]; [easy|now constructor|].
  rewrite <- app_assoc. cbn [app]. now constructor.
Qed.
Lemma texts_chars s : Texts (map Ch s) s.
Proof. induction s; now constructor. Qed.

Lemma texts_complete t : forall s, str_of t = Ok s -> Texts (elems t) s.
Proof.
  assert (N1 : forall t s, Named t -> Text t s -> Texts (elems t) s).
  { intros u s Hn H. rewrite elems_named by easy. rewrite <- (app_nil_r s). constructor; [easy|constructor]. }
  assert (ON : forall o a, onum (fun t => forall s, str_of t = Ok s -> Texts (elems t) s) o -> num_text o = Ok a -> NumText o a).
  { intros [z|v] a H E; [injection E as <-; constructor|]. eapply Nt_val; [apply Flat_elems|now apply H]. }
  assert (OO : forall o a, oopt (fun t => forall s, str_of t = Ok s -> Texts (elems t) s) o -> len_text o = Ok a -> LenText o a).
  { intros [o|] a H E; [|injection E as <-; constructor]. cbn [len_text] in E. destruct (num_text o) as [x| |] eqn:Ex; try discriminate.
    injection E as <-. constructor. now apply ON. }
  assert (TE : forall t, truthy t = true -> elems t <> []).
  { intros u Hu E. apply falsy_elems in E. congruence. }
  induction t using tok_ind2; intros r E.
  - injection E as <-. rewrite elems_str. apply texts_chars.
  - rewrite elems_list. revert r E. induction H as [|x l Hx Hl IH]; intros r E; [injection E as <-; constructor|].
    cbn [str_of] in E. destruct (str_of x) as [a| |] eqn:Ex; try discriminate. cbn [bind] in E.
    destruct ((fix go l := match l with [] => Ok [] | x :: r => let! a := str_of x in let! b := go r in Ok (a ++ b) end) l) as [b| |] eqn:Eb; try discriminate.
    injection E as <-. cbn [flat_map]. apply texts_app; [now apply Hx|now apply IH].
  - apply N1; [constructor|]. cbn [str_of] in E. destruct (truthy t) eqn:Et; [|discriminate].
    destruct (str_of t) as [a| |] eqn:Ea; try discriminate. injection E as <-. eapply Tx_var; [apply Flat_elems|now apply TE|now apply IHt].
  - apply N1; [constructor|]. cbn [str_of] in E. destruct (truthy t) eqn:Et; [|discriminate].
    destruct (str_of t) as [a| |] eqn:Ea; try discriminate. injection E as <-. eapply Tx_expr; [apply Flat_elems|now apply TE|now apply IHt].
  - apply N1; [constructor|]. cbn [str_of] in E.
    destruct (str_of t) as [a| |] eqn:Ea; try discriminate. cbn [bind] in E. injection E as E. apply slice_printed in E as ->. eapply Tx_slice; [apply Flat_elems|now apply IHt].
  - apply N1; [constructor|]. rewrite str_of_dyn in E.
    destruct (str_of t) as [a| |] eqn:Ea; try discriminate. cbn [bind] in E.
    destruct (num_text s) as [b| |] eqn:Eb; try discriminate. cbn [bind] in E.
    destruct (len_text l) as [c| |] eqn:Ec; try discriminate. cbn [bind] in E.
    injection E as E. apply slice_printed in E as ->. eapply Tx_dyn; [apply Flat_elems|now apply IHt|now apply ON|now apply OO].
  - apply N1; [constructor|]. rewrite str_of_func in E.
    destruct (str_of t) as [a| |] eqn:Ea; try discriminate. cbn [bind] in E.
    assert (E' : r = L "${" ++ f ++ 40 :: a ++ L ")}") by now injection E. rewrite E'.
    eapply Tx_func; [apply Flat_elems|now apply IHt].
  - apply N1; [constructor|]. rewrite str_of_funcs in E.
    destruct (str_of t) as [a| |] eqn:Ea; try discriminate. cbn [bind] in E.
    destruct (num_text s) as [b| |] eqn:Eb; try discriminate. cbn [bind] in E.
    destruct (len_text l) as [c| |] eqn:Ec; try discriminate. cbn [bind] in E.
    assert (E' : r = L "${" ++ f ++ 40 :: a ++ 41 :: 58 :: b ++ opt_text c ++ L "}") by now injection E. rewrite E'.
    eapply Tx_funcs; [apply Flat_elems|now apply IHt|now apply ON|now apply OO].
Qed.
Lemma texts_fun l s s' : Texts l s -> Texts l s' -> s = s'.
Proof. intros H H'. apply texts_sound in H, H'. congruence. Qed.

Section Tables.
Variable U : uni.
Variable FT : ftable.
Variable AT : atable.
Hypothesis HU : AsciiOk U.
Hypothesis HUF : lookup (L "unknown") FT <> None.
Hypothesis HUA : lookup (L "unknown") AT <> None.

(* ---- branches ---- *)
Lemma nested_fun b s s' : Nested b s -> Nested b s' -> s = s'.
Proof.
  assert (X : forall name post s r, map Ch s = map Ch name ++ Ch 40 :: post -> Texts post r -> s = name ++ 40 :: r).
  { intros name post x r E H. apply texts_sound in H. assert (E' : etext (map Ch x) = etext (map Ch name ++ Ch 40 :: post)) by now rewrite E.
    rewrite etext_chars, etext_app, etext_chars in E'. cbn [etext] in E'. rewrite H in E'. cbn in E'. now injection E'. }
  intros [x ->|name post x -> Hn Ht] [y Ey|name' post' y Ey Hn' Ht'].
  - now apply map_Ch_inj.
  - eapply X; eassumption.
  - symmetry. eapply X; [symmetry|]; eassumption.
  - apply split_unique in Ey as [E ->]; [|now rewrite in_map_Ch|now rewrite in_map_Ch]. apply map_Ch_inj in E as ->. now rewrite (texts_fun _ _ _ Ht Ht').
Qed.
Lemma nested_named b s : Nested b s -> ~ NoName b.
Proof.
  intros [x ->|name post x -> Hn Ht] [v H1 H2|v n' p' E H1 H2].
  - now apply chars_no_va in H2.
  - assert (In (Va v) (map Ch x)) as H by (rewrite E; apply in_app_iff; now left). now apply chars_no_va in H.
  - apply H1, in_app_iff. right. now left.
  - apply split_unique in E as [<- _]; [|now rewrite in_map_Ch|easy]. now apply chars_no_va in H2.
Qed.
Lemma nested_alone v s : ~ Nested [Va v] s.
Proof. intros [x E|name post x E _ _]; [destruct x; discriminate|destruct name; discriminate]. Qed.

Lemma split_nested t b : Canon t b -> TameData b -> (forall v, b <> [Va v]) ->
  (exists s, Nested b s /\ lc 63 (TS s) = lc 63 t /\ forall w, split_app U t w = split_app U (TS s) w) \/
  (NoName b /\ forall w, ~ fine (split_app U t w)).
Proof.
  intros HC HT Hv. destruct (all_chars b) as [[s E]|[v Hin]].
  { left. exists s. rewrite (canon_text _ _ _ HC E). split; [now constructor|easy]. }
  assert (Hs : is_str t = false) by (eapply canon_var_str; eassumption).
  pose proof (canon_not_named _ _ HC Hv) as Hn.
  destruct (vsplit_two 40 t b HC Hn) as [(H1 & p & E)|(x & y & la & lb & E & Ca & Cb & -> & H1)].
  - right. split; [econstructor; eassumption|]. intros w H. unfold split_app in H. rewrite E in H.
    apply fine_bind_inv in H as (? & ? & [= <- <-] & H). apply fine_bind_inv in H as (? & ? & E' & _). destruct t; try discriminate.
  - destruct (tame_str y) as [s Es].
    { rewrite (Canon_elems _ _ Cb). eapply tame_sub; [|exact HT]. intros u Hu. apply in_app_iff. right. now right. }
    destruct (all_chars la) as [[name ->]|[u Hu]].
    + left. rewrite (canon_text _ _ _ Ca eq_refl) in *. rewrite in_map_Ch in H1. exists (name ++ 40 :: s). split; [|split].
      * eapply Ne_call; [reflexivity|easy|]. rewrite <- (Canon_elems _ _ Cb). now apply texts_complete.
      * rewrite (lc_elems 63 t), (Canon_elems _ _ HC), (lc_elems 63 (TS (name ++ 40 :: s))), elems_str, map_app.
        cbn [map]. rewrite !ecs_app. f_equal. rewrite <- (Canon_elems _ _ Cb).
        pose proof (str_of_count 63 k63 _ _ Es) as Hc. rewrite <- elems_str.
        change (Ch 40 :: elems (TS s)) with ([Ch 40] ++ elems (TS s)). change (Ch 40 :: elems y) with ([Ch 40] ++ elems y).
        rewrite !ecs_app, <- !lc_elems. f_equal. cbn [lc]. now rewrite Hc.
      * intros w. unfold split_app. rewrite E. cbn [vsplit]. 
        destruct (cut40 (name ++ 40 :: s)) as [(Hno & _)|(a' & b' & E1 & Hno & E2)]; [exfalso; apply Hno, in_app_iff; right; now left|].
        apply split_unique in E1 as [<- <-]; [|easy|easy]. rewrite E2. cbn [map]. cbn [mlift mbind]. rewrite Es. cbn [str_of]. reflexivity.
    + right. split; [eapply Nn_call; [reflexivity|eassumption|eassumption]|]. intros w H. unfold split_app in H. rewrite E in H.
      apply fine_bind_inv in H as (? & ? & [= <- <-] & H). apply fine_bind_inv in H as (? & [xx dd] & E' & H).
      unfold mlift, mret in E'. rewrite Es in E'. cbn in E'. injection E' as _ <- <-. cbn [fst] in H.
      pose proof (canon_var_str _ _ _ Ca Hu) as Hx. destruct x; try discriminate; destruct H as (? & ? & H); discriminate H.
Qed.

(* ---- names and data ---- *)
Lemma app_text_fun w w' s l l' n n' d d' : AppText U w s l n d -> AppText U w' s l' n' d' -> n = n' /\ d = d'.
Proof.
  intros [name data E H1|name data E H1 H2|H1 H2|H1 H2] [name' data' E' G1|name' data' E' G1 G2|G1 G2|G1 G2]; subst;
    try (exfalso; apply H1, in_app_iff; right; now left); try (exfalso; apply G1, in_app_iff; right; now left); try easy.
  - apply split_unique in E' as [<- E']; [|easy|easy]. now apply app_inj_tail in E' as [<- _].
  - apply split_unique in E' as [<- E']; [|easy|easy]. exfalso. now apply (G2 data).
  - apply split_unique in E' as [<- E']; [|easy|easy]. exfalso. now apply (H2 data').
  - apply split_unique in E' as [<- E']; [|easy|easy]. now subst.
Qed.
Lemma app_name_fun w w' n l l' r r' : AppName w n l r -> AppName w' n l' r' -> r = r'.
Proof.
  assert (X : forall n c m (x : N), n ++ [c] <> m ++ x :: nil -> True) by easy.
  assert (B : forall sp x n sp' x' n', sp ++ x :: n = sp' ++ x' :: n' -> Blank sp -> Blank sp' -> isspace x = false -> isspace x' = false -> x :: n = x' :: n').
  { clear. induction sp as [|a sp IH]; intros x n [|a' sp'] x' n' E H H' Hx Hx'; cbn [app] in E.
    - easy.
    - injection E as -> E. inversion H'; subst. congruence.
    - injection E as -> E. inversion H; subst. congruence.
    - injection E as -> E. inversion H; inversion H'; subst. eapply IH; eassumption. }
  intros [m c E Hs|E|sp x m E Hn Hb Hx Ht|x m E Hx Ht] [m' c' E' Hs'|E'|sp' x' m' E' Hn' Hb' Hx' Ht'|x' m' E' Hx' Ht']; try easy;
    try (specialize (Ht _ _ E'); congruence); try (specialize (Ht' _ _ E); congruence);
    try (rewrite E in E'; now destruct sp'); try (rewrite E in E'; now destruct sp); try (now rewrite E in E').
  - rewrite E in E'. f_equal. eapply B; eassumption.
  - rewrite E in E'. f_equal. rewrite E. destruct sp as [|a sp]; [easy|]. cbn [app] in E'. injection E' as -> _. inversion Hb; subst. congruence.
  - rewrite E in E'. destruct sp' as [|a sp']; [easy|]. cbn [app] in E'. injection E' as -> _. inversion Hb'; subst. congruence.
Qed.
Lemma called_fun s n n' d d' : Called U s n d -> Called U s n' d' -> n = n' /\ d = d'.
Proof.
  intros (w & l1 & l2 & m & H1 & H2) (w' & l1' & l2' & m' & H1' & H2').
  destruct (app_text_fun _ _ _ _ _ _ _ _ _ H1 H1') as [<- <-]. pose proof (app_name_fun _ _ _ _ _ _ _ H2 H2') as [= ->]. now split.
Qed.
Lemma called_nameless s n d : Called U s n d -> ~ Nameless U s.
Proof.
  intros (w & l1 & l2 & m & H1 & H2) (w' & l1' & l2' & m' & d' & H1' & H2').
  destruct (app_text_fun _ _ _ _ _ _ _ _ _ H1 H1') as [<- <-]. pose proof (app_name_fun _ _ _ _ _ _ _ H2 H2') as E. discriminate E.
Qed.
Lemma appof_fun n a a' : AppOf U AT n a -> AppOf U AT n a' -> a = a'.
Proof. intros [H|[H H1]] [G|[G G1]]; congruence. Qed.
Lemma called_ascii s n d : Called U s n d -> AsciiS s -> AsciiS d.
Proof.
  intros (w & l1 & l2 & m & H & _) HA. unfold AsciiS in *. rewrite Forall_forall in *.
  destruct H as [name data -> _|name data -> _ _| |]; intros x Hx; try easy.
  - apply HA, in_app_iff. right. right. apply in_app_iff. now left.
  - apply HA, in_app_iff. now right.
Qed.

Lemma split_fine s w : fine (split_app U (TS s) w).
Proof.
  unfold split_app. cbn [vsplit]. destruct (cut40 s) as [(Hno & E)|(a' & b' & E1 & Hno & E)]; rewrite E; cbn [map mlift];
    (apply fine_bind; [now eexists _, _|]); intros ? ? [= <- <-]; (apply fine_bind).
  - apply fine_bind; [|intros; apply fine_ret]. destruct (str_eqb _ _); [apply fine_ret|apply fine_emit; [easy|easy|repeat constructor; now intros []]].
  - intros ? xx E2. apply mbind_ok in E2 as (? & ? & ? & _ & E2 & _). unfold mret in E2. injection E2 as _ <-. cbn [fst snd].
    destruct (negb _).
    + apply fine_bind; [apply fine_emit; [easy|easy|repeat constructor; now intros []]|intros; apply fine_ret].
    + apply fine_bind; [destruct (str_eqb _ _); [apply fine_ret|apply fine_emit; [easy|easy|repeat constructor; now intros []]]|]. intros _ _ _.
      destruct (lstrip_p isspace s); [|apply fine_ret]. apply fine_bind; [apply fine_emit; [easy|easy|repeat constructor; now intros []]|intros; apply fine_ret].
  - apply fine_bind; [now eexists _, _|intros; apply fine_ret].
  - intros ? xx E2. apply mbind_ok in E2 as (? & ? & ? & _ & E2 & _). unfold mret in E2. injection E2 as _ <-. cbn [fst snd].
    destruct (negb _).
    + apply fine_bind; [apply fine_emit; [easy|easy|repeat constructor; now intros []]|intros; apply fine_ret].
    + apply fine_bind; [destruct (str_eqb _ _); [apply fine_ret|apply fine_emit; [easy|easy|repeat constructor; now intros []]]|]. intros _ _ _.
      destruct (lstrip_p isspace a'); [|apply fine_ret]. apply fine_bind; [apply fine_emit; [easy|easy|repeat constructor; now intros []]|intros; apply fine_ret].
Qed.
Lemma get_fine n : exists a, AppOf U AT n a /\ app_get AT (u_lower U n) = ([LApp (u_lower U n)], Ok a).
Proof.
  unfold app_get, AppOf. destruct (lookup (u_lower U n) AT) as [a|] eqn:E; [exists a; auto|].
  destruct (lookup (L "unknown") AT) as [a|] eqn:E'; [exists a; auto|]. congruence.
Qed.
Lemma check_fine a n w : fine (check_availability a n w).
Proof.
  unfold check_availability. destruct (a_kind a); try apply fine_log;
    (destruct (str_eqb _ _); [apply fine_ret|destruct (str_eqb _ _); apply fine_emit; [easy|easy|repeat constructor; now intros []|easy|easy|repeat constructor; now intros []]]).
Qed.

Definition step (k : nat) (n data : str) (a : ainfo) (w : loc) : M (list dest) :=
  do* d <- parse_inner U FT n data w; app_call U FT (fun r => do* _ <- app_new U FT AT k r w; mret tt) a d w.
Lemma app_new_cases s w :
  (Nameless U s /\ forall k, fine (app_new U FT AT (S k) (SlTok (TS s)) w)) \/
  exists n data a l, Called U s n data /\ AppOf U AT n a /\ split_app U (TS s) w = (l, Ok (Some (n, data))) /\
    forall k, fine (app_new U FT AT (S k) (SlTok (TS s)) w) <-> fine (step k n data a w).
Proof.
  destruct (split_fine s w) as (l & x & E). pose proof (app_text _ _ _ _ _ E) as (l1 & l2 & name & data & H1 & H2 & _ & Hd).
  destruct x as [[n d]|].
  - right. rewrite (Hd _ _ eq_refl) in *. cbn [option_map fst] in H2. destruct (get_fine n) as (a & Ha & Eg).
    exists n, data, a, l. split; [now exists w, l1, l2, name|]. split; [easy|]. split; [easy|]. intros k. cbn [app_new]. rewrite E.
    split.
    + intros H. apply fine_bind_inv in H as (? & ? & [= <- <-] & H). rewrite Eg in H. apply fine_bind_inv in H as (? & ? & [= <- <-] & H).
      apply fine_bind_inv in H as (_ & _ & _ & H). exact H.
    + intros H. apply fine_bind; [now eexists _, _|]. intros ? ? [= <- <-]. rewrite Eg. apply fine_bind; [now eexists _, _|]. intros ? ? [= <- <-].
      apply fine_bind; [apply check_fine|]. now intros.
  - left. split; [now exists w, l1, l2, name, data|]. intros k. cbn [app_new]. rewrite E. now eexists _, _.
Qed.

Lemma infix_spec p s : is_infix p s = true <-> exists a b, s = a ++ p ++ b.
Proof.
  assert (SW : forall p s, startswith p s = true <-> exists b, s = p ++ b).
  { clear. induction p as [|c p IH]; intros s; [split; [now exists s|easy]|]. destruct s as [|d s]; [split; [easy|now intros (b & ?)]|].
    cbn [startswith]. rewrite Bool.andb_true_iff, N.eqb_eq, IH. split.
    - intros [-> (b & ->)]. now exists b.
    - intros (b & [= -> ->]). split; [easy|now exists b]. }
  induction s as [|c s IH].
  - cbn [is_infix]. rewrite Bool.orb_false_r, SW. split.
    + intros (b & E). now exists [], b.
    + intros ([|] & b & E); [now exists b|discriminate].
  - cbn [is_infix]. rewrite Bool.orb_true_iff, SW, IH. split.
    + intros [(b & E)|(a & b & ->)]; [now exists [], b|now exists (c :: a), b].
    + intros ([|x a] & b & E); [left; now exists b|]. injection E as -> ->. right. now exists a, b.
Qed.
Lemma has_sub_opens s : has_sub s = true <-> Opens s.
Proof.
  unfold has_sub. rewrite Bool.orb_true_iff, !infix_spec. split.
  - intros [(a & b & ->)|(a & b & ->)]; [exists a, 123, 125, b|exists a, 91, 93, b]; (split; [constructor|reflexivity]).
  - intros (a & o & c & b & [] & ->); [left|right]; exists a, b; reflexivity.
Qed.

Lemma data_reads data dl : Reads U FT data dl -> DataOf U FT data dl. Proof. now constructor. Qed.
Lemma first_has P s : Blocks U FT P -> First U FT P s -> Opens s.
Proof.
  intros HB [x HP|x pre o c rest i r Ho _ _|x pre o c rest i r il v Ho _ _ _ _]; [|now apply first_opens in Ho|now apply first_opens in Ho].
  apply HB in HP as (pre & o & c & rest & Ho & _). now apply first_opens in Ho.
Qed.
Lemma inner_exact n data w : AsciiS data -> ~ First U FT (Odd U FT) data ->
  (exists dl d l, DataOf U FT data dl /\ parse_inner U FT n data w = (l, Ok d) /\ Canon d dl /\ TameData dl) \/
  (First U FT (Breaks U FT) data /\ ~ fine (parse_inner U FT n data w)).
Proof.
  intros HA HO. unfold parse_inner. destruct (has_sub data) eqn:Eh.
  - destruct (parse_exact U FT HU HUF data w HA HO) as [(dl & l & t & HR & -> & HC & HT)|[(HF & l & ->)|(HF & l & e & -> & Hne)]].
    + left. exists dl, t, l. split; [now constructor|]. now split.
    + left. exists (map Ch data), (TS data). eexists. split; [now apply Do_text|]. split; [reflexivity|]. split; [apply Canon_TS|].
      intros v Hv. now apply chars_no_va in Hv.
    + right. split; [easy|]. intros H. destruct e; try easy; destruct H as (? & ? & H); discriminate.
  - left. exists (map Ch data), (TS data), []. split; [|split; [easy|split; [apply Canon_TS|intros v Hv; now apply chars_no_va in Hv]]].
    constructor. constructor. rewrite <- has_sub_opens, Eh. discriminate.
Qed.
Lemma data_fun data dl dl' : DataOf U FT data dl -> DataOf U FT data dl' -> dl = dl'.
Proof.
  intros [x H|H] [y G|G]; [now apply (Reads_fun U FT HU _ _ H)| | |easy]; exfalso;
    [apply (reads_first U FT HU _ (blocks_unclosed U FT) _ _ H G)|apply (reads_first U FT HU _ (blocks_unclosed U FT) _ _ G H)].
Qed.
Lemma data_noodd data dl : DataOf U FT data dl -> ~ First U FT (Odd U FT) data.
Proof.
  intros [x H|H] G; [apply (reads_first U FT HU _ (blocks_odd U FT) _ _ H G)|].
  apply (first_first U FT HU _ _ (blocks_odd U FT) (blocks_unclosed U FT) (odd_unclosed U FT) _ G H).
Qed.
Lemma data_nobreak data dl : DataOf U FT data dl -> ~ First U FT (Breaks U FT) data.
Proof.
  intros [x H|H] G; [apply (reads_first U FT HU _ (blocks_breaks U FT HU) _ _ H G)|].
  apply (first_first U FT HU _ _ (blocks_breaks U FT HU) (blocks_unclosed U FT) (breaks_unclosed U FT) _ G H).
Qed.
Lemma breaks_noodd data : First U FT (Breaks U FT) data -> ~ First U FT (Odd U FT) data.
Proof. intros H G. apply (first_first U FT HU _ _ (blocks_odd U FT) (blocks_breaks U FT HU) (odd_breaks U FT HU) _ G H). Qed.

(* what the branches of an ExecIf are *)
Lemma branch_info s w l n data l2 d dl bs b : split_app U (TS s) w = (l, Ok (Some (n, data))) -> parse_inner U FT n data w = (l2, Ok d) ->
  Canon d dl -> TameData dl -> Branches dl bs -> In b bs ->
  exists t, Canon t b /\ TameData b /\ (need (SlTok t) <= S (lc 63 (TS s)))%nat.
Proof.
  intros E1 E2 HC HT HB Hin. pose proof (Canon_elems _ _ HC) as El. subst dl.
  destruct (fine_varcond n w d HT) as (l3 & [[c t] f] & E3).
  pose proof (branches_canon _ _ _ _ _ _ _ E3) as HBc. pose proof (varcond_ok _ _ _ _ _ _ _ E3) as [(bs' & HBr & HF)|(HNo & _)]; [|now apply HNo in HB].
  rewrite (Branches_fun _ _ _ HB HBr) in Hin. destruct (forall2_in_r _ _ _ _ HF Hin) as (sl & Hsl & y & -> & <-).
  exists y. split; [now apply HBc|]. split; [eapply tame_sub; [|exact HT]; now apply HBc|].
  eapply need_branch; eassumption.
Qed.

Lemma calls_ext (NF NF' : list elem -> Prop) dl : (forall bs b, Branches dl bs -> In b bs -> NF b -> NF' b) ->
  CallFails U FT NF dl AExecIf -> CallFails U FT NF' dl AExecIf.
Proof. intros H HC. inversion HC; [eapply Cf_execif; eauto|eapply Cf_execif_old; eauto]. Qed.
Lemma calls_other NF NF' dl k : k <> AExecIf -> CallFails U FT NF dl k -> CallFails U FT NF' dl k.
Proof. intros Hk HC. inversion HC; subst; try easy; econstructor; eauto. Qed.

Lemma akind_eq_execif k : k = AExecIf \/ k <> AExecIf.
Proof. destruct k; auto; right; discriminate. Qed.
Lemma branches_dec d : (exists bs, Branches (elems d) bs) \/ forall bs, ~ Branches (elems d) bs.
Proof.
  pose proof (args_of d 63 (delim_ok 63 ltac:(cbn; auto))) as HA. pose proof (separate_ne (SlTok d) 63 true) as Hn.
  destruct (separate_args (SlTok d) 63 true) as [|x [|act more]]; [easy| |].
  - right. intros bs H. now apply (one_branch _ _ _ H HA).
  - left. eexists. eapply Br_intro; [exact HA|]. apply (separate_Separated act 58), delim_ok. cbn. auto.
Qed.
Lemma ascii_dec s : AsciiS s \/ ~ AsciiS s.
Proof.
  induction s as [|c s IH]; [left; constructor|]. destruct (N.lt_ge_cases c 128) as [H|H].
  - destruct IH as [IH|IH]; [left; now constructor|right; intros G; inversion G; easy].
  - right. intros G. inversion G; subst. lia.
Qed.

Lemma app_exact k : forall s w, (need (SlTok (TS s)) <= k)%nat -> AsciiS s ->
  (SafeApp U FT AT s -> fine (app_new U FT AT k (SlTok (TS s)) w)) /\
  (AppFails U FT AT s -> ~ fine (app_new U FT AT k (SlTok (TS s)) w)) /\
  (~ OddApp U FT AT s -> SafeApp U FT AT s \/ AppFails U FT AT s).
Proof.
  induction k as [|k IH]; intros s w Hk HA; [cbn in Hk; lia|]. cbn [need] in Hk.
  destruct (app_new_cases s w) as [[Hnl Hf]|(n & data & a & l & HC & Ha & Es & Hstep)].
  { split; [now intros|]. split; [|intros _; left; now apply Sa_noname]. intros HF. inversion HF as [x n d HC|x n d a dl HC|x n d a dl HC]; subst; now apply called_nameless in HC. }
  rewrite Hstep. unfold step.
  set (nested := fun r => do* _ <- app_new U FT AT k r w; mret tt).
  set (NF := fun b => exists t, Canon t b /\ ~ fine (nested (SlTok t))).
  assert (HN : forall t b, Canon t b -> (fine (nested (SlTok t)) /\ ~ NF b) \/ (~ fine (nested (SlTok t)) /\ NF b)).
  { intros t b Ht. destruct (fine_dec (nested (SlTok t))) as [Hf|Hf].
    - left. split; [easy|]. intros (t' & Ht' & Hn). now rewrite (Canon_fun _ _ _ Ht' Ht) in Hn.
    - right. assert (~ fine (nested (SlTok t))) by (rewrite fine_snd; intros [x Hx]; now apply (Hf x)). split; [easy|]. now exists t. }
  assert (HL : forall l, ~ fine (nested (SlList l))).
  { intros m H. unfold nested in H. apply fine_bind_inv in H as (? & ? & E & _). destruct k; discriminate. }
  assert (Hdata : AsciiS data) by (eapply called_ascii; eassumption).
  assert (NE : forall t, fine (nested (SlTok t)) <-> fine (app_new U FT AT k (SlTok t) w)).
  { intros t. unfold nested. split; intros H; [apply fine_bind_inv in H as (? & ? & E & _); eexists _, _; exact E|].
    apply fine_bind; [easy|intros; apply fine_ret]. }
  (* branches of the data *)
  assert (BR : forall d dl l2 bs b, parse_inner U FT n data w = (l2, Ok d) -> Canon d dl -> TameData dl -> Branches dl bs -> In b bs ->
    (forall t, Nested b t -> AsciiS t -> SafeApp U FT AT t -> ~ NF b) /\
    (forall t, Nested b t -> AsciiS t -> AppFails U FT AT t -> NF b) /\
    ((forall v, b <> [Va v]) -> NoName b -> NF b) /\
    ((forall v, b <> [Va v]) -> NoName b \/ exists t, Nested b t /\ (AsciiS t -> ~ OddApp U FT AT t -> SafeApp U FT AT t \/ AppFails U FT AT t))).
  { intros d dl l2 bs b Ep HCd HT HB Hin. destruct (branch_info s w l n data l2 d dl bs b Es Ep HCd HT HB Hin) as (t & Ct & Tt & Hn).
    assert (EQ : forall s', lc 63 (TS s') = lc 63 t -> (forall w, split_app U t w = split_app U (TS s') w) ->
      (need (SlTok (TS s')) <= k)%nat /\ app_new U FT AT k (SlTok t) w = app_new U FT AT k (SlTok (TS s')) w).
    { intros s' El Esp. cbn [need] in Hn. split; [cbn [need]; rewrite El; lia|]. destruct k as [|k']; [lia|]. cbn [app_new]. now rewrite Esp. }
    assert (NT : NF b <-> ~ fine (app_new U FT AT k (SlTok t) w)).
    { rewrite <- NE. destruct (HN t b Ct); tauto. }
    assert (Nv : forall t, Nested b t -> forall v, b <> [Va v]) by (intros t' Hnt v ->; now apply nested_alone in Hnt).
    split; [|split; [|split]].
    - intros t' Hnt HAt Hs. destruct (split_nested t b Ct Tt (Nv _ Hnt)) as [(s' & Hs' & El & Esp)|[Hno _]]; [|now apply nested_named in Hnt].
      rewrite (nested_fun _ _ _ Hnt Hs') in *. destruct (EQ s' El Esp) as [Hle Eq]. rewrite NT, Eq. intros H. apply H. now apply IH.
    - intros t' Hnt HAt Hs. destruct (split_nested t b Ct Tt (Nv _ Hnt)) as [(s' & Hs' & El & Esp)|[Hno _]]; [|now apply nested_named in Hnt].
      rewrite (nested_fun _ _ _ Hnt Hs') in *. destruct (EQ s' El Esp) as [Hle Eq]. rewrite NT, Eq. now apply IH.
    - intros Hv Hno. destruct (split_nested t b Ct Tt Hv) as [(s' & Hs' & El & Esp)|[_ Hf]]; [now apply nested_named in Hs'|].
      rewrite NT. destruct k as [|k']; [cbn [need] in Hn; lia|]. cbn [app_new]. intros H. apply fine_bind_inv in H as (? & ? & E & _). apply (Hf w). eexists _, _; exact E.
    - intros Hv. destruct (split_nested t b Ct Tt Hv) as [(s' & Hs' & El & Esp)|[Hno _]]; [|now left].
      right. exists s'. split; [easy|]. intros HAt HO. destruct (EQ s' El Esp) as [Hle _]. destruct (IH s' w Hle HAt) as (_ & _ & H). now apply H. }
  split; [|split].
  - intros HS.
    assert (G : exists dl, DataOf U FT data dl /\ (a_kind a = ASet -> ~ ByName dl) /\
      (forall d l2, parse_inner U FT n data w = (l2, Ok d) -> Canon d dl -> TameData dl -> ~ CallFails U FT NF dl (a_kind a))).
    { destruct HS as [Hnl|n' data' a' dl HC' Ha' HD Hk' Hb Hc|n' data' a' dl bs HC' Ha' HD Hk' HB Hbs|n' data' a' dl x c HC' Ha' HD Hk' H1 H2].
      - now apply called_nameless in HC.
      - destruct (called_fun _ _ _ _ _ HC HC') as [<- <-]. rewrite (appof_fun _ _ _ Ha Ha') in *. exists dl. split; [easy|]. split; [easy|].
        intros _ _ _ _ _ H. apply Hc. now apply (calls_other NF).
      - destruct (called_fun _ _ _ _ _ HC HC') as [<- <-]. rewrite (appof_fun _ _ _ Ha Ha') in *. exists dl. split; [easy|]. split; [now rewrite Hk'|].
        intros d l2 Ep HCd HT H. rewrite Hk' in H. inversion H as [| | |bs' b H1 H2 H3|x c y more H1 H2].
        + rewrite (Branches_fun _ _ _ H1 HB) in H2. destruct (Hbs b H2) as (t & Ht & HAt & Hst).
          destruct (BR _ _ _ _ _ Ep HCd HT HB H2) as (B1 & _). now apply (B1 t Ht HAt Hst).
        + rewrite <- (Canon_elems _ _ HCd) in HB, H1. now apply (one_branch _ _ _ HB H1).
      - destruct (called_fun _ _ _ _ _ HC HC') as [<- <-]. rewrite (appof_fun _ _ _ Ha Ha') in *. exists dl. split; [easy|]. split; [now rewrite Hk'|].
        intros d l2 Ep HCd HT H. rewrite Hk' in H. inversion H as [| | |bs' b G1 G2 G3|x' c' y more G1 G2].
        + rewrite <- (Canon_elems _ _ HCd) in H1, G1. now apply (one_branch _ _ _ G1 H1).
        + pose proof (Separated_fun _ _ _ _ H2 G2) as E. discriminate E. }
    destruct G as (dl & HD & Hb & Hc). destruct (inner_exact n data w Hdata (data_noodd _ _ HD)) as [(dl' & d & l2 & HD' & Ep & HCd & HT)|[H _]]; [|now apply (data_nobreak _ _ HD) in H].
    rewrite (data_fun _ _ _ HD' HD) in *. rewrite Ep. apply fine_bind; [now eexists _, _|]. intros ? ? [= <- <-].
    destruct (app_call_exact U FT HUF nested NF HN HL a d dl w HCd HT Hb) as [[H _]|[_ H]]; [easy|]. now apply (Hc _ _ Ep HCd HT) in H.
  - intros HF. inversion HF as [s' n' data' HC' HB|s' n' data' a' dl HC' Ha' HD Hb Hk' Hc|s' n' data' a' dl HC' Ha' HD Hk' Hc]; subst s';
      destruct (called_fun _ _ _ _ _ HC HC') as [<- <-].
    + destruct (inner_exact n data w Hdata (breaks_noodd _ HB)) as [(dl' & d & l2 & HD' & Ep & HCd & HT)|[_ H]]; [now apply (data_nobreak _ _ HD') in HB|].
      intros G. apply fine_bind_inv in G as (? & ? & E & _). apply H. eexists _, _; exact E.
    + rewrite (appof_fun _ _ _ Ha Ha') in *.
      destruct (inner_exact n data w Hdata (data_noodd _ _ HD)) as [(dl' & d & l2 & HD' & Ep & HCd & HT)|[H _]]; [|now apply (data_nobreak _ _ HD) in H].
      rewrite (data_fun _ _ _ HD' HD) in *. rewrite Ep. intros H. apply fine_bind_inv in H as (? & ? & [= <- <-] & H).
      destruct (app_call_exact U FT HUF nested NF HN HL a' d dl w HCd HT Hb) as [[_ H1]|[H1 _]]; [|easy]. apply H1. now apply (calls_other (fun _ => False)).
    + rewrite (appof_fun _ _ _ Ha Ha') in *.
      destruct (inner_exact n data w Hdata (data_noodd _ _ HD)) as [(dl' & d & l2 & HD' & Ep & HCd & HT)|[H _]]; [|now apply (data_nobreak _ _ HD) in H].
      rewrite (data_fun _ _ _ HD' HD) in *. rewrite Ep. intros H. apply fine_bind_inv in H as (? & ? & [= <- <-] & H).
      destruct (app_call_exact U FT HUF nested NF HN HL a' d dl w HCd HT ltac:(now rewrite Hk')) as [[_ H1]|[H1 _]]; [|easy]. apply H1. rewrite Hk'.
      eapply calls_ext; [|exact Hc]. intros bs b HBr Hin Hnf. destruct (BR _ _ _ _ _ Ep HCd HT HBr Hin) as (_ & B2 & B3 & _).
      inversion Hnf as [b' Hv Hno|b' t Ht HAt Hft]; subst; [now apply B3|now apply (B2 t)].
  - intros HO. assert (HOd : ~ First U FT (Odd U FT) data) by (intros H; apply HO; eapply Oa_data; eassumption).
    destruct (inner_exact n data w Hdata HOd) as [(dl & d & l2 & HD & Ep & HCd & HT)|[H _]]; [|right; eapply Ax_data; eassumption].
    assert (Hb : a_kind a = ASet -> ~ ByName dl) by (intros Hk' H; apply HO; eapply Oa_set; eassumption).
    destruct (app_call_exact U FT HUF nested NF HN HL a d dl w HCd HT Hb) as [[_ H]|[_ H]].
    + left. destruct (akind_eq_execif (a_kind a)) as [Hk'|Hk'].
      * pose proof (Canon_elems _ _ HCd) as El.
        destruct (branches_dec d) as [[bs HB]|HNo]; rewrite ?El in *.
        -- eapply Sa_execif; try eassumption. intros b Hin.
           assert (Hv : forall v, b <> [Va v]) by (intros v ->; apply HO; eapply Oa_branch; eassumption).
           assert (Hnf : ~ NF b) by (intros Hnf; apply H; rewrite Hk'; eapply Cf_execif; eassumption).
           destruct (BR _ _ _ _ _ Ep HCd HT HB Hin) as (_ & B2 & B3 & B4). destruct (B4 Hv) as [Hno|(t & Ht & B5)]; [now apply B3 in Hno|].
           assert (HOt : ~ OddApp U FT AT t) by (intros G; apply HO; eapply Oa_nested; eassumption).
           assert (HAt : AsciiS t) by (destruct (ascii_dec t) as [G|G]; [easy|exfalso; apply HOt; now constructor]).
           exists t. split; [easy|]. split; [easy|]. destruct (B5 HAt HOt) as [G|G]; [easy|]. now apply (B2 t Ht HAt) in G.
        -- destruct (no_branches d) as [x Hx]; [now rewrite El|]. rewrite El in Hx.
           assert (HS : Separated 44 (elems d) (map elems (separate_args (SlTok d) 44 false))) by (apply (separate_Separated d 44), delim_ok; cbn; auto).
           rewrite El in HS. pose proof (separate_ne (SlTok d) 44 false) as Hne.
           destruct (separate_args (SlTok d) 44 false) as [|c [|y more]]; [easy|eapply Sa_execif_cond; eassumption|].
           exfalso. apply H. rewrite Hk'. eapply Cf_execif_old; [exact Hx|exact HS].
      * eapply Sa_call; try eassumption. intros G. apply H. now apply (calls_other (fun _ => False)).
    + right. destruct (akind_eq_execif (a_kind a)) as [Hk'|Hk'].
      * eapply Ax_execif; try eassumption. rewrite Hk' in H. eapply calls_ext; [|exact H]. intros bs b HBr Hin Hnf.
        assert (Hv : forall v, b <> [Va v]) by (intros v ->; apply HO; eapply Oa_branch; eassumption).
        destruct (BR _ _ _ _ _ Ep HCd HT HBr Hin) as (B1 & _ & _ & B4). destruct (B4 Hv) as [Hno|(t & Ht & B5)]; [now constructor|].
        assert (HOt : ~ OddApp U FT AT t) by (intros G; apply HO; eapply Oa_nested; eassumption).
        assert (HAt : AsciiS t) by (destruct (ascii_dec t) as [G|G]; [easy|exfalso; apply HOt; now constructor]).
        eapply Nf_app; [exact Ht|exact HAt|]. destruct (B5 HAt HOt) as [G|G]; [|easy]. now apply (B1 t Ht HAt) in G.
      * eapply Ax_call; try eassumption. now apply (calls_other NF).
Qed.
End Tables.
