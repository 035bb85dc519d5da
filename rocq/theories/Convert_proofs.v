(* Proofs about the rewriting of ExecIf (C56). *)
From Verif Require Import Base PyStr Utf8 Utf8_proofs Defines Var VarFun AppM Spec_Var Spec_App Spec_Args Var_proofs VarFun_proofs
  Balance_proofs Round_proofs App_proofs Tok_proofs AppT_proofs Loader_proofs Args_proofs
  Mutator Spec_Mutator Mutator_proofs Convert Spec_Convert.

Lemma text_iff l s : Text l s <-> etext l = Ok s.
Proof.
  split.
  - induction 1 as [|c l s _ IH|t l a s E _ IH]; cbn [etext]; [easy|now rewrite IH|now rewrite E, IH].
  - revert s. induction l as [|[c|t] l IH]; intros s H; cbn [etext] in H.
    + injection H as <-. constructor.
    + destruct (etext l) as [x| |]; cbn [bind] in H; try easy. injection H as <-. constructor. now apply IH.
    + destruct (str_of t) as [a| |] eqn:E; cbn [bind] in H; try easy. destruct (etext l) as [x| |]; cbn [bind] in H; try easy.
      injection H as <-. constructor; [easy|now apply IH].
Qed.

Lemma strs_glue l s : etext (glue 44 (map elems l)) = Ok s -> exists ss, strs_of l = Ok ss /\ join [44] ss = s.
Proof.
  revert s. induction l as [|x l IH]; intros s H.
  - injection H as <-. exists []. now split.
  - destruct l as [|y l].
    + cbn [map glue] in H. rewrite <- str_of_elems in H. exists [s]. cbn [strs_of]. rewrite H. now cbn.
    + cbn [map] in H. rewrite glue_cons in H by easy. apply etext_app_ok in H as (a & b & Ha & Hb & ->).
      apply etext_cons_ok in Hb as (b' & Hb & ->). apply IH in Hb as (ss & E & <-). exists (a :: ss).
      cbn [strs_of]. rewrite <- str_of_elems in Ha. rewrite Ha. cbn [bind]. cbn [strs_of] in E. rewrite E. cbn [bind]. split; [easy|].
      destruct ss as [|z ss]; [|easy]. exfalso. clear -E. destruct (str_of y); cbn [bind] in E; try easy.
      destruct (strs_of l); cbn [bind] in E; easy.
Qed.

(* ---- which data is old-style ---- *)
Lemma issue_parts app data i : issue_of app data = Some i ->
  exists c a more, separate_args (SlTok data) 44 false = c :: a :: more /\ i = IfIssue app data c (a :: more) /\
    exists x, separate_args (SlTok data) 63 true = [x].
Proof.
  unfold issue_of. destruct (separate_args (SlTok data) 63 true) as [|x [|y more]] eqn:E; [|  |easy].
  - exfalso. now apply (separate_ne (SlTok data) 63 true).
  - destruct (separate_args (SlTok data) 44 false) as [|c [|a more]]; try easy. intros [= <-]. exists c, a, more. eauto.
Qed.

Lemma issue_iff app data : issue_of app data <> None <-> OldStyle (elems data).
Proof.
  pose proof (args_of data 63 (delim_ok 63 ltac:(cbn; auto))) as HA.
  pose proof (separate_Separated data 44 (delim_ok 44 ltac:(cbn; auto))) as HS. split.
  - intros H. destruct (issue_of app data) as [i|] eqn:E; [|easy]. apply issue_parts in E as (c & a & more & E & _ & x & Ex).
    rewrite Ex in HA. rewrite E in HS. split; [now exists (elems x)|]. now exists (elems c), (elems a), (map elems more).
  - intros ((x & Hx) & c & a & more & Hc). pose proof (Args_fun _ _ _ _ Hx HA) as E. pose proof (Separated_fun _ _ _ _ Hc HS) as E2.
    unfold issue_of. destruct (separate_args (SlTok data) 63 true) as [|? [|? ?]]; try easy.
    destruct (separate_args (SlTok data) 44 false) as [|? [|? ?]]; easy.
Qed.

Lemma complains_app a b : Complains (a ++ b) <-> Complains a \/ Complains b.
Proof.
  unfold Complains. split.
  - intros (m & H & E). apply in_app_or in H as [H|H]; eauto.
  - intros [(m & H & E)|(m & H & E)]; exists m; (split; [apply in_or_app; auto|easy]).
Qed.
Lemma complains_say c w args : Complains (say c w args) <-> c = E_APP_ARG_IFSTYLE.
Proof.
  unfold Complains, say. split.
  - intros (m & [H|[]] & E). injection H as <-. now cbn in E.
  - intros ->. eexists. split; [now left|easy].
Qed.
Lemma complains_iff name data w l x : if_args name data w = (l, Ok x) -> Complains l <-> OldStyle (elems data).
Proof.
  destruct x as [[c t] f]. intros H. apply if_report in H as (cl & _ & R). inversion R as [c0 l1 l2 HS _ HE]; subst.
  assert (~ Complains l2) as N.
  { destruct HE as [[_ ->]|[_ ->]]; [intros (m & [] & _)|]. rewrite complains_say. discriminate. }
  rewrite complains_app. assert (Complains l1 <-> OldStyle (elems data)) as <-; [|tauto]. clear R HE N.
  destruct HS as [c1 act HA|c1 act x more HA|x c1 HA HS|x c1 t0 y more ts HA HS _ _]; try rewrite complains_say.
  - split; [intros (m & [] & _)|]. intros ((x & Hx) & _). pose proof (Args_fun _ _ _ _ Hx HA). discriminate.
  - split; [discriminate|]. intros ((y & Hy) & _). pose proof (Args_fun _ _ _ _ Hy HA). discriminate.
  - split; [discriminate|]. intros (_ & c2 & a & more & Hc). pose proof (Separated_fun _ _ _ _ Hc HS). discriminate.
  - split; [|easy]. intros _. split; [now exists x|]. now exists c1, y, more.
Qed.

(* ---- the new form is not ---- *)
Lemma new_form dl dl' : NewForm dl dl' -> forall x, ~ Args 63 dl' [x].
Proof.
  intros (c & a & more & (NE & G & T) & ->) x (raws & (NE' & G' & T') & HU).
  inversion HU as [|r ? rs ? _ HR]; subst. inversion HR; subst. cbn [glue] in G'.
  assert (TopLevel 44 c) as TL.
  { apply (T c (glue 44 (a :: more))).
    - now rewrite glue_cons.
    - exists [c], (a :: more). repeat split; easy. }
  assert (TopLevel 63 c) as TL'.
  { destruct TL as [T1 T2]. split; [easy|]. intros b Hb. destruct (T2 b Hb) as (A & B & C). repeat split; try easy.
    intros _. now apply C. }
  apply (T' c _ eq_refl) in TL' as (p & q & Hp & Hq & E & _). destruct p as [|y p]; [easy|].
  apply (f_equal (@tl _)) in E. cbn [tl app] in E. symmetry in E. now apply app_eq_nil in E as [_ E].
Qed.
Lemma fixed name dl data' w l x : NewForm dl (elems data') -> if_args name data' w = (l, Ok x) -> ~ Complains l.
Proof. intros N H C. apply (complains_iff _ _ _ _ _ H) in C as ((y & Hy) & _). now apply (new_form _ _ N y). Qed.

(* ---- the line ---- *)
Lemma text_length_app a b s : Text (a ++ b) s -> exists x y, Text a x /\ Text b y /\ s = x ++ y.
Proof. rewrite text_iff. intros H. apply etext_app_ok in H as (x & y & Hx & Hy & ->). exists x, y. now rewrite !text_iff. Qed.
Lemma text_ch c b s : Text (Ch c :: b) s -> exists y, Text b y /\ s = c :: y.
Proof. rewrite text_iff. intros H. apply etext_cons_ok in H as (y & Hy & ->). exists y. now rewrite text_iff. Qed.
Lemma text_fun l a b : Text l a -> Text l b -> a = b.
Proof. rewrite !text_iff. congruence. Qed.

Lemma texts_differ dl dl' old new : NewForm dl dl' -> Text dl old -> Text dl' new -> old <> [] /\ (length old < length new)%nat.
Proof.
  intros (c & a & more & (_ & <- & _) & ->) H1 H2. rewrite glue_cons in H1 by easy.
  apply text_length_app in H1 as (tc & r & Hc & Hr & ->). apply text_ch in Hr as (ta & Ha & ->).
  apply text_length_app in H2 as (tc' & r' & Hc' & Hr' & ->). rewrite (text_fun _ _ _ Hc' Hc) in *. clear tc' Hc'.
  apply text_ch in Hr' as (r2 & Hr2 & ->). apply text_length_app in Hr2 as (tb & r3 & Hb & Hr3 & ->).
  apply text_ch in Hr3 as (r4 & Hr4 & ->). apply text_length_app in Hr4 as (r5 & r6 & Hr5 & Hr6 & ->).
  apply text_ch in Hr6 as (r7 & Hr7 & ->). split; [now destruct tc|].
  destruct more as [|m more].
  - cbn [glue] in Ha. rewrite (text_fun _ _ _ Ha Hb). rewrite !app_length. cbn [length]. rewrite !app_length. cbn [length]. lia.
  - rewrite glue_cons in Ha by easy. apply text_length_app in Ha as (x & y & Hx & Hy & ->). rewrite (text_fun _ _ _ Hx Hb).
    apply text_ch in Hy as (z & Hz & ->). rewrite (text_fun _ _ _ Hz Hr5).
    repeat (rewrite !app_length; cbn [length]). lia.
Qed.

Lemma line_rewritten data i dl' old new ob nb line :
  issue_of (L "ExecIf") data = Some i -> NewForm (elems data) dl' -> Text (elems data) old -> Text dl' new ->
  utf8_encode old = Ok ob -> utf8_encode new = Ok nb ->
  (exists line', cv_issue i line = ([line'], Ok tt) /\ Rewritten ob nb line line') \/
  ((forall a b, line <> a ++ ob ++ b) /\ cv_issue i line = ([], Exn AssertionError)).
Proof.
  intros HI N TO TN EO EN. destruct (texts_differ _ _ _ _ N TO TN) as [NE LT].
  apply issue_parts in HI as (c & a & more & ES & -> & _). destruct N as (c' & a' & more' & HS & ->).
  pose proof (separate_Separated data 44 (delim_ok 44 ltac:(cbn; auto))) as HS'. rewrite ES in HS'.
  pose proof (Separated_fun _ _ _ _ HS HS') as E. cbn [map] in E. injection E as -> -> ->. clear HS HS'.
  unfold cv_issue. cbn [ii_app ii_args ii_data ii_cond]. rewrite str_eqb_refl.
  apply text_length_app in TN as (tc & r & Hc & Hr & ->). apply text_ch in Hr as (r2 & Hr2 & ->).
  apply text_length_app in Hr2 as (ta & r3 & Ha & Hr3 & ->). apply text_ch in Hr3 as (r4 & Hr4 & ->).
  apply text_length_app in Hr4 as (tm & r6 & Hm & Hr6 & ->). apply text_ch in Hr6 as (r7 & Hr7 & ->).
  inversion Hr7; subst. rewrite text_iff in Hm. apply strs_glue in Hm as (ss & Es & Ej). subst tm.
  rewrite text_iff, <- str_of_elems in Hc, Ha, TO.
  unfold cv_line. rewrite Ha, Es, TO. cbn [bind]. rewrite EO. cbn [bind]. rewrite Hc. cbn [bind app] in *. rewrite EN. cbn [bind].
  assert (ob <> []) as OE.
  { intros ->. apply utf8_decode_encode in EO. cbn in EO. injection EO as <-. easy. }
  assert (ob <> nb) as ON.
  { intros <-. apply utf8_decode_encode in EO. apply utf8_decode_encode in EN. rewrite EO in EN. injection EN as ->. lia. }
  replace (match ob with [] => nb ++ line | _ :: _ => replace_first ob nb line end) with (replace_first ob nb line) by (now destruct ob).
  destruct (replace_first_spec ob nb line OE) as [(x & y & F & ->)|[F ->]].
  - left. exists (x ++ nb ++ y). split; [|now exists x, y]. destruct F as [-> F].
    destruct (str_eqb_spec (x ++ ob ++ y) (x ++ nb ++ y)) as [E|E]; [|easy]. exfalso.
    apply app_inv_head, app_inv_tail in E. easy.
  - right. split; [easy|]. now rewrite str_eqb_refl.
Qed.

(* All or nothing. *)
Lemma one_piece i line out r : cv_issue i line = (out, r) -> (exists b, out = [b] /\ r = Ok tt) \/ (out = [] /\ r <> Ok tt).
Proof.
  unfold cv_issue. destruct (str_eqb (ii_app i) (L "ExecIf")).
  - destruct (ii_args i); [intros [= <- <-]; now right|]. destruct (cv_line _ _ _ _ _); intros [= <- <-]; [left; eauto|now right|now right].
  - intros [= <- <-]. now right.
Qed.
Lemma other_app i line : ii_app i <> L "ExecIf" -> cv_issue i line = ([], Exn NotImplementedError).
Proof. intros H. unfold cv_issue. now destruct (str_eqb_spec (ii_app i) (L "ExecIf")). Qed.
