(* Proofs for C58: conditions, counts and jumps of applications. *)
From Coq Require Import ZifyBool ZifyN ZifyNat.
From Verif Require Import Base PyStr Defines Var VarFun AppM Spec_Var Spec_VarFun Spec_App Spec_Args Spec_Crash Spec_Subst Spec_Line
  Var_proofs VarFun_proofs Balance_proofs Round_proofs App_proofs AppT_proofs Tok_proofs Args_proofs Crash_proofs CrashA_proofs Subst_proofs SubstF_proofs.

(* ---- messages ---- *)
Definition Printable (a : arg) : Prop := forall s r, a = AObj s r -> exists x, s = Ok x.
Lemma arg_printable a : arg_ok false a = Ok tt <-> Printable a.
Proof.
  unfold Printable. destruct a as [s|z| |s r| |]; cbn [arg_ok]; try (split; [easy|easy]). destruct s as [x|e|]; cbn [bind]; split; try easy.
  - intros _ s0 r0 [= <- _]. eauto.
  - intros H. destruct (H _ _ eq_refl). discriminate.
  - intros H. destruct (H _ _ eq_refl). discriminate.
Qed.

Lemma emit_iff c w args l : mdupe c = false -> memit c w args = (l, Ok tt) <-> l = say c w args /\ format_ok (mfields c) args = Ok tt.
Proof.
  intros Hd. unfold memit, mw, emit. rewrite Hd. cbn [fst snd map]. destruct (format_ok (mfields c) args) as [[]|e|]; (split; [intros [= <-]|intros [-> H]]; easy).
Qed.

Section Shown.
Variable w : loc.
Lemma shown_app l m : Shown (l ++ m) <-> Shown l /\ Shown m.
Proof.
  unfold Shown. split.
  - intros H. split; intros c w' p args k s r Hi; apply (H c w' p args k s r); apply in_app_iff; auto.
  - intros [H1 H2] c w' p args k s r Hi. apply in_app_iff in Hi as [Hi|Hi]; eauto.
Qed.
Lemma shown_nil : Shown []. Proof. now intros ? ? ? ? ? ? ? []. Qed.
Lemma shown_other c args : ~ In c [E_APP_ARG_IFCONST; E_APP_ARG_IFEMPTY; E_APP_ARG_IFSTYLE] -> Shown (say c w args).
Proof. intros Hc c' w' p args' k s r [[= <- <- <- <-]|[]]. easy. Qed.

Lemma style_shown n a b m : Shown (say E_APP_ARG_IFSTYLE w [(L "app", AStr n); (L "data", a); (L "cond", b); (L "args", larg m)]) <-> Printable a /\ Printable b.
Proof.
  split.
  - intros H. split; intros s r ->; [refine (H _ _ _ _ (L "data") s r (or_introl eq_refl) _ _ _)|refine (H _ _ _ _ (L "cond") s r (or_introl eq_refl) _ _ _)]; cbn [In]; auto 6.
  - intros [Ha Hb] c w' p args k s r [[= <- <- <- <-]|[]] _ Hk Hi.
    assert (X : L "args" <> L "data" /\ L "args" <> L "cond") by (split; vm_compute; discriminate).
    cbn [In] in Hi. destruct Hi as [Hi|[Hi|[Hi|[Hi|[]]]]].
    + apply (f_equal snd) in Hi. discriminate Hi.
    + apply (f_equal snd) in Hi. now apply (Ha s r).
    + apply (f_equal snd) in Hi. now apply (Hb s r).
    + apply (f_equal fst) in Hi. cbn [fst] in Hi. subst k. destruct X as [X1 X2]. destruct Hk as [Hk|[Hk|[]]]; [now symmetry in Hk|now symmetry in Hk].
Qed.
Lemma const_shown n a b : Shown (say E_APP_ARG_IFCONST w [(L "app", AStr n); (L "data", a); (L "cond", b)]) <-> Printable a /\ Printable b.
Proof.
  split.
  - intros H. split; intros s r ->; [refine (H _ _ _ _ (L "data") s r (or_introl eq_refl) _ _ _)|refine (H _ _ _ _ (L "cond") s r (or_introl eq_refl) _ _ _)]; cbn [In]; auto 6.
  - intros [Ha Hb] c w' p args k s r [[= <- <- <- <-]|[]] _ Hk Hi.
    cbn [In] in Hi. destruct Hi as [Hi|[Hi|[Hi|[]]]]; apply (f_equal snd) in Hi; [discriminate Hi|now apply (Ha s r)|now apply (Hb s r)].
Qed.
Lemma empty_shown n a : Shown (say E_APP_ARG_IFEMPTY w [(L "app", AStr n); (L "data", a)]) <-> Printable a.
Proof.
  split.
  - intros H s r ->. refine (H _ _ _ _ (L "data") s r (or_introl eq_refl) _ _ _); cbn [In]; auto 6.
  - intros Ha c w' p args k s r [[= <- <- <- <-]|[]] _ Hk Hi.
    cbn [In] in Hi. destruct Hi as [Hi|[Hi|[]]]; apply (f_equal snd) in Hi; [discriminate Hi|now apply (Ha s r)].
Qed.
Lemma style_emit n a b m l : memit E_APP_ARG_IFSTYLE w [(L "app", AStr n); (L "data", a); (L "cond", b); (L "args", larg m)] = (l, Ok tt) <->
  l = say E_APP_ARG_IFSTYLE w [(L "app", AStr n); (L "data", a); (L "cond", b); (L "args", larg m)] /\ Shown l.
Proof.
  rewrite emit_iff by easy. assert (E : format_ok (mfields E_APP_ARG_IFSTYLE) [(L "app", AStr n); (L "data", a); (L "cond", b); (L "args", larg m)] =
    (let! _ := arg_ok false a in arg_ok false b)) by (destruct a as [|?| |[] ?| |]; destruct b as [|?| |[] ?| |]; reflexivity).
  rewrite E. split; intros [-> H]; (split; [easy|]).
  - apply style_shown. rewrite <- !arg_printable. destruct (arg_ok false a) as [[]|e|]; cbn [bind] in H; try easy.
  - apply style_shown in H. rewrite <- !arg_printable in H. destruct H as [-> H]. exact H.
Qed.
Lemma const_emit n a b l : memit E_APP_ARG_IFCONST w [(L "app", AStr n); (L "data", a); (L "cond", b)] = (l, Ok tt) <->
  l = say E_APP_ARG_IFCONST w [(L "app", AStr n); (L "data", a); (L "cond", b)] /\ Shown l.
Proof.
  rewrite emit_iff by easy. assert (E : format_ok (mfields E_APP_ARG_IFCONST) [(L "app", AStr n); (L "data", a); (L "cond", b)] =
    (let! _ := arg_ok false a in arg_ok false b)) by (destruct a as [|?| |[] ?| |]; destruct b as [|?| |[] ?| |]; reflexivity).
  rewrite E. split; intros [-> H]; (split; [easy|]).
  - apply const_shown. rewrite <- !arg_printable. destruct (arg_ok false a) as [[]|e|]; cbn [bind] in H; try easy.
  - apply const_shown in H. rewrite <- !arg_printable in H. destruct H as [-> H]. exact H.
Qed.
Lemma empty_emit n a l : memit E_APP_ARG_IFEMPTY w [(L "app", AStr n); (L "data", a)] = (l, Ok tt) <->
  l = say E_APP_ARG_IFEMPTY w [(L "app", AStr n); (L "data", a)] /\ Shown l.
Proof.
  rewrite emit_iff by easy. assert (E : format_ok (mfields E_APP_ARG_IFEMPTY) [(L "app", AStr n); (L "data", a)] =
    arg_ok false a) by (destruct a as [|?| |[] ?| |]; reflexivity).
  rewrite E. split; intros [-> H]; (split; [easy|]).
  - apply empty_shown. now rewrite <- arg_printable.
  - apply empty_shown in H. now rewrite <- arg_printable in H.
Qed.
Lemma plain_emit c args l : mdupe c = false -> format_ok (mfields c) args = Ok tt -> memit c w args = (l, Ok tt) <-> l = say c w args.
Proof. intros Hd Hf. rewrite emit_iff by easy. now split; [intros [-> _]|intros ->]. Qed.
End Shown.

Ltac fmt := solve [reflexivity | match goal with |- context [targ ?t] => destruct t; reflexivity end].

(* ---- counts, options, pipes ---- *)
Section Reports.
Variable name : str.
Variable w : loc.

Lemma count_fun mn mx args l l' : CountReport name w mn mx args l -> CountReport name w mn mx args l' -> l = l'.
Proof.
  intros H H'. destruct H as [m E H|m H E Hl|H Hl], H' as [m' E' H'|m' H' E' Hl'|H' Hl']; try easy; try congruence; subst mx.
  - specialize (Hl' _ eq_refl). lia.
  - specialize (Hl _ eq_refl). lia.
Qed.
Lemma minmax_iff mn mx args l : minmax name mn mx args w = (l, Ok tt) <-> CountReport name w mn mx (map elems args) l.
Proof.
  split; [apply minmax_report|]. intros H. destruct (fine_minmax name w mn mx args) as (l' & [] & E). rewrite E.
  pose proof (minmax_report name w _ _ _ _ _ E) as H'. now rewrite (count_fun _ _ _ _ _ H H').
Qed.
Lemma pipe_fun data args l l' : PipeReport name w data args l -> PipeReport name w data args l' -> l = l'.
Proof. intros [a E H|H] [a' E' H'|H']; try easy; [now apply H' in H|now apply H in H']. Qed.
Lemma pipe_fine data args : fine (nopipe name data args w).
Proof.
  unfold nopipe. destruct args as [|a [|b r]]; try apply fine_ret. destruct (tin 124 a); [|apply fine_ret].
  eexists _, tt. apply plain_emit; [reflexivity|fmt|reflexivity].
Qed.
Lemma nopipe_iff data args l : nopipe name data args w = (l, Ok tt) <-> PipeReport name w data (map elems args) l.
Proof.
  split; [apply nopipe_report|]. intros H. destruct (pipe_fine data args) as (l' & [] & E). rewrite E.
  pose proof (nopipe_report name w _ _ _ _ E) as H'. now rewrite (pipe_fun _ _ _ _ H H').
Qed.

Lemma opt_fun n l k lg lg' : OptReport name w n l k lg -> OptReport name w n l k lg' -> lg = lg'.
Proof.
  intros H H'. destruct H as [|opts t l1 l2 HC H1 H2|x Hx E|t H HC]; inversion H' as [|opts' t' l1' l2' HC' H1' H2'|x' Hx' E'|t' H0' HC']; subst; try easy.
  - pose proof (Canon_fun _ _ _ HC HC') as <-. f_equal.
    + destruct H1 as [[? ->]|[? ->]], H1' as [[? ->]|[? ->]]; easy.
    + destruct H2 as [[? ->]|[? ->]], H2' as [[? ->]|[? ->]]; easy.
  - now apply H0' in Hx.
  - now apply H in Hx'.
  - now rewrite (Canon_fun _ _ _ HC HC').
Qed.
Lemma opts_fun ks : forall n args l l', OptReports name w n ks args l -> OptReports name w n ks args l' -> l = l'.
Proof.
  induction ks as [|k ks IH]; intros n args l l' H H'; inversion H; subst; inversion H'; subst; try easy. f_equal; [eapply opt_fun; eassumption|eapply IH; eassumption].
Qed.
Lemma opt_fine n k t : fine (validate_arg name n k t w).
Proof.
  unfold validate_arg. destruct k as [|opts|]; [apply fine_ret| |].
  - apply fine_bind.
    + match goal with |- fine (match ?l with _ => _ end) => destruct l end; [apply fine_ret|].
      eexists _, tt. apply plain_emit; [reflexivity|fmt|reflexivity].
    + intros _ _ _. destruct (has_dup _); [|apply fine_ret]. eexists _, tt. apply plain_emit; [reflexivity|fmt|reflexivity].
  - destruct (_ || _); [apply fine_ret|]. eexists _, tt. apply plain_emit; [reflexivity|fmt|reflexivity].
Qed.
Lemma opts_fine ks : forall n args, fine (validate name n ks args w).
Proof.
  induction ks as [|k ks IH]; intros n args; cbn [validate]; [apply fine_ret|]. destruct args as [|a args]; [apply fine_ret|].
  apply fine_bind; [apply opt_fine|]. intros _ _ _. apply IH.
Qed.
Lemma validate_iff ks n args l : Forall2 Canon args (map elems args) ->
  validate name n ks args w = (l, Ok tt) <-> OptReports name w n ks (map elems args) l.
Proof.
  intros HC. split; [now apply validate_report|]. intros H. destruct (opts_fine ks n args) as (l' & [] & E). rewrite E.
  pose proof (validate_report name w _ _ _ _ _ _ HC E) as H'. now rewrite (opts_fun _ _ _ _ _ H H').
Qed.

(* ---- trimming ---- *)
Lemma va_split a : forall v r a' v' r', map Ch a ++ Va v :: r = map Ch a' ++ Va v' :: r' -> a = a' /\ v = v' /\ r = r'.
Proof.
  induction a as [|x a IH]; intros v r [|x' a'] v' r' E; cbn [map app] in E; try discriminate E.
  - injection E as -> ->. easy.
  - injection E as -> E. apply IH in E as (-> & -> & ->). easy.
Qed.
Lemma va_split_end a v r a' v' r' : r ++ Va v :: map Ch a = r' ++ Va v' :: map Ch a' -> a = a' /\ v = v' /\ r = r'.
Proof.
  intros E. apply (f_equal (@rev elem)) in E. rewrite !rev_app_distr in E. cbn [rev] in E. rewrite <- !map_rev, <- !app_assoc in E. cbn [app] in E.
  apply va_split in E as (E1 & -> & E2). split; [|split; [easy|]].
  - rewrite <- (rev_involutive a), E1. apply rev_involutive.
  - rewrite <- (rev_involutive r), E2. apply rev_involutive.
Qed.
Lemma trim_unique a s b a' s' b' : a ++ s ++ b = a' ++ s' ++ b' -> Blank a -> Blank b -> Blank a' -> Blank b' ->
  (forall c r, s = c :: r -> isspace c = false) -> (forall c r, s = r ++ [c] -> isspace c = false) ->
  (forall c r, s' = c :: r -> isspace c = false) -> (forall c r, s' = r ++ [c] -> isspace c = false) -> s = s'.
Proof.
  intros E Ha Hb Ha' Hb' H1 H2 H1' H2'.
  assert (G : forall a s b, Blank a -> Blank b -> (forall c r, s = c :: r -> isspace c = false) -> (forall c r, s = r ++ [c] -> isspace c = false) -> strip_p isspace (a ++ s ++ b) = s).
  { clear. intros a s b Ha Hb H1 H2. unfold strip_p.
    assert (K : lstrip_p isspace (a ++ s ++ b) = lstrip_p isspace (s ++ b)).
    { induction Ha as [|c a Hc _ IH]; [easy|]. cbn [app lstrip_p]. now rewrite Hc. }
    rewrite K. assert (R0 : rstrip_p isspace b = []) by (clear - Hb; induction Hb as [|c q Hc _ IH]; [easy|]; cbn [rstrip_p]; now rewrite IH, Hc).
    assert (R : forall x, rstrip_p isspace (x ++ b) = rstrip_p isspace x).
    { clear - R0. induction x as [|c x IH]; [exact R0|]. cbn [app rstrip_p]. now rewrite IH. }
    destruct s as [|c s].
    - cbn [app]. assert (lstrip_p isspace b = []) as ->; [|easy]. clear - Hb. induction Hb as [|c q Hc _ IH]; [easy|]. cbn [lstrip_p]. now rewrite Hc.
    - cbn [app lstrip_p]. rewrite (H1 _ _ eq_refl). change (c :: s ++ b) with ((c :: s) ++ b). rewrite R.
      clear - H2. induction (c :: s) as [|x q IH]; [easy|]. cbn [rstrip_p]. destruct q as [|y q].
      + cbn [rstrip_p]. now rewrite (H2 x [] eq_refl).
      + rewrite IH; [easy|]. intros z r E. apply (H2 z (x :: r)). now rewrite E. }
  rewrite <- (G a s b), E by easy. now apply G.
Qed.
Lemma map_Ch_inj a b : map Ch a = map Ch b -> a = b.
Proof. revert b. induction a as [|x a IH]; intros [|y b] E; try easy. cbn in E. injection E as <- E. now rewrite (IH _ E). Qed.
Lemma trimmed_fun l m m' : Trimmed l m -> Trimmed l m' -> m = m'.
Proof.
  assert (X : forall s a mid b (v : tok) r, map Ch s = map Ch a ++ mid ++ map Ch b -> mid = Va v :: r -> False).
  { intros s a mid b v r E ->. assert (K : In (Va v) (map Ch s)) by (rewrite E; apply in_app_iff; right; now left). now apply chars_no_va in K. }
  intros H H'. inversion H as [a s b Ha Hb H1 H2 E1|a mid b a' b' v r v' r' Ev Er Ha Hb E1]; subst l m;
    inversion H' as [a2 s2 b2 Ha2 Hb2 H12 H22 E2|a2 mid2 b2 a2' b2' v2 r2 v2' r2' Ev2 Er2 Ha2 Hb2 E2]; subst m'.
  - apply map_Ch_inj in E2. f_equal. symmetry. eapply trim_unique; eassumption.
  - exfalso. eapply X; [symmetry; exact E2|eassumption].
  - exfalso. eapply X; eassumption.
  - rewrite Ev, Ev2 in E2. cbn [app] in E2. apply va_split in E2 as (-> & -> & E2).
    assert (mid = mid2 /\ b = b2) as [<- <-].
    { assert (E3 : mid2 ++ map Ch b2 = mid ++ map Ch b) by (rewrite Ev, Ev2; cbn [app]; now rewrite E2).
      rewrite Er, Er2, <- !app_assoc in E3. cbn [app] in E3. apply va_split_end in E3 as (-> & -> & ->). split; [now rewrite Er, Er2|easy]. }
    f_equal; [|f_equal]; f_equal.
    + destruct Ha as [[? ->]|[? ->]], Ha2 as [[? ->]|[? ->]]; easy.
    + destruct Hb as [[? ->]|[? ->]], Hb2 as [[? ->]|[? ->]]; easy.
Qed.
Lemma vstrip_some t l : Canon t l -> Strippable l -> exists t', vstrip t = Ok t'.
Proof.
  intros HC HS.
 destruct (named_dec t) as [Hn|Hn].
      - assert (l = [Va t]) as -> by (rewrite <- (Canon_elems _ _ HC); now apply elems_named).
        assert (G : forall n, NameIs t n -> truthy n = true).
        { intros n Hi. destruct (truthy n) eqn:Et; [easy|]. exfalso. apply falsy_elems in Et. apply (HS t n eq_refl Hi). rewrite <- Et. apply Flat_elems. }
        destruct Hn as [n|n|n s y|n s y|f n|f n s y]; cbn [vstrip name_of]; try (rewrite (G n) by constructor; eauto);
          (destruct (truthy (vjoin [TS f; TS (L "("); n; TS (L ")")])) eqn:Et; [eauto|]; exfalso; apply falsy_elems in Et; rewrite vjoin_elems in Et;
           cbn [flat_map] in Et; rewrite !elems_str in Et; destruct f; discriminate Et).
      - destruct t as [s|m| | | | | |]; try (exfalso; apply Hn; constructor); [cbn [vstrip]; eauto|]. destruct m as [|x r].
        + exfalso. apply Canon_iff in HC as (m & HP & E). destruct m as [|? [|? ?]]; try discriminate E. cbn in E. subst t. destruct HP as (HF & _). inversion HF as [|? ? [HN|(? & ? & ?)] _]; subst; [inversion HN|discriminate].
        + cbn [vstrip]. destruct (Nat.eqb _ _); [eauto|]. destruct (strip_last _) as [|? [|? ?]]; eauto.
Qed.
Lemma vstrip_iff t l t' : Canon t l -> vstrip t = Ok t' <-> Strippable l /\ exists l', Canon t' l' /\ Trimmed l l'.
Proof.
  intros HC. split.
  - intros H. split; [|now apply (vstrip_trimmed t)]. intros v n -> Hn Hf. apply canon_named_inv in HC as [-> Hv].
    assert (En : name_of v = Some n) by now destruct Hn. assert (Et : truthy n = false) by (apply falsy_elems; symmetry; now apply Flat_fun).
    destruct Hn; cbn [vstrip name_of] in H; rewrite Et in H; discriminate H.
  - intros [HS (l' & HC' & HT)]. assert (exists t'', vstrip t = Ok t'') as [t'' E].
    { eapply vstrip_some; eassumption. }
    rewrite E. destruct (vstrip_trimmed _ _ _ HC E) as (l'' & HC'' & HT'). rewrite (trimmed_fun _ _ _ HT HT') in HC'. f_equal. eapply Canon_fun; eassumption.
Qed.
End Reports.

(* ---- conditions ---- *)
Section Cond.
Variable name : str.
Variable w : loc.

Definition acts (data : tok) : sliced * option tok :=
  match separate_args (SlTok data) 63 true with
  | _ :: act :: _ => match separate_args (SlTok act) 58 false with
                     | t :: f :: _ => (SlTok t, Some f)
                     | [t] => (SlTok t, None)
                     | [] => (SlList [], None)
                     end
  | _ => (SlList (tl (separate_args (SlTok data) 44 false)), None)
  end.

Lemma sep_seps d : In d [44; 58; 63] -> forall t, Separated d (elems t) (map elems (separate_args (SlTok t) d false)).
Proof. intros H t. now apply separate_Separated, delim_ok. Qed.
Lemma sep_args d : In d [44; 58; 63] -> forall t, Args d (elems t) (map elems (separate_args (SlTok t) d true)).
Proof. intros H t. now apply args_of, delim_ok. Qed.
Lemma in44 : In 44 [44; 58; 63]. Proof. cbn; auto. Qed.
Lemma in58 : In 58 [44; 58; 63]. Proof. cbn; auto. Qed.
Lemma in63 : In 63 [44; 58; 63]. Proof. cbn; auto. Qed.

Definition if1 (data : tok) : M (tok * sliced * option tok) :=
  match separate_args (SlTok data) 63 true with
            | c :: act :: more =>
              do* _ <- (match more with
                        | [] => mret tt
                        | _ => memit E_APP_ARG_MANY w [(L "app", AStr name); (L "data", targ data); (L "max_args", zn 2)]
                        end);
              match separate_args (SlTok act) 58 false with
              | t :: f :: _ => mret (c, SlTok t, Some f)
              | [t] => mret (c, SlTok t, None)
              | [] => mexn AssertionError
              end
            | _ =>
              match separate_args (SlTok data) 44 false with
              | c :: more =>
                do* _ <- (match more with
                          | [] => memit E_APP_ARG_FEW w [(L "app", AStr name); (L "data", targ data); (L "min_args", zn 2)]
                          | _ => memit E_APP_ARG_IFSTYLE w
                                   [(L "app", AStr name); (L "data", targ data); (L "cond", targ c); (L "args", larg more)]
                          end);
                mret (c, SlList more, None)
              | [] => mexn IndexError
              end
            end.
Lemma bind_tt {A} (m : M unit) (x : A) l y : (do* _ <- m; mret x) = (l, Ok y) <-> m = (l, Ok tt) /\ x = y.
Proof.
  rewrite bind_eq. split.
  - intros (l1 & [] & l2 & H & H' & ->). unfold mret in H'. injection H' as <- <-. now rewrite app_nil_r.
  - intros [H <-]. exists l, tt, []. now rewrite app_nil_r.
Qed.
Lemma canons_fun l ts us : Forall2 Canon ts l -> Forall2 Canon us l -> ts = us.
Proof.
  intros H. revert us. induction H as [|t e ts l Ht H IH]; intros us Hu; inversion Hu as [|u e' us' l' Hu1 Hu2]; subst; [easy|].
  f_equal; [eapply Canon_fun; eassumption|now apply IH].
Qed.
Lemma if1_iff data l c t f : if1 data = (l, Ok (c, t, f)) <->
  (t, f) = acts data /\ Canon c (elems c) /\ IfSplit name w data (elems data) (elems c) l /\ Shown l.
Proof.
  unfold if1, acts.
  pose proof (sep_args 63 in63 data) as HA. pose proof (sep_seps 44 in44 data) as HS.
  pose proof (separate_canon data 63 true) as HC. pose proof (separate_canon data 44 false) as HC'.
  assert (K : forall x, separate_args (SlTok data) 63 true = [x] ->
     match separate_args (SlTok data) 44 false with
              | c :: more =>
                do* _ <- (match more with
                          | [] => memit E_APP_ARG_FEW w [(L "app", AStr name); (L "data", targ data); (L "min_args", zn 2)]
                          | _ => memit E_APP_ARG_IFSTYLE w
                                   [(L "app", AStr name); (L "data", targ data); (L "cond", targ c); (L "args", larg more)]
                          end);
                mret (c, SlList more, None)
              | [] => mexn IndexError
              end = (l, Ok (c, t, f)) <-> (t, f) = (SlList (tl (separate_args (SlTok data) 44 false)), None) /\
              Canon c (elems c) /\ IfSplit name w data (elems data) (elems c) l /\ Shown l).
  { intros x Ex. rewrite Ex in HA. destruct (separate_args (SlTok data) 44 false) as [|y more] eqn:Ey; [now apply separate_ne in Ey|].
    cbn [tl]. rewrite bind_tt. inversion HC' as [|? ? ? ? Hy Hm]; subst. destruct more as [|z more].
    - rewrite plain_emit by (reflexivity || fmt). split.
      + intros [-> [= <- <- <-]]. repeat (split; [easy|]). split; [eapply Is_none; eassumption|]. apply shown_other. cbn. intuition discriminate.
      + intros ([= -> ->] & Hc & HI & _). inversion HI as [c' act HA'|c' act x' m HA'|x' c' HA' HS'|x' c' t' y' m ts HA' HS' Ht' Hts]; subst.
        * pose proof (Args_fun _ _ _ _ HA HA'). discriminate.
        * pose proof (Args_fun _ _ _ _ HA HA'). discriminate.
        * pose proof (Separated_fun _ _ _ _ HS HS') as [= E]. rewrite <- E in Hc. now rewrite (Canon_fun _ _ _ Hy Hc).
        * pose proof (Separated_fun _ _ _ _ HS HS'). discriminate.
    - rewrite style_emit. split.
      + intros [[-> Hsh] [= <- <- <-]]. repeat (split; [easy|]). split; [|easy]. cbn [map] in HS, HA. exact (Is_comma _ _ _ _ _ _ _ _ _ _ HA HS Hy Hm).
      + intros ([= -> ->] & Hc & HI & Hsh). inversion HI as [c' act HA'|c' act x' m HA'|x' c' HA' HS'|x' c' t' y' m ts HA' HS' Ht' Hts]; subst.
        * pose proof (Args_fun _ _ _ _ HA HA'). discriminate.
        * pose proof (Args_fun _ _ _ _ HA HA'). discriminate.
        * pose proof (Separated_fun _ _ _ _ HS HS'). discriminate.
        * pose proof (Separated_fun _ _ _ _ HS HS') as EE. cbn [map] in EE. assert (E' : map elems (z :: more) = y' :: m) by (cbn [map]; congruence). injection EE as E _ _.
          rewrite <- E' in Hts. assert (ts = z :: more) as -> by (eapply canons_fun; eassumption).
          assert (y = c) as -> by (eapply Canon_fun; [exact Hy|rewrite E; exact Hc]).
          assert (t' = c) as -> by (eapply Canon_fun; eassumption). easy. }
  destruct (separate_args (SlTok data) 63 true) as [|x [|act more]] eqn:Ex; [now apply separate_ne in Ex|now apply (K x)|clear K].
  inversion HC as [|? ? ? ? Hx Hm]; subst.
  assert (G : forall l', match separate_args (SlTok act) 58 false with
              | t :: f :: _ => mret (x, SlTok t, Some f)
              | [t] => mret (x, SlTok t, None)
              | [] => mexn AssertionError
              end = (l', Ok (c, t, f)) <-> l' = [] /\ c = x /\ (t, f) = match separate_args (SlTok act) 58 false with
                     | t :: f :: _ => (SlTok t, Some f)
                     | [t] => (SlTok t, None)
                     | [] => (SlList [], None)
                     end).
  { intros l'. destruct (separate_args (SlTok act) 58 false) as [|p [|q r]] eqn:E; [now apply separate_ne in E| |]; unfold mret; (split; [intros [= <- <- <- <-]; easy|intros (-> & -> & [= -> ->]); easy]). }
  rewrite bind_eq. split.
  - intros (l1 & [] & l2 & H1 & H2 & ->). apply G in H2 as (-> & -> & ->). rewrite app_nil_r. split; [easy|]. split; [easy|]. destruct more as [|z more].
    + injection H1 as <-. split; [exact (Is_two _ _ _ _ _ _ HA)|apply shown_nil].
    + apply plain_emit in H1; [|reflexivity|fmt]. subst l1. split; [exact (Is_many _ _ _ _ _ _ _ _ HA)|]. apply shown_other. cbn. intuition discriminate.
  - intros (E & Hc & HI & Hsh). assert (exists l1, (match more with
                        | [] => mret tt
                        | _ => memit E_APP_ARG_MANY w [(L "app", AStr name); (L "data", targ data); (L "max_args", zn 2)]
                        end) = (l1, Ok tt) /\ l = l1 /\ c = x) as (l1 & E1 & -> & ->).
    { inversion HI as [c' a' HA'|c' a' x' m HA'|x' c' HA' HS'|x' c' t' y' m ts HA' HS' Ht' Hts]; subst;
        pose proof (Args_fun _ _ _ _ HA HA') as E'; try discriminate E'; destruct more as [|z more]; try discriminate E'; injection E' as E'.
      - exists []. split; [easy|]. split; [easy|]. rewrite <- E' in Hc. now rewrite (Canon_fun _ _ _ Hc Hx).
      - eexists. split; [apply plain_emit; [reflexivity|fmt|reflexivity]|]. split; [easy|]. rewrite <- E' in Hc. now rewrite (Canon_fun _ _ _ Hc Hx). }
    exists l1, tt, []. rewrite app_nil_r. split; [easy|]. split; [|easy]. now apply G.
Qed.

Lemma split_canon data c l : IfSplit name w data (elems data) c l -> exists t, Canon t c.
Proof.
  intros H. assert (G : forall d rm x xs, map elems (separate_args (SlTok data) d rm) = x :: xs -> exists t, Canon t x).
  { intros d rm x xs E. pose proof (separate_canon data d rm) as HC. rewrite E in HC. inversion HC; subst. eauto. }
  inversion H as [c' act HA'|c' act x' m HA'|x' c' HA' HS'|x' c' t' y' m ts HA' HS' Ht' Hts]; subst.
  - apply (G 63 true c [act]). eapply Args_fun; [apply sep_args, in63|eassumption].
  - apply (G 63 true c (act :: x' :: m)). eapply Args_fun; [apply sep_args, in63|eassumption].
  - apply (G 44 false c []). eapply Separated_fun; [apply sep_seps, in44|eassumption].
  - eauto.
Qed.
Lemma if_unfold data : if_args name data w =
  (do* x <- if1 data; let '(c, t, f) := x in
   do* c' <- mlift (vstrip c);
   do* _ <- (if tok_is c' [] then memit E_APP_ARG_IFEMPTY w [(L "app", AStr name); (L "data", targ data)] else mret tt);
   mret (c', t, f)).
Proof. reflexivity. Qed.
Lemma if_iff data l c t f : if_args name data w = (l, Ok (c, t, f)) <->
  (t, f) = acts data /\ exists cl, Canon c cl /\ IfSays w name data (elems data) cl l.
Proof.
  rewrite if_unfold.
  assert (K : forall c' cl l2, Canon c' cl -> (if tok_is c' [] then memit E_APP_ARG_IFEMPTY w [(L "app", AStr name); (L "data", targ data)] else mret tt) = (l2, Ok tt) <->
     (cl <> [] /\ l2 = [] \/ cl = [] /\ l2 = say E_APP_ARG_IFEMPTY w [(L "app", AStr name); (L "data", targ data)]) /\ Shown l2).
  { intros c' cl l2 HC. destruct (tok_is c' []) eqn:E.
    - apply (Canon_is _ _ _ HC) in E. rewrite empty_emit. split; [intros [-> H]; split; [now right|easy]|].
      intros [[[H _]|[_ ->]] Hs]; [now rewrite E in H|easy].
    - assert (Hn : cl <> []) by (intros ->; pose proof (proj2 (Canon_is _ _ [] HC) eq_refl); congruence). unfold mret. split.
      + intros [= <-]. split; [now left|apply shown_nil].
      + intros [[[_ ->]|[H _]] _]; easy. }
  rewrite bind_eq. split.
  - intros (l1 & [[c0 t0] f0] & l2 & H1 & H & ->). apply if1_iff in H1 as (E & HC & HI & Hs).
    apply bind_eq in H as (l3 & c' & l4 & H2 & H & ->). unfold mlift in H2. injection H2 as <- H2.
    apply bind_tt in H as [H3 H]. injection H as <- <- <-. cbn [app]. split; [easy|].
    apply (vstrip_iff _ _ _ HC) in H2 as (HS & cl & HC' & HT). apply (K _ _ _ HC') in H3 as [H3 Hs'].
    exists cl. split; [easy|]. eapply Iy_intro; eauto. apply shown_app. easy.
  - intros (E & cl & HC & HI). inversion HI as [c0l l1 l2 HS HSt HT H2 Hs]; subst. apply shown_app in Hs as [Hs1 Hs2].
    destruct (split_canon _ _ _ HS) as [c0 HC0]. pose proof (Canon_elems _ _ HC0) as E0.
    exists l1, (c0, t, f), l2. split; [apply if1_iff; rewrite E0; easy|]. split; [|easy].
    apply bind_eq. exists [], c, l2. split; [|split; [|easy]].
    + unfold mlift. f_equal. apply (vstrip_iff _ _ _ HC0). split; [easy|]. eauto.
    + apply bind_tt. split; [|easy]. apply (K _ _ _ HC). easy.
Qed.

Lemma const_dec c cl : Canon c cl -> negb (tok_is c []) && (is_str c || existsb is_str (items c)) = true <-> exists ch, In (Ch ch) cl.
Proof.
  intros HC. rewrite Bool.andb_true_iff, Bool.negb_true_iff, Bool.orb_true_iff.
  assert (existsb is_str (items c) = true <-> exists ch, In (Ch ch) cl) as He.
  { rewrite <- (Canon_elems _ _ HC). unfold elems. induction (items_Item c) as [|x r Hx _ IH]; cbn [existsb map In].
    - split; [easy|now intros [? []]].
    - rewrite Bool.orb_true_iff, IH. destruct Hx as [ch|v Hv].
      + cbn. split; [intros _; now exists ch; left|now left].
      + rewrite (named_el _ Hv). split.
        * intros [Hs|[ch Hc]]; [now destruct Hv|]. exists ch. now right.
        * intros [ch [Hs|Hs]]; [easy|]. right. now exists ch. }
  rewrite He. split.
  - intros [Hn [Hs|Hs]]; [|easy]. destruct cl as [|e cl].
    + pose proof (proj2 (Canon_is _ _ [] HC) eq_refl). congruence.
    + destruct e as [ch|v]; [exists ch; now left|]. exfalso. apply (proj1 (Canon_str _ _ HC) Hs v). now left.
  - intros Hch. split; [|now right]. destruct (tok_is c []) eqn:E; [|easy].
    apply (Canon_is _ _ _ HC) in E. subst cl. now destruct Hch.
Qed.
Lemma ifsays_canon data c l : IfSays w name data (elems data) c l -> exists t, Canon t c.
Proof.
  intros [c0 l1 l2 HS HSt HT H2 Hs]. destruct (split_canon _ _ _ HS) as [c0' HC0]. destruct (vstrip_some _ _ HC0 HSt) as [t' E].
  destruct (vstrip_trimmed _ _ _ HC0 E) as (l' & HC & HT'). rewrite (trimmed_fun _ _ _ HT HT'). eauto.
Qed.
Lemma cond_iff data l t f : (exists c, varcond_args name data w = (l, Ok (c, t, f))) <->
  (t, f) = acts data /\ CondSays w name data (elems data) l.
Proof.
  unfold varcond_args. split.
  - intros [c H]. apply bind_eq in H as (l1 & [[c0 t0] f0] & l2 & H1 & H & ->). apply bind_tt in H as [H2 H]. injection H as -> -> ->.
    apply if_iff in H1 as (E & cl & HC & HI). split; [easy|].
    pose proof (const_dec _ _ HC) as Hb. destruct (negb (tok_is c []) && (is_str c || existsb is_str (items c))).
    + destruct (proj1 Hb eq_refl) as [ch Hch]. apply const_emit in H2 as [-> Hs]. eapply Cy_const; eassumption.
    + injection H2 as <-. rewrite app_nil_r. eapply Cy_fine; [exact HI|]. intros ch Hch.
      assert (false = true) by (apply Hb; now exists ch). discriminate.
  - intros (E & H). inversion H as [c l0 HI Hn|c l0 t' ch HI Hch HC Hs]; subst.
    + destruct (ifsays_canon _ _ _ HI) as [c' HC]. exists c'. apply bind_eq. exists l, (c', t, f), []. rewrite app_nil_r.
      split; [apply if_iff; eauto|]. split; [|easy]. apply bind_tt. split; [|easy].
      destruct (negb (tok_is c' []) && (is_str c' || existsb is_str (items c'))) eqn:Eb; [|easy].
      apply (const_dec _ _ HC) in Eb as [ch Hch]. now apply Hn in Hch.
    + exists t'. apply bind_eq. exists l0, (t', t, f), (say E_APP_ARG_IFCONST w [(L "app", AStr name); (L "data", targ data); (L "cond", targ t')]).
      split; [apply if_iff; eauto|]. split; [|easy]. apply bind_tt. split; [|easy].
      replace (negb (tok_is t' []) && (is_str t' || existsb is_str (items t'))) with true by (symmetry; apply (const_dec _ _ HC); eauto).
      apply const_emit. easy.
Qed.
End Cond.

(* ---- values put together ---- *)
Definition full (t : tok) : Prop := truthy t = true \/ t = TS [].
Lemma canon_full t : Canon t (elems t) -> full t.
Proof.
  intros HC. destruct (truthy t) eqn:E; [now left|]. right. apply falsy_elems in E. rewrite E in HC.
  exact (Canon_fun _ _ _ HC (Canon_TS [])).
Qed.
Lemma push_lump copy v : full v -> flat_map lump (rev (push copy v)) = flat_map lump (rev copy) ++ lump v.
Proof.
  intros [Hv|Hv].
  - unfold push. rewrite Hv. cbn [negb].
    destruct v; try (cbn; rewrite flat_map_app; reflexivity).
    destruct copy as [|[y| | | | | | |] r]; cbn; rewrite ?flat_map_app; cbn; rewrite ?app_nil_r; try reflexivity.
    rewrite map_app. now rewrite app_assoc.
  - subst v. cbn. now rewrite app_nil_r.
Qed.
Lemma fold_lump l : Forall full l -> forall copy,
  flat_map lump (rev (fold_left push l copy)) = flat_map lump (rev copy) ++ flat_map lump l.
Proof.
  induction 1 as [|x l Hx Hl IH]; intros copy; cbn [fold_left flat_map]; [now rewrite app_nil_r|].
  now rewrite IH, push_lump, <- app_assoc.
Qed.
Lemma norm_two l : Norm l -> forall a x y b, l <> a ++ TS x :: TS y :: b.
Proof.
  induction 1 as [|t Ht|t u l Ht Hs HN IH]; intros a x y b E.
  - now destruct a.
  - destruct a as [|? [|? ?]]; discriminate E.
  - destruct a as [|z a].
    + injection E as -> -> _. now destruct Hs.
    + injection E as -> E. now apply IH in E.
Qed.
Lemma norm_full l : Norm l -> ~ In (TS []) l.
Proof.
  induction 1 as [|t Ht|t u l Ht Hs HN IH]; [easy| |].
  - intros [->|[]]. discriminate Ht.
  - intros [->|H]; [discriminate Ht|]. now apply IH.
Qed.
Lemma vjoin_joined ts : Forall full ts -> Joined ts (vjoin ts).
Proof.
  intros H. exists (rev (fold_left push ts [])). pose proof (norm_rev _ (fold_push_norm ts [] No_nil)) as HN.
  split; [rewrite (fold_lump _ H); reflexivity|]. split; [now apply norm_full|]. split; [now apply norm_two|].
  unfold vjoin. now destruct (rev (fold_left push ts [])) as [|? [|? ?]].
Qed.
Lemma lump_inj : forall m m', flat_map lump m = flat_map lump m' -> ~ In (TS []) m -> ~ In (TS []) m' ->
  (forall a x y b, m <> a ++ TS x :: TS y :: b) -> (forall a x y b, m' <> a ++ TS x :: TS y :: b) -> m = m'.
Proof.
  assert (G : forall t, (exists c s, t = TS (c :: s)) \/ t = TS [] \/ lump t = [Va t]) by (intros [[|c s]| | | | | | |]; eauto).
  assert (V : forall r m x, (forall a x y b, r <> a ++ TS x :: TS y :: b) -> ~ In (TS []) r -> r = TS x :: m ->
     flat_map lump m = [] /\ m = [] \/ exists v u, flat_map lump m = Va v :: u).
  { intros r m x H2 Hn ->. destruct m as [|t m]; [now left|]. right. destruct (G t) as [(c & s & ->)|[->|E]].
    - now destruct (H2 [] x (c :: s) m).
    - destruct Hn. right. now left.
    - cbn [flat_map]. rewrite E. cbn. eauto. }
  assert (S : forall (r : list tok) t m, r = t :: m -> (forall a x y b, r <> a ++ TS x :: TS y :: b) -> ~ In (TS []) r ->
     (forall a x y b, m <> a ++ TS x :: TS y :: b) /\ ~ In (TS []) m).
  { intros r t m -> H2 Hn. split; [intros a x y b ->; now apply (H2 (t :: a) x y b)|]. intros H. apply Hn. now right. }
  induction m as [|t m IH]; intros [|t' m'] E Hn Hn' H2 H2'; [easy| | |].
  - exfalso. destruct (G t') as [(c & s & ->)|[->|E']]; [discriminate E|destruct Hn'; now left|]. cbn [flat_map] in E. now rewrite E' in E.
  - exfalso. destruct (G t) as [(c & s & ->)|[->|E']]; [discriminate E|destruct Hn; now left|]. cbn [flat_map] in E. now rewrite E' in E.
  - destruct (S _ _ _ eq_refl H2 Hn) as [K2 Kn]. destruct (S _ _ _ eq_refl H2' Hn') as [K2' Kn'].
    cbn [flat_map] in E.
    destruct (G t) as [(c & s & ->)|[->|E1]]; [|destruct Hn; now left|];
    (destruct (G t') as [(c' & s' & ->)|[->|E1']]; [|destruct Hn'; now left|]).
    + assert (c :: s = c' :: s' /\ flat_map lump m = flat_map lump m') as [Es Em].
      { cbn [lump] in E. destruct (V _ m (c :: s) H2 Hn eq_refl) as [[V1 _]|(v & u & V1)]; rewrite V1 in *;
          (destruct (V _ m' (c' :: s') H2' Hn' eq_refl) as [[V1' _]|(v' & u' & V1')]; rewrite V1' in * ).
        - rewrite !app_nil_r in E. split; [|easy]. now apply map_Ch_inj.
        - exfalso. rewrite app_nil_r in E. assert (In (Va v') (map Ch (c :: s))) as Hi by (rewrite E; apply in_app_iff; right; now left).
          now apply chars_no_va in Hi.
        - exfalso. rewrite app_nil_r in E. assert (In (Va v) (map Ch (c' :: s'))) as Hi by (rewrite <- E; apply in_app_iff; right; now left).
          now apply chars_no_va in Hi.
        - apply va_split in E as (E & <- & <-). easy. }
      rewrite Es. f_equal. now apply IH.
    + exfalso. rewrite E1' in E. discriminate E.
    + exfalso. rewrite E1 in E. discriminate E.
    + rewrite E1, E1' in E. injection E as <- E. f_equal. now apply IH.
Qed.
Lemma joined_fun ts ts' t t' : flat_map lump ts = flat_map lump ts' -> Joined ts t -> Joined ts' t' -> t = t'.
Proof.
  intros E (m & E1 & Hn & H2 & ->) (m' & E1' & Hn' & H2' & ->). assert (m = m') as <-; [|easy].
  apply lump_inj; try easy. congruence.
Qed.
Lemma vjoin_iff ts t : Forall full ts -> vjoin ts = t <-> Joined ts t.
Proof.
  intros H. pose proof (vjoin_joined _ H) as HJ. split; [now intros <-|]. intros HJ'. exact (joined_fun _ _ _ _ eq_refl HJ HJ').
Qed.
Lemma strjoin_lump l : Forall full l -> flat_map lump (strjoin l) = flat_map lump l /\ Forall full (strjoin l).
Proof.
  assert (G : Forall full l -> forall c, flat_map lump (strjoin_from c l) = map Ch (match c with Some s => s | None => [] end) ++ flat_map lump l
     /\ Forall full (strjoin_from c l)).
  { assert (FT : forall s, full (TS s)) by (intros [|? ?]; [now right|now left]).
    induction 1 as [|x l Hx Hl IH]; intros c.
    - destruct c as [s|]; cbn; rewrite ?app_nil_r; (split; [easy|]); try constructor; auto.
    - assert (Gx : is_str x = false -> flat_map lump (strjoin_from c (x :: l)) = map Ch (match c with Some s => s | None => [] end) ++ flat_map lump (x :: l)
          /\ Forall full (strjoin_from c (x :: l))).
      { intros Hs. destruct (IH None) as [IH1 IH2].
        assert (strjoin_from c (x :: l) = match c with Some s => TS s :: x :: strjoin_from None l | None => x :: strjoin_from None l end) as -> by (now destruct x, c).
        destruct c as [s|]; cbn [flat_map]; rewrite IH1; (split; [easy|]); repeat apply Forall_cons; auto. }
      destruct x; try (now apply Gx). cbn [strjoin_from flat_map lump]. destruct c as [k|]; [destruct (IH (Some (k ++ s))) as [-> IH2]|destruct (IH (Some s)) as [IH1 IH2]].
      + split; [|easy]. now rewrite map_app, <- app_assoc.
      + easy. }
  intros H. exact (G H None).
Qed.
Lemma squash_iff ts t : Forall full ts -> squash ts = t <-> Joined ts t.
Proof.
  intros H. destruct (strjoin_lump _ H) as [E HF]. assert (Joined ts (squash ts)) as HJ.
  { unfold squash. destruct (strjoin ts) as [|x [|y r]] eqn:Es.
    - apply (f_equal (@rev tok)) in Es. exists []. split; [now rewrite <- E|]. repeat split; [easy|]. now intros [].
    - inversion HF as [|? ? [Hx| ->] _]; subst.
      + exists [x]. split; [exact E|]. split; [intros [->|[]]; discriminate Hx|]. split; [|easy]. intros a ? ? ? Ea. destruct a as [|? [|? ?]]; discriminate Ea.
      + exists []. split; [exact E|]. repeat split; [easy|]. now intros [].
    - destruct (vjoin_joined _ HF) as (m & Em & Hm). exists m. split; [congruence|easy]. }
  split; [now intros <-|]. intros HJ'. exact (joined_fun _ _ _ _ eq_refl HJ HJ').
Qed.

(* ---- jumps ---- *)
Lemma target_iff ts d : ts <> [] -> goto_dest ts = Ok d <-> Target ts d.
Proof.
  intros Hn. destruct ts as [|x [|y [|z [|u r]]]]; [easy| | | |].
  1-3: split; [intros [= <-]; constructor|intros H; inversion H; subst; reflexivity].
  split; [|intros H; inversion H]. intros H. assert (goto_dest (x :: y :: z :: u :: r) = Hang) by (apply goto_dest_hang; cbn; lia). congruence.
Qed.

Section Gosub.
Variable name : str.
Variable w : loc.
Lemma prio_fun t p sl sl' : PrioOf t p sl -> PrioOf t p sl' -> sl = sl'.
Proof.
  assert (T : forall s post v, ~ In (Va v) (map Ch s ++ Ch 40 :: map Ch post)).
  { intros s post v H. apply in_app_iff in H as [H|[H|H]]; [now apply chars_no_va in H|easy|now apply chars_no_va in H]. }
  assert (K : forall s, ~ In 40 s -> ~ In (Ch 40) (map Ch s)) by (intros s H Hi; apply in_map_iff in Hi as (? & [= ->] & ?); easy).
  assert (I : forall (a b : list elem), In (Ch 40) (a ++ Ch 40 :: b)) by (intros; apply in_app_iff; right; now left).
  intros H1 H2.
  destruct H1 as [H|s post Hp Hs|pre post x v Hp Hs Hv HP|pre post m v Hp Hs Hv HP Hm];
    destruct H2 as [H'|s' post' Hp' Hs'|pre' post' x' v' Hp' Hs' Hv' HP'|pre' post' m' v' Hp' Hs' Hv' HP' Hm']; try easy;
    try (exfalso; apply H; rewrite Hp'; apply I); try (exfalso; apply H'; rewrite Hp; apply I);
    try (exfalso; rewrite Hp in Hv'; now apply T in Hv'); try (exfalso; rewrite Hp' in Hv; now apply T in Hv);
    rewrite Hp in Hp'; (apply split_unique in Hp' as [E _]; [|now auto|now auto]).
  - apply map_Ch_inj in E. now subst.
  - rewrite <- E in HP'. pose proof (Parts_fun _ _ _ HP HP') as [= <-]. easy.
  - rewrite <- E in HP'. pose proof (Parts_fun _ _ _ HP HP') as E'. subst m'. now destruct Hm'.
  - rewrite <- E in HP'. pose proof (Parts_fun _ _ _ HP HP') as E'. subst m. now destruct Hm.
  - rewrite <- E in HP'. pose proof (Parts_fun _ _ _ HP HP') as E'. now subst.
Qed.
Lemma bal_fun t p l l' : BalReport w t p l -> BalReport w t p l' -> l = l'.
Proof.
  intros [H|H1 H2] [H'|H1' H2']; try easy.
  - destruct H as [H|[r H]]; [easy|now apply H2' in H].
  - destruct H' as [H'|[r H']]; [easy|now apply H2 in H'].
Qed.
Lemma prio_fine t : fine (gosub_prio t w).
Proof.
  unfold gosub_prio. destruct (cut_first 40 (items t)) as [[a b]|] eqn:E; [|apply fine_ret].
  apply fine_bind; [|intros; apply fine_ret]. destruct (last_opt (items t)) as [c|] eqn:El.
  - destruct (tok_isc c 41); [apply fine_ret|]. exists (say W_APP_BALANCE w [(L "data", targ t)]), tt. apply plain_emit; [reflexivity| |easy].
    destruct t; reflexivity.
  - exfalso. apply cut_first_some in E as (x & E & _); [|apply items_Item]. rewrite E in El. clear E.
    assert (forall m : list tok, last_opt m = None -> m = []) as N by (intros m; induction m using rev_ind; [easy|rewrite last_opt_app; easy]).
    apply N in El. now destruct a.
Qed.
Lemma prio_iff t p sl l : Flat t p -> (is_str t = true <-> forall v, ~ In (Va v) p) ->
  gosub_prio t w = (l, Ok sl) <-> PrioOf t p sl /\ BalReport w t p l.
Proof.
  intros HF Hs. split; [now apply gosub_prio_report|]. intros [H1 H2]. destruct (prio_fine t) as (l' & sl' & E).
  destruct (gosub_prio_report w _ _ _ _ HF Hs E) as [H1' H2']. rewrite E, (prio_fun _ _ _ _ H1 H1'), (bal_fun _ _ _ _ H2 H2'). easy.
Qed.
Lemma commas_excess ts : with_commas ts = excess ts.
Proof.
  destruct ts as [|x r]; [easy|]. cbn [excess]. revert x. induction r as [|y r IH]; intros x; [easy|].
  change (with_commas (x :: y :: r)) with (x :: TS [44] :: with_commas (y :: r)). rewrite IH. reflexivity.
Qed.
Definition ok (t : tok) : Prop := full t /\ (is_str t = true <-> forall v, ~ In (Va v) (elems t)).
Lemma canon_ok t : canonical_ t -> ok t.
Proof. intros H. split; [now apply canon_full|apply Canon_str, H]. Qed.
Lemma oks_full ts : Forall ok ts -> Forall full ts.
Proof. intros H. eapply Forall_impl; [|exact H]. now intros t [Ht _]. Qed.
Lemma joined_str ts t : Forall ok ts -> Joined ts t -> is_str t = true <-> forall v, ~ In (Va v) (elems t).
Proof.
  intros HC HJ. pose proof (oks_full _ HC) as HF. apply (vjoin_iff _ _ HF) in HJ. subst t. split.
  - intros Es v Hv. destruct (vjoin ts); try discriminate Es. rewrite elems_str in Hv. now apply chars_no_va in Hv.
  - intros Hv. destruct (is_str (vjoin ts)) eqn:Es; [easy|]. exfalso. apply vjoin_nonstr in Es as (u & Hu & Hus & _).
    rewrite Forall_forall in HC. pose proof (HC _ Hu) as [_ Hc]. apply Bool.not_true_iff_false in Hus. rewrite Hc in Hus.
    apply Hus. intros v Hi. apply (Hv v). rewrite vjoin_elems. apply in_flat_map. eauto.
Qed.
Lemma joined_ok ts t : Forall ok ts -> Joined ts t -> ok t.
Proof.
  intros HC HJ. split; [|eapply joined_str; eassumption]. pose proof (oks_full _ HC) as HF. apply (vjoin_iff _ _ HF) in HJ. subst t.
  destruct (truthy (vjoin ts)) eqn:E; [now left|]. right. apply falsy_elems in E. rewrite vjoin_elems in E. unfold vjoin.
  assert (fold_left push ts [] = []) as ->; [|easy]. clear HC HF. induction ts as [|x ts IH]; [easy|]. cbn [flat_map] in E. apply app_eq_nil in E as [E1 E2].
  cbn [fold_left]. apply falsy_elems in E1. unfold push at 2. rewrite E1. now apply IH.
Qed.
Lemma excess_ok ts : Forall ok ts -> Forall ok (excess ts).
Proof.
  intros [|x r Hx Hr]; [constructor|]. cbn [excess]. constructor; [easy|]. induction Hr as [|y r Hy Hr IH]; cbn [flat_map app]; [constructor|].
  constructor; [|now constructor]. apply canon_ok. unfold canonical_. rewrite elems_str. apply Canon_TS.
Qed.
Lemma gosub_iff warned ts d l : Forall ok ts -> ts <> [] ->
  gosub_dest name warned ts w = (l, Ok d) <-> GosubTarget name w warned ts d l.
Proof.
  intros HC Hne.
  assert (P : forall t sl l5, ok t -> gosub_prio t w = (l5, Ok sl) <-> PrioOf t (elems t) sl /\ BalReport w t (elems t) l5).
  { intros t sl l5 Ht. apply prio_iff; [apply Flat_elems|apply Ht]. }
  assert (Fe : forall t p, Flat t p -> p = elems t) by (intros; now apply Flat_fun).
  destruct (Nat.ltb_spec 3 (length ts)) as [Hl|Hl].
  - destruct ts as [|c [|e [|x [|y r]]]]; try (cbn in Hl; lia).
    unfold gosub_dest. replace (Nat.ltb 3 _) with true by (symmetry; apply Nat.ltb_lt; cbn; lia).
    cbn [firstn skipn app]. set (pt := vjoin (excess (x :: y :: r))).
    assert (HCe : Forall ok (excess (x :: y :: r))) by (apply excess_ok; inversion HC as [|? ? _ H1]; inversion H1; easy).
    assert (HJ : Joined (with_commas (x :: y :: r)) pt) by (rewrite commas_excess; apply vjoin_joined, oks_full, HCe).
    assert (Hst : is_str pt = true <-> forall v, ~ In (Va v) (elems pt)).
    { apply (joined_str (excess (x :: y :: r))); [easy|]. now rewrite <- commas_excess. }
    pose proof (fun sl l => prio_iff pt (elems pt) sl l (Flat_elems pt) Hst) as HP.
    assert (HW : forall l1, (if warned then mret tt else memit E_APP_ARG_MANY w [(L "app", AStr name); (L "max_args", zn 3)]) = (l1, Ok tt) <->
       (l1 = [] /\ (warned = true \/ (length (c :: e :: x :: y :: r) <= 3)%nat) \/
     l1 = say E_APP_ARG_MANY w [(L "app", AStr name); (L "max_args", cnt 3)] /\ warned = false /\ (3 < length (c :: e :: x :: y :: r))%nat)).
    { intros l1. destruct warned.
      - split; [intros [= <-]; left; auto|]. intros [[-> _]|(_ & H & _)]; easy.
      - rewrite plain_emit by reflexivity. split; [intros ->; right; auto|]. intros [[_ [H|H]]|(-> & _)]; [easy|lia|easy]. }
    rewrite bind_eq. split.
    + intros (l1 & jd & l2 & H1 & H & ->). apply bind_tt in H1 as [H1 <-]. cbn [pad3 map length Nat.sub repeat app] in H.
      apply bind_eq in H as (l3 & sl & l4 & H2 & H & ->). injection H as <- <-. rewrite app_nil_r. apply HP in H2 as [H2 H3].
      eapply Gt_intro; [apply Gp_more; exact HJ|apply Flat_elems|exact H2|exact H3|]. now apply HW.
    + intros H. inversion H as [c0 e0 p0 p sl l1 l2 HG HF HPr HB Hw]; subst. inversion HG as [| | |? ? ? ? ? ? HJ']; subst.
      pose proof (joined_fun _ _ _ _ eq_refl HJ HJ') as <-. rewrite (Fe _ _ HF) in *.
      exists l1, [c; e; pt], l2. split; [apply bind_tt; split; [now apply HW|easy]|]. split; [|easy].
      cbn [pad3 map length Nat.sub repeat app]. apply bind_eq. exists l2, sl, []. rewrite app_nil_r. split; [now apply HP|easy].
  - unfold gosub_dest. replace (Nat.ltb 3 _) with false by (symmetry; apply Nat.ltb_ge; easy). rewrite ret_bind.
    assert (G : forall pt c e, In pt ts -> GosubParts ts c e pt -> pad3 (map Some ts) = [c; e; Some pt] ->
      (forall c' e' pt', GosubParts ts c' e' pt' -> c' = c /\ e' = e /\ pt' = pt) ->
      match pad3 (map Some ts) with [c; e; Some p] => do* p' <- gosub_prio p w; mret (Dest c e p') | _ => mexn AssertionError end = (l, Ok d) <->
      GosubTarget name w warned ts d l).
    { intros pt c e Hi HG -> Hu. rewrite Forall_forall in HC. pose proof (HC _ Hi) as Ht. rewrite bind_eq. split.
      - intros (l3 & sl & l4 & H2 & H & ->). injection H as <- <-. rewrite app_nil_r. apply (P _ _ _ Ht) in H2 as [H2 H3].
        change l3 with ([] ++ l3). eapply Gt_intro; [exact HG|apply Flat_elems|exact H2|exact H3|]. left. auto.
      - intros H. inversion H as [c0 e0 p0 p sl l1 l2 HG' HF HPr HB Hw]; subst. apply Hu in HG' as (-> & -> & ->).
        rewrite (Fe _ _ HF) in *. assert (l1 = []) as -> by (destruct Hw as [[Hw _]|(_ & _ & Hw)]; [easy|lia]).
        exists l2, sl, []. rewrite app_nil_r. split; [now apply P|easy]. }
    destruct ts as [|x [|y [|z [|? ?]]]]; [easy| | | |cbn in Hl; lia];
      (eapply G; [|constructor|reflexivity|intros c' e' pt' H; inversion H; subst; easy]; cbn; auto).
Qed.
End Gosub.

(* ---- old-style arguments ---- *)
Definition quiet (t : tok) : Prop := forall c, t = TS [c] -> ~ In c [91; 40; 34; 92].
Lemma isc_not t c : (forall x, t <> TS [x]) -> tok_isc t c = false.
Proof.
  intros H. unfold tok_isc, tok_is. destruct t; try easy. apply str_eqb_neq. intros ->. now apply (H c).
Qed.
Lemma one_char t : (exists c, t = TS [c]) \/ forall x, t <> TS [x].
Proof. destruct t as [[|c [|? ?]]| | | | | | |]; try (right; intros x; discriminate). left. eauto. Qed.
Lemma sep_old l0 ts : Forall (fun t => tok_isc t 44 = false) ts -> Forall quiet (removelast ts) -> forall cur pend,
  exists r, Unmarked ts r /\ sep (SlList l0) 44 true 0 0 false false cur pend ts = [cur ++ rev pend ++ r].
Proof.
  induction 1 as [|t ts Ht Hts IH]; intros Hq cur pend.
  - exists []. split; [apply Um_none; intros r c E; now destruct r|]. cbn. now rewrite app_nil_r.
  - destruct ts as [|u ts].
    + clear IH Hts Hq. destruct (one_char t) as [[c ->]|Hn].
      * rewrite isc_char in Ht. cbn [sep is_var is_str negb]. rewrite !isc_char, Ht. cbn [andb].
        change (negb (44 =? 34)) with true. rewrite Bool.andb_true_r.
        destruct (c =? 34) eqn:E34; [|destruct (c =? 92) eqn:E92].
        -- apply N.eqb_eq in E34. subst c. exists []. split; [apply (Um_mark _ [] 34); [easy|now left]|].
           cbn - [N.eqb]. change (34 =? 91) with false. change (34 =? 93) with false. change (34 =? 40) with false. change (34 =? 41) with false.
           cbn iota. now rewrite !app_nil_r.
        -- apply N.eqb_eq in E92. subst c. exists []. split; [apply (Um_mark _ [] 92); [easy|right; now left]|].
           cbn - [N.eqb]. change (92 =? 91) with false. change (92 =? 93) with false. change (92 =? 40) with false. change (92 =? 41) with false.
           cbn iota. now rewrite !app_nil_r.
        -- exists [TS [c]]. split.
           { apply Um_none. intros r x E. destruct r as [|? [|? ?]]; [|discriminate E|discriminate E]. injection E as <-.
             apply N.eqb_neq in E34, E92. intros [H|[H|[]]]; congruence. }
           repeat match goal with |- context [if ?b then _ else _] => destruct b end; cbn; now rewrite ?app_nil_r.
      * exists [t]. split.
        { apply Um_none. intros r x E. destruct r as [|? [|? ?]]; [|discriminate E|discriminate E]. injection E as ->. now destruct (Hn x). }
        cbn [sep]. rewrite !(isc_not _ _ Hn). cbn [andb]. destruct (is_var t); cbn; now rewrite ?app_nil_r.
    + cbn [removelast] in Hq. inversion Hq as [|? ? Hqt Hq']; subst.
      assert (G : forall r, Unmarked (u :: ts) r -> Unmarked (t :: u :: ts) (t :: r)).
      { intros r [r' c E Hc|Hc].
        - rewrite E. now apply (Um_mark _ (t :: r') c).
        - apply Um_none. intros r' c E. destruct r' as [|y r']; [discriminate E|]. injection E as _ E. now apply Hc in E. }
      destruct (IH Hq' cur (t :: pend)) as (r & HU & E). exists (t :: r). split; [now apply G|].
      assert (cur ++ rev pend ++ t :: r = cur ++ rev (t :: pend) ++ r) as -> by (cbn [rev]; now rewrite <- app_assoc).
      rewrite <- E. clear E HU G IH Hq Hts Hq'. generalize (u :: ts). intros us. cbn [sep]. destruct (is_var t) eqn:Ev; [easy|]. destruct (one_char t) as [[c ->]|Hn].
      * specialize (Hqt c eq_refl). rewrite isc_char in Ht. rewrite !isc_char, Ht. cbn [andb].
        assert (forall x, In x [91; 40; 34; 92] -> (c =? x) = false) as K by (intros x Hx; apply N.eqb_neq; intros ->; easy).
        rewrite (K 91), (K 40), (K 34), (K 92) by (cbn; auto 6). cbn [andb Init.Nat.pred]. destruct (c =? 93), (c =? 41); easy.
      * rewrite !(isc_not _ _ Hn). easy.
Qed.
Lemma unmarked_fun ts r r' : Unmarked ts r -> Unmarked ts r' -> r = r'.
Proof.
  intros [r0 c E Hc|Hc] [r0' c' E' Hc'|Hc']; try easy.
  - rewrite E in E'. now apply app_inj_tail in E' as [-> _].
  - now apply Hc' in E.
  - now apply Hc in E'.
Qed.
Lemma unmarked_incl ts r : Unmarked ts r -> forall x, In x r -> In x ts.
Proof. intros [r0 c -> _|_] x Hx; [apply in_app_iff; now left|easy]. Qed.

(* where the pieces of old-style data end *)
Lemma top_is s : top_st s = true <-> s = st0.
Proof.
  destruct s as [b p q sk]. unfold top_st, st0. cbn. split; [|now intros [= -> -> -> ->]].
  destruct b, p, q, sk; easy.
Qed.
Lemma esep_ends d l : okd d = true -> forall s cur, s = st_run d st0 (chars_of cur) ->
  Forall (fun p => st_run d st0 (chars_of p) = st0) (removelast (esep d false s cur l)).
Proof.
  intros Hd. assert (C : forall a b, chars_of (a ++ b) = chars_of a ++ chars_of b) by (intros; unfold chars_of; apply flat_map_app).
  induction l as [|[c|t] l IH]; intros s cur Hs; cbn [esep]; [constructor| |].
  - rewrite Hd, Bool.andb_true_r. destruct (top_st s && (c =? d)) eqn:E.
    + apply Bool.andb_true_iff in E as [E _]. apply top_is in E.
      specialize (IH st0 [] eq_refl). rewrite E. rewrite E in Hs.
      destruct (esep d false st0 [] l) as [|p ps] eqn:Ep; [now destruct l|]. cbn [removelast]. constructor; [easy|exact IH].
    + cbn [andb]. apply IH. rewrite C, Hs. unfold st_run. now rewrite fold_left_app.
  - apply IH. rewrite C. cbn. rewrite app_nil_r. exact Hs.
Qed.
Lemma old_iff data c y more t : separate_args (SlTok data) 44 false = c :: y :: more ->
  separate_args (SlList (y :: more)) 44 true = [t] <-> exists ts', Unmarked (y :: more) ts' /\ Joined ts' t.
Proof.
  intros E.
  assert (Hnc : Forall (fun t => tok_isc t 44 = false) (y :: more)).
  { assert (H : Forall (fun p => forall x, p <> Ch 44 :: x) (map elems (separate_args (SlTok data) 44 false))).
    { rewrite separate_esep. now apply esep_nohead. }
    rewrite Forall_map, E in H. inversion H as [|? ? _ H']; subst. eapply Forall_impl; [|exact H'].
    intros u Hu. unfold tok_isc, tok_is. destruct u; try easy. apply Bool.not_true_iff_false. intros Eu.
    apply str_eqb_eq in Eu. subst s. now apply (Hu []). }
  assert (Hq : Forall quiet (removelast (y :: more))).
  { pose proof (esep_ends 44 (elems data) eq_refl st0 [] eq_refl) as H. rewrite <- separate_esep, E in H.
    assert (R : forall m : list tok, removelast (map elems m) = map elems (removelast m)).
    { intros m. induction m as [|u m IH]; [easy|]. destruct m; [easy|]. cbn [map removelast] in *. now rewrite IH. }
    rewrite R, Forall_map in H. change (removelast (c :: y :: more)) with (c :: removelast (y :: more)) in H.
    inversion H as [|? ? _ H']; subst. eapply Forall_impl; [|exact H']. intros u Hu ch ->. cbn in Hu.
    intros [<-|[<-|[<-|[<-|[]]]]]; discriminate Hu. }
  destruct (sep_old (y :: more) _ Hnc Hq [] []) as (r & HU & Es).
  assert (HF : Forall full r).
  { apply Forall_forall. intros u Hu. apply (unmarked_incl _ _ HU) in Hu. apply canon_full. apply (sep_canon_in 44 false data). rewrite E. now right. }
  unfold separate_args. cbn [sl_items]. rewrite Es. cbn [rev app map]. split.
  - intros [= H]. exists r. split; [easy|]. now apply (squash_iff _ _ HF).
  - intros (ts' & HU' & HJ). pose proof (unmarked_fun _ _ _ HU HU') as <-. f_equal. now apply (squash_iff _ _ HF).
Qed.

Lemma canons_of d rm t : Forall2 Canon (separate_args (SlTok t) d rm) (map elems (separate_args (SlTok t) d rm)).
Proof. apply separate_canon. Qed.
Lemma canon2_fun ts ts' ls : Forall2 Canon ts ls -> Forall2 Canon ts' ls -> ts = ts'.
Proof.
  intros H. revert ts'. induction H as [|t l ts ls Ht Hl IH]; intros ts' H'; inversion H'; subst; [easy|].
  f_equal; [eapply Canon_fun; eassumption|now apply IH].
Qed.

Definition jumps (data : tok) : list sliced := branches (fst (acts data)) (snd (acts data)).
Lemma branches_iff data bs : Branches (elems data) bs -> exists ts, jumps data = map SlTok ts /\ Forall2 Canon ts bs.
Proof.
  intros [c act more bs' HA HS]. unfold jumps, acts. pose proof (Args_fun _ _ _ _ HA (sep_args 63 in63 data)) as E.
  destruct (separate_args (SlTok data) 63 true) as [|c' [|act' more']] eqn:Ex; [discriminate E|discriminate E|]. injection E as -> -> ->.
  pose proof (Separated_fun _ _ _ _ HS (sep_seps 58 in58 act')) as E. rewrite E.
  pose proof (canons_of 58 false act') as HC. rewrite Forall2_map_r, Forall2_diag in HC.
  assert (G : forall ts, Forall (fun a => Canon a (elems a)) ts -> exists us, filter sl_truthy (map SlTok ts) = map SlTok us /\
     Forall2 Canon us (filter (fun b => match b with [] => false | _ => true end) (map elems ts))).
  { clear. induction 1 as [|t ts Ht Hts (us & E & IH)]; [exists []; split; [easy|constructor]|]. cbn [map filter sl_truthy]. pose proof (falsy_elems t) as Hf. destruct (truthy t).
    - exists (t :: us). rewrite E. split; [easy|]. destruct (elems t) eqn:Et; [pose proof (proj2 Hf eq_refl); discriminate|].
      now constructor.
    - rewrite (proj1 Hf eq_refl). exists us. easy. }
  destruct (separate_args (SlTok act') 58 false) as [|t [|f r]] eqn:Es; [now apply separate_ne in Es| |];
    inversion HC as [|? ? Ht HC']; subst; cbn [fst snd branches map firstn].
  - apply (G [t]). now constructor.
  - inversion HC'; subst. apply (G [t; f]). now repeat constructor.
Qed.
Lemma jumps_old data x : Args 63 (elems data) [x] ->
  jumps data = match tl (separate_args (SlTok data) 44 false) with [] => [] | m => [SlList m] end.
Proof.
  intros HA. pose proof (Args_fun _ _ _ _ HA (sep_args 63 in63 data)) as E. unfold jumps, acts.
  destruct (separate_args (SlTok data) 63 true) as [|? [|? ?]]; [discriminate E| |discriminate E].
  cbn [fst snd branches filter sl_truthy]. now destruct (tl (separate_args (SlTok data) 44 false)).
Qed.
Lemma jump_iff data tss : JumpArgs (elems data) tss <-> tss = map (fun br => separate_args br 44 true) (jumps data).
Proof.
  assert (N : forall bs, Branches (elems data) bs -> JumpArgs (elems data) tss <-> tss = map (fun br => separate_args br 44 true) (jumps data)).
  { intros bs HB. destruct (branches_iff _ _ HB) as (ts & Ej & HC). rewrite Ej, map_map. split.
    - intros H. assert (exists bs', Branches (elems data) bs' /\ Forall2 (fun b ts => exists args, Args 44 b args /\ Forall2 Canon ts args) bs' tss) as (bs' & HB' & HF).
      { destruct H as [bs' tss' HB' HF|x c HA _|x c y more ts0 ts' t HA _ _ _ _]; [eauto| |]; exfalso; destruct HB as [c1 act more1 bs1 HA' _];
          pose proof (Args_fun _ _ _ _ HA HA') as E; discriminate E. }
      rewrite (Branches_fun _ _ _ HB' HB) in HF. clear - HC HF. revert tss HF. induction HC as [|t b ts bs Ht HC IH]; intros tss HF; inversion HF as [|? us ? tss' (args & HA & Ha) HF']; subst; [easy|].
      cbn [map]. f_equal; [|now apply IH]. rewrite <- (Canon_elems _ _ Ht) in HA. pose proof (Args_fun _ _ _ _ HA (sep_args 44 in44 t)) as E. rewrite E in Ha.
      exact (canon2_fun _ _ _ Ha (canons_of 44 true t)).
    - intros ->. eapply Ja_new; [exact HB|]. clear - HC. induction HC as [|t b ts bs Ht HC IH]; cbn [map]; constructor; [|easy].
      rewrite <- (Canon_elems _ _ Ht). exists (map elems (separate_args (SlTok t) 44 true)). split; [apply sep_args, in44|apply canons_of]. }
  pose proof (sep_args 63 in63 data) as HA. pose proof (sep_seps 44 in44 data) as HS. pose proof (canons_of 44 false data) as HCs.
  destruct (separate_args (SlTok data) 63 true) as [|x [|act more]] eqn:Ex; [now apply separate_ne in Ex| |].
  2:{ eapply N. eapply Br_intro; [exact HA|]. apply (sep_seps 58 in58). }
  cbn [map] in HA. rewrite (jumps_old _ _ HA). destruct (separate_args (SlTok data) 44 false) as [|c [|y m]] eqn:Es; [now apply separate_ne in Es| |]; cbn [tl map] in *.
  - split; [|intros ->; eapply Ja_none; eassumption]. intros H. destruct H as [bs tss HB HF|x' c' HA' HS'|x' c' y' more' ts0 ts' t HA' HS' _ _ _]; [|easy|].
    + exfalso. destruct HB as [c1 act more1 bs1 HA' _]. pose proof (Args_fun _ _ _ _ HA HA') as E. discriminate E.
    + exfalso. pose proof (Separated_fun _ _ _ _ HS HS') as E. discriminate E.
  - split.
    + intros H. destruct H as [bs tss HB HF|x' c' HA' HS'|x' c' y' more' ts0 ts' t HA' HS' HC HU HJ].
      * exfalso. destruct HB as [c1 act more1 bs1 HA' _]. pose proof (Args_fun _ _ _ _ HA HA') as E. discriminate E.
      * exfalso. pose proof (Separated_fun _ _ _ _ HS HS') as E. discriminate E.
      * pose proof (Separated_fun _ _ _ _ HS HS') as [= _ E1 E2]. f_equal. symmetry. apply (old_iff data c y m t Es). exists ts'. split; [|easy].
        inversion HCs as [|? ? ? ? _ HCs']; subst. rewrite (canon2_fun _ _ _ HC HCs') in HU. exact HU.
    + intros ->. inversion HCs as [|? ? ? ? _ HCs']; subst.
      pose proof (old_one data true) as Ho. rewrite Es in Ho. cbn [tl] in Ho.
      destruct (separate_args (SlList (y :: m)) 44 true) as [|t [|? ?]] eqn:Eo; try discriminate Ho.
      apply (old_iff data c y m t Es) in Eo as (ts' & HU & HJ). eapply Ja_old; eassumption.
Qed.

(* ---- calls ---- *)
Lemma mmap_iff {A B} (f : A -> M B) l : forall log ys, mmap f l = (log, Ok ys) <-> Logs (fun x y lg => f x = (lg, Ok y)) l ys log.
Proof.
  intros log ys. split; [apply mmap_logs|]. induction 1 as [|x y l1 xs ys l2 Hx _ IH]; [easy|]. cbn [mmap].
  apply bind_eq. exists l1, y, l2. split; [easy|]. split; [|easy]. apply bind_eq. exists l2, ys, []. now rewrite app_nil_r.
Qed.
Lemma logs_map {A B C} (R : C -> B -> list lev -> Prop) (g : A -> C) l : forall ys log,
  Logs R (map g l) ys log <-> Logs (fun x => R (g x)) l ys log.
Proof.
  induction l as [|x l IH]; intros ys log; cbn [map]; (split; intros H; inversion H; subst; constructor; try easy; now apply IH).
Qed.
Lemma logs_ext {A B} (R S : A -> B -> list lev -> Prop) l : (forall x y lg, In x l -> R x y lg <-> S x y lg) -> forall ys log, Logs R l ys log <-> Logs S l ys log.
Proof.
  induction l as [|x l IH]; intros HE ys log; (split; intros H; inversion H; subst; constructor); try (now apply HE; [left|]);
    (eapply IH; [|eassumption]; intros; apply HE; now right).
Qed.
Lemma logs_silent {A B} (R : A -> B -> Prop) l : forall ys log, Logs (fun x y lg => lg = [] /\ R x y) l ys log <-> log = [] /\ Forall2 R l ys.
Proof.
  induction l as [|x l IH]; intros ys log; split.
  - intros H. inversion H; subst. split; [easy|constructor].
  - intros [-> H]. inversion H; subst. constructor.
  - intros H. inversion H as [|? ? ? ? ? ? [-> Hx] H']; subst. apply IH in H' as [-> H']. split; [easy|]. now constructor.
  - intros [-> H]. inversion H as [|? ? ? ? Hx H']; subst. apply (Lg_cons _ _ _ [] _ _ []); [easy|]. now apply IH.
Qed.

Section Calls.
Variable U : uni.
Variable FT : ftable.
Variable w : loc.
Lemma abase_iff data l : abase_call data w = (l, Ok tt) <-> AppBalance w data (elems data) l.
Proof.
  split; [apply balance_report|]. intros H. unfold abase_call. destruct (balance_exact data (elems data) (Flat_elems data)) as [B1 B2].
  destruct H as [HB|s HB Hs].
  - apply B1 in HB. now rewrite HB.
  - destruct (balance_any (items data)) as [E|E]; rewrite E in *; [exfalso; apply HB; now apply B1|]. cbn [is_value_error]. rewrite Hs.
    reflexivity.
Qed.
Lemma sep_iff data dl args : Canon data dl -> Separated 44 dl args <-> args = map elems (separate_args (SlTok data) 44 false).
Proof.
  intros HC. rewrite <- (Canon_elems _ _ HC). split; [|intros ->; apply (sep_seps 44 in44)]. intros H. exact (Separated_fun _ _ _ _ H (sep_seps 44 in44 data)).
Qed.
Lemma jump_ne data br : In br (jumps data) -> separate_args br 44 true <> [].
Proof. intros _. apply separate_ne. Qed.
Lemma jump_ok data br : In br (jumps data) -> Forall ok (separate_args br 44 true).
Proof.
  intros H. pose proof (sep_args 63 in63 data) as HA.
  destruct (separate_args (SlTok data) 63 true) as [|x [|act more]] eqn:Ex; [now apply separate_ne in Ex| |].
  - cbn [map] in HA. rewrite (jumps_old _ _ HA) in H. pose proof (old_one data true) as Ho.
    destruct (separate_args (SlTok data) 44 false) as [|c [|y m]] eqn:Es; [easy|easy|]. cbn [tl] in *. destruct H as [<-|[]].
    destruct (separate_args (SlList (y :: m)) 44 true) as [|t [|? ?]] eqn:Eo; try discriminate Ho.
    apply (old_iff data c y m t Es) in Eo as (ts' & HU & HJ). constructor; [|constructor]. eapply joined_ok; [|exact HJ].
    apply Forall_forall. intros u Hu. apply canon_ok. apply (unmarked_incl _ _ HU) in Hu. apply (sep_canon_in 44 false data). rewrite Es. now right.
  - pose proof (Br_intro _ _ _ _ _ HA (sep_seps 58 in58 act)) as HB. apply branches_iff in HB as (ts & E & _). rewrite E in H.
    apply in_map_iff in H as (t & <- & _). apply Forall_forall. intros u Hu. apply canon_ok. exact (sep_canon_in _ _ _ _ Hu).
Qed.
Lemma set_iff data l : Canon data (elems data) -> assign U FT data w = (l, Ok tt) <-> Assigned U FT w data l.
Proof.
  intros HC. unfold assign. apply assign_iff; [easy|]. intros fi' sl' l' _ HG. unfold call_func. apply call_iff; [lia|easy].
Qed.
Lemma unit_bind {A} (m : M unit) (k : M A) l y : (do* _ <- m; k) = (l, Ok y) <-> exists l1 l2, m = (l1, Ok tt) /\ k = (l2, Ok y) /\ l = l1 ++ l2.
Proof. rewrite bind_eq. split; [intros (l1 & [] & l2 & H); eauto|intros (l1 & l2 & H); exists l1, tt, l2; easy]. Qed.
Lemma args_bind {A} (data : tok) (name : str) mn mx (k : list tok -> M A) l y :
  (do* args <- (do* _ <- minmax name mn mx (separate_args (SlTok data) 44 false) w; mret (separate_args (SlTok data) 44 false)); k args) = (l, Ok y) <->
  exists l1 l2, CountReport name w mn mx (map elems (separate_args (SlTok data) 44 false)) l1 /\
    k (separate_args (SlTok data) 44 false) = (l2, Ok y) /\ l = l1 ++ l2.
Proof.
  rewrite bind_eq. split.
  - intros (l1 & args & l2 & H1 & H2 & ->). apply bind_tt in H1 as [H1 <-]. apply minmax_iff in H1. eauto.
  - intros (l1 & l2 & H1 & H2 & ->). exists l1, (separate_args (SlTok data) 44 false), l2. split; [|easy]. apply bind_tt. split; [|easy]. now apply minmax_iff.
Qed.
Lemma cond_bind {A} name data (k : sliced -> option tok -> M A) l y :
  (do* x <- varcond_args name data w; let '(_, t, f) := x in k t f) = (l, Ok y) <->
  exists l1 l2, CondSays w name data (elems data) l1 /\ k (fst (acts data)) (snd (acts data)) = (l2, Ok y) /\ l = l1 ++ l2.
Proof.
  rewrite bind_eq. split.
  - intros (l1 & [[c t] f] & l2 & H1 & H2 & ->).
    assert (exists c, varcond_args name data w = (l1, Ok (c, t, f))) as H by eauto. apply cond_iff in H as [E H]. rewrite <- E. eauto.
  - intros (l1 & l2 & H1 & H2 & ->). destruct (acts data) as [t f] eqn:E.
    assert (exists c, varcond_args name data w = (l1, Ok (c, t, f))) as [c Hc] by (apply cond_iff; rewrite E; easy).
    exists l1, (c, t, f), l2. easy.
Qed.

Lemma call_says nested a data l ds : a_kind a <> AExecIf -> Canon data (elems data) ->
  app_call U FT nested a data w = (l, Ok ds) <-> CallSays U FT w a data (elems data) l ds.
Proof.
  intros Hk HC. pose proof (canons_of 44 false data) as HCs. pose proof (sep_seps 44 in44 data) as HSs.
  assert (HS : forall args, Separated 44 (elems data) args -> args = map elems (separate_args (SlTok data) 44 false)) by (intros args H; exact (Separated_fun _ _ _ _ H HSs)).
  assert (HT : forall ts, Forall2 Canon ts (map elems (separate_args (SlTok data) 44 false)) -> ts = separate_args (SlTok data) 44 false)
    by (intros ts H; exact (canon2_fun _ _ _ H HCs)).
  assert (HO : Forall ok (separate_args (SlTok data) 44 false)) by (apply Forall_forall; intros u Hu; apply canon_ok; exact (sep_canon_in _ _ _ _ Hu)).
  pose proof (separate_ne (SlTok data) 44 false) as Hne.
  unfold app_call. destruct (a_kind a) as [| | | | | | | | |ks mn] eqn:Ek; [| | | | | |easy| | |].
  - rewrite bind_tt, abase_iff. split; [intros [H <-]; apply Cl_plain; auto|]. intros H; inversion H; subst; try congruence. easy.
  - rewrite bind_tt, abase_iff. split; [intros [H <-]; apply Cl_plain; auto|]. intros H; inversion H; subst; try congruence. easy.
  - rewrite args_bind. split.
    + intros (l1 & l2 & H1 & H & ->). apply unit_bind in H as (l3 & l4 & H2 & H & ->). apply nopipe_iff in H2.
      apply bind_eq in H as (l5 & d & l6 & H3 & H & ->). unfold mlift in H3. injection H3 as <- H3. injection H as <- <-. rewrite !app_nil_r.
      eapply Cl_goto; try eassumption. now apply target_iff.
    + intros H; inversion H as [| | |args ts l1 l2 d _ H1 H2 H3 H4 H5| | | |]; subst; try congruence; try (match goal with K : a_kind a = APlain \/ _ |- _ => destruct K; congruence end). apply HS in H1. subst args. apply HT in H4. subst ts.
      exists l1, l2. split; [easy|]. split; [|easy]. apply unit_bind. exists l2, []. rewrite app_nil_r. split; [now apply nopipe_iff|]. split; [|easy].
      apply (target_iff _ _ Hne) in H5. rewrite H5. reflexivity.
  - rewrite (cond_bind (a_name a) data (fun t f => mmap (fun br => mlift (goto_dest (separate_args br 44 true))) (branches t f))).
    fold (jumps data).
    assert (K : forall l2 ds, mmap (fun br => mlift (goto_dest (separate_args br 44 true))) (jumps data) = (l2, Ok ds) <->
       l2 = [] /\ Forall2 Target (map (fun br => separate_args br 44 true) (jumps data)) ds).
    { intros l2 ds'. rewrite mmap_iff, <- logs_silent, logs_map. apply logs_ext. intros br d lg _. unfold mlift. rewrite <- target_iff by apply separate_ne.
      split; [intros [= <- ->]; easy|]. intros [-> ->]. easy. }
    split.
    + intros (l1 & l2 & H1 & H & ->). apply K in H as [-> H]. rewrite app_nil_r. eapply Cl_gotoif; try eassumption. now apply jump_iff.
    + intros H; inversion H as [| | | | | |l0 tss ds0 _ H1 H2 H3|]; subst; try congruence; try (match goal with K : a_kind a = APlain \/ _ |- _ => destruct K; congruence end). apply jump_iff in H2. subst tss.
      exists l, []. rewrite app_nil_r. split; [easy|]. split; [|easy]. now apply K.
  - rewrite bind_eq. split.
    + intros (l1 & [[c t] f] & l2 & H1 & H & ->). injection H as <- <-. rewrite app_nil_r. apply if_iff in H1 as (_ & cl & _ & H1). eapply Cl_if; eassumption.
    + intros H; inversion H as [| | | | |c l0 _ H1| |]; subst; try congruence; try (match goal with K : a_kind a = APlain \/ _ |- _ => destruct K; congruence end). destruct (ifsays_canon _ _ _ _ _ H1) as [c' Hc].
      destruct (acts data) as [t f] eqn:Ea. exists l, (c', t, f), []. rewrite app_nil_r. split; [|easy]. apply if_iff. rewrite Ea. eauto.
  - rewrite unit_bind. split.
    + intros (l1 & l2 & H1 & H & ->). apply bind_tt in H as [H <-]. apply (set_iff _ _ HC) in H1. apply abase_iff in H. now apply Cl_set.
    + intros H; inversion H as [|l1 l2 _ H1 H2| | | | | |]; subst; try congruence; try (match goal with K : a_kind a = APlain \/ _ |- _ => destruct K; congruence end). exists l1, l2. split; [now apply set_iff|]. split; [|easy].
      apply bind_tt. split; [now apply abase_iff|easy].
  - rewrite args_bind. split.
    + intros (l1 & l2 & H1 & H & ->). apply unit_bind in H as (l3 & l4 & H2 & H & ->). apply nopipe_iff in H2.
      apply bind_eq in H as (l5 & d & l6 & H3 & H & ->). apply (gosub_iff _ _ _ _ _ _ HO Hne) in H3. injection H as <- <-. rewrite !app_nil_r.
      eapply Cl_gosub; eassumption.
    + intros H; inversion H as [| | | |args ts l1 l2 l3 d _ H1 H2 H3 H4 H5| | |]; subst; try congruence; try (match goal with K : a_kind a = APlain \/ _ |- _ => destruct K; congruence end). apply HS in H1. subst args. apply HT in H4. subst ts.
      exists l1, (l2 ++ l3). split; [easy|]. split; [|easy]. apply unit_bind. exists l2, l3. split; [now apply nopipe_iff|]. split; [|easy].
      apply bind_eq. exists l3, d, []. rewrite app_nil_r. split; [now apply gosub_iff|easy].
  - rewrite (cond_bind (a_name a) data (fun t f => mmap (fun br => gosub_dest (a_name a) false (separate_args br 44 true) w) (branches t f))).
    fold (jumps data).
    assert (K : forall l2 ds, mmap (fun br => gosub_dest (a_name a) false (separate_args br 44 true) w) (jumps data) = (l2, Ok ds) <->
       Logs (GosubTarget (a_name a) w false) (map (fun br => separate_args br 44 true) (jumps data)) ds l2).
    { intros l2 ds'. rewrite mmap_iff, logs_map. apply logs_ext. intros br d lg Hi. apply gosub_iff; [now apply (jump_ok data)|apply separate_ne]. }
    split.
    + intros (l1 & l2 & H1 & H & ->). apply K in H. eapply Cl_gosubif; try eassumption. now apply jump_iff.
    + intros H; inversion H as [| | | | | | |l1 l2 tss ds0 _ H1 H2 H3]; subst; try congruence; try (match goal with K : a_kind a = APlain \/ _ |- _ => destruct K; congruence end). apply jump_iff in H2. subst tss.
      exists l1, l2. split; [easy|]. split; [|easy]. now apply K.
  - rewrite args_bind. split.
    + intros (l1 & l2 & H1 & H & ->). apply unit_bind in H as (l3 & l4 & H2 & H & ->). apply bind_tt in H as [H <-].
      apply (validate_iff _ _ _ _ _ _ HCs) in H2. apply nopipe_iff in H. eapply Cl_args; eassumption.
    + intros H; inversion H as [| |ks' mn' args l1 l2 l3 E H1 H2 H3 H4| | | | |]; subst; try congruence; try (match goal with K : a_kind a = APlain \/ _ |- _ => destruct K; congruence end). rewrite Ek in E. injection E as <- <-.
      apply HS in H1. subst args. exists l1, (l2 ++ l3). split; [easy|]. split; [|easy]. apply unit_bind. exists l2, l3.
      split; [now apply validate_iff|]. split; [|easy]. apply bind_tt. split; [now apply nopipe_iff|easy].
Qed.
End Calls.

(* ---- lines ---- *)
Section Lines.
Variable U : uni.
Variable FT : ftable.
Variable AT : atable.
Variable w : loc.
Hypothesis HU : AsciiOk U.

Lemma text_logs s l l' n n' d d' : AppText U w s l n d -> AppText U w s l' n' d' -> l = l'.
Proof.
  intros [name data E H1|name data E H1 H2|H1 H2|H1 H2] [name' data' E' G1|name' data' E' G1 G2|G1 G2|G1 G2]; subst;
    try (exfalso; apply H1, in_app_iff; right; now left); try (exfalso; apply G1, in_app_iff; right; now left); try easy.
Qed.
Lemma name_logs n l l' r r' : AppName w n l r -> AppName w n l' r' -> l = l'.
Proof.
  intros H H'. pose proof (app_name_fun _ _ _ _ _ _ _ H H') as E.
  destruct H as [m c E1 Hs|E1|sp x m E1 Hn Hb Hx Ht|x m E1 Hx Ht]; destruct H' as [m' c' E' Hs'|E'|sp' x' m' E' Hn' Hb' Hx' Ht'|x' m' E' Hx' Ht']; try easy.
  - rewrite E1 in E'. now destruct m.
  - rewrite E1 in E'. now destruct m'.
  - exfalso. injection E as E. apply Hn. assert (length (sp ++ x :: m) = length (x :: m)) as El by (rewrite <- E1, E; reflexivity).
    rewrite app_length in El. destruct sp; [easy|cbn in El; lia].
  - exfalso. injection E as E. apply Hn'. assert (length (sp' ++ x' :: m') = length (x' :: m')) as El by (rewrite <- E', <- E; reflexivity).
    rewrite app_length in El. destruct sp'; [easy|cbn in El; lia].
Qed.
Lemma split_iff s l r : split_app U (TS s) w = (l, Ok r) <->
  exists l1 l2 name data, AppText U w s l1 name data /\ AppName w name l2 (option_map fst r) /\ l = l1 ++ l2 /\
    (forall n d, r = Some (n, d) -> d = data).
Proof.
  split; [apply app_text|]. intros (l1 & l2 & name & data & H1 & H2 & -> & Hd).
  destruct (split_fine U s w) as (l' & r' & E). pose proof (app_text _ _ _ _ _ E) as (l1' & l2' & name' & data' & H1' & H2' & -> & Hd').
  destruct (app_text_fun _ _ _ _ _ _ _ _ _ _ H1 H1') as [<- <-]. pose proof (text_logs _ _ _ _ _ _ _ H1 H1') as <-.
  pose proof (name_logs _ _ _ _ _ H2 H2') as <-. pose proof (app_name_fun _ _ _ _ _ _ _ H2 H2') as Er. rewrite E. do 2 f_equal.
  destruct r as [[n d]|], r' as [[n' d']|]; try discriminate Er; [|easy]. injection Er as ->.
  now rewrite (Hd _ _ eq_refl), (Hd' _ _ eq_refl).
Qed.
Lemma get_iff n l a : app_get AT (u_lower U n) = (l, Ok a) <-> AppOf U AT n a /\ l = [LApp (u_lower U n)].
Proof.
  unfold app_get, AppOf. destruct (lookup (u_lower U n) AT) as [g|] eqn:E.
  - unfold mlog, mret. cbn. split; [intros [= <- <-]; auto|]. intros [[[= ->]|[H _]] ->]; [easy|discriminate H].
  - destruct (lookup (L "unknown") AT) as [g|] eqn:E'.
    + unfold mlog, mret. cbn. split; [intros [= <- <-]; auto|]. intros [[H|[_ [= ->]]] ->]; [discriminate H|easy].
    + split; [discriminate|]. intros [[H|[_ H]] _]; discriminate H.
Qed.
Lemma spelling_fun a n l l' : Spelling w a n l -> Spelling w a n l' -> l = l'.
Proof. intros [] []; try easy; congruence. Qed.
Lemma spelling_iff a n l : check_availability a n w = (l, Ok tt) <-> Spelling w a n l.
Proof.
  split; [apply spelling_report|]. intros H. destruct (check_fine a n w) as (l' & [] & E). rewrite E.
  pose proof (spelling_report _ _ _ _ _ E) as H'. now rewrite (spelling_fun _ _ _ _ H H').
Qed.

(* one level *)
Lemma new_iff k s l ds : app_new U FT AT (S k) (SlTok (TS s)) w = (l, Ok ds) <->
  (exists l1 l2 name data, AppText U w s l1 name data /\ AppName w name l2 None /\ l = l1 ++ l2 /\ ds = []) \/
  (exists a dl data l1 l2, Heading U FT AT w s a dl l1 /\ Canon data dl /\ l = l1 ++ l2 /\
     app_call U FT (fun r => do* _ <- app_new U FT AT k r w; mret tt) a data w = (l2, Ok ds)).
Proof.
  cbn [app_new]. rewrite bind_eq. split.
  - intros (l1 & x & l2 & H1 & H & ->). apply split_iff in H1 as (l3 & l4 & name & data & H1 & H2 & -> & Hd).
    destruct x as [[n d]|]; cbn [option_map fst] in H2.
    + right. rewrite (Hd _ _ eq_refl) in *. apply bind_eq in H as (l5 & a & l6 & H3 & H & ->). apply get_iff in H3 as [H3 ->].
      apply unit_bind in H as (l7 & l8 & H4 & H & ->). apply spelling_iff in H4.
      apply bind_eq in H as (l9 & t & l10 & H5 & H & ->). apply (inner_iff _ _ _ HU) in H5 as (dl & H5 & HC).
      exists a, dl, t, (l3 ++ l4 ++ LApp (u_lower U n) :: l7 ++ l9), l10. split; [econstructor; eassumption|]. split; [easy|]. split; [|easy].
      cbn [app]. rewrite <- !app_assoc. cbn [app]. now rewrite <- !app_assoc.
    + left. injection H as <- <-. exists l3, l4, name, data. now rewrite app_nil_r.
  - intros [(l1 & l2 & name & data & H1 & H2 & -> & ->)|(a & dl & t & l1 & l2 & H1 & HC & -> & H)].
    + exists (l1 ++ l2), None, []. split; [apply split_iff; now exists l1, l2, name, data|]. split; [easy|]. now rewrite app_nil_r.
    + destruct H1 as [name data n a dl l3 l4 l5 l6 H1 H2 H3 H4 H5].
      exists (l3 ++ l4), (Some (n, data)), (LApp (u_lower U n) :: l5 ++ l6 ++ l2). split; [|split].
      * apply split_iff. exists l3, l4, name, data. repeat (split; [easy|]). now intros ? ? [= _ ->].
      * apply bind_eq. exists [LApp (u_lower U n)], a, (l5 ++ l6 ++ l2). split; [now apply get_iff|]. split; [|easy].
        apply unit_bind. exists l5, (l6 ++ l2). split; [now apply spelling_iff|]. split; [|easy].
        apply bind_eq. exists l6, t, l2. split; [|easy]. apply (inner_iff _ _ _ HU). eauto.
      * cbn [app]. rewrite <- !app_assoc. cbn [app]. now rewrite <- !app_assoc.
Qed.

(* what ExecIf runs *)
Lemma raw_split t s : Canon t (elems t) -> Raw t s -> split_app U t w = split_app U (TS s) w.
Proof.
  intros HC HR. revert HC. destruct HR as [s0|t0 name post s0 Hn HS Hno HT]; [easy|]. intros HC.
  assert (Hm : Some 1%nat <> Some O) by easy.
  destruct (seen_cases 40 (Some 1%nat) t0 (elems t0) HC Hm) as [(il & ps & HS' & Ev & Hc & Hsp)|[(p & HS' & _)|(Hno' & _)]].
  - pose proof (Seen_fun _ _ _ HS HS') as <-.
    assert (Split 40 (Some 1%nat) (map Ch name ++ Ch 40 :: post) [map Ch name; post]) as Hsp'.
    { apply Sp_next; [easy| |apply Sp_stop]. intros Hi. apply in_map_iff in Hi as (? & [= ->] & ?). easy. }
    pose proof (Split_fun _ _ _ _ Hsp' _ Hsp) as E. destruct ps as [|x [|y [|? ?]]]; try discriminate E. injection E as E1 E2.
    inversion Hc as [|? ? Hx Hc']; subst. inversion Hc' as [|? ? Hy _]; subst.
    assert (x = TS name) as ->. { rewrite <- E1 in Hx. exact (canon_text _ _ _ Hx eq_refl). }
    unfold split_app at 1. rewrite Ev. rewrite lift_bind.
    assert (str_of y = Ok s0) as Ey.
    { apply (flat_text y (elems y)); [apply Flat_elems|]. now apply (proj1 (proj2 texts_sound)). }
    unfold split_app. cbn [vsplit]. destruct (Args_proofs.cut40 (name ++ 40 :: s0)) as [(Hc1 & _)|(a & b & E & Hna & Ec)].
    + exfalso. apply Hc1, in_app_iff. right. now left.
    + apply split_unique in E as [<- <-]; [|easy|easy]. rewrite Ec. cbn [map]. rewrite lift_bind. rewrite Ey. reflexivity.
  - exfalso. pose proof (Seen_fun _ _ _ HS HS') as E. destruct name; discriminate E.
  - exfalso. now apply Hno' in HS.
Qed.
Lemma split_raw t l r : Canon t (elems t) -> split_app U t w = (l, Ok r) -> exists s, Raw t s.
Proof.
  intros HC H. destruct (is_str t) eqn:Es; [destruct t; try discriminate Es; eexists; apply Rw_text|].
  assert (Hn : forall x, t <> TS x) by (intros x ->; discriminate Es).
  assert (G : forall ps, vsplit 40 (Some 1%nat) t = Ok ps -> exists x y s, ps = [TS x; y] /\ str_of y = Ok s).
  { intros ps Ev. unfold split_app in H. rewrite Ev, lift_bind in H. apply bind_eq in H as (l1 & [a d] & l2 & H1 & H & _). cbn [fst snd] in H.
    assert (exists y, ps = [a; y] /\ exists s, str_of y = Ok s) as (y & -> & s & Ey).
    { assert (X : (match t with TS s => do* _ <- (if str_eqb (u_lower U s) (L "noop") then mret tt
                                       else memit W_APP_NEED_PARENS w [(L "app", AStr s)]);
                             mret (t, L "()") | _ => mexn AttributeError end) <> (l1, Ok (a, d))) by (destruct t; discriminate).
      destruct ps as [|a' [|y [|? ?]]]; try now destruct X.
      apply bind_eq in H1 as (? & s & ? & H1 & H2 & _). injection H2 as _ -> _. injection H1 as _ H1. eauto. }
    destruct a; try discriminate H. eauto 6. }
  destruct (seen_cases 40 (Some 1%nat) t (elems t) HC ltac:(easy)) as [(il & ps & HS & Ev & Hc & Hsp)|[(p & _ & Ev & _)|(_ & e & Ev)]].
  - destruct (G _ Ev) as (x & y & s & -> & Ey). exists (x ++ 40 :: s).
    assert (il = map Ch x ++ Ch 40 :: elems y /\ ~ In (Ch 40) (map Ch x)) as [-> Hx].
    { cbn [map] in Hsp. rewrite elems_str in Hsp. inversion Hsp as [| |max a l0 ls _ Hna Hs']; subst. cbn [option_map pred] in Hs'.
      inversion Hs'; subst; easy. }
    apply (Rw_call t x (elems y)); [easy|easy| |now apply texts_complete].
    intros Hi. apply Hx. now apply in_map.
  - destruct (G _ Ev) as (x & y & s & E & _). discriminate E.
  - unfold split_app in H. rewrite Ev in H. discriminate H.
Qed.
Lemma raw_new k t s : Canon t (elems t) -> Raw t s -> app_new U FT AT k (SlTok t) w = app_new U FT AT k (SlTok (TS s)) w.
Proof. intros HC HR. destruct k as [|k]; [easy|]. cbn [app_new]. now rewrite (raw_split _ _ HC HR). Qed.
Lemma new_raw k t l ds : Canon t (elems t) -> app_new U FT AT k (SlTok t) w = (l, Ok ds) -> exists s, Raw t s.
Proof.
  intros HC H. destruct k as [|k]; [easy|]. cbn [app_new] in H. apply bind_eq in H as (l1 & x & l2 & H & _). eapply split_raw; eassumption.
Qed.

Lemma line_sound k : forall s l ds, app_new U FT AT k (SlTok (TS s)) w = (l, Ok ds) -> LineSays U FT AT w s l ds.
Proof.
  induction k as [|k IH]; intros s l ds H; [easy|]. apply new_iff in H as [(l1 & l2 & name & data & H1 & H2 & -> & ->)|(a & dl & data & l1 & l2 & HH & HC & -> & H)].
  - eapply Ln_noname; eassumption.
  - pose proof (Canon_elems _ _ HC) as Ed. subst dl. destruct (akind_eq_execif (a_kind a)) as [Ek|Ek].
    2:{ eapply Ln_call; [eassumption|eassumption|]. eapply call_says; eassumption. }
    unfold app_call in H. rewrite Ek in H.
    apply (cond_bind w (a_name a) data (fun t f => do* _ <- mmap (fun r => do* _ <- app_new U FT AT k r w; mret tt) (branches t f); mret [])) in H
      as (l3 & l4 & H1 & H & ->). fold (jumps data) in H. apply bind_eq in H as (l5 & us & l6 & H & H2 & ->). injection H2 as <- <-. rewrite app_nil_r.
    destruct (branches_dec data) as [(bs & HB)|HB].
    + eapply Ln_execif; try eassumption. destruct (branches_iff _ _ HB) as (ts & E & HCs). rewrite E in H. clear - H HCs IH.
      revert us l5 H. induction HCs as [|t b ts bs Ht HCs IHs]; intros us l5 H; cbn [map mmap] in H.
      * injection H as <- _. constructor.
      * apply bind_eq in H as (l1 & [] & l2 & H1 & H & ->). apply bind_eq in H as (l3 & us' & l4 & H & H3 & ->). injection H3 as <- _. rewrite app_nil_r.
        apply bind_eq in H1 as (l6 & ds & l7 & H1 & H2 & ->). injection H2 as <-. rewrite app_nil_r.
        pose proof (canon_self _ _ Ht) as HC. destruct (new_raw _ _ _ _ HC H1) as [s HR]. rewrite (raw_new _ _ _ HC HR) in H1.
        eapply Bs_cons; [exact Ht|exact HR|exact (IH _ _ _ H1)|]. exact (IHs _ _ H).
    + destruct (no_branches _ HB) as [x HA]. rewrite (jumps_old _ _ HA) in H. pose proof (sep_seps 44 in44 data) as HS.
      destruct (separate_args (SlTok data) 44 false) as [|c [|y m]] eqn:Es; [now apply separate_ne in Es| |]; cbn [tl map] in *.
      * injection H as <- _. rewrite app_nil_r. eapply Ln_execif_cond; eassumption.
      * exfalso. cbn [mmap] in H. apply bind_eq in H as (? & ? & ? & H2 & _). apply bind_eq in H2 as (? & ? & ? & H2 & _).
        destruct k; discriminate H2.
Qed.

Scheme line_ind2 := Induction for LineSays Sort Prop with branch_ind2 := Induction for BranchesSay Sort Prop.
Lemma line_complete s l ds : LineSays U FT AT w s l ds -> exists k0, forall k, (k0 <= k)%nat -> app_new U FT AT k (SlTok (TS s)) w = (l, Ok ds).
Proof.
  intros H. refine (line_ind2 U FT AT w (fun s l ds _ => exists k0, forall k, (k0 <= k)%nat -> app_new U FT AT k (SlTok (TS s)) w = (l, Ok ds))
    (fun bs l _ => exists k0, forall k, (k0 <= k)%nat -> forall ts, Forall2 Canon ts bs ->
       exists us, mmap (fun r => do* _ <- app_new U FT AT k r w; mret tt) (map SlTok ts) = (l, Ok us)) _ _ _ _ _ _ s l ds H); clear s l ds H.
  - intros s name data l1 l2 H1 H2. exists 1%nat. intros [|k] Hk; [lia|]. apply new_iff. left. exists l1, l2, name, data. easy.
  - intros s a data dl l1 l2 ds HH HC HS. exists 1%nat. intros [|k] Hk; [lia|]. apply new_iff. right. exists a, dl, data, l1, l2.
    split; [easy|]. split; [easy|]. split; [easy|]. pose proof (Canon_elems _ _ HC) as Ed. subst dl. apply call_says; [|easy|easy].
    intros Ek. destruct HS; try congruence. destruct H; congruence.
  - intros s a data dl bs l1 l2 l3 HH HC Ek Hc HB _ (k0 & IH). exists (S k0). intros [|k] Hk; [lia|]. apply new_iff. right.
    exists a, dl, data, l1, (l2 ++ l3). split; [easy|]. split; [easy|]. split; [easy|]. pose proof (Canon_elems _ _ HC) as Ed. subst dl.
    unfold app_call. rewrite Ek.
    apply (cond_bind w (a_name a) data (fun t f => do* _ <- mmap (fun r => do* _ <- app_new U FT AT k r w; mret tt) (branches t f); mret [])).
    exists l2, l3. split; [easy|]. split; [|easy]. fold (jumps data). destruct (branches_iff _ _ HB) as (ts & E & HCs). rewrite E.
    destruct (IH k ltac:(lia) ts HCs) as [us Hu]. apply bind_eq. exists l3, us, []. now rewrite app_nil_r.
  - intros s a data dl x c l1 l2 HH HC Ek Hc HA HS. exists 1%nat. intros [|k] Hk; [lia|]. apply new_iff. right.
    exists a, dl, data, l1, l2. split; [easy|]. split; [easy|]. split; [easy|]. pose proof (Canon_elems _ _ HC) as Ed. subst dl.
    unfold app_call. rewrite Ek.
    apply (cond_bind w (a_name a) data (fun t f => do* _ <- mmap (fun r => do* _ <- app_new U FT AT k r w; mret tt) (branches t f); mret [])).
    exists l2, []. rewrite app_nil_r. split; [easy|]. split; [|easy]. fold (jumps data). rewrite (jumps_old _ _ HA).
    pose proof (Separated_fun _ _ _ _ HS (sep_seps 44 in44 data)) as E. destruct (separate_args (SlTok data) 44 false) as [|? [|? ?]]; try discriminate E.
    reflexivity.
  - exists O. intros k _ ts HF. inversion HF; subst. now exists [].
  - intros b bs t s ds l1 l2 HC HR _ (k1 & IH1) _ (k2 & IH2). exists (Nat.max k1 k2). intros k Hk ts HF.
    inversion HF as [|t' ? ts' ? HC' HF']; subst. pose proof (Canon_fun _ _ _ HC HC') as <-. destruct (IH2 k ltac:(lia) ts' HF') as [us Hu].
    exists (tt :: us). cbn [map mmap]. apply bind_eq. exists l1, tt, l2. split; [|split; [|easy]].
    + apply bind_eq. exists l1, ds, []. rewrite app_nil_r. split; [|easy]. rewrite (raw_new _ _ _ (canon_self _ _ HC) HR). apply IH1. lia.
    + apply bind_eq. exists l2, us, []. now rewrite app_nil_r.
Qed.

Theorem line_iff s l ds : application U FT AT s w = (l, Ok ds) <-> LineSays U FT AT w s l ds.
Proof.
  split; [apply line_sound|]. intros H. destruct (line_complete _ _ _ H) as (k0 & Hk).
  rewrite <- (application_fuel U FT AT s w (Nat.max k0 (app_fuel s)) ltac:(lia)). apply Hk. lia.
Qed.
Theorem line_determined s l ds l' ds' : LineSays U FT AT w s l ds -> LineSays U FT AT w s l' ds' -> l = l' /\ ds = ds'.
Proof. intros H H'. apply line_iff in H, H'. rewrite H in H'. now injection H' as <- <-. Qed.
End Lines.
Theorem call_says_canon : forall U FT w nested a data dl l ds, a_kind a <> AExecIf -> Canon data dl ->
  app_call U FT nested a data w = (l, Ok ds) <-> CallSays U FT w a data dl l ds.
Proof. intros U FT w nested a data dl l ds Hk HC. pose proof (Canon_elems _ _ HC) as <-. now apply call_says. Qed.
