(* Proofs about the messages on arguments and the destinations of Gosub: C26, C49. *)
From Verif Require Import Base PyStr Defines Var VarFun AppM Spec_Var Spec_App Spec_Args Var_proofs VarFun_proofs
  Balance_proofs Round_proofs App_proofs Tok_proofs AppT_proofs Loader_proofs.

Lemma memit_ok c w args l (x : unit) : mdupe c = false -> memit c w args = (l, Ok x) -> l = say c w args.
Proof.
  intros Hd. unfold memit, mw, emit. rewrite Hd. cbn. destruct (format_ok (mfields c) args); [|easy|easy].
  now intros [= <- _].
Qed.
Ltac said H := apply memit_ok in H as ->; [|reflexivity].

(* ---- trimming ---- *)
Lemma blank_iff s : str_eqb (strip_p isspace s) [] = true <-> Blank s.
Proof.
  rewrite str_eqb_eq. unfold strip_p. rewrite rstrip_p_nil. unfold Blank.
  destruct (lstrip_p_split isspace s) as (a & E & Ha & Hs). rewrite E at 2. rewrite Forall_app.
  rewrite forallb_forall in Ha. rewrite !Forall_forall, forallb_forall.
  tauto.
Qed.
Lemma blank_false s : str_eqb (strip_p isspace s) [] = false <-> ~ Blank s.
Proof. rewrite <- blank_iff. now destruct (str_eqb _ _). Qed.

Lemma forallb_Blank s : forallb isspace s = true <-> Blank s.
Proof. unfold Blank. now rewrite forallb_forall, Forall_forall. Qed.

Lemma strip_trimmed s : Trimmed (map Ch s) (map Ch (strip_p isspace s)).
Proof.
  unfold strip_p. destruct (lstrip_p_split isspace s) as (a & E & Ha & Hs).
  destruct (rstrip_p_split isspace (lstrip_p isspace s)) as (b & E2 & Hb).
  pose proof (rstrip_p_last isspace (lstrip_p isspace s)) as Hl.
  set (m := rstrip_p isspace (lstrip_p isspace s)) in *.
  rewrite E, E2. apply Tr_text; [now apply forallb_Blank|now apply forallb_Blank| |].
  - intros c r Em. rewrite E2, Em in Hs. exact Hs.
  - intros c r Em. rewrite Em, last_opt_app in Hl. exact Hl.
Qed.

Lemma Canon_list m : Forall Part m -> noadj m -> (2 <= length m)%nat -> Canon (TList m) (flat_map elems m).
Proof.
  intros H1 H2 H3. exists m. split; [now apply Parts_iff|]. now destruct m as [|x [|y r]]; [cbn in H3; lia|cbn in H3; lia|].
Qed.
Lemma noadj_sub a b c : noadj (a ++ b ++ c) -> noadj b.
Proof.
  rewrite !noadj_iff. intros H p x y q ->. apply (H (a ++ p) x y (q ++ c)). rewrite <- !app_assoc. reflexivity.
Qed.

(* the text before and after the variables of a list with at least two parts *)
Lemma parts_shape m : Forall Part m -> noadj m -> (2 <= length m)%nat -> exists a mid b,
  m = (match a with [] => [] | _ => [TS a] end) ++ mid ++ (match b with [] => [] | _ => [TS b] end) /\
  (exists v r, Named v /\ mid = v :: r) /\ (exists v r, Named v /\ mid = r ++ [v]).
Proof.
  intros H1 H2 H3.
  assert (exists a m', m = (match a with [] => [] | _ => [TS a] end) ++ m' /\ exists v r, Named v /\ m' = v :: r) as (a & m' & E & Hv).
  { destruct m as [|x [|y r]]; [cbn in H3; lia|cbn in H3; lia|]. inversion H1 as [|? ? Hx H1']; subst. inversion H1' as [|? ? Hy _]; subst.
    destruct Hx as [Hx|(c & s & ->)].
    - exists [], (x :: y :: r). split; [easy|]. eauto.
    - exists (c :: s), (y :: r). split; [easy|]. destruct Hy as [Hy|(c' & s' & ->)]; [eauto|]. exfalso. destruct H2 as [H2 _]. now apply H2. }
  subst m. assert (Forall Part m' /\ noadj m') as [H1' H2'].
  { split; [now apply Forall_app in H1|]. eapply noadj_sub with (c := []). rewrite app_nil_r. exact H2. }
  exists a. destruct Hv as (v & r & Hv & ->).
  destruct r as [|z r0] using rev_ind.
  - exists [v], []. rewrite app_nil_r. split; [easy|]. split; [now exists v, []|]. now exists v, [].
  - clear IHr0. assert (Part z) as Hz.
    { apply Forall_app in H1 as [_ H1]. change (v :: r0 ++ [z]) with ((v :: r0) ++ [z]) in H1. apply Forall_app in H1 as [_ H1]. now inversion H1. }
    destruct Hz as [Hz|(c & s & ->)].
    + exists (v :: r0 ++ [z]), []. rewrite app_nil_r. split; [easy|]. split; [eauto|]. exists z, (v :: r0). easy.
    + exists (v :: r0), (c :: s). split; [easy|]. split; [eauto|].
      destruct r0 as [|u r1] using rev_ind; [now exists v, []|]. clear IHr1.
      assert (Part u) as Hu.
      { change (v :: (r1 ++ [u]) ++ [TS (c :: s)]) with ((v :: r1 ++ [u]) ++ [TS (c :: s)]) in H1'. apply Forall_app in H1' as [H1' _].
        change (v :: r1 ++ [u]) with ((v :: r1) ++ [u]) in H1'. apply Forall_app in H1' as [_ H1']. now inversion H1'. }
      destruct Hu as [Hu|(c' & s' & ->)]; [now exists u, (v :: r1)|]. exfalso.
      rewrite noadj_iff in H2'. apply (H2' (v :: r1) (c' :: s') (c :: s) []). cbn. now rewrite <- app_assoc.
Qed.

Lemma vstrip_trimmed t l t' : Canon t l -> vstrip t = Ok t' -> exists l', Canon t' l' /\ Trimmed l l'.
Proof.
  intros (m & HP & ->) H. pose proof HP as HP'. apply Parts_iff in HP as (H1 & H2 & HE).
  destruct m as [|x [|y r]]; cbn [tok_of] in H.
  - injection H as <-. exists []. split; [exact (Canon_TS [])|]. subst l. exact (strip_trimmed []).
  - inversion H1 as [|? ? Hx _]; subst. cbn [flat_map]. rewrite app_nil_r. destruct Hx as [Hx|(c & s & ->)].
    + assert (t' = x) as -> by (destruct Hx; cbn in H; try destruct (truthy _) in H; congruence).
      rewrite (elems_named _ Hx). exists [Va x]. split; [now apply Canon_named|].
      apply (Tr_mixed [] [Va x] [] [] [] x [] x []); try easy; left; (split; [constructor|easy]).
    + cbn [vstrip] in H. injection H as <-. rewrite elems_str. eexists. split; [apply Canon_TS|]. apply strip_trimmed.
  - set (m := x :: y :: r) in *. assert (2 <= length m)%nat as H3 by (cbn; lia).
    destruct (parts_shape m H1 H2 H3) as (a & mid & b & Em & (v & q & Hv & Emid) & (v' & q' & Hv' & Emid')).
    assert (forall s, (match s with [] => [] | _ => [TS s] end = [] <-> s = [])) as Hs by (intros [|]; cbn; split; congruence).
    set (A := match a with [] => [] | _ => [TS a] end) in *. set (B := match b with [] => [] | _ => [TS b] end) in *.
    set (a' := if str_eqb (strip_p isspace a) [] then [] else a). set (b' := if str_eqb (strip_p isspace b) [] then [] else b).
    set (A' := match a' with [] => [] | _ => [TS a'] end). set (B' := match b' with [] => [] | _ => [TS b'] end).
    assert (Part v -> True) as _ by easy.
    assert (t' = tok_of (A' ++ mid ++ B')) as ->.
    { unfold vstrip in H. unfold m in H at 1. fold m in H.
      assert ((if blank x then y :: r else m) = A' ++ mid ++ B) as E1.
      { unfold A'. unfold m in Em. destruct a as [|a0 a].
        - cbn in A. subst A. cbn [app] in Em. cbn. rewrite Emid in Em. injection Em as -> Em.
          assert (blank v = false) as -> by (destruct Hv; reflexivity). unfold m. rewrite Emid. cbn. now rewrite Em.
        - subst A. cbn [app] in Em. injection Em as -> Em. unfold blank. unfold a'.
          destruct (str_eqb (strip_p isspace (a0 :: a)) []); [exact Em|]. unfold m. now rewrite Em. }
      rewrite E1 in H.
      assert (strip_last (A' ++ mid ++ B) = A' ++ mid ++ B') as E2.
      { unfold strip_last, B'. destruct b as [|b0 b].
        - subst B. cbn. rewrite Emid', !app_nil_r, app_assoc, last_opt_app. now destruct Hv'.
        - subst B. rewrite app_assoc, last_opt_app. cbn [blank]. unfold b'. destruct (str_eqb (strip_p isspace (b0 :: b)) []).
          + now rewrite removelast_last, app_nil_r.
          + now rewrite <- app_assoc. }
      rewrite E2 in H. destruct (Nat.eqb_spec (length (A' ++ mid ++ B')) (length m)) as [El|El].
      - injection H as <-. rewrite Em in El. rewrite !app_length in El.
        assert (A' = A) as ->.
        { unfold A', A, a' in *. destruct (str_eqb (strip_p isspace a) []); [|easy]. destruct a; [easy|]. exfalso.
          cbn [length] in El. assert (length B' <= length B)%nat; [|lia].
          unfold B', B, b'. destruct (str_eqb (strip_p isspace b) []); destruct b; cbn; lia. }
        assert (B' = B) as ->.
        { unfold B', B, b' in *. destruct (str_eqb (strip_p isspace b) []); [|easy]. destruct b; [easy|]. exfalso. cbn [length] in El. lia. }
        rewrite <- Em. reflexivity.
      - destruct (A' ++ mid ++ B') as [|u [|u' s]] eqn:E3.
        + exfalso. apply app_eq_nil in E3 as [_ E3]. apply app_eq_nil in E3 as [E3 _]. rewrite Emid in E3. discriminate E3.
        + injection H as <-. reflexivity.
        + injection H as <-. reflexivity. }
    exists (map Ch a' ++ flat_map elems mid ++ map Ch b').
    assert (forall s, flat_map elems (match s with [] => [] | _ => [TS s] end) = map Ch s) as Hfl.
    { intros [|c s]; [easy|]. cbn [flat_map]. now rewrite app_nil_r, elems_str. }
    split.
    + exists (A' ++ mid ++ B'). split; [|reflexivity]. apply Parts_iff. split; [|split].
      * rewrite Em in H1. rewrite !Forall_app in *. destruct H1 as (_ & K & _). split; [|split; [easy|]].
        -- unfold A'. destruct a'; [constructor|]. constructor; [right; eauto|constructor].
        -- unfold B'. destruct b'; [constructor|]. constructor; [right; eauto|constructor].
      * rewrite Em in H2.
        assert (exists p, A ++ mid ++ B = p ++ A' ++ mid ++ B) as [p E1].
        { unfold A', A, a'. destruct (str_eqb (strip_p isspace a) []); [eexists; reflexivity|]. now exists []. }
        assert (exists p', A' ++ mid ++ B = (A' ++ mid ++ B') ++ p') as [p' E2].
        { unfold B', B, b'. destruct (str_eqb (strip_p isspace b) []); [eexists; rewrite (app_nil_r mid), <- app_assoc; reflexivity|].
          exists []. now rewrite app_nil_r. }
        rewrite E1, E2 in H2. now apply noadj_sub in H2.
      * rewrite !flat_map_app. unfold A', B'. now rewrite !Hfl.
    + rewrite <- HE, Em, !flat_map_app. unfold A, B. rewrite !Hfl.
      apply (Tr_mixed a _ b a' b' v (flat_map elems q) v' (flat_map elems q')).
      * rewrite Emid. cbn [flat_map]. now rewrite (elems_named _ Hv).
      * rewrite Emid', flat_map_app. cbn [flat_map]. now rewrite (elems_named _ Hv').
      * unfold a'. destruct (str_eqb (strip_p isspace a) []) eqn:E; [left|right]; (split; [now (apply blank_iff || apply blank_false)|easy]).
      * unfold b'. destruct (str_eqb (strip_p isspace b) []) eqn:E; [left|right]; (split; [now (apply blank_iff || apply blank_false)|easy]).
Qed.

(* ---- counting ---- *)
Section Reports.
Variable name : str.
Variable w : loc.

Lemma minmax_report mn mx args l (x : unit) : minmax name mn mx args w = (l, Ok x) ->
  CountReport name w mn mx (map elems args) l.
Proof.
  unfold minmax.
  set (few := match mn with Some m => Nat.ltb (length args) m || _ | None => false end).
  assert (few = true <-> TooFew mn (map elems args)) as Hf.
  { unfold few, TooFew. destruct mn as [m|]; [|split; [easy|now intros (m & ? & _)]].
    rewrite Bool.orb_true_iff, Bool.andb_true_iff, Nat.ltb_lt, Nat.eqb_eq. rewrite map_length. split.
    - intros [H|[-> H]]; exists m || exists 1%nat; split; auto. right. split; [easy|].
      destruct args as [|a [|b r]]; try easy. apply Bool.negb_true_iff, falsy_elems in H. cbn. now rewrite H.
    - intros (m' & [= <-] & [H|[-> H]]); [now left|]. right. split; [easy|].
      destruct args as [|a [|b r]]; try easy. cbn in H. injection H as H. apply Bool.negb_true_iff, falsy_elems. exact H. }
  destruct few eqn:E.
  - destruct mn as [m|]; [|discriminate E]. intros H. said H. apply Cr_few; [easy|]. now apply Hf.
  - assert (~ TooFew mn (map elems args)) as Hn by (rewrite <- Hf; discriminate).
    destruct mx as [m|].
    + destruct (Nat.ltb_spec m (length args)) as [Hl|Hl].
      * intros H. said H. apply Cr_many; [easy|easy|]. now rewrite map_length.
      * intros [= <- _]. apply Cr_fine; [easy|]. intros m' [= <-]. now rewrite map_length.
    + intros [= <- _]. now apply Cr_fine.
Qed.

Lemma nopipe_report data args l (x : unit) : nopipe name data args w = (l, Ok x) ->
  PipeReport name w data (map elems args) l.
Proof.
  unfold nopipe. destruct args as [|a [|b r]].
  - intros [= <- _]. apply Pr_fine. easy.
  - destruct (tin 124 a) eqn:E.
    + intros H. said H. apply (Pr_pipe _ _ _ _ (elems a)); [easy|]. now apply tin_In.
    + intros [= <- _]. apply Pr_fine. intros b [= <-] Hb. apply tin_In in Hb. congruence.
  - intros [= <- _]. apply Pr_fine. easy.
Qed.

(* ---- options ---- *)
Lemma infix_char c s : is_infix [c] s = existsb (N.eqb c) s.
Proof. induction s as [|x s IH]; cbn in *; [easy|]. rewrite Bool.andb_true_r. now rewrite IH. Qed.

Lemma strs_chars t : flat_map (fun i => match i with TS s => [s] | _ => [] end) (items t) = map (fun c => [c]) (chars_of (elems t)).
Proof.
  unfold elems. induction (items_Item t) as [|x l Hx _ IH]; [easy|]. cbn [flat_map map]. rewrite IH.
  destruct Hx as [c|v Hv]; [easy|]. rewrite (named_el _ Hv). now destruct Hv.
Qed.

Lemma has_dup_iff l : has_dup l = true <-> ~ NoDup l.
Proof.
  induction l as [|x l IH]; cbn [has_dup].
  - split; [easy|]. intros H. exfalso. apply H. constructor.
  - rewrite Bool.orb_true_iff, smem_In, IH. split.
    + intros [H|H] Hd; inversion Hd; subst; auto.
    + intros H. destruct (in_dec str_eq_dec x l) as [Hi|Hi]; [now left|]. right. intros Hd. apply H. now constructor.
Qed.
Lemma NoDup_chars l : NoDup (map (fun c : N => [c]) l) <-> NoDup l.
Proof. split; [apply NoDup_map_inv|]. apply FinFun.Injective_map_NoDup. now intros a b [= ->]. Qed.

Lemma bad_chars opts l : filter (fun s => negb (is_infix s opts)) (map (fun c => [c]) l) =
  map (fun c => [c]) (filter (fun c => negb (existsb (N.eqb c) opts)) l).
Proof. induction l as [|c l IH]; [easy|]. cbn [map filter]. rewrite infix_char, IH. now destruct (existsb _ _). Qed.
Lemma concat_chars (l : str) : List.concat (map (fun c => [c]) l) = l.
Proof. induction l; cbn; congruence. Qed.

Lemma validate_arg_report n k t tl l (x : unit) : Canon t tl -> validate_arg name n k t w = (l, Ok x) -> OptReport name w n tl k l.
Proof.
  intros HC H. pose proof (Canon_elems _ _ HC) as HE. destruct k as [|opts|]; unfold validate_arg in H.
  - injection H as <- _. constructor.
  - rewrite strs_chars, bad_chars, HE, concat_chars in H. fold (unknown opts tl) in H.
    apply mbind_ok in H as (l1 & [] & l2 & H1 & H2 & ->). apply (Or_opts _ _ _ _ _ t); [easy| |].
    + destruct (unknown opts tl) as [|c r]; cbn [map] in H1.
      * injection H1 as <-. now left.
      * said H1. now right.
    + destruct (has_dup (map (fun c => [c]) (chars_of tl))) eqn:E.
      * apply has_dup_iff in E. rewrite NoDup_chars in E. said H2. now right.
      * left. injection H2 as <- _. split; [|easy]. rewrite <- NoDup_chars.
        destruct (ListDec.NoDup_dec str_eq_dec (map (fun c => [c]) (chars_of tl))) as [Hd|Hd]; [easy|].
        apply has_dup_iff in Hd. congruence.
  - destruct (tok_is t (L "app")) eqn:E1; [|destruct (tok_is t (L "exten")) eqn:E2]; cbn [orb] in H.
    + injection H as <- _. apply (Canon_is _ _ _ HC) in E1. apply (Or_word _ _ _ _ (L "app")); [now left|easy].
    + injection H as <- _. apply (Canon_is _ _ _ HC) in E2. apply (Or_word _ _ _ _ (L "exten")); [now right; left|easy].
    + said H. apply Or_noword; [|easy]. intros s [<-|[<-|[]]] Es; apply (Canon_is _ _ _ HC) in Es; congruence.
Qed.

Lemma validate_report ks : forall n args tls l (x : unit), Forall2 Canon args tls -> validate name n ks args w = (l, Ok x) ->
  OptReports name w n ks tls l.
Proof.
  induction ks as [|k ks IH]; intros n args tls l x HC H; cbn [validate] in H.
  - injection H as <- _. constructor.
  - destruct HC as [|a tl args tls Ha HC]; [injection H as <- _; constructor|].
    apply mbind_ok in H as (l1 & [] & l2 & H1 & H2 & ->). constructor; [eapply validate_arg_report; eassumption|].
    eapply IH; eassumption.
Qed.

(* ---- conditions ---- *)
Lemma if_report data l c t f : if_args name data w = (l, Ok (c, t, f)) ->
  exists cl, Canon c cl /\ IfReport name w data (elems data) cl l.
Proof.
  intros H. unfold if_args in H. apply mbind_ok in H as (l1 & [[c0 t0] f0] & l2 & H1 & H & ->).
  apply mbind_ok in H as (l3 & c' & l4 & H2 & H & ->). unfold mlift in H2. injection H2 as <- H2.
  apply mbind_ok in H as (l5 & [] & l6 & H3 & H & ->). unfold mret in H. injection H as <- <- <- <-.
  rewrite app_nil_r. cbn [app].
  assert (exists cl0, Canon c0 cl0 /\ IfSplit name w data (elems data) cl0 l1) as (cl0 & HC & HS).
  { pose proof (args_of data 63 (delim_ok 63 ltac:(cbn; auto))) as HA.
    pose proof (separate_canon data 63 true) as HC.
    pose proof (separate_Separated data 44 (delim_ok 44 ltac:(cbn; auto))) as HSep.
    pose proof (separate_canon data 44 false) as HC2.
    assert (forall x, separate_args (SlTok data) 63 true = [x] ->
      match separate_args (SlTok data) 44 false with
              | c :: more =>
                do* _ <- (match more with
                          | [] => memit E_APP_ARG_FEW w [(L "app", AStr name); (L "data", targ data); (L "min_args", zn 2)]
                          | _ => memit E_APP_ARG_IFSTYLE w
                                   [(L "app", AStr name); (L "data", targ data); (L "cond", targ c); (L "args", larg more)]
                          end);
                mret (c, SlList more, None)
              | [] => mexn IndexError
              end = (l1, Ok (c0, t0, f0)) -> exists cl0, Canon c0 cl0 /\ IfSplit name w data (elems data) cl0 l1) as K.
    { clear H1. intros x Ex H1. rewrite Ex in HA. destruct (separate_args (SlTok data) 44 false) as [|y more]; [easy|].
      apply mbind_ok in H1 as (l7 & [] & l8 & H1 & H & ->). unfold mret in H. injection H as <- <- <- <-. rewrite app_nil_r.
      inversion HC2 as [|? ? ? ? Hy Hm]; subst. exists (elems y). split; [easy|]. destruct more as [|z more].
      - said H1. eapply Is_none; eassumption.
      - said H1. exact (Is_comma _ _ _ _ _ _ _ _ _ _ HA HSep Hy Hm). }
    destruct (separate_args (SlTok data) 63 true) as [|x [|act more]] eqn:Ex.
    - exfalso. now apply (separate_ne (SlTok data) 63 true).
    - now apply (K x).
    - apply mbind_ok in H1 as (l7 & [] & l8 & H1 & H & ->).
      assert (l8 = [] /\ c0 = x) as [-> ->].
      { destruct (separate_args (SlTok act) 58 false) as [|? [|? ?]]; [easy| |]; unfold mret in H; now injection H as <- <- _ _. }
      rewrite app_nil_r. inversion HC as [|? ? ? ? Hx _]; subst. exists (elems x). split; [easy|].
      destruct more as [|z more].
      + injection H1 as <-. exact (Is_two _ _ _ _ _ _ HA).
      + said H1. exact (Is_many _ _ _ _ _ _ _ _ HA). }
  destruct (vstrip_trimmed _ _ _ HC H2) as (cl & HC' & HT). exists cl. split; [easy|].
  eapply Ir_intro; [exact HS|exact HT|]. destruct (tok_is c' []) eqn:E.
  - apply (Canon_is _ _ _ HC') in E. said H3. now right.
  - injection H3 as <-. left. split; [|easy]. intros ->. pose proof (proj2 (Canon_is _ _ [] HC') eq_refl). congruence.
Qed.

Lemma cond_report data l c t f : varcond_args name data w = (l, Ok (c, t, f)) -> CondReport name w data (elems data) l.
Proof.
  unfold varcond_args. intros H. apply mbind_ok in H as (l1 & [[c0 t0] f0] & l2 & H1 & H & ->).
  apply mbind_ok in H as (l3 & [] & l4 & H2 & H & ->). unfold mret in H. injection H as <- <- <- <-. rewrite app_nil_r.
  apply if_report in H1 as (cl & HC & HR).
  assert (negb (tok_is c0 []) && (is_str c0 || existsb is_str (items c0)) = true <-> exists ch, In (Ch ch) cl) as Hb.
  { rewrite Bool.andb_true_iff, Bool.negb_true_iff, Bool.orb_true_iff.
    assert (existsb is_str (items c0) = true <-> exists ch, In (Ch ch) cl) as He.
    { rewrite <- (Canon_elems _ _ HC). unfold elems. clear H2. induction (items_Item c0) as [|x r Hx _ IH]; cbn [existsb map In].
      - split; [easy|now intros [? []]].
      - rewrite Bool.orb_true_iff, IH. destruct Hx as [ch|v Hv].
        + cbn. split; [intros _; now exists ch; left|now left].
        + rewrite (named_el _ Hv). split.
          * intros [Hs|[ch Hc]]; [now destruct Hv|]. exists ch. now right.
          * intros [ch [Hs|Hs]]; [easy|]. right. now exists ch. } 
    rewrite He. split.
    - intros [Hn [Hs|Hs]]; [|easy]. destruct cl as [|e cl].
      + pose proof (proj2 (Canon_is _ _ [] HC) eq_refl). congruence.
      + destruct e as [ch|v]; [exists ch; now left|]. exfalso. apply (proj1 (Canon_str _ _ HC) Hs v). now left.
    - intros Hch. split; [|now right]. destruct (tok_is c0 []) eqn:E; [|easy].
      apply (Canon_is _ _ _ HC) in E. subst cl. now destruct Hch. }
  destruct (negb (tok_is c0 []) && (is_str c0 || existsb is_str (items c0))) eqn:E.
  - destruct (proj1 Hb eq_refl) as [ch Hch]. said H2. eapply Co_const; eassumption.
  - injection H2 as <-. rewrite app_nil_r. eapply Co_fine; [exact HR|]. intros ch Hch.
    assert (false = true) by (apply Hb; now exists ch). discriminate.
Qed.

(* ---- Gosub ---- *)
Lemma cut_first_none c its : cut_first c its = None -> Forall Item its -> ~ In (Ch c) (map el its).
Proof.
  induction its as [|x its IH]; intros H HI; [now intros []|]. inversion HI; subst. cbn [cut_first] in H.
  destruct (tok_isc x c) eqn:E; [easy|]. destruct (cut_first c its) as [[? ?]|]; [easy|]. cbn [map In].
  intros [Hx|Hx]; [|now apply IH]. apply tok_isc_el in Hx; [congruence|easy].
Qed.

Lemma gosub_prio_report t p sl l : Flat t p -> (is_str t = true <-> forall v, ~ In (Va v) p) ->
  gosub_prio t w = (l, Ok sl) -> PrioOf t p sl /\ BalReport w t p l.
Proof.
  intros HF Hstr H. apply Flat_fun in HF. unfold gosub_prio in H.
  destruct (cut_first 40 (items t)) as [[pre post]|] eqn:E.
  - apply cut_first_some in E as (x & E & Ex & Hpre); [|apply items_Item].
    assert (x = TS [40]) as ->.
    { pose proof (items_Item t) as G. rewrite E in G. apply Forall_app in G as [_ G]. inversion G; subst.
      rewrite <- (unel_el x) by easy. now rewrite Ex. }
    assert (p = map el pre ++ Ch 40 :: map el post) as Ep by (rewrite HF; unfold elems; now rewrite E, map_app).
    apply mbind_ok in H as (l1 & [] & l2 & H1 & H & ->). unfold mret in H. injection H as <- <-. rewrite app_nil_r.
    split.
    + destruct (is_str t) eqn:Es.
      * pose proof (proj1 Hstr eq_refl) as Hv. destruct t; try discriminate Es. cbn [slice_of].
        assert (forall l, (forall v, ~ In (Va v) (map el l)) -> Forall Item l ->
          map el l = map Ch (flat_map (fun i => match i with TS s => s | _ => [] end) l)) as K.
        { clear. intros l Hv HI. induction HI as [|x l Hx _ IH]; [easy|]. cbn [map flat_map]. destruct Hx as [c|v Hn].
          - cbn. f_equal. apply IH. intros v Hin. apply (Hv v). now right.
          - exfalso. apply (Hv v). left. now apply named_el. }
        pose proof (items_Item (TS s)) as HI. rewrite E in HI. apply Forall_app in HI as [HI1 HI2]. inversion HI2; subst.
        rewrite Ep in Hv.
        assert (map el pre = map Ch (flat_map (fun i => match i with TS s => s | _ => [] end) pre)) as Kp.
        { apply K; [|easy]. intros v Hin. apply (Hv v), in_app_iff. now left. }
        assert (map el post = map Ch (flat_map (fun i => match i with TS s => s | _ => [] end) post)) as Kq.
        { apply K; [|easy]. intros v Hin. apply (Hv v), in_app_iff. right. now right. }
        rewrite Kp, Kq in Ep. rewrite Ep. eapply Po_text; [reflexivity|]. intros Hin. apply Hpre. rewrite Kp. now apply in_map.
      * assert (exists v, In (Va v) p) as [v Hv].
        { assert (~ forall v, ~ In (Va v) p) as En by (rewrite <- Hstr; discriminate). clear Es. rename En into Es.
          clear - Es HF. rewrite HF in *. clear HF. unfold elems in *. induction (items_Item t) as [|x l Hx _ IH].
          - exfalso. apply Es. intros v [].
          - destruct Hx as [c|v Hn].
            + destruct IH as [v Hv]; [ |exists v; now right]. intros H. apply Es. intros v [Hv|Hv]; [discriminate Hv|now apply (H v)].
            + exists v. left. now apply named_el. }
        assert (Parts (strjoin pre) (map el pre)) as HP.
        { pose proof (items_Item t) as HI. rewrite E in HI. apply Forall_app in HI as [HI _].
          rewrite <- items_flat by easy. apply strjoin_parts. eapply Forall_impl; [|exact HI]. apply Item_part. }
        assert (slice_of t pre = match strjoin pre with [x] => SlTok x | l => SlList l end) as -> by (destruct t; easy).
        destruct (strjoin pre) as [|x [|y r]].
        -- eapply Po_list; try eassumption. easy.
        -- eapply Po_one; eassumption.
        -- eapply Po_list; try eassumption. easy.
    + destruct (last_opt (items t)) as [c|] eqn:El; [|easy]. apply last_opt_some in El as [its El].
      assert (p = map el its ++ [el c]) as Ep2 by (rewrite HF; unfold elems; now rewrite El, map_app).
      assert (Item c) as Hc by (pose proof (items_Item t) as HI; rewrite El in HI; apply Forall_app in HI as [_ HI]; now inversion HI).
      destruct (tok_isc c 41) eqn:Ec.
      * injection H1 as <-. apply Bl_fine. right. apply tok_isc_el in Ec; [|easy]. rewrite Ec in Ep2. eauto.
      * said H1. apply Bl_bad.
        -- rewrite Ep. apply in_app_iff. right. now left.
        -- intros r Er. rewrite Ep2 in Er. apply app_inj_tail in Er as [_ Er]. apply tok_isc_el in Er; [congruence|easy].
  - injection H as <- <-. apply cut_first_none in E; [|apply items_Item]. fold (elems t) in E. rewrite <- HF in E.
    split; [now apply Po_plain|]. apply Bl_fine. now left.
Qed.

Lemma glue_excess r : forall x, flat_map elems (excess (x :: r)) = glue 44 (map elems (x :: r)).
Proof.
  induction r as [|y r IH]; intros x.
  - cbn. now rewrite app_nil_r.
  - specialize (IH y). cbn [excess flat_map app map glue] in *. f_equal.
    assert (elems (TS [44]) = [Ch 44]) as -> by reflexivity. cbn [app]. f_equal. exact IH.
Qed.

Lemma vjoin_nonstr l : is_str (vjoin l) = false -> exists v, In v l /\ is_str v = false /\ truthy v = true.
Proof.
  assert (forall l copy, (exists v, In v (fold_left push l copy) /\ is_str v = false) ->
    (exists v, In v copy /\ is_str v = false) \/ exists v, In v l /\ is_str v = false /\ truthy v = true) as K.
  { clear. induction l as [|x l IH]; intros copy H; [now left|]. cbn [fold_left] in H. apply IH in H as [(v & Hv & Hs)|(v & Hv & Hs)].
    - unfold push in Hv. destruct (truthy x) eqn:Ex; cbn [negb] in Hv; [|left; eauto].
      assert (In v (x :: copy) -> (exists v, In v copy /\ is_str v = false) \/ exists v, In v (x :: l) /\ is_str v = false /\ truthy v = true) as G.
      { intros [<-|H]; [right; exists x; split; [now left|easy]|left; eauto]. }
      destruct x; try (now apply G). destruct copy as [|[y| | | | | | |] r]; try (now apply G).
      destruct Hv as [<-|Hv]; [discriminate Hs|]. left. exists v. split; [now right|easy].
    - right. exists v. split; [now right|easy]. }
  intros H. destruct (K l []) as [(v & [] & _)|H']; [|exact H'].
  unfold vjoin in H. pose proof (norm_rev _ (fold_push_norm l [] No_nil)) as HN.
  destruct (rev (fold_left push l [])) as [|x [|y r]] eqn:E; [discriminate H| |].
  - exists x. split; [|easy]. apply in_rev. rewrite E. now left.
  - inversion HN as [| |? ? ? _ Hs _]; subst. destruct (is_str x) eqn:Ex; [destruct (is_str y) eqn:Ey; [now destruct Hs|]|].
    + exists y. split; [|easy]. apply in_rev. rewrite E. right. now left.
    + exists x. split; [|easy]. apply in_rev. rewrite E. now left.
Qed.

Lemma gosub_report warned args l d : Forall2 Canon args (map elems args) -> args <> [] ->
  gosub_dest name warned args w = (l, Ok d) -> GosubDest name w warned (map elems args) d l.
Proof.
  intros HC Hne H. unfold gosub_dest in H. apply mbind_ok in H as (l1 & jd & l2 & H1 & H & ->).
  assert (forall a, In a args -> Canon a (elems a)) as HCa.
  { clear - HC. induction args as [|a args IH]; [now intros ? []|]. inversion HC; subst. intros b [<-|Hb]; [easy|]. now apply IH. }
  destruct (Nat.ltb_spec 3 (length args)) as [Hl|Hl].
  - apply mbind_ok in H1 as (l3 & [] & l4 & H1 & H2 & ->). unfold mret in H2. injection H2 as <- <-. rewrite app_nil_r.
    destruct args as [|c [|e [|x [|y r]]]]; try (cbn in Hl; lia).
    cbn [firstn skipn app map] in H. cbn [pad3 map length Nat.sub repeat app] in H.
    apply mbind_ok in H as (l5 & sl & l6 & H & H2 & ->). unfold mret in H2. injection H2 as <- <-. rewrite app_nil_r.
    set (pt := vjoin (excess (x :: y :: r))) in *.
    assert (elems pt = glue 44 (map elems (x :: y :: r))) as Hpt by (unfold pt; rewrite vjoin_elems; apply glue_excess).
    apply (gosub_prio_report pt (elems pt)) in H as [HP HB].
    + eapply Gd_intro; [|exact HP|exact HB|].
      * rewrite Hpt. apply Ga_more; [apply HCa; cbn; auto|apply HCa; cbn; auto|]. apply Flat_iff. now rewrite Hpt.
      * destruct warned.
        -- injection H1 as <-. left. auto.
        -- said H1. right. split; [easy|]. split; [easy|]. rewrite map_length. exact Hl.
    + apply Flat_elems.
    + split.
      * destruct pt; try easy. intros _ v Hv. rewrite elems_str in Hv. apply in_map_iff in Hv as (? & ? & _). easy.
      * intros Hv. destruct (is_str pt) eqn:Es; [easy|]. exfalso. apply vjoin_nonstr in Es as (u & Hu & Hus & _).
        assert (In u (x :: y :: r)) as Hu'.
        { clear - Hu Hus. cbn [excess] in Hu. destruct Hu as [<-|Hu]; [now left|]. apply in_flat_map in Hu as (z & Hz & Hu).
          destruct Hu as [<-|[<-|[]]]; [discriminate Hus|]. right. exact Hz. }
        assert (Canon u (elems u)) as Hcu by (apply HCa; right; right; exact Hu').
        apply Bool.not_true_iff_false in Hus. rewrite (Canon_str _ _ Hcu) in Hus. apply Hus. intros v Hin. apply (Hv v).
        unfold pt. rewrite vjoin_elems. apply in_flat_map. exists u. split; [|easy].
        clear - Hu'. cbn [excess]. destruct Hu' as [<-|Hu']; [now left|]. right. apply in_flat_map. exists u. split; [exact Hu'|].
        right. now left.
  - unfold mret in H1. injection H1 as <- <-. cbn [app].
    assert (forall pt sl l5, In pt args -> gosub_prio pt w = (l5, Ok sl) -> PrioOf pt (elems pt) sl /\ BalReport w pt (elems pt) l5) as K.
    { intros pt sl l5 Hin Hg. apply gosub_prio_report; [apply Flat_elems|apply Canon_str; now apply HCa|easy]. }
    destruct args as [|x [|y [|z [|? ?]]]]; [easy| | | |cbn in Hl; lia];
      cbn [pad3 map length Nat.sub repeat app] in H;
      apply mbind_ok in H as (l5 & sl & l6 & H & H2 & ->); unfold mret in H2; injection H2 as <- <-; rewrite app_nil_r;
      apply K in H as [HP HB]; try (cbn; auto; fail); change l5 with ([] ++ l5);
      (eapply Gd_intro; [|exact HP|exact HB|left; split; [easy|]; right; cbn; lia]);
      constructor; apply HCa; cbn; auto.
Qed.
End Reports.

(* ---- applications ---- *)
Section Calls.
Variable U : uni.
Variable FT : ftable.
Variable nested : sliced -> M unit.

Lemma sep44 data : Separated 44 (elems data) (map elems (separate_args (SlTok data) 44 false)).
Proof. apply separate_Separated, delim_ok. cbn. auto. Qed.

Lemma args_messages a ks mn data w l ds : a_kind a = AArgs ks mn -> app_call U FT nested a data w = (l, Ok ds) ->
  ds = [] /\ exists args l1 l2 l3, Separated 44 (elems data) args /\
    CountReport (a_name a) w mn (Some (length ks)) args l1 /\ OptReports (a_name a) w 1 ks args l2 /\
    PipeReport (a_name a) w data args l3 /\ l = l1 ++ l2 ++ l3.
Proof.
  intros Ek H. unfold app_call in H. rewrite Ek in H. apply mbind_ok in H as (l1 & args & l2 & H1 & H & ->).
  apply mbind_ok in H1 as (l3 & [] & l4 & H1 & H2 & ->). unfold mret in H2. injection H2 as <- <-. rewrite app_nil_r.
  apply mbind_ok in H as (l5 & [] & l6 & H2 & H & ->). apply mbind_ok in H as (l7 & [] & l8 & H3 & H & ->).
  unfold mret in H. injection H as <- <-. rewrite app_nil_r. split; [easy|].
  exists (map elems (separate_args (SlTok data) 44 false)), l3, l5, l7. split; [apply sep44|].
  split; [eapply minmax_report; eassumption|]. split; [|split; [eapply nopipe_report; eassumption|easy]].
  eapply validate_report; [apply separate_canon|eassumption].
Qed.

Lemma goto_messages a data w l ds : a_kind a = AGoto -> app_call U FT nested a data w = (l, Ok ds) ->
  exists args l1 l2, Separated 44 (elems data) args /\
    CountReport (a_name a) w (Some 1%nat) (Some 3%nat) args l1 /\ PipeReport (a_name a) w data args l2 /\ l = l1 ++ l2.
Proof.
  intros Ek H. unfold app_call in H. rewrite Ek in H. apply mbind_ok in H as (l1 & args & l2 & H1 & H & ->).
  apply mbind_ok in H1 as (l3 & [] & l4 & H1 & H2 & ->). unfold mret in H2. injection H2 as <- <-. rewrite app_nil_r.
  apply mbind_ok in H as (l7 & [] & l8 & H3 & H & ->). apply mbind_ok in H as (l9 & d & l10 & H4 & H & ->).
  unfold mlift in H4. injection H4 as <- _. unfold mret in H. injection H as <- <-. rewrite app_nil_r.
  exists (map elems (separate_args (SlTok data) 44 false)), l3, l7. split; [apply sep44|].
  split; [eapply minmax_report; eassumption|]. split; [eapply nopipe_report; eassumption|easy].
Qed.

Lemma gosub_messages a data w l ds : a_kind a = AGosub -> app_call U FT nested a data w = (l, Ok ds) ->
  exists args d l1 l2 l3, Separated 44 (elems data) args /\ ds = [d] /\
    CountReport (a_name a) w (Some 1%nat) (Some 3%nat) args l1 /\ PipeReport (a_name a) w data args l2 /\
    GosubDest (a_name a) w true args d l3 /\ l = l1 ++ l2 ++ l3.
Proof.
  intros Ek H. unfold app_call in H. rewrite Ek in H. apply mbind_ok in H as (l1 & args & l2 & H1 & H & ->).
  apply mbind_ok in H1 as (l3 & [] & l4 & H1 & H2 & ->). unfold mret in H2. injection H2 as <- <-. rewrite app_nil_r.
  apply mbind_ok in H as (l7 & [] & l8 & H3 & H & ->). apply mbind_ok in H as (l9 & d & l10 & H4 & H & ->).
  unfold mret in H. injection H as <- <-. rewrite app_nil_r.
  exists (map elems (separate_args (SlTok data) 44 false)), d, l3, l7, l9. split; [apply sep44|]. split; [easy|].
  split; [eapply minmax_report; eassumption|]. split; [eapply nopipe_report; eassumption|]. split; [|easy].
  apply gosub_report; [apply separate_canon|apply separate_ne|easy].
Qed.

Lemma ifstyle_messages a data w l ds : a_kind a = AIfStyle -> app_call U FT nested a data w = (l, Ok ds) ->
  ds = [] /\ exists c, IfReport (a_name a) w data (elems data) c l.
Proof.
  intros Ek H. unfold app_call in H. rewrite Ek in H. apply mbind_ok in H as (l1 & [[c t] f] & l2 & H1 & H & ->).
  unfold mret in H. injection H as <- <-. rewrite app_nil_r. split; [easy|].
  apply if_report in H1 as (cl & _ & H1). now exists cl.
Qed.

Lemma mmap_lift_log {A B} (f : A -> res B) l : forall log ys, mmap (fun x => mlift (f x)) l = (log, Ok ys) -> log = [].
Proof.
  induction l as [|x l IH]; intros log ys H; cbn [mmap] in H.
  - now injection H as <- _.
  - apply mbind_ok in H as (l1 & y & l2 & H1 & H & ->). unfold mlift in H1. injection H1 as <- _.
    apply mbind_ok in H as (l3 & zs & l4 & H1 & H & ->). unfold mret in H. injection H as <- _. apply IH in H1. now subst.
Qed.

Lemma gotoif_messages a data w l ds : a_kind a = AGotoIf -> app_call U FT nested a data w = (l, Ok ds) ->
  CondReport (a_name a) w data (elems data) l.
Proof.
  intros Ek H. unfold app_call in H. rewrite Ek in H. apply mbind_ok in H as (l1 & [[c t] f] & l2 & H1 & H & ->).
  apply mmap_lift_log in H as ->. rewrite app_nil_r. now apply cond_report in H1.
Qed.

Lemma mmap_logs {A B} (f : A -> M B) l : forall log ys, mmap f l = (log, Ok ys) -> Logs (fun x y lg => f x = (lg, Ok y)) l ys log.
Proof.
  induction l as [|x l IH]; intros log ys H; cbn [mmap] in H.
  - injection H as <- <-. constructor.
  - apply mbind_ok in H as (l1 & y & l2 & H1 & H & ->).
    apply mbind_ok in H as (l3 & zs & l4 & H2 & H & ->). unfold mret in H. injection H as <- <-. rewrite app_nil_r.
    constructor; [easy|]. now apply IH.
Qed.

Lemma gosubif_messages a data w l ds bs : a_kind a = AGosubIf -> app_call U FT nested a data w = (l, Ok ds) ->
  Branches (elems data) bs -> exists l1 l2, CondReport (a_name a) w data (elems data) l1 /\ l = l1 ++ l2 /\
    Logs (fun b d lg => exists args, Args 44 b args /\ GosubDest (a_name a) w false args d lg) bs ds l2.
Proof.
  intros Ek H HB. unfold app_call in H. rewrite Ek in H. apply mbind_ok in H as (l1 & [[c t] f] & l2 & H1 & H & ->).
  exists l1, l2. split; [now apply cond_report in H1|]. split; [easy|].
  apply varcond_ok in H1. destruct H1 as [(bs' & HB' & HF)|(HN & _)]; [|now apply HN in HB].
  rewrite (Branches_fun _ _ _ HB HB') in *. apply mmap_logs in H. clear - H HF. revert ds l2 H.
  induction HF as [|x b xs bs (y & -> & <-) HF IH]; intros ds l2 H; inversion H; subst; constructor; [|now apply IH].
  exists (map elems (separate_args (SlTok y) 44 true)). split; [apply args_of, delim_ok; cbn; auto|].
  apply gosub_report; [apply separate_canon|apply separate_ne|easy].
Qed.

Lemma execif_messages a data w l ds : a_kind a = AExecIf -> app_call U FT nested a data w = (l, Ok ds) ->
  exists l1 l2, ds = [] /\ CondReport (a_name a) w data (elems data) l1 /\ l = l1 ++ l2 /\
    forall bs, Branches (elems data) bs ->
      exists us, Logs (fun b u lg => exists t, Flat t b /\ nested (SlTok t) = (lg, Ok u)) bs us l2.
Proof.
  intros Ek H. unfold app_call in H. rewrite Ek in H. apply mbind_ok in H as (l1 & [[c t] f] & l2 & H1 & H & ->).
  apply mbind_ok in H as (l3 & us & l4 & H2 & H & ->). unfold mret in H. injection H as <- <-. rewrite app_nil_r.
  exists l1, l3. split; [easy|]. split; [now apply cond_report in H1|]. split; [easy|]. intros bs HB. exists us.
  apply varcond_ok in H1. destruct H1 as [(bs' & HB' & HF)|(HN & _)]; [|now apply HN in HB].
  rewrite (Branches_fun _ _ _ HB HB') in *. apply mmap_logs in H2. clear - H2 HF. revert us l3 H2.
  induction HF as [|x b xs bs (y & -> & <-) HF IH]; intros us l3 H; inversion H; subst; constructor; [|now apply IH].
  exists y. split; [apply Flat_elems|easy].
Qed.

Lemma balance_report data w l (x : unit) : abase_call data w = (l, Ok x) -> AppBalance w data (elems data) l.
Proof.
  intros H. unfold abase_call in H. destruct (balance_exact data (elems data) (Flat_elems data)) as [B1 B2].
  destruct (check_balance (items data)) as [[]|e|] eqn:E; [|destruct (is_value_error e); [|easy]|easy].
  - unfold mret in H. injection H as <- _. apply Ab_fine. now apply B1.
  - apply mbind_ok in H as (l1 & s & l2 & H1 & H & ->). unfold mlift in H1. injection H1 as <- H1. said H. cbn [app].
    apply Ab_bad; [|easy]. intros HB. apply B1 in HB. discriminate.
Qed.

Lemma plain_messages a data w l ds : a_kind a = APlain \/ a_kind a = ABackground -> app_call U FT nested a data w = (l, Ok ds) ->
  ds = [] /\ AppBalance w data (elems data) l.
Proof.
  intros Ek H. unfold app_call in H.
  assert (H' : (do* _ <- abase_call data w; mret []) = (l, Ok ds)) by (destruct Ek as [Ek|Ek]; rewrite Ek in H; exact H).
  apply mbind_ok in H' as (l1 & u & l2 & H1 & H2 & ->). unfold mret in H2. injection H2 as <- <-. rewrite app_nil_r.
  split; [easy|]. now apply balance_report in H1.
Qed.

(* a value is shallow if its parts are *)
Definition Flatish (t : tok) : Prop := (exists s, t = TS s) \/ Named t.
Lemma push_flatish c v : Forall Flatish c -> Flatish v -> Forall Flatish (push c v).
Proof.
  intros Hc Hv. unfold push. destruct (negb (truthy v)); [easy|].
  assert (G : Forall Flatish (v :: c)) by now constructor.
  destruct v; try exact G. destruct c as [|[y| | | | | | |] r]; try exact G.
  inversion Hc; subst. constructor; [left; eauto|easy].
Qed.
Lemma flatish_shallow t : Flatish t -> Shallow t.
Proof. intros [[s ->]|H]; now constructor. Qed.
Lemma vjoin_shallow m : Forall Flatish m -> Shallow (vjoin m).
Proof.
  intros Hm. unfold vjoin.
  assert (G : forall l c, Forall Flatish l -> Forall Flatish c -> Forall Flatish (fold_left push l c)).
  { clear. induction l as [|x l IH]; intros c Hl Hc; [easy|]. cbn [fold_left]. inversion Hl; subst.
    apply IH; [easy|]. now apply push_flatish. }
  specialize (G m [] Hm (Forall_nil _)). apply Forall_rev in G.
  destruct (rev _) as [|x [|y r]]; [constructor|inversion G; now apply flatish_shallow|now constructor].
Qed.
Lemma close_shallow cur : Forall Flatish cur -> Shallow (close_group cur).
Proof.
  intros H. unfold close_group. apply Forall_rev in H. destruct (rev cur) as [|x [|y r]]; [constructor| |now apply vjoin_shallow].
  inversion H. now apply flatish_shallow.
Qed.
Lemma opt_cons_flatish s cur : Forall Flatish cur -> Forall Flatish (opt_cons s cur).
Proof. intros H. destruct s; [easy|]. constructor; [left; eauto|easy]. Qed.
Lemma add_parts_shallow ps : forall cur gs cur', Forall Flatish cur -> add_parts cur ps = (gs, cur') ->
  Forall Shallow gs /\ Forall Flatish cur'.
Proof.
  induction ps as [|p ps IH]; intros cur gs cur' Hc E.
  - cbn in E. injection E as <- <-. now split.
  - cbn [add_parts] in E. destruct ps as [|q ps].
    + injection E as <- <-. split; [constructor|now apply opt_cons_flatish].
    + destruct (add_parts [] (q :: ps)) as [gs0 cur0] eqn:E0. injection E as <- <-.
      apply IH in E0 as [H1 H2]; [|constructor]. split; [|easy]. constructor; [|easy].
      apply close_shallow. now apply opt_cons_flatish.
Qed.
Lemma split_items_shallow c max src : forall done cur, Forall Flatish src -> Forall Flatish cur ->
  Forall Shallow (split_items c max done cur src).
Proof.
  induction src as [|t src IH]; intros done cur Hs Hc; cbn [split_items].
  - constructor; [now apply close_shallow|constructor].
  - inversion Hs as [|? ? Ht Hs']; subst.
    assert (G : forall d, Forall Shallow (split_items c max d (t :: cur) src)) by (intros d; apply IH; [easy|now constructor]).
    destruct t; try apply G. destruct (_ || _); [apply G|].
    destruct (add_parts cur _) as [gs cur'] eqn:E. apply add_parts_shallow in E as [H1 H2]; [|easy].
    apply Forall_app. split; [easy|]. now apply IH.
Qed.
Lemma vsplit_shallow c max t parts : Shallow t -> ~ Named t -> vsplit c max t = Ok parts -> Forall Shallow parts.
Proof.
  intros Hs Hn E. destruct Hs as [s|t Ht|m Hm]; [|easy|].
  - cbn in E. injection E as <-. apply Forall_forall. intros x Hx. apply in_map_iff in Hx as (y & <- & _). constructor.
  - cbn in E. injection E as <-. apply split_items_shallow; [exact Hm|constructor].
Qed.
Lemma Canon_shallow t l : Canon t l -> Shallow t.
Proof.
  intros H. apply Canon_iff in H as (m & HP & ->). apply Parts_iff in HP as (HF & _).
  assert (G : Forall Flatish m).
  { eapply Forall_impl; [|exact HF]. intros x [Hx|(c & s & ->)]; [now right|left; eauto]. }
  destruct m as [|x [|y r]]; [constructor|inversion G; now apply flatish_shallow|now constructor].
Qed.

Lemma last_items t x : last_opt (items t) = Some x -> Item x /\ elems t = map el (removelast (items t)) ++ [el x].
Proof.
  intros H. pose proof (items_Item t) as HI. unfold elems. destruct (items t) as [|y its _] using rev_ind; [easy|].
  rewrite last_opt_app in H. injection H as ->. rewrite removelast_last, map_app. split; [|easy].
  apply Forall_app in HI as [_ HI]. now inversion HI.
Qed.
Lemma last_items_none t : last_opt (items t) = None -> elems t = [].
Proof.
  intros H. unfold elems. destruct (items t) as [|y its _] using rev_ind; [easy|]. now rewrite last_opt_app in H.
Qed.
Lemma Split0 c l ls : Split c (Some 0%nat) l ls -> ls = [l].
Proof. intros H. now inversion H. Qed.
Lemma vsplit_one c t parts : Shallow t -> ~ Named t -> vsplit c (Some 1%nat) t = Ok parts ->
  (~ In (Ch c) (elems t) /\ exists p, parts = [p]) \/
  (exists a b, parts = [a; b] /\ Shallow a /\ elems t = elems a ++ Ch c :: elems b /\ ~ In (Ch c) (elems a)).
Proof.
  intros Hs Hn E. destruct (vsplit_Split c (Some 1%nat) t Hs Hn) as (ps & E' & HS). rewrite E in E'. injection E' as <-.
  pose proof (vsplit_shallow _ _ _ _ Hs Hn E) as HF.
  inversion HS as [mx l Hno E1 E2 E3|l E1 E2 E3|mx a l ls Hm Hna HS2 E1 E2 E3]; subst.
  - left. split; [easy|]. destruct parts as [|p [|q r]]; [discriminate| |discriminate]. now exists p.
  - right. destruct parts as [|p r]; [discriminate|]. cbn [map] in E3. injection E3 as -> E3.
    rewrite E3 in HS2. cbn [option_map pred] in HS2. apply Split0 in HS2.
    destruct r as [|q [|q' r]]; [discriminate| |discriminate].
    injection HS2 as HS2. exists p, q. split; [easy|]. split; [now inversion HF|]. split; [now rewrite HS2|easy].
Qed.
Lemma func_check_report name w l f : func_check U FT name w = (l, Ok f) ->
  exists l2, FuncOf U FT name f /\ FuncSpelling w f name l2 /\ l = LFunc (u_lower U name) :: l2.
Proof.
  intros H. unfold func_check in H. apply mbind_ok in H as (l1 & f' & l2 & H1 & H & ->).
  apply mbind_ok in H as (l3 & u & l4 & H2 & H & ->). unfold mret in H. injection H as <- ->. rewrite app_nil_r.
  exists l3. assert (G : FuncOf U FT name f /\ l1 = [LFunc (u_lower U name)]).
  { unfold func_get in H1. unfold FuncOf. destruct (lookup (u_lower U name) FT) as [g|].
    - unfold mlog, mret in H1. cbn in H1. injection H1 as <- ->. split; [now left|easy].
    - destruct (lookup (L "unknown") FT) as [g|]; [|easy].
      unfold mlog, mret in H1. cbn in H1. injection H1 as <- ->. split; [now right|easy]. }
  destruct G as [G ->]. split; [easy|]. split; [|easy].
  destruct (str_eqb (VarFun.f_name f) name) eqn:E1.
  - unfold mret in H2. injection H2 as <- _. apply Fs_same. now apply str_eqb_eq.
  - apply str_eqb_neq in E1. destruct (str_eqb (VarFun.f_name f) (L "UNKNOWN")) eqn:E2.
    + apply str_eqb_eq in E2. said H2. apply Fs_missing; [easy|congruence].
    + apply str_eqb_neq in E2. said H2. now apply Fs_case.
Qed.
Lemma set_messages a data w l ds : a_kind a = ASet -> app_call U FT nested a data w = (l, Ok ds) ->
  exists l1 l2 u, ds = [] /\ assign U FT data w = (l1, Ok u) /\ abase_call data w = (l2, Ok tt) /\ l = l1 ++ l2.
Proof.
  intros Ek H. unfold app_call in H. rewrite Ek in H. apply mbind_ok in H as (l1 & u & l2 & H1 & H & ->).
  apply mbind_ok in H as (l3 & [] & l4 & H2 & H & ->). unfold mret in H. injection H as <- <-. rewrite app_nil_r.
  now exists l1, l3, u.
Qed.


Lemma slflat sl l : flat_map elems (sl_items sl) = l -> SlFlat sl l.
Proof.
  intros <-. exists (map elems (sl_items sl)). split; [|now rewrite flat_map_concat_map].
  induction (sl_items sl); constructor; [apply Flat_elems|easy].
Qed.

Lemma write_report call dest w l (x : unit) : Shallow dest -> (exists r, elems dest = r ++ [Ch 41]) ->
  process_write U FT call dest w = (l, Ok x) ->
  exists fname args f l2 l3, elems dest = map Ch fname ++ Ch 40 :: args ++ [Ch 41] /\ ~ In 40 fname /\
    FuncOf U FT fname f /\ FuncSpelling w f fname l2 /\
    (exists sl, SlFlat sl args /\ call f sl w = (l3, Ok tt)) /\ l = LFunc (u_lower U fname) :: l2 ++ l3.
Proof.
  intros Hs [r0 Hr] H. unfold process_write in H. destruct (tin 40 dest) eqn:E40; [|easy].
  apply mbind_ok in H as (l1 & parts & l2 & H1 & H & ->). unfold mlift in H1. injection H1 as <- H1.
  assert (Hn : ~ Named dest). { intros Hn. rewrite elems_named in Hr by easy. destruct r0 as [|? [|? ?]]; discriminate. }
  apply tin_In in E40. apply vsplit_one in H1; [|easy|easy].
  destruct H1 as [[Hno _]|(a & b & -> & _ & Ed & Hna)]; [easy|].
  destruct (last_opt (items b)) as [c|] eqn:El; [|easy]. apply last_items in El as [Hi Eb].
  destruct (tok_isc c 41) eqn:Ec; [|easy]. apply tok_isc_el in Ec; [|easy]. rewrite Ec in Eb.
  destruct a as [fname| | | | | | |]; try easy.
  apply mbind_ok in H as (l3 & f & l4 & H1 & H & ->). apply func_check_report in H1 as (l5 & HF & HS & ->).
  rewrite elems_str in *. destruct x. exists fname, (map el (removelast (items b))), f, l5, l4.
  split; [now rewrite Ed, Eb|]. split; [intros Hi2; apply Hna; now apply in_map|]. split; [easy|]. split; [easy|].
  split; [|easy]. eexists. split; [|exact H]. apply slflat. apply slice_elems. intros y Hy.
  destruct (items b) as [|z its _] using rev_ind; [easy|]. rewrite removelast_last in Hy. apply in_or_app. now left.
Qed.

Lemma assign_report data w l (x : unit) : Shallow data -> ~ Named data -> assign U FT data w = (l, Ok x) ->
  AssignReport U FT (fun f args lc => exists sl, SlFlat sl args /\ call_func U FT f sl w = (lc, Ok tt)) w data (elems data) l.
Proof.
  intros Hs Hn H. unfold assign, parse_assignment in H. cbn [sl_truthy] in H. destruct (truthy data) eqn:Et; cbn [negb] in H.
  2:{ said H. apply Ar_empty. now apply falsy_elems. }
  apply truthy_elems in Et. apply mbind_ok in H as (l1 & parts & l2 & H1 & H & ->). unfold mlift in H1. injection H1 as <- H1.
  cbn [app]. apply vsplit_one in H1; [|easy|easy]. destruct H1 as [(Hno & p & ->)|(a & b & -> & Hsa & Ed & Hna)].
  - said H. now apply Ar_noequals.
  - apply mbind_ok in H as (l3 & u & l4 & H1 & H & ->).
    assert (G : ~ In (Ch 32) (elems a) /\ l3 = [] \/ In (Ch 32) (elems a) /\ l3 = say W_ASSIGN_SPACES w [(L "name", targ a)]).
    { destruct (tin 32 a) eqn:E.
      - right. apply tin_In in E. said H1. now split.
      - left. unfold mret in H1. injection H1 as <- _. split; [|easy]. intros Hi. apply tin_In in Hi. congruence. }
    clear H1. destruct (last_opt (items a)) as [c|] eqn:El.
    + apply last_items in El as [Hi Ea]. destruct (tok_isc c 41) eqn:Ec.
      * apply tok_isc_el in Ec; [|easy]. apply write_report in H; [|easy|exists (map el (removelast (items a))); congruence].
        destruct H as (fname & args & f & l5 & l6 & E1 & E2 & E3 & E4 & E5 & ->).
        eapply Ar_func; [exact Ed|exact Hna|apply Flat_elems|exact G|exact E1|exact E2|exact E3|exact E4|exact E5].
      * unfold mret in H. injection H as <- _. rewrite app_nil_r.
        eapply Ar_var; [exact Ed|exact Hna|apply Flat_elems|exact G|]. intros r Er. rewrite Ea in Er.
        apply app_inj_tail in Er as [_ Er]. apply tok_isc_el in Er; [congruence|easy].
    + unfold mret in H. injection H as <- _. rewrite app_nil_r. apply last_items_none in El.
      eapply Ar_var; [exact Ed|exact Hna|apply Flat_elems|exact G|]. intros r Er. rewrite El in Er. now destruct r.
Qed.

(* ---- the text of the application ---- *)
Lemma cut40 (s : str) : (~ In 40 s /\ ssplit 40 (Some 1%nat) s = [s]) \/
  (exists a b, s = a ++ 40 :: b /\ ~ In 40 a /\ ssplit 40 (Some 1%nat) s = [a; b]).
Proof.
  destruct (in_dec N.eq_dec 40 s) as [Hi|Hi].
  - right. assert (exists a b, s = a ++ 40 :: b /\ ~ In 40 a) as (a & b & -> & Hn).
    { clear - Hi. induction s as [|x s IH]; [easy|]. destruct (N.eq_dec x 40) as [->|Hx]; [now exists [], s|].
      destruct Hi as [Hi|Hi]; [easy|]. destruct (IH Hi) as (a & b & -> & Hn). exists (x :: a), b. split; [easy|].
      intros [K|K]; easy. }
    exists a, b. split; [easy|]. split; [easy|]. now apply ssplit_first.
  - left. split; [easy|]. induction s as [|x s IH]; [easy|]. cbn [ssplit].
    destruct (x =? 40) eqn:E; [apply N.eqb_eq in E; exfalso; apply Hi; now left|].
    cbn [andb]. rewrite IH; [easy|]. intros K. apply Hi. now right.
Qed.

Lemma unparen_cases (data : str) : (exists d, data = d ++ [41] /\ unparen (40 :: data) = d) \/
  ((forall d, data <> d ++ [41]) /\ unparen (40 :: data) = 40 :: data).
Proof.
  unfold unparen. cbn [startswith]. destruct data as [|c d _] using rev_ind.
  - right. split; [intros d; now destruct d|]. reflexivity.
  - destruct (N.eq_dec c 41) as [->|Hc].
    + left. exists d. split; [easy|]. replace (startswith _ _ && _) with true.
      * cbn [tl]. apply removelast_last.
      * symmetry. apply andb_true_intro. split; [reflexivity|]. unfold endswith.
        change (40 :: d ++ [41]) with ((40 :: d) ++ [41]). rewrite rev_app_distr. reflexivity.
    + right. split; [intros d' E; apply app_inj_tail in E; easy|]. replace (startswith _ _ && _) with false; [easy|].
      symmetry. apply Bool.andb_false_iff. right. unfold endswith.
      change (40 :: d ++ [c]) with ((40 :: d) ++ [c]). rewrite rev_app_distr. cbn.
      apply N.eqb_neq in Hc. change ((41 =? c) && true = false). now rewrite N.eqb_sym, Hc.
Qed.

Lemma app_text s w l r : split_app U (TS s) w = (l, Ok r) ->
  exists l1 l2 name data, AppText U w s l1 name data /\ AppName w name l2 (option_map fst r) /\ l = l1 ++ l2 /\
    (forall n d, r = Some (n, d) -> d = data).
Proof.
  intros H. unfold split_app in H. cbn [vsplit] in H. apply mbind_ok in H as (l0 & parts & l2 & H1 & H & ->).
  unfold mlift in H1. injection H1 as <- H1. cbn [app]. 
  apply mbind_ok in H as (l3 & xd & l4 & H2 & H & ->).
  assert (G : exists name, fst xd = TS name /\ AppText U w s l3 name (unparen (snd xd))).
  { subst parts. destruct (cut40 s) as [(Hn & E)|(a & b & -> & Hn & E)]; rewrite E in H2; cbn [map] in H2.
    - apply mbind_ok in H2 as (l5 & u & l6 & H3 & H2 & ->). unfold mret in H2. injection H2 as <- <-. rewrite app_nil_r.
      exists s. split; [easy|]. change (unparen (snd (TS s, L "()"))) with (@nil N).
      destruct (str_eqb (u_lower U s) (L "noop")) eqn:En.
      + unfold mret in H3. injection H3 as <- _. apply At_noop; [easy|]. now apply str_eqb_eq.
      + said H3. apply At_bare; [easy|]. now apply str_eqb_neq.
    - unfold mlift, mret in H2. cbn [mbind str_of fst snd app] in H2. injection H2 as <- <-. exists a. split; [easy|].
      cbn [snd]. destruct (unparen_cases b) as [(d & -> & ->)|[Hd ->]]; [now apply At_closed|now apply At_open]. }
  destruct G as (name & E & G). rewrite E in H. exists l3, l4, name, (unparen (snd xd)). split; [easy|].
  split; [|split; [easy|]].
  - clear - H. pose proof (rstrip_p_last isspace name) as Hl.
    destruct (str_eqb (rstrip_p isspace name) name) eqn:E1; cbn [negb] in H.
    + apply str_eqb_eq in E1. rewrite E1 in Hl.
      assert (Hend : forall m c, name = m ++ [c] -> isspace c = false).
      { intros m c ->. now rewrite last_opt_app in Hl. }
      destruct (lstrip_p_split isspace name) as (sp & Es & Hb & Hs).
      apply mbind_ok in H as (l5 & u & l6 & H1 & H & ->). destruct (str_eqb (lstrip_p isspace name) name) eqn:E2.
      * apply str_eqb_eq in E2. unfold mret in H1. injection H1 as <- _. rewrite E2 in *. destruct name as [|x n].
        -- apply mbind_ok in H as (l7 & u' & l8 & H1 & H & ->). said H1. unfold mret in H. injection H as <- <-.
           now apply An_none.
        -- unfold mret in H. injection H as <- <-. now apply (An_fine _ _ x n).
      * apply str_eqb_neq in E2. said H1. destruct (lstrip_p isspace name) as [|x n].
        -- exfalso. rewrite app_nil_r in Es. subst sp. destruct name as [|c m _] using rev_ind; [easy|].
           specialize (Hend _ _ eq_refl). rewrite forallb_app in Hb. cbn in Hb. rewrite Hend in Hb.
           now rewrite Bool.andb_false_r in Hb.
        -- unfold mret in H. injection H as <- <-. rewrite app_nil_r. cbn [option_map fst].
           apply (An_before _ _ sp x n); [easy| |now apply forallb_Blank|easy|easy].
           intros ->. cbn in Es. congruence.
    + apply str_eqb_neq in E1. apply mbind_ok in H as (l5 & u & l6 & H1 & H & ->). said H1.
      unfold mret in H. injection H as <- <-. rewrite app_nil_r. cbn [option_map].
      destruct (rstrip_p_split isspace name) as (t & Et & Ht). destruct t as [|c t _] using rev_ind.
      * rewrite app_nil_r in Et. congruence.
      * rewrite app_assoc in Et. eapply An_after; [exact Et|]. rewrite forallb_app in Ht. cbn in Ht.
        apply andb_prop in Ht as [_ Ht]. now rewrite Bool.andb_true_r in Ht.
  - intros n d ->. clear - H. destruct (negb _).
    + apply mbind_ok in H as (? & ? & ? & ? & H & ?). unfold mret in H. discriminate.
    + apply mbind_ok in H as (? & ? & ? & ? & H & ?). destruct (lstrip_p isspace name).
      * apply mbind_ok in H as (? & ? & ? & ? & H & ?). discriminate.
      * unfold mret in H. now injection H as _ _ <-.
Qed.

Lemma spelling_report a name w l (x : unit) : check_availability a name w = (l, Ok x) -> Spelling w a name l.
Proof.
  intros H. unfold check_availability in H.
  destruct (a_kind a) eqn:Ek; try (now unfold mlog in H; injection H as <- _; apply Sp_background);
  assert (Hk : a_kind a <> ABackground) by (rewrite Ek; discriminate); clear Ek;
  (destruct (str_eqb (a_name a) name) eqn:E1;
   [unfold mret in H; injection H as <- _; apply Sp_same; [exact Hk|now apply str_eqb_eq]|];
   apply str_eqb_neq in E1; destruct (str_eqb (a_name a) (L "Unknown")) eqn:E2;
   [apply str_eqb_eq in E2; said H; apply Sp_missing; [exact Hk|exact E2|congruence]
   |apply str_eqb_neq in E2; said H; now apply Sp_case]).
Qed.

Lemma application_report AT k raw w l ds : app_new U FT AT k (SlTok (TS raw)) w = (l, Ok ds) ->
  exists l1 l2 name data r, AppText U w raw l1 name data /\ AppName w name l2 r /\
  match r with
  | None => ds = [] /\ l = l1 ++ l2
  | Some n => exists a l3 d l4 nest l5, AppOf U AT n a /\ Spelling w a n l3 /\
      parse_inner U FT n data w = (l4, Ok d) /\ app_call U FT nest a d w = (l5, Ok ds) /\
      l = l1 ++ l2 ++ LApp (u_lower U n) :: l3 ++ l4 ++ l5
  end.
Proof.
  destruct k as [|k]; [easy|]. cbn [app_new]. intros H. apply mbind_ok in H as (l1 & x & l2 & H1 & H & ->).
  apply app_text in H1 as (l3 & l4 & name & data & H1 & H2 & -> & Hd). exists l3, l4, name, data, (option_map fst x).
  split; [easy|]. split; [easy|]. destruct x as [[n d0]|]; cbn [option_map fst].
  - specialize (Hd _ _ eq_refl). subst d0.
    apply mbind_ok in H as (l5 & a & l6 & H3 & H & ->). apply mbind_ok in H as (l7 & u & l8 & H4 & H & ->).
    apply mbind_ok in H as (l9 & d & l10 & H5 & H & ->).
    exists a, l7, d, l9, (fun r => do* _ <- app_new U FT AT k r w; mret tt), l10.
    assert (G : AppOf U AT n a /\ l5 = [LApp (u_lower U n)]).
    { unfold app_get in H3. unfold AppOf. destruct (lookup (u_lower U n) AT) as [g|].
      - unfold mlog, mret in H3. cbn in H3. injection H3 as <- ->. split; [now left|easy].
      - destruct (lookup (L "unknown") AT) as [g|]; [|easy].
        unfold mlog, mret in H3. cbn in H3. injection H3 as <- ->. split; [now right|easy]. }
    destruct G as [G ->]. split; [easy|]. split; [now apply spelling_report in H4|]. split; [easy|]. split; [easy|].
    now rewrite <- app_assoc.
  - unfold mret in H. injection H as <- <-. now rewrite app_nil_r.
Qed.
End Calls.
