(* Proofs about func_odbc.conf (C37). *)
From Verif Require Import Base PyStr Defines FileRd Config VSpace VarFun FuncOdbc Spec_FuncOdbc.
From Coq Require Import Lia Arith.

(* ---- generic ---- *)
Lemma wbind_ok {A B} (m : W A) (f : A -> W B) l b : wbind m f = (l, Ok b) ->
  exists l1 a l2, m = (l1, Ok a) /\ f a = (l2, Ok b) /\ l = l1 ++ l2.
Proof.
  destruct m as [l1 [a|e|]]; cbn; try easy. intros H. injection H as H1 H2.
  exists l1, a, (fst (f a)). split; [easy|]. split; [|easy]. rewrite <- H2. now destruct (f a).
Qed.
Lemma wbind_intro {A B} (m : W A) (f : A -> W B) l1 a l2 r : m = (l1, Ok a) -> f a = (l2, r) ->
  wbind m f = (l1 ++ l2, r).
Proof. intros -> H. cbn. now rewrite H. Qed.

Lemma last_opt_last {A} (l : list A) a : last_opt l = Some a <-> last_of l a.
Proof.
  revert a. induction l as [|x l IH]; intros a.
  - split; [easy|]. intros (r & H). now destruct r.
  - destruct l as [|y l].
    + cbn. split.
      * intros [= ->]. now exists [].
      * intros ([|z [|]] & H); try discriminate H. now injection H as ->.
    + change (last_opt (x :: y :: l)) with (last_opt (y :: l)). rewrite IH. split.
      * intros (r & H). exists (x :: r). cbn. now rewrite H.
      * intros ([|z r] & H); [discriminate H|]. cbn in H. injection H as -> H. now exists r.
Qed.
Lemma last_of_fun {A} (l : list A) a b : last_of l a -> last_of l b -> a = b.
Proof. intros (r & ->) (r' & H). now apply app_inj_tail in H. Qed.
Lemma last_opt_map {A B} (f : A -> B) l : last_opt (map f l) = option_map f (last_opt l).
Proof.
  induction l as [|x [|y l] IH]; [easy|easy|]. cbn [map] in *.
  change (last_opt (f x :: f y :: map f l)) with (last_opt (f y :: map f l)). exact IH.
Qed.

Lemma if_fun P m l l' : If P m l -> If P m l' -> l = l'.
Proof. intros [[]|[]] [[]|[]]; subst; tauto. Qed.
Lemma if_dec (P : Prop) m (b : bool) : (b = true <-> P) -> If P m (if b then [m] else []).
Proof. intros H. destruct b; [left|right]; split; try easy; [now apply H|]. intros Q. now apply H in Q. Qed.

(* ---- positions ---- *)
Lemma pos_of_spec l k n : pos_of l k = Some n ->
  exists a b, l = a ++ k :: b /\ length a = n /\ ~ In k a.
Proof.
  revert n. induction l as [|x l IH]; intros n; [easy|]. cbn [pos_of].
  destruct (str_eqb_spec x k) as [->|NE].
  - intros [= <-]. exists [], l. now split.
  - destruct (pos_of l k) as [m|] eqn:E; [|easy]. cbn. intros [= <-].
    destruct (IH m eq_refl) as (a & b & -> & LA & NI). exists (x :: a), b. split; [easy|].
    split; [cbn; now rewrite LA|]. intros [->|H]; [easy|auto].
Qed.
Lemma pos_of_none l k : pos_of l k = None <-> ~ In k l.
Proof.
  induction l as [|x l IH]; cbn [pos_of]; [easy|]. destruct (str_eqb_spec x k) as [->|NE].
  - split; [easy|]. intros H. exfalso. apply H. now left.
  - destruct (pos_of l k); cbn; split; try easy.
    + intros H. exfalso. apply H. right. destruct (in_dec str_eq_dec k l) as [I|I]; [easy|].
      now apply IH in I.
    + intros _ [H|H]; [easy|]. now apply IH in H.
Qed.
Lemma pos_of_app a k b : ~ In k a -> pos_of (a ++ k :: b) k = Some (length a).
Proof.
  induction a as [|x a IH]; intros H; cbn [app pos_of].
  - now rewrite str_eqb_refl.
  - destruct (str_eqb_spec x k) as [->|NE]; [exfalso; apply H; now left|].
    rewrite IH; [easy|]. intros I. apply H. now right.
Qed.
Lemma pos_of_inj l j k n : pos_of l j = Some n -> pos_of l k = Some n -> j = k.
Proof.
  intros H1 H2. apply pos_of_spec in H1 as (a & b & -> & L1 & _), H2 as (a' & b' & E & L2 & _).
  assert (a = a') by (assert (EF := f_equal (firstn n) E);
    rewrite !firstn_app, L1, L2, Nat.sub_diag, <- L1, firstn_all in EF;
    rewrite L1, <- L2, firstn_all in EF; cbn in EF; now rewrite !app_nil_r in EF).
  subst a'. apply app_inv_head in E. now injection E.
Qed.
Lemma documented_nodup : NoDup documented.
Proof.
  assert (H : forall l, (fix nd l := match l with [] => true | x :: r => negb (smem x r) && nd r end) l = true ->
              NoDup (l : list str)).
  { induction l as [|x l IH]; intros H; [constructor|]. apply andb_true_iff in H as [H1 H2].
    constructor; [|now apply IH]. intros I. apply smem_In in I. now rewrite I in H1. }
  apply H. now vm_compute.
Qed.
Lemma between {A} (a : list A) : forall j b a' k b', a ++ j :: b = a' ++ k :: b' -> (length a < length a')%nat ->
  exists c, a ++ j :: b = a ++ j :: c ++ k :: b'.
Proof.
  induction a as [|x a IH]; intros j b [|y a'] k b' E LT; cbn in LT; try lia.
  - injection E as -> E. exists a'. cbn. now rewrite E.
  - injection E as -> E. destruct (IH _ _ _ _ _ E) as (c & EC); [lia|]. exists c. cbn. now rewrite EC.
Qed.
Lemma before_pos j k n m : pos_of documented j = Some n -> pos_of documented k = Some m ->
  (Before j k <-> (n < m)%nat).
Proof.
  intros H1 H2. split.
  - intros (a & b & c & E). rewrite E in H1, H2.
    pose proof documented_nodup as ND. rewrite E in ND.
    rewrite pos_of_app in H1.
    2:{ apply NoDup_remove_2 in ND. intros I. apply ND, in_or_app. now left. }
    replace (a ++ j :: b ++ k :: c) with ((a ++ j :: b) ++ k :: c) in H2, ND by (rewrite <- app_assoc; easy).
    rewrite pos_of_app in H2.
    2:{ apply NoDup_remove_2 in ND. intros I. apply ND, in_or_app. now left. }
    injection H1 as <-. injection H2 as <-. rewrite app_length. cbn. lia.
  - intros LT. apply pos_of_spec in H1 as (a & b & E1 & L1 & _), H2 as (a' & b' & E2 & L2 & _).
    pose proof E2 as E. rewrite E1 in E. destruct (between _ _ _ _ _ _ E) as (c & EC); [lia|].
    exists a, c, b'. now rewrite E1.
Qed.

(* ---- one key ---- *)
Definition Good (st : list varset) : Prop :=
  NoDup (map v_variable st) /\ forall v, In v st -> In (v_variable v) documented.

Lemma used_ok st : (forall v, In v st -> In (v_variable v) documented) ->
  exists ns, used_poses st = Ok ns /\ Forall2 (fun v n => pos_of documented (v_variable v) = Some n) st ns.
Proof.
  induction st as [|v st IH]; intros H.
  - exists []. now split.
  - destruct IH as (ns & E & F); [intros u I; apply H; now right|]. cbn [used_poses].
    change fo_order with documented. destruct (pos_of documented (v_variable v)) as [n|] eqn:EN.
    + exists (n :: ns). rewrite E. now split; [|constructor].
    + apply pos_of_none in EN. exfalso. apply EN, H. now left.
Qed.
Lemma poses_in st ns k n : Forall2 (fun v n => pos_of documented (v_variable v) = Some n) st ns ->
  pos_of documented k = Some n ->
  existsb (Nat.eqb n) ns = true <-> exists u, In u st /\ v_variable u = k.
Proof.
  intros F H. induction F as [|v m st ns HV F IH]; cbn [existsb].
  - split; [easy|]. now intros (u & [] & _).
  - rewrite orb_true_iff, IH, Nat.eqb_eq. split.
    + intros [->|(u & I & E)]; [exists v|exists u]; split; try easy; [now left| |now right].
      now apply (pos_of_inj documented _ _ m).
    + intros (u & [->|I] & E); [left|right; now exists u]. subst k. rewrite H in HV. now injection HV.
Qed.
Lemma poses_last st ns m : Forall2 (fun v n => pos_of documented (v_variable v) = Some n) st ns ->
  last_opt ns = Some m <-> exists u, last_of st u /\ pos_of documented (v_variable u) = Some m.
Proof.
  intros F. rewrite last_opt_last. split.
  - intros (r & ->). apply Forall2_app_inv_r in F as (s1 & s2 & F1 & F2 & ->).
    inversion F2 as [|u ? s3 ? HU F3]; subst. inversion F3; subst. exists u. split; [now exists s1|easy].
  - intros (u & (r & ->) & H). apply Forall2_app_inv_l in F as (s1 & s2 & F1 & F2 & ->).
    inversion F2 as [|? n ? s3 HU F3]; subst. inversion F3; subst. rewrite H in HU. injection HU as ->.
    now exists s1.
Qed.
Lemma filter_first st k :
  match filter (fun u => str_eqb (v_variable u) k) st with
  | u :: _ => FirstWith (fun u => v_variable u = k) st u
  | [] => forall u, In u st -> v_variable u <> k
  end.
Proof.
  induction st as [|v st IH]; cbn [filter]; [easy|]. destruct (str_eqb_spec (v_variable v) k) as [E|NE].
  - exists [], st. now split.
  - destruct (filter _ st) as [|u l].
    + intros x [<-|I]; auto.
    + destruct IH as (l1 & l2 & -> & HU & HN). exists (v :: l1), l2. split; [easy|]. split; [easy|].
      intros b [<-|I]; auto.
Qed.

Lemma ends_semi s : endswith (L ";") s = true <-> last_of s 59.
Proof.
  unfold endswith. change (rev (L ";")) with [59]. split.
  - destruct (rev s) as [|c r] eqn:E; [easy|]. cbn. destruct (N.eqb_spec 59 c) as [<-|]; [|easy].
    intros _. exists (rev r). now rewrite <- (rev_involutive s), E.
  - intros (r & ->). rewrite rev_app_distr. cbn. now rewrite N.eqb_refl.
Qed.
Lemma smem_legacy k : smem k legacy_keys = true <-> Legacy k.
Proof. rewrite smem_In. unfold Legacy, legacy_keys. cbn [In]. intuition congruence. Qed.
Lemma smem_sql k : smem k sql_keys = true <-> Query k.
Proof. rewrite smem_In. unfold Query, Legacy, sql_keys. cbn [In]. intuition congruence. Qed.

Lemma add_total n w st v : Good st -> exists st' m,
  fo_add (OFunc n w st) v = (m, Ok (OFunc n w st')) /\ KeyRule st v st' m /\ Good st'.
Proof.
  intros [ND DOC]. unfold fo_add, check_order. cbn [of_vars of_name of_where]. change fo_order with documented.
  destruct (pos_of documented (v_variable v)) as [p|] eqn:EP.
  2:{ apply pos_of_none in EP. do 2 eexists. split; [reflexivity|]. split; [now constructor|easy]. }
  assert (HD : In (v_variable v) documented).
  { apply pos_of_spec in EP as (a & b & -> & _). apply in_or_app. right. now left. }
  (* whether the key is new, and the LATE message *)
  assert (HC : (exists m, check_order st v = (m, Ok false) /\ KeyRule st v st m) \/
               exists l1, check_order st v = (l1, Ok true) /\ (forall u, In u st -> v_variable u <> v_variable v) /\
                 If (exists u, last_of st u /\ Before (v_variable v) (v_variable u)) (key_msg W_CONF_KEY_LATE v None) l1).
  { unfold check_order. change fo_order with documented. rewrite EP. destruct st as [|s0 st0] eqn:ES.
    - right. exists []. split; [easy|]. split; [easy|]. right. split; [|easy].
      intros (u & (r & H) & _). now destruct r.
    - rewrite <- ES in *. clear s0 st0 ES. destruct (used_ok st DOC) as (ns & -> & F). cbn [wbind wlift].
      destruct (existsb (Nat.eqb p) ns) eqn:EX.
      + left. apply (poses_in _ _ _ _ F EP) in EX as (u & IU & EU).
        pose proof (filter_first st (v_variable v)) as FF.
        destruct (filter _ st) as [|f fl]; [exfalso; now apply (FF u)|].
        eexists. split; [reflexivity|]. now apply KR_again.
      + right. assert (NEW : forall u, In u st -> v_variable u <> v_variable v).
        { intros u IU EU. assert (T : existsb (Nat.eqb p) ns = true); [|congruence].
          apply (poses_in _ _ _ _ F EP). now exists u. }
        destruct (last_opt ns) as [m|] eqn:EL.
        * pose proof EL as EL'. apply (poses_last _ _ _ F) in EL as (u & LU & PU).
          exists (if (p <? m)%nat then [key_msg W_CONF_KEY_LATE v None] else []).
          split; [destruct (p <? m)%nat; reflexivity|]. split; [easy|]. apply if_dec. rewrite Nat.ltb_lt.
          rewrite <- (before_pos _ _ _ _ EP PU). split.
          -- intros B. now exists u.
          -- intros (u' & LU' & B). now rewrite (last_of_fun _ _ _ LU LU').
        * exists []. split; [easy|]. split; [easy|]. right. split; [|easy]. intros (u & LU & _).
          destruct LU as (r & ->). apply Forall2_app_inv_l in F as (s1 & s2 & F1 & F2 & ->).
          inversion F2 as [|? q ? s3 HU F3]; subst. inversion F3; subst.
          assert (T : last_opt (s1 ++ [q]) = Some q) by (apply last_opt_last; now exists s1). congruence. }
  unfold check_order in HC. change fo_order with documented in HC. rewrite EP in HC.
  destruct HC as [(m & E & K)|(l1 & E & NEW & I1)]; cbv beta zeta in E |- *; rewrite E; cbn [wbind].
  - exists st, (m ++ []). split; [easy|]. rewrite app_nil_r. now split.
  - set (l2 := if smem (v_variable v) legacy_keys then [msg0 W_ODBC_LEGACY (v_where v)] else []).
    set (l3 := if smem (v_variable v) sql_keys && endswith (L ";") (v_value v)
               then [msg0 W_ODBC_TAILSEMI (v_where v)] else []).
    exists (st ++ [v]), (l1 ++ l2 ++ l3). split.
    + unfold l2, l3. destruct (smem (v_variable v) sql_keys) eqn:ES.
      * destruct (smem (v_variable v) legacy_keys), (endswith (L ";") (v_value v)); reflexivity.
      * destruct (smem (v_variable v) legacy_keys) eqn:EL; [|reflexivity].
        apply smem_legacy in EL. assert (T : smem (v_variable v) sql_keys = true) by (apply smem_sql; now left).
        congruence.
    + split.
      * apply KR_new; [easy|easy|easy| |].
        -- apply if_dec, smem_legacy.
        -- apply if_dec. now rewrite andb_true_iff, smem_sql, ends_semi.
      * split.
        -- rewrite map_app. cbn. apply (Permutation.Permutation_NoDup (l := v_variable v :: map v_variable st)).
           { apply Permutation.Permutation_cons_append. }
           constructor; [|easy]. intros I. apply in_map_iff in I as (u & EU & IU). now apply (NEW u).
        -- intros u I. apply in_app_or in I as [I|[<-|[]]]; auto.
Qed.

Lemma first_fun {A} (P : A -> Prop) l a b : FirstWith P l a -> FirstWith P l b -> a = b.
Proof.
  intros (l1 & l2 & E & HA & NA) (l1' & l2' & E' & HB & NB). rewrite E in E'. clear E. revert l1' E' NB.
  induction l1 as [|x l1 IH]; intros [|y l1'] E' NB; cbn in E'; injection E' as E1 E2; subst.
  - easy.
  - exfalso. apply (NB y); [now left|easy].
  - exfalso. apply (NA b); [now left|easy].
  - apply (IH) with (l1' := l1'); [|easy|].
    + intros z I. apply NA. now right.
    + intros z I. apply NB. now right.
Qed.
Lemma first_in {A} (P : A -> Prop) l a : FirstWith P l a -> In a l /\ P a.
Proof. intros (l1 & l2 & -> & H & _). split; [apply in_or_app; right; now left|easy]. Qed.

Lemma KeyRule_fun st v a m b m' : KeyRule st v a m -> KeyRule st v b m' -> a = b /\ m = m'.
Proof.
  intros H1 H2. destruct H1 as [N1|f D1 F1|l1 l2 l3 D1 NW I1 I2 I3], H2 as [N2|f' D2 F2|l1' l2' l3' D2 NW' J1 J2 J3];
    try easy.
  - now rewrite (first_fun _ _ _ _ F1 F2).
  - apply first_in in F1 as [I E]. exfalso. now apply (NW' f).
  - apply first_in in F2 as [I E]. exfalso. now apply (NW f').
  - now rewrite (if_fun _ _ _ _ I1 J1), (if_fun _ _ _ _ I2 J2), (if_fun _ _ _ _ I3 J3).
Qed.
Lemma arrow_fun v l l' : arrow_hint v l -> arrow_hint v l' -> l = l'.
Proof. intros [[]|[]] [[]|[]]; congruence. Qed.
Lemma KeysRule_fun vs : forall st a m b m', KeysRule st vs a m -> KeysRule st vs b m' -> a = b /\ m = m'.
Proof.
  induction vs as [|v vs IH]; intros st a m b m' H1 H2; inversion H1; inversion H2; subst; [easy|].
  match goal with A : arrow_hint v _, B : arrow_hint v _ |- _ => rewrite (arrow_fun _ _ _ A B) in * end.
  match goal with A : KeyRule st v _ _, B : KeyRule st v _ _ |- _ =>
    destruct (KeyRule_fun _ _ _ _ _ _ A B) as [-> ->] end.
  match goal with A : KeysRule _ vs _ _, B : KeysRule _ vs _ _ |- _ => destruct (IH _ _ _ _ _ A B) as [-> ->] end.
  easy.
Qed.

(* ---- names ---- *)
Lemma fname_char_spec c : fname_char c = true <-> fchar c.
Proof. unfold fname_char, fchar. rewrite orb_true_iff, !andb_true_iff, !N.leb_le. lia. Qed.
Lemma join_flat w ws : join [95] (w :: ws) = w ++ flat_map (cons 95) ws.
Proof.
  revert w. induction ws as [|x ws IH]; intros w; cbn [join flat_map]; [now rewrite app_nil_r|].
  cbn [join] in IH. rewrite IH. easy.
Qed.
Lemma fname_rest_word w t : Forall fchar w -> fname_rest (w ++ t) = fname_rest t.
Proof.
  induction 1 as [|c w HC F IH]; [easy|]. cbn [app fname_rest]. apply fname_char_spec in HC. now rewrite HC.
Qed.
Lemma fname_rest_words ws e : Forall (fun w => w <> [] /\ Forall fchar w) ws -> e = [] \/ e = [10] ->
  fname_rest (flat_map (cons 95) ws ++ e) = true.
Proof.
  intros F HE. induction F as [|w ws [NE FW] F IH]; cbn [flat_map].
  - now destruct HE as [-> | ->].
  - rewrite <- app_assoc. destruct w as [|c w]; [easy|]. inversion FW as [|? ? HC FW']; subst.
    cbn [app fname_rest]. replace (fname_char 95) with false by easy. cbn [N.eqb Pos.eqb].
    replace (95 =? 95) with true by easy. apply fname_char_spec in HC. rewrite HC. cbn [andb].
    now rewrite fname_rest_word.
Qed.
Lemma fname_rest_inv n : forall s, (length s <= n)%nat -> fname_rest s = true ->
  exists w ws e, Forall fchar w /\ Forall (fun w => w <> [] /\ Forall fchar w) ws /\
    s = w ++ flat_map (cons 95) ws ++ e /\ (e = [] \/ e = [10]).
Proof.
  induction n as [|n IH]; intros [|c r] LN H; cbn [List.length] in LN; try lia.
  - exists [], [], []. repeat split; try constructor; easy.
  - exists [], [], []. repeat split; try constructor; easy.
  - cbn [fname_rest] in H. destruct (fname_char c) eqn:EC.
    + apply IH in H as (w & ws & e & FW & FS & -> & HE); [|lia].
      exists (c :: w), ws, e. repeat split; try easy. constructor; [now apply fname_char_spec|easy].
    + destruct (N.eqb_spec c 95) as [->|NE].
      * destruct r as [|d r]; [easy|]. apply andb_true_iff in H as [HD H]. cbn [List.length] in LN.
        apply IH in H as (w & ws & e & FW & FS & -> & HE); [|lia].
        exists [], ((d :: w) :: ws), e. split; [constructor|]. split.
        { constructor; [|easy]. split; [easy|]. constructor; [now apply fname_char_spec|easy]. }
        split; [|easy]. cbn. now rewrite app_assoc.
      * destruct r as [|d r]; [|easy]. apply N.eqb_eq in H. subst c.
        exists [], [], [10]. split; [constructor|]. split; [constructor|]. split; [easy|]. now right.
Qed.
Lemma fname_ok_spec s : fname_ok s = true <-> GoodName s.
Proof.
  split.
  - destruct s as [|c r]; [easy|]. cbn [fname_ok]. intros H. apply andb_true_iff in H as [HC H].
    apply (fname_rest_inv (length r)) in H as (w & ws & e & FW & FS & -> & HE); [|easy].
    exists ((c :: w) :: ws), e. split; [easy|]. split.
    { constructor; [|easy]. split; [easy|]. constructor; [now apply fname_char_spec|easy]. }
    split; [|easy]. rewrite join_flat. cbn. now rewrite app_assoc.
  - intros (words & e & NE & F & -> & HE). destruct words as [|w ws]; [easy|].
    inversion F as [|? ? [NW FW] FS]; subst. rewrite join_flat, <- app_assoc.
    destruct w as [|c w]; [easy|]. inversion FW as [|? ? HC FW']; subst. cbn [app fname_ok].
    apply fname_char_spec in HC. rewrite HC. cbn [andb]. rewrite fname_rest_word by easy.
    now apply fname_rest_words.
Qed.

(* ---- the elements ---- *)
Definition Arrows (es : list elem) : Prop := forall v, In (EVar v) es -> v_arrow v <> None.

Lemma varset_total n w st v r : Good st -> v_arrow v <> None -> exists h st' m,
  fo_element (OFunc n w st :: r) (EVar v) = (h ++ m, Ok (OFunc n w st' :: r)) /\
  arrow_hint v h /\ KeyRule st v st' m /\ Good st'.
Proof.
  intros G HA. destruct (add_total n w st v G) as (st' & m & E & K & G').
  unfold fo_element, fo_varset. destruct (v_arrow v) as [[]|] eqn:EA; [| |easy].
  - exists [msg0 H_CONF_HAS_ARROW (v_where v)], st', m. split; [|split; [left; now split|now split]].
    unfold emit. cbn [mdupe wbind format_ok mfields]. rewrite E. cbn [wbind wret fst snd]. now rewrite app_nil_r.
  - exists [], st', m. split; [|split; [right; now split|now split]].
    cbn [wbind wret fst snd]. rewrite E. cbn [wbind wret fst snd]. now rewrite app_nil_r.
Qed.

Lemma context_total st c : exists l, fo_element st (ECtx c) = (l, Ok (OFunc (c_name c) (c_where c) [] :: st)) /\
  forall vs st' m, KeysRule [] vs st' m -> SectionRule c vs (OFunc (c_name c) (c_where c) st') (l ++ m).
Proof.
  set (l1 := if negb (fname_ok (c_name c)) then [Msg W_ODBC_BADTOKENS (c_where c) None [(L "name", AStr (c_name c))]] else []).
  set (l2 := if match c_templates c with [] => false | _ => true end
             then [msg0 I_NOTIMPL_TEMPLATES (c_where c)] else []).
  exists (l1 ++ l2). split.
  - unfold l1, l2, fo_element, fo_context. destruct (fname_ok (c_name c)), (c_templates c); reflexivity.
  - intros vs st' m K. rewrite <- app_assoc. constructor; [easy| |].
    + apply if_dec. rewrite <- fname_ok_spec. destruct (fname_ok (c_name c)); cbn; split; congruence.
    + apply if_dec. destruct (c_templates c); split; easy.
Qed.

(* Inside a section. *)
Lemma steps_in es : forall n w st r, Arrows es -> Good st -> exists vs st' l secs os l2,
  filter not_blank es = map EVar vs ++ flat_map (fun s => ECtx (fst s) :: map EVar (snd s)) secs /\
  KeysRule st vs st' l /\ SectionsRule secs os l2 /\
  fo_steps (OFunc n w st :: r) es = (l ++ l2, Ok (rev os ++ OFunc n w st' :: r)) /\
  Good st' /\ Forall (fun o => Good (of_vars o)) os.
Proof.
  induction es as [|e es IH]; intros n w st r AR G.
  - exists [], st, [], [], [], []. split; [easy|]. split; [apply KS_nil|]. split; [apply SS_nil|]. now split.
  - assert (AR' : Arrows es) by (intros v I; apply AR; now right). destruct e as [cm we|c|v].
    + destruct (IH n w st r AR' G) as (vs & st' & l & secs & os & l2 & H). exists vs, st', l, secs, os, l2.
      cbn [filter not_blank fo_steps fo_element wret wbind app fst snd].
      destruct (fo_steps (OFunc n w st :: r) es) as [x y]. exact H.
    + destruct (context_total (OFunc n w st :: r) c) as (lc & EC & RC).
      destruct (IH (c_name c) (c_where c) [] (OFunc n w st :: r) AR') as (vs & st' & l & secs & os & l2 & F & K & S & E & G' & GS).
      { split; [constructor|easy]. }
      exists [], st, [], ((c, vs) :: secs), (OFunc (c_name c) (c_where c) st' :: os), ((lc ++ l) ++ l2).
      split; [cbn; now rewrite F|]. split; [constructor|]. split; [constructor; [now apply RC|easy]|].
      split; [|split; [easy|now constructor]]. cbn [fo_steps app]. rewrite EC. cbn [wbind]. rewrite E.
      cbn [fst snd rev]. now rewrite <- !app_assoc.
    + destruct (varset_total n w st v r G) as (h & st1 & m & EV & HH & K1 & G1); [apply AR; now left|].
      destruct (IH n w st1 r AR' G1) as (vs & st' & l & secs & os & l2 & F & K & S & E & G' & GS).
      exists (v :: vs), st', (h ++ m ++ l), secs, os, l2. split; [cbn; now rewrite F|].
      split; [now apply KS_cons with st1|]. split; [easy|]. split; [|now split].
      cbn [fo_steps]. rewrite EV. cbn [wbind]. rewrite E. cbn [fst snd]. now rewrite <- !app_assoc.
Qed.

(* Before the first section. *)
Lemma steps_pre es : Arrows es -> exists os l, fo_steps [] es = (l, Ok (rev os)) /\ FileRule es os l /\
  Forall (fun o => Good (of_vars o)) os.
Proof.
  induction es as [|e es IH]; intros AR.
  - exists [], []. split; [easy|]. split; [|constructor]. exists [], [], [], []. repeat split; constructor.
  - assert (AR' : Arrows es) by (intros v I; apply AR; now right). destruct e as [cm we|c|v].
    + destruct (IH AR') as (os & l & E & (pre & secs & l1 & l2 & SH & H) & G). exists os, l. split; [|split; [|easy]].
      * cbn [fo_steps fo_element wret wbind app fst snd]. rewrite E. easy.
      * exists pre, secs, l1, l2. split; [exact SH|easy].
    + destruct (context_total [] c) as (lc & EC & RC).
      destruct (steps_in es (c_name c) (c_where c) [] [] AR') as (vs & st' & l & secs & os & l2 & F & K & S & E & G' & GS).
      { split; [constructor|easy]. }
      exists (OFunc (c_name c) (c_where c) st' :: os), ((lc ++ l) ++ l2). split; [|split].
      * cbn [fo_steps]. rewrite EC. cbn [wbind]. rewrite E. cbn [fst snd rev]. now rewrite <- app_assoc.
      * exists [], ((c, vs) :: secs), [], ((lc ++ l) ++ l2). split; [unfold Shape; cbn; now rewrite F|].
        split; [constructor|]. split; [|easy]. constructor; [now apply RC|easy].
      * now constructor.
    + destruct (IH AR') as (os & l & E & (pre & secs & l1 & l2 & SH & P & S & ->) & G).
      assert (HV : exists h, fo_element [] (EVar v) = (h ++ [msg0 E_CONF_CTX_MISSING (v_where v)], Ok []) /\ arrow_hint v h).
      { unfold fo_element, fo_varset. pose proof (AR v (or_introl eq_refl)). destruct (v_arrow v) as [[]|] eqn:EA; [| |easy].
        - exists [msg0 H_CONF_HAS_ARROW (v_where v)]. split; [reflexivity|left; now split].
        - exists []. split; [reflexivity|right; now split]. }
      destruct HV as (h & EV & HH). exists os, (h ++ [msg0 E_CONF_CTX_MISSING (v_where v)] ++ l1 ++ l2).
      split; [|split; [|easy]].
      * cbn [fo_steps]. rewrite EV. cbn [wbind]. rewrite E. cbn [fst snd]. now rewrite <- app_assoc.
      * exists (v :: pre), secs, (h ++ msg0 E_CONF_CTX_MISSING (v_where v) :: l1), l2.
        split; [unfold Shape; cbn; now rewrite SH|]. split; [now constructor|]. split; [easy|].
        rewrite <- !app_assoc. easy.
Qed.

(* Without an arrow flag the aggregator raises. *)
Lemma steps_arrows es : forall st l st', fo_steps st es = (l, Ok st') -> Arrows es.
Proof.
  induction es as [|e es IH]; intros st l st' H v I; [easy|]. cbn [fo_steps] in H.
  apply wbind_ok in H as (l1 & st1 & l2 & H1 & H2 & _). destruct I as [->|I]; [|now apply (IH _ _ _ H2)].
  intros EA. unfold fo_element, fo_varset in H1. now rewrite EA in H1.
Qed.

(* ---- determinism of the rules ---- *)
Lemma SectionRule_fun c vs o m o' m' : SectionRule c vs o m -> SectionRule c vs o' m' -> o = o' /\ m = m'.
Proof.
  intros [st l l1 l2 K I1 I2] [st' l' l1' l2' K' I1' I2'].
  destruct (KeysRule_fun _ _ _ _ _ _ K K') as [-> ->].
  now rewrite (if_fun _ _ _ _ I1 I1'), (if_fun _ _ _ _ I2 I2').
Qed.
Lemma SectionsRule_fun secs : forall os l os' l', SectionsRule secs os l -> SectionsRule secs os' l' -> os = os' /\ l = l'.
Proof.
  induction secs as [|[c vs] secs IH]; intros os l os' l' H H'; inversion H; inversion H'; subst; [easy|].
  match goal with A : SectionRule c vs _ _, B : SectionRule c vs _ _ |- _ =>
    destruct (SectionRule_fun _ _ _ _ _ _ A B) as [-> ->] end.
  match goal with A : SectionsRule secs _ _, B : SectionsRule secs _ _ |- _ => destruct (IH _ _ _ _ A B) as [-> ->] end.
  easy.
Qed.
Lemma PreRule_fun pre : forall l l', PreRule pre l -> PreRule pre l' -> l = l'.
Proof.
  induction pre as [|v pre IH]; intros l l' H H'; inversion H; inversion H'; subst; [easy|].
  match goal with A : arrow_hint v _, B : arrow_hint v _ |- _ => rewrite (arrow_fun _ _ _ A B) end.
  match goal with A : PreRule pre _, B : PreRule pre _ |- _ => now rewrite (IH _ _ A B) end.
Qed.
Notation body := (flat_map (fun s : ctx * list varset => ECtx (fst s) :: map EVar (snd s))).
Lemma vars_split vs : forall secs vs' secs', map EVar vs ++ body secs = map EVar vs' ++ body secs' ->
  vs = vs' /\ body secs = body secs'.
Proof.
  induction vs as [|v vs IH]; intros secs [|v' vs'] secs' H.
  - now split.
  - exfalso. destruct secs as [|[c x] secs]; discriminate H.
  - exfalso. destruct secs' as [|[c x] secs']; discriminate H.
  - cbn in H. injection H as -> H. apply IH in H as [-> ->]. now split.
Qed.
Lemma body_inj secs : forall secs', body secs = body secs' -> secs = secs'.
Proof.
  induction secs as [|[c vs] secs IH]; intros [|[c' vs'] secs'] H; try discriminate H; [easy|].
  cbn in H. injection H as -> H. apply vars_split in H as [-> H]. apply IH in H. now rewrite H.
Qed.
Lemma Shape_fun es pre secs pre' secs' : Shape es pre secs -> Shape es pre' secs' -> pre = pre' /\ secs = secs'.
Proof.
  unfold Shape. intros -> H. apply vars_split in H as [-> H]. apply body_inj in H. now split.
Qed.
Lemma FileRule_fun es os l os' l' : FileRule es os l -> FileRule es os' l' -> os = os' /\ l = l'.
Proof.
  intros (pre & secs & l1 & l2 & SH & P & S & ->) (pre' & secs' & l1' & l2' & SH' & P' & S' & ->).
  destruct (Shape_fun _ _ _ _ _ SH SH') as [-> ->]. rewrite (PreRule_fun _ _ _ P P').
  destruct (SectionsRule_fun _ _ _ _ _ S S') as [-> ->]. easy.
Qed.
Lemma pre_arrows pre l : PreRule pre l -> forall v, In v pre -> v_arrow v <> None.
Proof. induction 1 as [|v vs h l A P IH]; intros u I; [easy|]. destruct I as [<-|I]; [|auto]. destruct A as [[E _]|[E _]]; congruence. Qed.
Lemma keys_arrows vs : forall st st' l, KeysRule st vs st' l -> forall v, In v vs -> v_arrow v <> None.
Proof.
  induction vs as [|v vs IH]; intros st st' l H u I; [easy|]. inversion H; subst.
  destruct I as [<-|I]; [|eauto]. match goal with A : arrow_hint _ _ |- _ => destruct A as [[E _]|[E _]]; congruence end.
Qed.
Lemma secs_arrows secs os l : SectionsRule secs os l -> forall c vs v, In (c, vs) secs -> In v vs -> v_arrow v <> None.
Proof.
  induction 1 as [|c vs o m secs os l R S IH]; intros c' vs' v I IV; [easy|]. destruct I as [[= <- <-]|I]; [|eauto].
  destruct R. eapply keys_arrows; eauto.
Qed.
Lemma FileRule_arrows es os l : FileRule es os l -> Arrows es.
Proof.
  intros (pre & secs & l1 & l2 & SH & P & S & ->) v I.
  assert (I' : In (EVar v) (filter not_blank es)) by now apply filter_In.
  rewrite SH in I'. apply in_app_or in I' as [I'|I'].
  - apply in_map_iff in I' as (u & [= ->] & I'). now apply (pre_arrows _ _ P).
  - apply in_flat_map in I' as ([c vs] & I1 & [I2|I2]); [easy|]. cbn in I2.
    apply in_map_iff in I2 as (u & [= ->] & I2). eapply secs_arrows; eauto.
Qed.

Lemma steps_iff es l st : fo_steps [] es = (l, Ok st) <-> FileRule es (rev st) l.
Proof.
  split.
  - intros H. destruct (steps_pre es) as (os & l' & E & R & _); [now apply (steps_arrows _ _ _ _ H)|].
    rewrite H in E. injection E as <- ->. now rewrite rev_involutive.
  - intros H. destruct (steps_pre es) as (os & l' & E & R & _); [now apply (FileRule_arrows _ _ _ H)|].
    destruct (FileRule_fun _ _ _ _ _ H R) as [<- <-]. now rewrite rev_involutive in E.
Qed.
Lemma FileRule_good es os l : FileRule es os l -> Forall (fun o => Good (of_vars o)) os.
Proof.
  intros H. destruct (steps_pre es) as (os' & l' & E & R & G); [now apply (FileRule_arrows _ _ _ H)|].
  now destruct (FileRule_fun _ _ _ _ _ H R) as [-> _].
Qed.

(* ---- registration ---- *)
Lemma get_value o k x : Good (of_vars o) -> get_variable (of_vars o) k = Some x <-> Value o k x.
Proof.
  intros [ND _]. unfold Value. induction (of_vars o) as [|v l IH]; cbn [get_variable].
  - split; [easy|]. now intros (v & [] & _).
  - cbn in ND. inversion ND as [|? ? NI ND']; subst. destruct (str_eqb_spec (v_variable v) k) as [<-|NE].
    + split.
      * intros [= <-]. exists v. split; [now left|easy].
      * intros (u & [->|I] & EK & EV); [now rewrite EV|]. exfalso. apply NI. rewrite <- EK. now apply in_map.
    + rewrite (IH ND'). split.
      * intros (u & I & H). exists u. split; [now right|easy].
      * intros (u & [->|I] & H); [now destruct H|]. now exists u.
Qed.
Lemma get_none o k : Good (of_vars o) -> get_variable (of_vars o) k = None <-> forall x, ~ Value o k x.
Proof.
  intros G. destruct (get_variable (of_vars o) k) as [x|] eqn:E.
  - apply get_value in E; [|easy]. split; [easy|]. intros H. exfalso. now apply (H x).
  - split; [|easy]. intros _ x H. apply get_value in H; [congruence|easy].
Qed.
Lemma any_spec o : Good (of_vars o) -> any_read_write o = true <-> HasQuery o.
Proof.
  intros G. assert (HV : forall k, has_variable o k = true <-> exists x, Value o k x).
  { intros k. unfold has_variable. destruct (get_variable (of_vars o) k) as [x|] eqn:E.
    - split; [|easy]. intros _. exists x. now apply get_value.
    - split; [easy|]. intros (x & H). exfalso. now apply (proj1 (get_none o k G) E x). }
  unfold any_read_write, HasQuery. rewrite !orb_true_iff, !HV. split.
  - intros [[[[x H]|[x H]]|[x H]]|[x H]]; eexists _, x; (split; [|exact H]); cbn [In]; tauto.
  - intros (k & x & I & H). cbn [In] in I. destruct I as [<-|[<-|[<-|[<-|[]]]]]; eauto.
Qed.
Lemma name_spec o n : Good (of_vars o) -> function_name o = n <-> FunName o n.
Proof.
  intros G. assert (H : FunName o (function_name o)).
  { unfold function_name, FunName. destruct (get_variable (of_vars o) (L "prefix")) as [[|c p]|] eqn:E; cbn [or_str].
    - exists (L "ODBC"). split; [easy|]. right. split; [easy|]. intros x V. apply get_value in V; [congruence|easy].
    - exists (c :: p). split; [easy|]. left. split; [easy|]. now apply get_value.
    - exists (L "ODBC"). split; [easy|]. right. split; [easy|]. intros x V. apply get_value in V; [congruence|easy]. }
  split; [now intros <-|]. intros (p & -> & HP). destruct H as (q & -> & HQ).
  assert (p = q); [|now subst].
  destruct HP as [[NP VP]|[-> VP]], HQ as [[NQ VQ]|[-> VQ]].
  - apply get_value in VP, VQ; try easy. congruence.
  - apply VQ in VP. easy.
  - apply VP in VQ. easy.
  - easy.
Qed.

Lemma finish_iff os : Forall (fun o => Good (of_vars o)) os -> forall l fs,
  fo_finish os = (l, Ok fs) <-> Registers os fs l.
Proof.
  induction 1 as [|o os G GS IH]; intros l fs.
  - cbn. split; [intros [= <- <-]; constructor|]. intros H. now inversion H.
  - cbn [fo_finish]. destruct (any_read_write o) eqn:EA.
    + assert (HQ : HasQuery o) by now apply any_spec. unfold registered. split.
      * intros H. apply wbind_ok in H as (l1 & f & l2 & H1 & H2 & ->).
        apply wbind_ok in H2 as (l3 & fs' & l4 & H3 & H4 & ->). injection H4 as <- <-. rewrite app_nil_r.
        destruct (memb 0 (function_name o)) eqn:EM; [easy|]. injection H1 as <- <-.
        apply Rg_yes; [easy|now apply name_spec| |now apply IH]. intros I. apply memb_In in I. congruence.
      * intros H. inversion H as [|? n ? fs' ? _ HN NZ R|]; [|now exfalso]. subst.
        apply name_spec in HN; [|easy]. rewrite HN. apply IH in R. rewrite R.
        destruct (memb 0 n) eqn:EM; [apply memb_In in EM; easy|]. cbn. now rewrite app_nil_r.
    + assert (HQ : ~ HasQuery o) by (intros Q; apply any_spec in Q; [congruence|easy]). split.
      * intros H. apply wbind_ok in H as (l1 & [] & l2 & H1 & H2 & ->). injection H1 as <-.
        apply Rg_no; [easy|now apply IH].
      * intros H. inversion H as [| |? ? ? l' _ R]; [now exfalso|]. subst. apply IH in R.
        cbn [emit mdupe wbind format_ok mfields]. now rewrite R.
Qed.

Theorem run_iff es l fs : fo_run es = (l, Ok fs) <->
  exists os l1 l2, FileRule es os l1 /\ Registers os fs l2 /\ l = l1 ++ l2.
Proof.
  unfold fo_run. split.
  - intros H. apply wbind_ok in H as (l1 & st & l2 & H1 & H2 & ->). apply steps_iff in H1.
    exists (rev st), l1, l2. split; [easy|]. split; [|easy]. apply finish_iff; [|easy]. now apply (FileRule_good _ _ _ H1).
  - intros (os & l1 & l2 & H1 & H2 & ->). apply wbind_intro with (rev os).
    + apply steps_iff. now rewrite rev_involutive.
    + rewrite rev_involutive. apply finish_iff; [now apply (FileRule_good _ _ _ H1)|easy].
Qed.

(* ---- failures ---- *)
Definition NulName (os : list ofunc) : Prop := exists o n, In o os /\ HasQuery o /\ FunName o n /\ In 0 n.
Lemma finish_total os : Forall (fun o => Good (of_vars o)) os ->
  (exists fs, snd (fo_finish os) = Ok fs /\ ~ NulName os) \/ (snd (fo_finish os) = Exn ValueError /\ NulName os).
Proof.
  induction 1 as [|o os G GS IH].
  - left. exists []. split; [easy|]. now intros (o & n & [] & _).
  - cbn [fo_finish]. destruct (any_read_write o) eqn:EA.
    + assert (HQ : HasQuery o) by now apply any_spec. unfold registered.
      destruct (memb 0 (function_name o)) eqn:EM; cbn [wlift wbind].
      * right. split; [easy|]. exists o, (function_name o). split; [now left|]. split; [easy|].
        split; [now apply name_spec|now apply memb_In].
      * destruct (fo_finish os) as [l r] eqn:ER. cbn [snd] in IH. destruct IH as [(fs & -> & NN)|[-> NN]].
        -- left. eexists. split; [reflexivity|]. intros (o' & n & [<-|I] & HQ' & HN & IZ).
           ++ apply name_spec in HN; [|easy]. subst n. apply memb_In in IZ. congruence.
           ++ apply NN. now exists o', n.
        -- right. split; [easy|]. destruct NN as (o' & n & I & H). exists o', n. split; [now right|easy].
    + cbn [emit mdupe wbind format_ok mfields snd].
      assert (HQ : ~ HasQuery o) by (intros Q; apply any_spec in Q; [congruence|easy]).
      destruct IH as [(fs & -> & NN)|[-> NN]].
      * left. exists fs. split; [easy|]. intros (o' & n & [<-|I] & H); [easy|]. apply NN. now exists o', n.
      * right. split; [easy|]. destruct NN as (o' & n & I & H). exists o', n. split; [now right|easy].
Qed.
Theorem run_ends es : Arrows es -> exists os l, FileRule es os l /\
  ((exists fs, snd (fo_run es) = Ok fs /\ ~ NulName os) \/ (snd (fo_run es) = Exn ValueError /\ NulName os)).
Proof.
  intros A. destruct (steps_pre es A) as (os & l & E & R & G). exists os, l. split; [easy|].
  unfold fo_run. rewrite E. cbn [wbind]. rewrite rev_involutive. destruct (finish_total os G) as [(fs & H & N)|[H N]].
  - left. exists fs. cbn [snd]. now split.
  - right. cbn [snd]. now split.
Qed.

(* ---- first wins ---- *)
Lemma first_app_l {A} (P : A -> Prop) l r a : FirstWith P l a -> FirstWith P (l ++ r) a.
Proof. intros (l1 & l2 & -> & H). exists l1, (l2 ++ r). now rewrite <- app_assoc. Qed.
Lemma first_app_r {A} (P : A -> Prop) l r a : (forall b, In b l -> ~ P b) -> FirstWith P r a -> FirstWith P (l ++ r) a.
Proof.
  intros N (l1 & l2 & -> & HA & H). exists (l ++ l1), l2. split; [now rewrite <- app_assoc|]. split; [easy|].
  intros b I. apply in_app_or in I as [I|I]; auto.
Qed.
Lemma first_app_inv {A} (P : A -> Prop) l r a : FirstWith P (l ++ r) a ->
  FirstWith P l a \/ ((forall b, In b l -> ~ P b) /\ FirstWith P r a).
Proof.
  revert a. induction l as [|x l IH]; intros a H; [right; now split|].
  destruct H as (l1 & l2 & E & HA & NA). destruct l1 as [|y l1]; cbn in E; injection E as -> E.
  - left. exists [], l. now split.
  - assert (NY : ~ P y) by (apply NA; now left).
    destruct (IH a) as [(k1 & k2 & -> & HK)|[N F]].
    + exists l1, l2. split; [easy|]. split; [easy|]. intros b I. apply NA. now right.
    + left. exists (y :: k1), k2. split; [easy|]. split; [easy|]. intros b [<-|I]; [easy|]. now apply HK.
    + right. split; [|easy]. intros b [<-|I]; auto.
Qed.
Definition Same (v u : varset) : Prop := v_variable u = v_variable v.
Lemma first_ext {A} (P Q : A -> Prop) l a : (forall x, P x <-> Q x) -> FirstWith P l a -> FirstWith Q l a.
Proof.
  intros E (l1 & l2 & -> & HA & NA). exists l1, l2. split; [easy|]. split; [now apply E|].
  intros b I H. apply (NA b I). now apply E.
Qed.
Lemma keys_first vs : forall st st' l, KeysRule st vs st' l ->
  (forall v, In v st -> FirstWith (Same v) st v /\ In (v_variable v) documented) ->
  forall v, In v st' <-> FirstWith (Same v) (st ++ vs) v /\ In (v_variable v) documented.
Proof.
  induction vs as [|x vs IH]; intros st st' l H HS v; inversion H; subst.
  - rewrite app_nil_r. split; [apply HS|]. intros [F _]. now apply first_in in F.
  - match goal with K : KeyRule _ _ _ _ |- _ => rename K into K1 end.
    match goal with K : KeysRule _ vs _ _ |- _ => rename K into K2 end.
    destruct K1 as [N1|f D1 F1|l1 l2 l3 D1 NW I1 I2 I3].
    + rewrite (IH _ _ _ K2 HS v). split; intros [F D]; split; try easy.
      * apply first_app_inv in F as [F|[N F]]; [now apply first_app_l|]. apply first_app_r; [easy|].
        apply (first_app_r _ [x]); [|easy]. intros b [<-|[]] E. apply N1. now rewrite E.
      * apply first_app_inv in F as [F|[N F]]; [now apply first_app_l|]. apply first_app_r; [easy|].
        apply (first_app_inv _ [x]) in F as [F|[_ F]]; [|easy]. exfalso. apply first_in in F as [[<-|[]] _]. easy.
    + rewrite (IH _ _ _ K2 HS v). split; intros [F D]; split; try easy.
      * apply first_app_inv in F as [F|[N F]]; [now apply first_app_l|]. apply first_app_r; [easy|].
        apply (first_app_r _ [x]); [|easy]. intros b [<-|[]] E. apply first_in in F1 as [IF EF].
        apply (N f IF). unfold Same in *. congruence.
      * apply first_app_inv in F as [F|[N F]]; [now apply first_app_l|]. apply first_app_r; [easy|].
        apply (first_app_inv _ [x]) in F as [F|[_ F]]; [|easy]. exfalso. apply first_in in F as [[<-|[]] _].
        apply first_in in F1 as [IF EF]. now apply (N f).
    + rewrite (IH _ _ _ K2).
      * now rewrite <- app_assoc.
      * intros u I. apply in_app_or in I as [I|[<-|[]]].
        -- destruct (HS u I) as [F D]. split; [now apply first_app_l|easy].
        -- split; [|easy]. apply first_app_r; [intros b IB; now apply NW|]. exists [], []. now split.
Qed.

(* ---- the loader ---- *)
Lemma register_all_app U fs f FT : register_all U (fs ++ [f]) FT = (u_lower U (f_name f), f) :: register_all U fs FT.
Proof. unfold register_all. now rewrite fold_left_app. Qed.
Lemma register_lookup U FT fs k :
  (exists fs1 f fs2, fs = fs1 ++ f :: fs2 /\ u_lower U (f_name f) = k /\
     (forall g, In g fs2 -> u_lower U (f_name g) <> k) /\ lookup k (register_all U fs FT) = Some f) \/
  ((forall g, In g fs -> u_lower U (f_name g) <> k) /\ lookup k (register_all U fs FT) = lookup k FT).
Proof.
  induction fs as [|f fs IH] using rev_ind; [right; now split|]. rewrite register_all_app. cbn [lookup].
  destruct (str_eqb_spec k (u_lower U (f_name f))) as [->|NE].
  - left. exists fs, f, []. now split.
  - destruct IH as [(fs1 & g & fs2 & -> & EG & NG & EL)|[N EL]].
    + left. exists fs1, g, (fs2 ++ [f]). split; [now rewrite <- app_assoc|]. split; [easy|]. split; [|easy].
      intros h I. apply in_app_or in I as [I|[<-|[]]]; auto.
    + right. split; [|easy]. intros h I. apply in_app_or in I as [I|[<-|[]]]; auto.
Qed.

(* ---- queries ---- *)
Lemma or_chosen o k legacy : Good (of_vars o) ->
  Chosen o k legacy (or_str (or_str (get_variable (of_vars o) k) (get_variable (of_vars o) legacy)) None).
Proof.
  intros G. assert (HG : forall q, get_variable (of_vars o) q = None -> forall t, Value o q t -> t = []).
  { intros q E t V. apply get_value in V; [congruence|easy]. }
  assert (HE : forall q, get_variable (of_vars o) q = Some [] -> forall t, Value o q t -> t = []).
  { intros q E t V. apply get_value in V; [congruence|easy]. }
  destruct (get_variable (of_vars o) k) as [[|c x]|] eqn:EK; cbn [or_str].
  - destruct (get_variable (of_vars o) legacy) as [[|d y]|] eqn:EL; cbn [or_str]; [right; split; [easy|split; eauto]| |right; split; [easy|split; eauto]].
    left. exists (d :: y). split; [easy|]. split; [easy|]. right. split; [now apply HE|now apply get_value].
  - left. exists (c :: x). split; [easy|]. split; [easy|]. left. now apply get_value.
  - destruct (get_variable (of_vars o) legacy) as [[|d y]|] eqn:EL; cbn [or_str]; [right; split; [easy|split; eauto]| |right; split; [easy|split; eauto]].
    left. exists (d :: y). split; [easy|]. split; [easy|]. right. split; [now apply HG|now apply get_value].
Qed.
Lemma Chosen_fun o k legacy x y : Good (of_vars o) -> Chosen o k legacy x -> Chosen o k legacy y -> x = y.
Proof.
  intros G. assert (VF : forall q a b, Value o q a -> Value o q b -> a = b).
  { intros q a b H1 H2. apply get_value in H1, H2; try easy. congruence. }
  intros [(t & -> & NT & HT)|(-> & N1 & N2)] [(u & -> & NU & HU)|(-> & M1 & M2)].
  - destruct HT as [HT|[ET HT]], HU as [HU|[EU HU]].
    + now rewrite (VF _ _ _ HT HU).
    + now apply EU in HT.
    + now apply ET in HU.
    + now rewrite (VF _ _ _ HT HU).
  - exfalso. destruct HT as [HT|[_ HT]]; auto.
  - exfalso. destruct HU as [HU|[_ HU]]; auto.
  - easy.
Qed.

(* ---- files ---- *)
From Verif Require Import Regex Regex_proofs Spec_Config Config_proofs Spec_VSpace VSpace_proofs Spec_Dialplan.

Lemma sep_arrow sp1 sp2 core : ws sp1 -> ws sp2 -> core = [61; 62] \/ core = [61] ->
  strip_p isspace (sp1 ++ core ++ sp2) = core.
Proof.
  intros W1 W2 H. destruct H as [-> | ->]; apply strip_sep; try easy; intros H'.
  - destruct H' as (c & r & [= <- <-] & Hc). easy.
  - destruct H' as (u & c & Ec & Hc). destruct u as [|? [|? u]]; cbn in Ec; inversion Ec; subst; try easy. now destruct u.
  - destruct H' as (c & r & [= <- <-] & Hc). easy.
  - destruct H' as (u & c & Ec & Hc). destruct u as [|? u]; cbn in Ec; inversion Ec; subst; try easy. now destruct u.
Qed.
Lemma varset_arrow a v sp1 sp2 core cm w : ws sp1 -> ws sp2 -> core = [61; 62] \/ core = [61] ->
  v_arrow (snd (mk_varset a v (sp1 ++ core ++ sp2) cm w)) <> None.
Proof.
  intros W1 W2 H. unfold mk_varset. rewrite sep_arrow by easy.
  destruct H as [-> | ->].
  - change (str_eqb [61; 62] (L "=>")) with true. cbv iota beta. destruct a as [|c a]; [easy|].
    now destruct (isblank c).
  - change (str_eqb [61] (L "=>")) with false. change (str_eqb [61] (L "=")) with true. cbv iota beta.
    destruct a as [|c a]; [easy|]. now destruct (isblank c).
Qed.
Lemma parse_line_arrow w d cm ms v : parse_line w d cm = (ms, PElem (EVar v)) -> v_arrow v <> None.
Proof.
  unfold parse_line. set (hc := match cm with [] => false | _ => true end). unfold classify.
  destruct (re_match re_tmpl d) as [g|].
  { destruct (mk_ctx _ _ _ _ _). easy. }
  destruct (re_match re_ctx d) as [g|].
  { destruct (mk_ctx _ _ _ _ _). easy. }
  destruct (re_match re_obj d) as [g|] eqn:EO.
  { apply re_sound in EO as (F & _). unfold re_obj in F. inv_segs.
    repeat match goal with X : is_chr _ _ = true |- _ => apply is_chr_eq in X; subst end. cbn [seg_ok] in *.
    cbn [nth_seg nth].
    match goal with |- context [mk_varset ?a ?v (?s1 ++ [61] ++ [62] ++ ?s2) ?c ?w] =>
      pose proof (varset_arrow a v s1 s2 [61; 62] c w) as VA;
      change (s1 ++ [61; 62] ++ s2) with (s1 ++ [61] ++ [62] ++ s2) in VA;
      destruct (mk_varset a v (s1 ++ [61] ++ [62] ++ s2) c w) as [m0 v0] end.
    intros [= <- <-]. apply VA; try (now apply forallb_ws). now left. }
  destruct (re_match re_var d) as [g|] eqn:EV.
  { apply re_sound in EV as (F & _). unfold re_var in F. inv_segs.
    repeat match goal with X : is_chr _ _ = true |- _ => apply is_chr_eq in X; subst end. cbn [seg_ok] in *.
    cbn [nth_seg nth].
    match goal with |- context [mk_varset ?a ?v (?s1 ++ [61] ++ ?s2) ?c ?w] =>
      pose proof (varset_arrow a v s1 s2 [61] c w) as VA;
      destruct (mk_varset a v (s1 ++ [61] ++ s2) c w) as [m0 v0] end.
    intros [= <- <-]. apply VA; try (now apply forallb_ws). now right. }
  destruct (re_match re_void d) as [g|]; [easy|].
  destruct (lstrip_p isspace d) as [|c r]; [easy|].
  destruct (N.eq_dec c 35) as [->|NE].
  - destruct (preprocessor w d). easy.
  - destruct c as [|c]; [easy|]. repeat (destruct c as [c|c|]; try easy).
Qed.
Lemma read_arrows fuel fs : forall stk ff, Arrows (elems (fst (read fuel fs stk ff))).
Proof.
  induction fuel as [|n IH]; intros stk ff v I; [easy|]. cbn [read] in I. destruct stk as [|[name no [|b bs]] stk].
  - destruct (ff_finish ff) as [ms r]. cbn [fst] in I. unfold elems in I. apply in_flat_map in I as (e & I & I2).
    apply in_map_iff in I as (m & <- & _). easy.
  - now apply (IH stk ff).
  - set (w := Where name (no + 1) b) in *. destruct (read_line ff w b) as [ms r].
    assert (HM : forall (l : list msg) x, In (EVar x) (elems (map EvMsg l)) -> False).
    { intros l x J. unfold elems in J. apply in_flat_map in J as (e & J & J2). apply in_map_iff in J as (m & <- & _). easy. }
    assert (EA : forall a b, elems (a ++ b) = elems a ++ elems b) by (intros; unfold elems; apply flat_map_app).
    destruct r as [[[ff' data] cm]|e|]; [|exfalso; now apply (HM ms v)|exfalso; now apply (HM ms v)].
    destruct (parse_line w data cm) as [ms2 p] eqn:EP.
    set (pre := map EvMsg ms ++ EvLine w data cm :: map EvMsg ms2) in *.
    assert (HP : ~ In (EVar v) (elems pre)).
    { unfold pre. rewrite EA. intros J. apply in_app_or in J as [J|J]; [now apply HM in J|]. now apply (HM ms2 v). }
    destruct p as [e|[|target must]].
    + pose proof (IH (Frame name (no + 1) bs :: stk) ff' v) as IH'.
      destruct (read n fs (Frame name (no + 1) bs :: stk) ff') as [l o]. cbn [fst] in *.
      rewrite EA in I. apply in_app_or in I as [I|I]; [easy|]. cbn in I. destruct I as [->|I]; [|auto].
      now apply parse_line_arrow in EP.
    + pose proof (IH (Frame name (no + 1) bs :: stk) ff' v) as IH'.
      destruct (read n fs (Frame name (no + 1) bs :: stk) ff') as [l o]. cbn [fst] in *.
      rewrite EA in I. apply in_app_or in I as [I|I]; [easy|auto].
    + destruct (do_include fs w target must) as [ms3 [[f|]|e|]].
      * pose proof (IH (f :: Frame name (no + 1) bs :: stk) ff' v) as IH'.
        destruct (read n fs (f :: Frame name (no + 1) bs :: stk) ff') as [l o]. cbn [fst] in *.
        rewrite !EA in I. apply in_app_or in I as [I|I]; [easy|]. apply in_app_or in I as [I|I]; [now apply HM in I|auto].
      * pose proof (IH (Frame name (no + 1) bs :: stk) ff' v) as IH'.
        destruct (read n fs (Frame name (no + 1) bs :: stk) ff') as [l o]. cbn [fst] in *.
        rewrite !EA in I. apply in_app_or in I as [I|I]; [easy|]. apply in_app_or in I as [I|I]; [now apply HM in I|auto].
      * cbn [fst] in I. rewrite EA in I. apply in_app_or in I as [I|I]; [easy|now apply HM in I].
      * cbn [fst] in I. rewrite EA in I. apply in_app_or in I as [I|I]; [easy|now apply HM in I].
Qed.
Lemma file_arrows fuel fs name : Arrows (elems (fst (vsw_stream (parse_file fuel fs name)))).
Proof.
  intros v I. assert (A : Arrows (elems (fst (parse_file fuel fs name)))).
  { unfold parse_file. destruct (open_frame fs name) as [f|e|]; try easy. apply read_arrows. }
  apply A. clear A. unfold elems in *. apply in_flat_map in I as (e & I & I2). apply in_flat_map. exists e. split; [|easy].
  destruct e as [| |e']; try easy. destruct I2 as [->|[]].
  assert (J : In (EvElem (EVar v)) (filter essential (fst (vsw_stream (parse_file fuel fs name))))) by now apply filter_In.
  rewrite (proj1 (ess_stream _)) in J. now apply filter_In in J.
Qed.

(* Messages of the reader and of the sections as one sequence. *)
Definition rd_msgs (evs : list event) : list msg := flat_map (fun e => match e with EvMsg m => [m] | _ => [] end) evs.
Lemma merge_pre {A} (a b c : list A) : Merge a b c -> forall l, Merge a (l ++ b) (l ++ c).
Proof. intros H l. induction l as [|x l IH]; cbn; [easy|now constructor]. Qed.
Lemma fo_stream_ok evs o : forall st l st', fo_stream st evs o = (l, Ok st') -> o = Ok tt /\
  exists l', fo_steps st (elems evs) = (l', Ok st') /\ Merge (rd_msgs evs) l' l.
Proof.
  induction evs as [|ev evs IH]; intros st l st' H.
  - destruct o as [[]| |]; try easy. injection H as <- <-. split; [easy|]. exists []. split; [easy|constructor].
  - destruct ev as [w s b|m|e]; cbn [fo_stream] in H.
    + now apply IH.
    + apply wbind_ok in H as (l1 & [] & l2 & H1 & H2 & ->). injection H1 as <-.
      apply IH in H2 as (-> & l' & H2 & M). split; [easy|]. exists l'. split; [easy|]. cbn. now constructor.
    + apply wbind_ok in H as (l1 & d1 & l2 & H1 & H2 & ->). apply IH in H2 as (-> & l' & H2 & M). split; [easy|].
      exists (l1 ++ l'). split; [|now apply merge_pre]. cbn [elems flat_map app fo_steps]. rewrite H1.
      cbn [wbind]. fold (elems evs). now rewrite H2.
Qed.
Lemma fo_stream_total evs o : forall st l', fo_steps st (elems evs) = l' -> Arrows (elems evs) ->
  match snd l' with
  | Ok st' => snd (fo_stream st evs o) = (let! _ := o in Ok st')
  | Exn e => snd (fo_stream st evs o) = Exn e
  | Hang => snd (fo_stream st evs o) = Hang
  end.
Proof.
  induction evs as [|ev evs IH]; intros st l' <- A; cbn [fo_stream].
  - easy.
  - destruct ev as [w s b|m|e]; cbn [fo_stream].
    + now apply IH.
    + cbn [wbind snd]. now apply IH.
    + change (elems (EvElem e :: evs)) with (e :: elems evs) in *. cbn [fo_steps].
      destruct (fo_element st e) as [l1 [st1|x|]]; cbn [wbind snd]; try easy.
      apply IH; [easy|]. intros v I. apply A. now right.
Qed.

Theorem load_rule fuel fs name l fns : load_func_odbc fuel fs name = (l, Ok fns) -> exists evs os l1 l2 l3,
  vsw_stream (parse_file fuel fs name) = (evs, Ok tt) /\ FileRule (elems evs) os l1 /\ Registers os fns l2 /\
  Merge (rd_msgs evs) l1 l3 /\ l = l3 ++ l2.
Proof.
  unfold load_func_odbc. destruct (vsw_stream (parse_file fuel fs name)) as [evs o]. intros H.
  apply wbind_ok in H as (l3 & st & l2 & H1 & H2 & ->). apply fo_stream_ok in H1 as (-> & l1 & H1 & M).
  apply steps_iff in H1. exists evs, (rev st), l1, l2, l3. split; [easy|]. split; [easy|]. split; [|easy].
  apply finish_iff; [now apply (FileRule_good _ _ _ H1)|easy].
Qed.
(* The checker does not raise by itself but for a NUL in a function name. *)
Theorem load_ends fuel fs name : let r := snd (load_func_odbc fuel fs name) in
  let (evs, o) := vsw_stream (parse_file fuel fs name) in
  (o <> Ok tt /\ (r = Hang <-> o = Hang) /\ (forall e, r = Exn e <-> o = Exn e)) \/
  (o = Ok tt /\ exists os l, FileRule (elems evs) os l /\
     ((exists fns, r = Ok fns /\ ~ NulName os) \/ (r = Exn ValueError /\ NulName os))).
Proof.
  unfold load_func_odbc. pose proof (file_arrows fuel fs name) as A.
  destruct (vsw_stream (parse_file fuel fs name)) as [evs o]. cbn [fst] in A.
  destruct (steps_pre (elems evs) A) as (os & l & E & R & G).
  pose proof (fo_stream_total evs o [] _ E A) as T. cbn [snd] in T.
  destruct (fo_stream [] evs o) as [ls r]. cbn [snd] in T. subst r.
  destruct o as [[]|x|]; cbn [bind wbind snd].
  - right. split; [easy|]. exists os, l. split; [easy|]. rewrite rev_involutive.
    destruct (finish_total os G) as [(fns & H & NN)|[H NN]]; [left; exists fns|right]; now split.
  - left. split; [easy|]. split; [easy|]. intros e. split; congruence.
  - left. split; [easy|]. split; [easy|]. intros e. split; congruence.
Qed.
