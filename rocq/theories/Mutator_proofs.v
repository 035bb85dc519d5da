(* Proofs about the file mutator (C35, C36). *)
From Verif Require Import Base PyStr FileRd Mutator Spec_Mutator.
From Coq Require Import Lia Arith Sorting.Sorted.

(* ---- all states of all executions ---- *)
Fixpoint always (Q : disk -> Prop) (E : trace -> disk -> res unit -> Prop) (p : prog) (tr : trace) (d : disk) : Prop :=
  Q d /\ match p with
         | Ret r => E tr d r
         | Do o k => forall r d', does d o r d' -> always Q E (k r) (tr ++ [(o, r)]) d'
         end.
Lemma always_here Q E p tr d : always Q E p tr d -> Q d.
Proof. now destruct p; intros [H _]. Qed.
Lemma always_sound Q E d p tr d' p' : reach d p tr d' p' -> forall tr0, always Q E p tr0 d -> always Q E p' (tr0 ++ tr) d'.
Proof.
  induction 1 as [d p|d o k r d1 tr d2 p D R IH]; intros tr0 A; [now rewrite app_nil_r|].
  destruct A as [_ A]. specialize (A r d1 D). apply IH in A. now rewrite <- app_assoc in A.
Qed.

(* ---- disks ---- *)
Lemma upd_same d p n : upd d p n p = n.
Proof. unfold upd. now rewrite str_eqb_refl. Qed.
Lemma upd_other d p n q : p <> q -> upd d p n q = d q.
Proof. intros H. unfold upd. destruct (str_eqb_spec p q); [easy|easy]. Qed.

(* d is d0 but for the temporary file t *)
Definition But (d0 : disk) (t : str) (d : disk) : Prop := d0 t = None /\ forall q, q <> t -> d q = d0 q.
Lemma but_upd d0 t d n : But d0 t d -> But d0 t (upd d t n).
Proof. intros [H1 H2]. split; [easy|]. intros q NE. rewrite upd_other; [now apply H2|congruence]. Qed.
Lemma resolve_but n : forall d0 t d p q, But d0 t d -> resolve n d0 p = Some q -> resolve n d p = Some q /\ d q = d0 q.
Proof.
  induction n as [|n IH]; intros d0 t d p q B H.
  - cbn [resolve] in *. destruct (str_eq_dec p t) as [->|NE].
    + destruct B as [B _]. now rewrite B in H.
    + rewrite (proj2 B p NE). destruct (d0 p) as [[]|] eqn:ED; try easy. injection H as <-. split; [easy|].
      now rewrite (proj2 B p NE).
  - cbn [resolve] in *. destruct (str_eq_dec p t) as [->|NE].
    + destruct B as [B _]. now rewrite B in H.
    + rewrite (proj2 B p NE). destruct (d0 p) as [[]|] eqn:ED; try easy.
      * injection H as <-. split; [easy|]. now rewrite (proj2 B p NE).
      * now apply (IH d0 t).
Qed.

Lemma does_stat d p r d' : does d (OStat p) r d' -> d' = d /\ ((exists e, r = RFail e) \/
  exists q b u g m, r = RStat u g m /\ resolve max_links d p = Some q /\ d q = Some (File b u g m)).
Proof.
  intros D. inversion D; subst; (split; [easy|]); [left; now exists e|].
  right. now exists q, b, u, g, m.
Qed.

Section Mutator.
Context {I : Type}.
Variable proc : I -> bytes -> list bytes * res unit.

(* ---- what the loop writes ---- *)
Inductive Loop : N -> list (N * I) -> list bytes -> bytes -> Prop :=
| L_end no issues : Loop no issues [] []
| L_issue no i more line rest out : snd (proc i line) = Ok tt -> Loop (no + 1) more rest out ->
    Loop no ((no, i) :: more) (line :: rest) (List.concat (fst (proc i line)) ++ out)
| L_keep no issues line rest out : (forall i more, issues <> (no, i) :: more) -> Loop (no + 1) issues rest out ->
    Loop no issues (line :: rest) (line ++ out).

Variable d0 : disk.
Variables (filename q0 : str) (b0 : bytes) (u0 g0 m0 : N).
Hypothesis R0 : resolve max_links d0 filename = Some q0.
Hypothesis F0 : d0 q0 = Some (File b0 u0 g0 m0).
Variable issues0 : list (N * I).

(* After the rename. *)
Definition Renamed (new : bytes) (dst : str) (d : disk) : Prop :=
  Target d0 filename dst /\ Loop 0 issues0 (lines_of b0) new /\
  (forall q, q <> dst -> d q = d0 q) /\ d dst = Some (File new u0 g0 m0).
Definition Q (d : disk) : Prop :=
  (forall q, d q = d0 q) \/
  (exists t dst, Target d0 filename dst /\ dirname t = dirname dst /\ But d0 t d) \/
  (exists new dst, Renamed new dst d).

Definition Bad (tr : trace) : Prop :=
  ~ nothing_fails tr \/ (exists n i line, In (n, i) issues0 /\ nth_error (lines_of b0) (N.to_nat n) = Some line /\ snd (proc i line) <> Ok tt) \/ issues0 = [].
Lemma bad_snoc tr x : Bad tr -> Bad (tr ++ [x]).
Proof. intros [H|H]; [left|now right]. intros H2. apply H. intros o e HI. apply H2, in_or_app. now left. Qed.
Lemma bad_last tr o e : ((exists p, o = OReadlink p) -> e <> OSError) -> Bad (tr ++ [(o, RFail e)]).
Proof. intros H. left. intros H2. destruct (H2 o e) as [HE ->]; [apply in_or_app; right; now left|]. now apply H. Qed.
Definition E (tr : trace) (d : disk) (r : res unit) : Prop :=
  (Bad tr \/ r = Ok tt) /\
  (r = Ok tt -> exists new dst, Renamed new dst d) /\
  (forall e, r = Exn e -> only_writing_fails tr -> forall q, d q = d0 q).

Lemma only_snoc tr o r : only_writing_fails (tr ++ [(o, r)]) -> only_writing_fails tr.
Proof. intros H o' e I1. apply (H o' e), in_or_app. now left. Qed.
Lemma only_last tr o e : ~ writing o -> ~ only_writing_fails (tr ++ [(o, RFail e)]).
Proof. intros W H. apply W, (H o e), in_or_app. right. now left. Qed.

Section Temp.
Variables (t dst : str).
Hypothesis TG : Target d0 filename dst.
Hypothesis TD : dirname t = dirname dst.
Notation B := (But d0 t).

Lemma B_Q d : B d -> Q d.
Proof. intros H. right. left. exists t, dst. now repeat split; try apply H. Qed.

Ltac inv_does := match goal with D : does _ _ _ _ |- _ => inversion D; subst; clear D end.
Ltac keepB := repeat first [assumption | apply but_upd].

Lemma give_up_ok tr d e : B d -> Bad tr -> always Q E (give_up t e) tr d.
Proof.
  intros H BD. cbn [give_up always]. split; [now apply B_Q|]. intros r d' D.
  assert (H' : B d') by (inv_does; keepB). split; [now apply B_Q|]. intros r2 d2 D2.
  assert (d2 = d') as -> by (clear D; now inv_does).
  assert (HE : (forall q, d' q = d0 q) \/ ~ only_writing_fails ((tr ++ [(OUnlink t, r)]) ++ [(OClose t, r2)])).
  { inversion D; subst; clear D.
    - right. intros W. apply only_snoc in W. now apply only_last in W.
    - left. intros q. destruct (str_eq_dec q t) as [->|NE].
      + rewrite upd_same. symmetry. apply H.
      + now apply H'. }
  assert (BD2 := bad_snoc _ (OClose t, r2) (bad_snoc _ (OUnlink t, r) BD)).
  destruct r2; (split; [now apply B_Q|]); (split; [now left|split; [easy|]]; intros e3 _ W; now destruct HE).
Qed.

Lemma must_ok o k tr d : Q d -> ~ writing o ->
  (forall r d', does d o r d' -> (forall e, r <> RFail e) -> always Q E (k r) (tr ++ [(o, r)]) d') ->
  (forall e d', does d o (RFail e) d' -> Q d') ->
  always Q E (must o k) tr d.
Proof.
  intros HQ NW H HF. cbn [must always]. split; [easy|]. intros r d' D. destruct r; try (apply H; [exact D|easy]).
  split; [now apply (HF e)|]. split; [left; apply bad_last; intros [p ->]; now destruct NW|]. split; [easy|]. intros e' _ W. now apply only_last in W.
Qed.

Lemma take_over_ok tr d new u g m : B d -> d t = Some (File new u g m) -> Loop 0 issues0 (lines_of b0) new ->
  always Q E (take_over t filename dst) tr d.
Proof.
  intros HB HT HL. unfold take_over. apply must_ok; [now apply B_Q|easy| |intros e d' D; inv_does; now apply B_Q].
  intros r1 d1 D1 NF1. apply does_stat in D1. destruct D1 as [-> [[e ->]|(q1 & b1 & u1 & g1 & m1 & -> & RS & FS)]].
  { exfalso. now apply (NF1 e). }
  assert (q1 = t).
  { cbn [resolve max_links] in RS. rewrite HT in RS. now injection RS as <-. }
  subst q1. rewrite HT in FS. injection FS as <- <- <- <-.
  apply must_ok; [now apply B_Q|easy| |intros e d' D; inv_does; now apply B_Q].
  clear RS NF1.
  intros r2 d2 D2 NF2. apply does_stat in D2. destruct D2 as [-> [[e ->]|(q2 & b2 & u2 & g2 & m2 & -> & RS & FS)]].
  { exfalso. now apply (NF2 e). }
  destruct (resolve_but _ _ _ _ _ _ HB R0) as [RS' ED]. rewrite RS in RS'. injection RS' as ->.
  rewrite ED, F0 in FS. injection FS as <- <- <- <-. clear NF2 RS ED.
  (* the rename *)
  assert (RN : forall tr d, B d -> d t = Some (File new u0 g0 m0) ->
            always Q E (must (ORename t dst) (fun _ => Ret (Ok tt))) tr d).
  { clear - HL TG TD R0 F0. intros tr d HB HT.
    apply must_ok; [now apply B_Q|easy| |intros e d' D; inv_does; now apply B_Q].
    intros r d' D NF. inversion D; subst; clear D; [exfalso; now apply (NF e)|].
    assert (RD : Renamed new dst (upd (upd d t None) dst (Some n))).
    { split; [easy|]. split; [easy|]. split.
      - intros q NE. rewrite upd_other by congruence. destruct (str_eq_dec t q) as [<-|NT].
        + rewrite upd_same. symmetry. apply HB.
        + rewrite upd_other by easy. apply HB. congruence.
      - rewrite upd_same. congruence. }
    cbn [always]. split.
    - right. right. now exists new, dst.
    - split; [now right|]. split; [|easy]. intros _. now exists new, dst. }
  assert (CM : forall tr d m, B d -> d t = Some (File new u0 g0 m) -> always Q E
     (if m =? m0 then must (ORename t dst) (fun _ => Ret (Ok tt))
      else must (OChmod t m0) (fun _ => must (ORename t dst) (fun _ => Ret (Ok tt)))) tr d).
  { clear - RN TG TD R0 F0. intros tr d m HB HT. destruct (N.eqb_spec m m0) as [->|NE]; [now apply RN|].
    apply must_ok; [now apply B_Q|easy| |intros e d' D; inv_does; now apply B_Q].
    intros r d' D NF. inversion D; subst; clear D; [exfalso; now apply (NF e)|].
    apply RN; [now apply but_upd|]. rewrite upd_same. congruence. }
  destruct (N.eqb_spec u u0) as [->|NU]; cbn [andb].
  - destruct (N.eqb_spec g g0) as [->|NG]; [now apply CM|].
    apply must_ok; [now apply B_Q|easy| |intros e d' D; inv_does; now apply B_Q].
    intros r d' D NF. inversion D; subst; clear D; [exfalso; now apply (NF e)|].
    apply CM; [now apply but_upd|]. rewrite upd_same. congruence.
  - apply must_ok; [now apply B_Q|easy| |intros e d' D; inv_does; now apply B_Q].
    intros r d' D NF. inversion D; subst; clear D; [exfalso; now apply (NF e)|].
    apply CM; [now apply but_upd|]. rewrite upd_same. congruence.
Qed.

Definition TFile (d : disk) : Prop := exists x u g m, d t = Some (File x u g m).

Lemma write_all_ok l : forall w k tr d, B d -> TFile d ->
  (forall tr d, B d -> TFile d -> always Q E (k (w ++ List.concat l)) tr d) ->
  always Q E (write_all t w l k) tr d.
Proof.
  induction l as [|b l IH]; intros w k tr d HB HT H; cbn [write_all].
  - rewrite app_nil_r in H. now apply H.
  - cbn [always]. split; [now apply B_Q|]. intros r d' D.
    assert (HB' : B d') by (inv_does; keepB).
    assert (HT' : TFile d').
    { inversion D; subst; [easy|]. unfold TFile. rewrite upd_same. eauto. }
    destruct r; try (apply give_up_ok; [easy|apply bad_last; now intros [? [=]]]); apply IH; try easy; intros; rewrite <- app_assoc; now apply H.
Qed.

Lemma mut_loop_ok lines : forall no issues w tr d, B d -> TFile d -> incl issues issues0 ->
  (exists pre, lines_of b0 = pre ++ lines /\ no = N.of_nat (length pre)) ->
  (forall out, Loop no issues lines out -> Loop 0 issues0 (lines_of b0) (w ++ out)) ->
  always Q E (mut_loop proc t filename dst no issues w lines) tr d.
Proof.
  induction lines as [|line rest IH]; intros no issues w tr d HB HT HI HP HL; cbn [mut_loop always];
    (split; [now apply B_Q|]); intros r d1 D1.
  - assert (d1 = d) as -> by now inv_does. clear D1.
    assert (G : always Q E (Do (OFlush t w) (fun a => match a with
        | RFail e => give_up t e
        | _ => must (OClose t) (fun _ => take_over t filename dst) end)) (tr ++ [(ORead, r)]) d).
    { cbn [always]. split; [now apply B_Q|]. intros r2 d2 D2.
      assert (HB2 : B d2) by (inv_does; keepB). destruct r2; try (apply give_up_ok; [easy|apply bad_last; now intros [? [=]]]).
      all: inversion D2; subst; clear D2.
      apply must_ok; [now apply B_Q|easy| |intros e d' D; inv_does; now apply B_Q].
      intros r3 d3 D3 NF. assert (d3 = upd d t (Some (File w u g m))) as -> by now inv_does.
      apply take_over_ok with (new := w) (u := u) (g := g) (m := m); [easy|apply upd_same|].
      rewrite <- (app_nil_r w). apply HL. constructor. }
    destruct r; try exact G. apply give_up_ok; [easy|apply bad_last; now intros [? [=]]].
  - assert (d1 = d) as -> by now inv_does. clear D1.
    assert (HP' : exists pre, lines_of b0 = pre ++ rest /\ no + 1 = N.of_nat (length pre)).
    { destruct HP as (pre & E1 & ->). exists (pre ++ [line]). rewrite <- app_assoc, app_length. split; [easy|]. cbn [List.length]. lia. }
    assert (NL : nth_error (lines_of b0) (N.to_nat no) = Some line).
    { destruct HP as (pre & -> & ->). rewrite Nat2N.id, nth_error_app2, Nat.sub_diag; easy. }
    assert (K : (forall i more, issues <> (no, i) :: more) -> always Q E
       (write_all t w [line] (fun w => mut_loop proc t filename dst (no + 1) issues w rest)) (tr ++ [(ORead, r)]) d).
    { intros NI. apply write_all_ok; [easy|easy|]. intros tr' d' HB' HT'. cbn [List.concat]. rewrite app_nil_r.
      apply IH; [easy|easy|easy|exact HP'|]. intros out HO. rewrite <- app_assoc. apply HL. now apply L_keep. }
    assert (G : always Q E
       (match issues with
        | (n, i) :: more => if no =? n then
             let (out, r) := proc i line in
             write_all t w out (fun w => match r with
               | Ok _ => mut_loop proc t filename dst (no + 1) more w rest
               | Exn e => give_up t e | Hang => Ret Hang end)
            else write_all t w [line] (fun w => mut_loop proc t filename dst (no + 1) issues w rest)
        | [] => write_all t w [line] (fun w => mut_loop proc t filename dst (no + 1) issues w rest)
        end) (tr ++ [(ORead, r)]) d).
    { destruct issues as [|[n i] more]; [now apply K|]. destruct (N.eqb_spec no n) as [<-|NE].
      - destruct (proc i line) as [out [[]|e|]] eqn:EP; (apply write_all_ok; [easy|easy|]); intros tr' d' HB' HT'.
        + apply IH; [easy|easy|intros x HX; apply HI; now right|exact HP'|]. intros o2 HO. rewrite <- app_assoc. apply HL.
          pose proof (L_issue no i more line rest o2) as X. rewrite EP in X. now apply X.
        + apply give_up_ok; [easy|]. right. left. exists no, i, line. rewrite EP. split; [apply HI; now left|split; [exact NL|easy]].
        + cbn [always]. split; [now apply B_Q|]. split; [|easy].
          left. right. left. exists no, i, line. rewrite EP. split; [apply HI; now left|split; [exact NL|easy]].
      - apply K. intros i' more' [= EN _ _]. congruence. }
    destruct r; try exact G. apply give_up_ok; [easy|apply bad_last; now intros [? [=]]].
Qed.
End Temp.

Lemma process_file_ok d tr : (forall q, d q = d0 q) ->
  always Q E (process_file proc filename issues0) tr d.
Proof.
  intros HD. cbn [process_file always]. split; [now left|]. intros r d1 D1.
  assert (d1 = d) by now inversion D1. subst d1.
  assert (G : forall dst, Target d0 filename dst -> always Q E
    (must (OMktemp (dirname dst)) (fun a => match a with
      | RPath t => match issues0 with
        | [] => give_up t IndexError
        | _ => Do (OOpen filename) (fun a => match a with
               | RLines lines => mut_loop proc t filename dst 0 issues0 [] lines
               | RFail e => give_up t e
               | _ => give_up t TypeError end)
        end
      | _ => Ret (Exn TypeError) end)) (tr ++ [(OReadlink filename, r)]) d).
  { intros dst TG. cbn [must always]. split; [now left|]. intros r2 d2 D2. inversion D2; subst; clear D2.
    - split; [now left|]. split; [left; apply bad_last; now intros [? [=]]|]. split; [easy|]. now intros.
    - set (t := name). set (d2 := upd d t (Some (File [] u g m))).
      assert (HB : But d0 t d2).
      { split; [now rewrite <- HD|]. intros q NE. unfold d2. rewrite upd_other by congruence. apply HD. }
      assert (HT : TFile t d2) by (exists [], u, g, m; apply upd_same).
      assert (O : always Q E (Do (OOpen filename) (fun a => match a with
               | RLines lines => mut_loop proc t filename dst 0 issues0 [] lines
               | RFail e => give_up t e
               | _ => give_up t TypeError end)) ((tr ++ [(OReadlink filename, r)]) ++ [(OMktemp (dirname dst), RPath name)]) d2).
      { cbn [always]. split; [now apply (B_Q t dst)|]. intros r3 d3 D3. inversion D3; subst; clear D3.
        - apply (give_up_ok t dst); try easy. apply bad_last; now intros [? [=]].
        - match goal with HR : resolve _ _ _ = Some _, HF : _ = Some (File _ _ _ _) |- _ =>
            destruct (resolve_but _ _ _ _ _ _ HB R0) as [RS' ED]; rewrite HR in RS'; injection RS' as ->;
            rewrite ED, F0 in HF; injection HF as <- <- <- <- end.
          apply (mut_loop_ok t dst); try easy. now exists []. }
      destruct issues0 as [|i is] eqn:EI; [apply (give_up_ok t dst); try easy; right; now right|exact O]. }
  destruct r as [e| | | |]; try (now inversion D1).
  - assert (e = OSError \/ e <> OSError) as [->|NE] by (destruct e; auto; right; discriminate).
    + apply G. now left.
    + assert (X : always Q E (Ret (Exn e)) (tr ++ [(OReadlink filename, RFail e)]) d).
      { split; [now left|]. split; [left; now apply bad_last|split; [easy|now intros]]. }
      destruct e; try exact X. easy.
  - apply G. inversion D1; subst. right. rewrite <- HD. easy.
Qed.
End Mutator.

(* ---- the lines ---- *)
Lemma nth_error_ext {A} : forall l1 l2 : list A, (forall i, nth_error l1 i = nth_error l2 i) -> l1 = l2.
Proof.
  induction l1 as [|a l1 IH]; intros [|b l2] H; [easy|now specialize (H O)|now specialize (H O)|].
  pose proof (H O) as H0. injection H0 as ->. f_equal. apply IH. intros i. apply (H (S i)).
Qed.
Section Asc.
Context {I : Type}.
Lemma asc_from (pre : list (N * I)) no i : Ascending ((no, i) :: pre) -> Ascending pre /\ Forall (fun x => no + 1 <= fst x) pre.
Proof.
  intros H. inversion H as [|? ? S F]; subst. split; [easy|]. apply Forall_forall. intros x HX.
  rewrite Forall_forall in F. specialize (F (fst x) (in_map fst _ _ HX)). cbn in F. lia.
Qed.
Lemma asc_two (a b : list (N * I)) m x n y : Ascending (a ++ (m, x) :: (n, y) :: b) -> m < n.
Proof.
  induction a as [|[k z] a IH]; cbn [app]; intros AS; destruct (asc_from _ _ _ AS) as [AS' FA]; [|now apply IH].
  rewrite Forall_forall in FA. specialize (FA (n, y) (or_introl eq_refl)). cbn in FA. lia.
Qed.
Lemma used_fun (issues p1 p2 : list (N * I)) : Used issues p1 -> Used issues p2 -> p1 = p2.
Proof.
  assert (G : forall p1 l r1, Ascending (p1 ++ l) -> match l ++ r1 with
    | [] => True | (n, _) :: _ => exists pre' m x, p1 = pre' ++ [(m, x)] /\ n <= m end -> l = [] :> list (N * I)).
  { clear. intros p1 [|[n y] l] r1 AS H; [easy|]. exfalso. cbn [app] in H. destruct H as (pre' & m & x & -> & LE).
    rewrite <- app_assoc in AS. cbn [app] in AS. apply asc_two in AS. lia. }
  intros [A1 (r1 & -> & H1)] [A2 (r2 & E & H2)]. apply app_eq_app in E as [l [[-> ->]|[-> ->]]].
  - rewrite (G p2 l r1 A1 H2). apply app_nil_r.
  - rewrite (G p1 l r2 A2 H1). now rewrite app_nil_r.
Qed.
Lemma used_all (issues : list (N * I)) : Ascending issues -> Used issues issues.
Proof. intros H. split; [easy|]. exists []. now rewrite app_nil_r. Qed.
Lemma used_exists (issues : list (N * I)) : exists pre, Used issues pre.
Proof.
  assert (G : forall (rest pre : list (N * I)), Ascending pre -> exists p, Used (pre ++ rest) p).
  { induction rest as [|[n x] rest IH]; intros pre AS.
    - exists pre. split; [easy|]. now exists [].
    - destruct (existsb (fun y => n <=? fst y) pre) eqn:EX.
      + exists pre. split; [easy|]. exists ((n, x) :: rest). split; [easy|].
        apply existsb_exists in EX as ([m y] & HI & LE). cbn in LE. apply N.leb_le in LE.
        destruct (exists_last (l := pre)) as (pre' & [m2 z] & ->); [now destruct pre|].
        exists pre', m2, z. split; [easy|]. clear - AS HI LE.
        apply in_app_or in HI as [HI|[[= -> ->]|[]]]; [|easy].
        induction pre' as [|[k w] pre' IH]; [easy|]. cbn [app] in AS. destruct (asc_from _ _ _ AS) as [AS' FA].
        destruct HI as [[= -> ->]|HI]; [|now apply IH].
        rewrite Forall_forall in FA. specialize (FA (m2, z)). cbn in FA. assert (m + 1 <= m2); [|lia].
        apply FA, in_or_app. right. now left.
      + destruct (IH (pre ++ [(n, x)])) as [p HP].
        * clear - AS EX. induction pre as [|[k w] pre IH].
          { constructor; constructor. }
          cbn [app]. cbn in EX. apply orb_false_elim in EX as [E1 E2]. inversion AS as [|? ? S F]; subst.
          specialize (IH S E2). unfold Ascending in *. cbn [map fst]. constructor; [easy|]. rewrite map_app. apply Forall_app. split; [easy|].
          constructor; [|constructor]. cbn. apply N.leb_gt in E1. lia.
        * exists p. now rewrite <- app_assoc in HP. }
  apply (G issues []). constructor.
Qed.
End Asc.

Section Lines.
Context {I : Type}.
Variable proc : I -> bytes -> list bytes * res unit.
Definition EFrom (no : N) (pre : list (N * I)) (lines outs : list bytes) : Prop :=
  length outs = length lines /\
  forall i line, nth_error lines i = Some line ->
      (forall x, In (no + N.of_nat i, x) pre ->
         snd (proc x line) = Ok tt /\ nth_error outs i = Some (List.concat (fst (proc x line)))) /\
      ((forall x, ~ In (no + N.of_nat i, x) pre) -> nth_error outs i = Some line).
Definition Blocked (no : N) (pre rest : list (N * I)) : Prop :=
  match rest with
  | [] => True
  | (n, _) :: _ => n < no \/ exists pre' m x, pre = pre' ++ [(m, x)] /\ n <= m
  end.


Lemma loop_edited no issues lines out : Loop proc no issues lines out -> forall pre rest, issues = pre ++ rest ->
  Ascending pre -> Forall (fun x => no <= fst x) pre -> Blocked no pre rest ->
  exists outs, List.concat outs = out /\ EFrom no pre lines outs.
Proof.
  induction 1 as [no issues|no i more line lrest out OK HL IH|no issues line lrest out NI HL IH]; intros pre rest EQ AS FA BL.
  - exists []. split; [easy|]. split; [easy|]. intros [|i] line; discriminate.
  - destruct pre as [|p pre].
    { cbn in EQ. subst rest. exfalso. destruct BL as [BL|(p & m & x & E & _)]; [lia|]. now destruct p. }
    cbn in EQ. injection EQ as <- ->. destruct (asc_from _ _ _ AS) as [AS' FA'].
    destruct (IH pre rest eq_refl AS' FA') as (outs & EC & EL & EF).
    { destruct rest as [|[n y] rest]; [easy|]. destruct BL as [BL|(p & m & x & E & LE)].
      - left. lia.
      - destruct p as [|z p]; injection E as E1 E2.
        + subst. left. lia.
        + right. now exists p, m, x. }
    exists (List.concat (fst (proc i line)) :: outs). split; [cbn; now rewrite EC|]. split; [cbn; now rewrite EL|].
    intros [|j] ln HN; cbn in HN.
    + injection HN as <-. replace (no + N.of_nat 0) with no by lia. split.
      * intros x [E|HI]; [injection E as <-; now split|]. exfalso.
        rewrite Forall_forall in FA'. specialize (FA' _ HI). cbn in FA'. lia.
      * intros H. exfalso. apply (H i). now left.
    + replace (no + N.of_nat (S j)) with (no + 1 + N.of_nat j) by lia. destruct (EF j ln HN) as [E1 E2]. split.
      * intros x [E|HI]; [injection E as E; lia|]. now apply E1.
      * intros H. apply E2. intros x HI. apply (H x). now right.
  - subst issues.
    destruct (IH pre rest eq_refl AS) as (outs & EC & EL & EF).
    { apply Forall_forall. intros [n x] HX. rewrite Forall_forall in FA. pose proof (FA _ HX) as GE. cbn in *.
      assert (n <> no); [|lia]. intros ->. destruct pre as [|[n2 x2] pre]; [easy|].
      destruct HX as [E|HX]; [injection E as -> ->; now apply (NI x (pre ++ rest))|].
      destruct (asc_from _ _ _ AS) as [_ FA']. rewrite Forall_forall in FA'. specialize (FA' _ HX). cbn in FA'.
      specialize (FA (n2, x2) (or_introl eq_refl)). cbn in FA. lia. }
    { destruct rest as [|[n y] rest]; [easy|]. destruct BL as [BL|BL]; [left; lia|now right]. }
    exists (line :: outs). split; [cbn; now rewrite EC|]. split; [cbn; now rewrite EL|].
    assert (NO : forall x, ~ In (no, x) pre).
    { intros x HX. destruct pre as [|[n2 x2] pre]; [easy|].
      destruct HX as [E|HX]; [injection E as -> ->; now apply (NI x (pre ++ rest))|].
      destruct (asc_from _ _ _ AS) as [_ FA']. rewrite Forall_forall in FA'. specialize (FA' _ HX). cbn in FA'.
      rewrite Forall_forall in FA. specialize (FA (n2, x2) (or_introl eq_refl)). cbn in FA. lia. }
    intros [|j] ln HN; cbn in HN.
    + injection HN as <-. replace (no + N.of_nat 0) with no by lia. split; [|easy].
      intros x HX. now destruct (NO x).
    + replace (no + N.of_nat (S j)) with (no + 1 + N.of_nat j) by lia. now apply (EF j ln).
Qed.

Lemma loop_spec issues pre old new : Used issues pre -> Loop proc 0 issues (lines_of old) new -> Edited proc pre old new.
Proof.
  intros [AS (rest & EQ & B)] HL.
  destruct (loop_edited _ _ _ _ HL pre rest EQ AS) as (outs & EC & EL & EF).
  - apply Forall_forall. intros x _. lia.
  - unfold Blocked. destruct rest as [|[n x] rest]; [easy|]. now right.
  - now exists outs.
Qed.

Lemma edited_fun issues old new1 new2 : Edited proc issues old new1 -> Edited proc issues old new2 -> new1 = new2.
Proof.
  intros (o1 & <- & L1 & H1) (o2 & <- & L2 & H2). f_equal. apply nth_error_ext. intros i.
  destruct (nth_error (lines_of old) i) as [line|] eqn:EN.
  - destruct (H1 _ _ EN) as [A1 B1], (H2 _ _ EN) as [A2 B2].
    destruct (existsb (fun x => fst x =? N.of_nat i) issues) eqn:EX.
    + apply existsb_exists in EX as ([n x] & HI & E). cbn in E. apply N.eqb_eq in E. subst n.
      destruct (A1 _ HI) as [_ ->], (A2 _ HI) as [_ ->]. easy.
    + assert (NX : forall x, ~ In (N.of_nat i, x) issues).
      { intros x HI. assert (existsb (fun x => fst x =? N.of_nat i) issues = true); [|congruence].
        apply existsb_exists. exists (N.of_nat i, x). split; [easy|]. apply N.eqb_refl. }
      now rewrite (B1 NX), (B2 NX).
  - apply nth_error_None in EN. rewrite (proj2 (nth_error_None o1 i)), (proj2 (nth_error_None o2 i)); [easy| |]; lia.
Qed.

End Lines.

(* ---- the theorems ---- *)
Section Final.
Context {I : Type}.
Variable proc : I -> bytes -> list bytes * res unit.

Lemma content_inv d p b : content d p = Some b -> exists q u g m, resolve max_links d p = Some q /\ d q = Some (File b u g m).
Proof.
  unfold content. destruct (resolve max_links d p) as [q|]; [|easy]. destruct (d q) as [[]|] eqn:ED; try easy.
  intros [= ->]. now exists q, uid, gid, mode.
Qed.

Lemma states d filename q b u g m issues pre tr d' p :
  resolve max_links d filename = Some q -> d q = Some (File b u g m) -> Used issues pre ->
  reach d (process_file proc filename issues) tr d' p ->
  (forall x, d' x = d x) \/
  (exists t dst, Target d filename dst /\ dirname t = dirname dst /\ d t = None /\ forall x, x <> t -> d' x = d x) \/
  (exists new dst, Target d filename dst /\ Edited proc pre b new /\ d' dst = Some (File new u g m) /\
     forall x, x <> dst -> d' x = d x).
Proof.
  intros R F U RE.
  pose proof (process_file_ok proc d filename q b u g m R F issues d [] (fun _ => eq_refl)) as A.
  apply (always_sound _ _ _ _ _ _ _ RE) in A. apply always_here in A.
  destruct A as [A|[(t & dst & TG & TD & TB)|(new & dst & TG & HL & TO & TN)]]; [now left|right; left|right; right].
  - exists t, dst. repeat split; try apply TB; easy.
  - exists new, dst. repeat split; try easy. now apply (loop_spec proc issues).
Qed.

Lemma final d filename q b u g m issues pre tr d' r :
  resolve max_links d filename = Some q -> d q = Some (File b u g m) -> Used issues pre ->
  reach d (process_file proc filename issues) tr d' (Ret r) ->
  (r = Ok tt -> exists new dst, Target d filename dst /\ Edited proc pre b new /\ d' dst = Some (File new u g m) /\
     forall x, x <> dst -> d' x = d x) /\
  (forall e, r = Exn e -> only_writing_fails tr -> forall x, d' x = d x) /\
  (nothing_fails tr -> (forall n i line, In (n, i) issues -> nth_error (lines_of b) (N.to_nat n) = Some line -> snd (proc i line) = Ok tt) -> issues <> [] -> r = Ok tt).
Proof.
  intros R F U RE.
  pose proof (process_file_ok proc d filename q b u g m R F issues d [] (fun _ => eq_refl)) as A.
  apply (always_sound _ _ _ _ _ _ _ RE) in A. destruct A as [_ (A1 & A2 & A3)]. cbn [app] in *. split; [|split].
  - intros E. destruct (A2 E) as (new & dst & TG & HL & TO & TN). exists new, dst. repeat split; try easy.
    now apply (loop_spec proc issues).
  - exact A3.
  - intros NF PO NE. destruct A1 as [[A1|[(n & i & line & HI & HN & A1)|A1]]|A1]; try easy. exfalso. apply A1. now apply (PO n).
Qed.

Lemma resolve_file n d p b u g m : d p = Some (File b u g m) -> resolve n d p = Some p.
Proof. destruct n; cbn [resolve]; now intros ->. Qed.

Lemma resolve_S n d p t : d p = Some (Link t) -> resolve (S n) d p = resolve n d (link_path p t).
Proof. intros H. cbn [resolve]. now rewrite H. Qed.
Lemma content_renamed d filename dst d' new u g m : Direct d filename -> Target d filename dst ->
  d' dst = Some (File new u g m) -> (forall x, x <> dst -> d' x = d x) -> content d' filename = Some new.
Proof.
  intros DI TG DN DO. unfold content. destruct (str_eq_dec filename dst) as [<-|NE].
  - rewrite (resolve_file _ _ _ _ _ _ _ DN). now rewrite DN.
  - destruct TG as [->|TG]; [easy|]. change max_links with (S 39).
    rewrite (resolve_S _ _ _ dst), (DI _ TG), (resolve_file _ _ _ _ _ _ _ DN), DN; [easy|]. now rewrite (DO _ NE).
Qed.
Lemma content_but d d' t filename b : d t = None -> (forall x, x <> t -> d' x = d x) -> content d filename = Some b ->
  content d' filename = Some b.
Proof.
  intros N H C. destruct (content_inv _ _ _ C) as (q & u & g & m & R & F).
  destruct (resolve_but max_links d t d' filename q) as [R' F']; [now split|easy|].
  unfold content. now rewrite R', F', F.
Qed.
Lemma content_eq d d' filename b : (forall x, d' x = d x) -> content d filename = Some b -> content d' filename = Some b.
Proof.
  intros H C. unfold content in *.
  assert (E : forall n p, resolve n d' p = resolve n d p).
  { induction n as [|n IH]; intros p; cbn [resolve]; rewrite H; destruct (d p) as [[]|]; easy. }
  rewrite E. destruct (resolve max_links d filename); [|easy]. now rewrite H.
Qed.

Lemma old_or_new d filename old issues pre tr d' p : content d filename = Some old -> Direct d filename -> Used issues pre ->
  reach d (process_file proc filename issues) tr d' p ->
  content d' filename = Some old \/ exists new, Edited proc pre old new /\ content d' filename = Some new.
Proof.
  intros C DI U RE. destruct (content_inv _ _ _ C) as (q & u & g & m & R & F).
  destruct (states _ _ _ _ _ _ _ _ _ _ _ _ R F U RE) as [A|[(t & dst & TG & TD & TN & TB)|(new & dst & TG & HE & TN & TO)]].
  - left. now apply (content_eq d).
  - left. now apply (content_but d d' t).
  - right. exists new. split; [easy|]. now apply (content_renamed d _ dst d' new u g m).
Qed.

Lemma done d filename old issues pre tr d' : content d filename = Some old -> Direct d filename -> Used issues pre ->
  reach d (process_file proc filename issues) tr d' (Ret (Ok tt)) ->
  exists new, Edited proc pre old new /\ content d' filename = Some new.
Proof.
  intros C DI U RE. destruct (content_inv _ _ _ C) as (q & u & g & m & R & F).
  destruct (final _ _ _ _ _ _ _ _ _ _ _ _ R F U RE) as [A _].
  destruct (A eq_refl) as (new & dst & TG & HE & TN & TO). exists new. split; [easy|].
  now apply (content_renamed d _ dst d' new u g m).
Qed.

(* ---- several files ---- *)
Lemma reach_seq d p q tr d' p' : reach d (seq p q) tr d' p' ->
  (exists p1, p' = seq p1 q /\ p1 <> Ret (Ok tt) /\ reach d p tr d' p1) \/
  (exists tr1 tr2 d1, tr = tr1 ++ tr2 /\ reach d p tr1 d1 (Ret (Ok tt)) /\ reach d1 q tr2 d' p').
Proof.
  revert d tr. induction p as [r|o k IH]; intros d tr RE; cbn [seq] in RE.
  - destruct r as [[]|e|].
    + right. exists [], tr, d. repeat split; [constructor|easy].
    + left. exists (Ret (Exn e)). inversion RE; subst. split; [easy|split; [easy|constructor]].
    + left. exists (Ret Hang). inversion RE; subst. split; [easy|split; [easy|constructor]].
  - inversion RE as [|? ? ? r d1 tr1 ? ? D RE']; subst.
    + left. exists (Do o k). split; [easy|split; [easy|constructor]].
    + destruct (IH r _ _ RE') as [(p1 & E & NE & R1)|(t1 & t2 & d2 & E & R1 & R2)].
      * left. exists p1. split; [easy|]. split; [easy|]. now apply R_step with d1.
      * right. exists ((o, r) :: t1), t2, d2. subst. repeat split; [now apply R_step with d1|easy].
Qed.
Lemma seq_ok p q : seq p q = Ret (Ok tt) -> p = Ret (Ok tt).
Proof. destruct p as [[[]|e|]|o k]; easy. Qed.

Definition plain (d : disk) (name : str) (b : bytes) : Prop := exists u g m, d name = Some (File b u g m).
Lemma plain_resolve d name b : plain d name b -> exists u g m, resolve max_links d name = Some name /\ d name = Some (File b u g m).
Proof. intros (u & g & m & F). exists u, g, m. split; [now apply (resolve_file _ _ _ b u g m)|easy]. Qed.

Lemma target_plain d name b dst : plain d name b -> Target d name dst -> dst = name.
Proof. intros (u & g & m & F) [->|H]; [easy|congruence]. Qed.

(* Any number of files: a beginning of the list is finished, at most one
   temporary file exists, the rest is untouched. *)
Lemma batch l : forall d tr d' p, NoDup (map fst l) ->
  (forall f, In f l -> exists b, plain d (fst f) b) ->
  reach d (process proc l) tr d' p ->
  exists l1 l2, l = l1 ++ l2 /\
    (forall name issues pre b, In (name, issues) l1 -> plain d name b -> Used issues pre ->
       exists new, Edited proc pre b new /\ plain d' name new) /\
    (forall x, d x <> None -> ~ In x (map fst l1) -> d' x = d x) /\
    (exists t, forall x, x <> t -> ~ In x (map fst l1) -> d' x = d x) /\
    (p = Ret (Ok tt) -> l2 = []).
Proof.
  induction l as [|[name issues] l IH]; intros d tr d' p ND PL RE; cbn [process] in RE.
  - inversion RE; subst. exists [], []. split; [easy|]. split; [easy|]. split; [easy|]. split; [now exists []|easy].
  - inversion ND as [|? ? NI ND']; subst.
    destruct (PL (name, issues)) as [b PB]; [now left|]. cbn [fst] in PB.
    destruct (plain_resolve _ _ _ PB) as (u & g & m & R & F). destruct (used_exists issues) as [pre0 U0].
    assert (EDT : forall dx new pre b2, dx name = Some (File new u g m) -> plain d name b2 ->
              Edited proc pre0 b new -> Used issues pre -> exists new, Edited proc pre b2 new /\ plain dx name new).
    { intros dx new pre b2 TN (u2 & g2 & m2 & F2) HE U. rewrite F in F2. injection F2 as <- <- <- <-.
      exists new. split; [|now exists u, g, m]. now rewrite (used_fun issues pre pre0). }
    destruct (reach_seq _ _ _ _ _ _ RE) as [(p1 & -> & NP & R1)|(tr1 & tr2 & d1 & -> & R1 & R2)].
    + (* still in the first file *)
      assert (NO : forall X : Prop, seq p1 (process proc l) = Ret (Ok tt) -> X) by (intros X E; now apply seq_ok in E).
      destruct (states _ _ _ _ _ _ _ _ _ _ _ _ R F U0 R1) as [A|[(t & dst & TG & TD & TN & TB)|(new & dst & TG & HE & TN & TO)]].
      * exists [], ((name, issues) :: l). split; [easy|]. split; [easy|]. split; [easy|].
        split; [exists []; now intros|]. apply NO.
      * exists [], ((name, issues) :: l). split; [easy|]. split; [easy|]. split; [|split; [|apply NO]].
        -- intros x NX _. apply TB. congruence.
        -- exists t. intros x NE _. now apply TB.
      * pose proof (target_plain _ _ _ _ PB TG) as ->. exists [(name, issues)], l.
        split; [easy|]. split; [|split; [|split; [|apply NO]]].
        -- intros n i pre b2 [[= <- <-]|[]] P2 U. now apply (EDT d' new).
        -- intros x _ NX. apply TO. intros ->. apply NX. now left.
        -- exists []. intros x _ NX. apply TO. intros ->. apply NX. now left.
    + destruct (final _ _ _ _ _ _ _ _ _ _ _ _ R F U0 R1) as [FI _].
      destruct (FI eq_refl) as (new & dst & TG & HE & TN & TO). pose proof (target_plain _ _ _ _ PB TG) as ->. clear FI TG.
      assert (ON : forall x, In x (map fst l) -> x <> name) by (intros x HX ->; easy).
      destruct (IH d1 tr2 d' p ND') as (l1 & l2 & -> & I1 & I2 & (t & I3) & I4).
      { intros f HF. destruct (PL f) as (b2 & u2 & g2 & m2 & F2); [now right|]. exists b2, u2, g2, m2.
        rewrite TO; [easy|]. apply ON. now apply in_map. }
      { easy. }
      rewrite map_app in *.
      assert (N1 : ~ In name (map fst l1)) by (intros HX; apply NI, in_or_app; now left).
      exists ((name, issues) :: l1), l2. split; [easy|]. split; [|split; [|split; [|easy]]].
      * intros n i pre b2 [[= <- <-]|HI] P2 U.
        -- apply (EDT d' new); try easy. rewrite I2; try easy. now rewrite TN.
        -- apply (I1 n i pre b2 HI); [|easy]. destruct P2 as (u2 & g2 & m2 & F2). exists u2, g2, m2. rewrite TO; [easy|].
           apply ON, in_or_app. left. now apply (in_map fst _ _ HI).
      * intros x NX HX. cbn [map fst In] in HX.
        assert (XN : x <> name) by (intros ->; apply HX; now left). rewrite I2; [now apply TO| |].
        -- now rewrite TO.
        -- intros HX2. apply HX. now right.
      * exists t. intros x NX HX. cbn [map fst In] in HX. rewrite I3; [|easy|].
        -- apply TO. intros ->. apply HX. now left.
        -- intros HX2. apply HX. now right.
Qed.
Lemma batch_ends l : forall d tr d' r, NoDup (map fst l) ->
  (forall f, In f l -> snd f <> [] /\ exists b, plain d (fst f) b /\
     forall n i line, In (n, i) (snd f) -> nth_error (lines_of b) (N.to_nat n) = Some line -> snd (proc i line) = Ok tt) ->
  reach d (process proc l) tr d' (Ret r) -> nothing_fails tr -> r = Ok tt.
Proof.
  induction l as [|[name issues] l IH]; intros d tr d' r ND PL RE NF; cbn [process] in RE.
  - now inversion RE.
  - inversion ND as [|? ? NI ND']; subst. destruct (PL (name, issues)) as (NE & b & PB & PO); [now left|]. cbn [fst snd] in *.
    destruct (plain_resolve _ _ _ PB) as (u & g & m & R & F). destruct (used_exists issues) as [pre0 U0].
    destruct (reach_seq _ _ _ _ _ _ RE) as [(p1 & E & NP & R1)|(tr1 & tr2 & d1 & -> & R1 & R2)].
    + destruct p1 as [r1|]; [|discriminate E]. destruct (final _ _ _ _ _ _ _ _ _ _ _ _ R F U0 R1) as (_ & _ & K). elim NP. f_equal. now apply K.
    + destruct (final _ _ _ _ _ _ _ _ _ _ _ _ R F U0 R1) as (K & _). destruct (K eq_refl) as (new & dst & TG & _ & _ & TO).
      pose proof (target_plain _ _ _ _ PB TG) as ->. apply (IH d1 tr2 d' r ND'); [|easy|intros o e I1; apply NF, in_or_app; now right].
      intros f HF. destruct (PL f) as (NE2 & b2 & (u2 & g2 & m2 & F2) & PO2); [now right|]. split; [easy|]. exists b2. split; [|easy]. exists u2, g2, m2.
      rewrite TO; [easy|]. intros E. apply NI. rewrite <- E. now apply in_map.
Qed.
End Final.

(* ---- make_patterns_canonical ---- *)
Lemma replace_first_spec needle repl s : needle <> [] ->
  (exists a b, FirstOcc needle s a b /\ replace_first needle repl s = a ++ repl ++ b) \/
  ((forall a b, s <> a ++ needle ++ b) /\ replace_first needle repl s = s).
Proof.
  intros NE. induction s as [|c s IH]; unfold replace_first; fold (replace_first needle repl).
  - destruct (startswith needle []) eqn:ES.
    + apply startswith_app in ES as [r E]. symmetry in E. apply app_eq_nil in E as [E _]. easy.
    + right. split; [|easy]. intros a b E. symmetry in E. apply app_eq_nil in E as [_ E]. now apply app_eq_nil in E as [E _].
  - destruct (startswith needle (c :: s)) eqn:ES.
    + apply startswith_app in ES as [r E]. left. exists [], r. rewrite E. split.
      * split; [easy|]. intros. cbn. lia.
      * now rewrite skipn_app, skipn_all, Nat.sub_diag.
    + assert (NS : forall b, c :: s <> needle ++ b).
      { intros b E. assert (startswith needle (c :: s) = true); [|congruence]. apply startswith_app. now exists b. }
      destruct IH as [(a & b & [E F] & ->)|[H ->]].
      * left. exists (c :: a), b. split; [|easy]. split; [now rewrite E|].
        intros [|c' a'] b' E'; [now apply NS in E'|]. injection E' as <- E'. apply F in E'. cbn. lia.
      * right. split; [|easy]. intros [|c' a'] b' E'; [now apply NS in E'|]. injection E' as <- E'. now apply H in E'.
Qed.

Lemma mpc_spec needle repl line : needle <> [] ->
  (exists new, mpc_issue (needle, repl) line = ([new], Ok tt) /\ Canonised needle repl line new) \/
  (~ In 61 line /\ mpc_issue (needle, repl) line = ([], Exn ValueError)) \/
  (exists head, line = head ++ [61] /\ ~ In 61 head /\ mpc_issue (needle, repl) line = ([], Exn IndexError)).
Proof.
  intros NE. unfold mpc_issue. destruct (index_of 61 line) as [i|] eqn:EI.
  - destruct (index_of_split _ _ _ EI) as (head & tail & -> & NI & _ & -> & _ & ->). destruct tail as [|c tail].
    + right. right. now exists head.
    + left. eexists. split; [reflexivity|]. exists head, (c :: tail), (replace_first needle repl (c :: tail)).
      split; [easy|]. split; [easy|]. split; [easy|]. split; [easy|]. now apply replace_first_spec.
  - right. left. split; [now apply index_of_none|easy].
Qed.

(* ---- what success means ---- *)
Fixpoint NeverOk (p : prog) : Prop :=
  match p with Ret r => r <> Ok tt | Do _ k => forall a, NeverOk (k a) end.
(* after a failure it never returns, but for readlink *)
Fixpoint Strict (p : prog) : Prop :=
  match p with
  | Ret _ => True
  | Do o k => forall a, match a with
      | RFail e => ((exists f, o = OReadlink f) /\ e = OSError /\ Strict (k a)) \/ NeverOk (k a)
      | _ => Strict (k a)
      end
  end.
Lemma never_reach d p tr d' q : reach d p tr d' q -> NeverOk p -> q <> Ret (Ok tt).
Proof. induction 1 as [d p|d o k r d1 tr d2 p D R IH]; cbn [NeverOk]; intros H; [intros ->; cbn in H; congruence|]. apply IH, H. Qed.
Lemma strict_reach d p tr d' q : reach d p tr d' q -> Strict p -> q = Ret (Ok tt) -> nothing_fails tr.
Proof.
  induction 1 as [d p|d o k r d1 tr d2 p D R IH]; cbn [Strict]; intros H E; [intros o e []|]. specialize (H r).
  assert (K : Strict (k r) -> nothing_fails tr) by (intros S; now apply IH).
  destruct r as [e| | | |]; try (intros o' e' [X|X]; [discriminate|]; eapply K; eauto; fail).
  destruct H as [(H1 & H2 & H3)|H].
  - intros o' e' [X|X]; [injection X as <- <-; easy|]. eapply K; eauto.
  - exfalso. now apply (never_reach _ _ _ _ _ R H).
Qed.
Section Ok.
Context {I : Type}.
Variable proc : I -> bytes -> list bytes * res unit.
Lemma give_up_never t e : NeverOk (give_up t e).
Proof. intros a b. destruct b; cbn; destruct a; cbn; discriminate. Qed.
Lemma must_strict o k : (forall a, (forall e, a <> RFail e) -> Strict (k a)) -> Strict (must o k).
Proof. intros H a. destruct a as [e| | | |]; [right; cbn; discriminate| | | |]; apply H; discriminate. Qed.
Lemma never_strict p : NeverOk p -> Strict p.
Proof.
  induction p as [r|o k IH]; [easy|]. intros H a. cbn in H. destruct a; [right; apply H| | | |]; apply IH, H.
Qed.
Lemma take_over_strict t f dst : Strict (take_over t f dst).
Proof.
  apply must_strict. intros a _. apply must_strict. intros b _.
  assert (REN : Strict (must (ORename t dst) (fun _ => Ret (Ok tt)))) by (apply must_strict; intros; exact Logic.I).
  destruct a, b; try exact Logic.I. cbn zeta.
  destruct (_ && _); [|apply must_strict; intros _ _]; (destruct (_ =? _); [exact REN|apply must_strict; intros _ _; exact REN]).
Qed.
Lemma write_all_strict t l : forall w k, (forall w', Strict (k w')) -> Strict (write_all t w l k).
Proof.
  induction l as [|b l IH]; intros w k H; [apply H|]. intros a. destruct a; [right; apply give_up_never| | | |]; apply IH, H.
Qed.
Lemma mut_loop_strict t f dst lines : forall no issues w, Strict (mut_loop proc t f dst no issues w lines).
Proof.
  induction lines as [|line lines IH]; intros no issues w a.
  - destruct a; [right; apply give_up_never| | | |]; (intros b; destruct b; [right; apply give_up_never| | | |]; apply must_strict; intros; apply take_over_strict).
  - destruct a as [e| | | |]; [right; apply give_up_never| | | |].
    all: (destruct issues as [|[n i] more]; [apply write_all_strict; intros; apply IH|];
      destruct (no =? n); [|apply write_all_strict; intros; apply IH]; destruct (proc i line) as [out r]; apply write_all_strict; intros w';
      destruct r; [apply IH|apply never_strict, give_up_never|exact Logic.I]).
Qed.
Lemma process_file_strict f issues : Strict (process_file proc f issues).
Proof.
  assert (BODY : forall dst, Strict (must (OMktemp (dirname dst)) (fun a =>
      match a with
      | RPath t => match issues with
        | [] => give_up t IndexError
        | _ => Do (OOpen f) (fun a => match a with
               | RLines lines => mut_loop proc t f dst 0 issues [] lines
               | RFail e => give_up t e
               | _ => give_up t TypeError end) end
      | _ => Ret (Exn TypeError) end))).
  { intros dst. apply must_strict. intros a _. destruct a; try exact Logic.I. destruct issues; [apply never_strict, give_up_never|].
    intros b. destruct b; [right; apply give_up_never|apply never_strict, give_up_never|apply never_strict, give_up_never|apply mut_loop_strict|apply never_strict, give_up_never]. }
  intros a. destruct a as [e| | | |]; try exact Logic.I; [|apply BODY].
  destruct e; try (right; cbn; discriminate). left. split; [eauto|]. split; [easy|]. apply BODY.
Qed.
End Ok.
Lemma seq_never p q : NeverOk p -> NeverOk (seq p q).
Proof. induction p as [r|o k IH]; cbn; intros H; [destruct r as [[]| |]; [congruence|discriminate|discriminate]|]. intros a. apply IH, H. Qed.
Lemma seq_strict p q : Strict p -> Strict q -> Strict (seq p q).
Proof.
  intros Hp Hq. induction p as [r|o k IH]; cbn [seq]; [destruct r; easy|]. intros a. specialize (Hp a).
  destruct a as [e| | | |]; try (apply IH, Hp). destruct Hp as [(H1 & H2 & H3)|H]; [left; auto|right; now apply seq_never].
Qed.
Lemma process_strict {I} (proc : I -> bytes -> list bytes * res unit) l : Strict (process proc l).
Proof. induction l as [|[f is] l IH]; [exact Logic.I|]. apply seq_strict; [apply process_file_strict|easy]. Qed.
Theorem success {I} (proc : I -> bytes -> list bytes * res unit) d l tr d' :
  reach d (process proc l) tr d' (Ret (Ok tt)) -> nothing_fails tr.
Proof. intros R. now apply (strict_reach _ _ _ _ _ R (process_strict proc l)). Qed.
Theorem success_file {I} (proc : I -> bytes -> list bytes * res unit) d f issues tr d' :
  reach d (process_file proc f issues) tr d' (Ret (Ok tt)) -> nothing_fails tr.
Proof. intros R. now apply (strict_reach _ _ _ _ _ R (process_file_strict proc f issues)). Qed.

(* ---- the flush ---- *)
Fixpoint NoFlush (p : prog) : Prop :=
  match p with
  | Ret _ => True
  | Do (OFlush _ _) _ => False
  | Do _ k => forall a, NoFlush (k a)
  end.
(* [Flushes t w p]: [w] has been written to [t] *)
Fixpoint Flushes (t : str) (w : bytes) (p : prog) : Prop :=
  match p with
  | Ret _ => True
  | Do (OFlush t' all) k => t' = t /\ all = w /\ forall a, NoFlush (k a)
  | Do (OWrite t' b) k => t' = t /\ forall a, match a with RFail _ => NoFlush (k a) | _ => Flushes t (w ++ b) (k a) end
  | Do _ k => forall a, Flushes t w (k a)
  end.
Lemma noflush_reach d p tr d' q : reach d p tr d' q -> NoFlush p -> forall t all a, ~ In (OFlush t all, a) tr.
Proof.
  induction 1 as [d p|d o k r d1 tr d2 p D R IH]; intros H t all a; [easy|].
  destruct o; cbn [NoFlush] in H; try easy; (intros [X|X]; [discriminate|]; eapply IH; eauto).
Qed.
Lemma flushes_reach d p tr d' q : reach d p tr d' q -> forall t w, Flushes t w p ->
  forall tr1 t' all a tr2, tr = tr1 ++ (OFlush t' all, a) :: tr2 ->
    t' = t /\ all = w ++ written t tr1 /\ (forall b e, ~ In (OWrite t b, RFail e) tr1).
Proof.
  induction 1 as [d p|d o k r d1 tr d2 p D R IH]; intros t w H tr1 t' all a tr2 E; [destruct tr1; discriminate|].
  destruct tr1 as [|x tr1]; cbn [app] in E.
  { injection E as E1 -> E2. subst o. cbn [Flushes] in H. destruct H as (-> & -> & _). cbn. rewrite app_nil_r. split; [easy|]. split; [easy|]. intros ? ? []. }
  injection E as <- E.
  assert (NF : NoFlush (k r) -> False).
  { intros X. eapply (noflush_reach _ _ _ _ _ R X t' all a). rewrite E. apply in_elt. }
  assert (KEEP : (forall t0 b, o <> OWrite t0 b) -> Flushes t w (k r) ->
    t' = t /\ all = w ++ written t ((o, r) :: tr1) /\ forall b e, ~ In (OWrite t b, RFail e) ((o, r) :: tr1)).
  { intros NW F. destruct (IH t w F tr1 t' all a tr2 E) as (I0 & I1 & I2). split; [easy|]. split.
    - rewrite I1. f_equal. destruct o; try reflexivity. exfalso. eapply NW; eauto.
    - intros b e [X|X]; [injection X as X _; eapply NW; eauto|]. eapply I2; eauto. }
  destruct o; try (apply KEEP; [discriminate|apply H]).
  - cbn [Flushes] in H. destruct H as [-> H]. specialize (H r).
    assert (GO : Flushes t (w ++ b) (k r) -> (forall e, r <> RFail e) -> t' = t /\ all = w ++ written t ((OWrite t b, r) :: tr1) /\ forall b' e, ~ In (OWrite t b', RFail e) ((OWrite t b, r) :: tr1)).
    { intros F NR. destruct (IH t (w ++ b) F tr1 t' all a tr2 E) as (I0 & I1 & I2). split; [easy|]. split.
      - rewrite I1, <- app_assoc. cbn [written]. rewrite str_eqb_refl. destruct r; try easy; exfalso; eapply NR; eauto.
      - intros b' e [X|X]; [injection X as _ X; eapply NR; eauto|]. eapply I2; eauto. }
    destruct r; [exfalso; apply NF, H| | | |]; apply GO; auto; discriminate.
  - exfalso. apply NF. cbn [Flushes] in H. apply H.
Qed.
Section Flush.
Context {I : Type}.
Variable proc : I -> bytes -> list bytes * res unit.
Lemma give_up_nf t e : NoFlush (give_up t e).
Proof. intros a b. destruct b; exact Logic.I. Qed.
Lemma give_up_fl t w t' e : Flushes t w (give_up t' e).
Proof. intros a b. destruct b; exact Logic.I. Qed.
Lemma must_nf o k : (forall t all, o <> OFlush t all) -> (forall a, NoFlush (k a)) -> NoFlush (must o k).
Proof. intros H1 H2. unfold must. destruct o; cbn [NoFlush]; try (intros a; destruct a; [exact Logic.I| | | |]; apply H2). exfalso. eapply H1; eauto. Qed.
Lemma take_over_nf t f dst : NoFlush (take_over t f dst).
Proof.
  apply must_nf; [discriminate|]. intros a. apply must_nf; [discriminate|]. intros b.
  assert (REN : NoFlush (must (ORename t dst) (fun _ => Ret (Ok tt)))) by (apply must_nf; [discriminate|intros; exact Logic.I]).
  destruct a, b; try exact Logic.I. cbn zeta.
  destruct (_ && _); [|apply must_nf; [discriminate|intros _]]; (destruct (_ =? _); [exact REN|apply must_nf; [discriminate|intros _; exact REN]]).
Qed.
Lemma write_all_fl t l : forall w k, (forall w', Flushes t w' (k w')) -> Flushes t w (write_all t w l k).
Proof.
  induction l as [|b l IH]; intros w k H; [apply H|]. split; [easy|]. intros a. destruct a; [apply give_up_nf| | | |]; apply IH, H.
Qed.
Lemma mut_loop_fl t f dst lines : forall no issues w, Flushes t w (mut_loop proc t f dst no issues w lines).
Proof.
  induction lines as [|line lines IH]; intros no issues w a.
  - destruct a; [apply give_up_fl| | | |]; (split; [easy|]; split; [easy|]; intros b; destruct b; [apply give_up_nf| | | |]; (apply must_nf; [discriminate|]; intros; apply take_over_nf)).
  - destruct a as [e| | | |]; [apply give_up_fl| | | |].
    all: (destruct issues as [|[n i] more]; [apply write_all_fl; intros; apply IH|];
      destruct (no =? n); [|apply write_all_fl; intros; apply IH]; destruct (proc i line) as [out r]; apply write_all_fl; intros w';
      destruct r; [apply IH|apply give_up_fl|exact Logic.I]).
Qed.
Definition Right (p : prog) : Prop := forall d tr d' q, reach d p tr d' q -> flush_right tr.
Lemma right_ret r : Right (Ret r).
Proof. intros d tr d' q R. inversion R; subst. intros tr1 t all a tr2 E. destruct tr1; discriminate. Qed.
Lemma right_do o k : (forall t b, o <> OWrite t b) -> (forall t b, o <> OFlush t b) -> (forall a, Right (k a)) -> Right (Do o k).
Proof.
  intros H1 H2 H d tr d' q R. inversion R as [|? ? ? r d1 tr' ? ? D R']; subst; [intros tr1 t all a tr2 E; destruct tr1; discriminate|].
  specialize (H r _ _ _ _ R'). intros tr1 t all a tr2 E. destruct tr1 as [|x tr1]; cbn [app] in E.
  { injection E as E _ _. exfalso. eapply H2; eauto. }
  injection E as <- E. destruct (H _ _ _ _ _ E) as [K1 K2]. split.
  - rewrite K1. destruct o; try reflexivity. exfalso. eapply H1; eauto.
  - intros b e [X|X]; [injection X as X _; eapply H1; eauto|]. eapply K2; eauto.
Qed.
Lemma right_flushes t p : Flushes t [] p -> Right p.
Proof.
  intros H d tr d' q R tr1 t' all a tr2 E. destruct (flushes_reach _ _ _ _ _ R t [] H tr1 t' all a tr2 E) as (-> & -> & K). easy.
Qed.
Theorem flushed_right f issues : Right (process_file proc f issues).
Proof.
  assert (BODY : forall dst, Right (must (OMktemp (dirname dst)) (fun a =>
      match a with
      | RPath t => match issues with
        | [] => give_up t IndexError
        | _ => Do (OOpen f) (fun a => match a with
               | RLines lines => mut_loop proc t f dst 0 issues [] lines
               | RFail e => give_up t e
               | _ => give_up t TypeError end) end
      | _ => Ret (Exn TypeError) end))).
  { intros dst. apply right_do; [discriminate|discriminate|]. intros a. destruct a; try apply right_ret.
    destruct issues; [apply (right_flushes p), give_up_fl|].
    apply right_do; [discriminate|discriminate|]. intros b. destruct b; try (apply (right_flushes p), give_up_fl). apply (right_flushes p), mut_loop_fl. }
  apply right_do; [discriminate|discriminate|]. intros a. destruct a as [e| | | |]; try apply right_ret; [|apply BODY].
  destruct e; try apply right_ret. apply BODY.
Qed.
End Flush.
