(* Proofs for C62: the lines that dialplan-show prints. *)
From Coq Require Import Permutation.
From Verif Require Import Base PyStr Defines FileRd Config Pattern Var VarFun AppM Spec_VarFun Dialplan Spec_Dialplan Dialplan_proofs DialplanJ_proofs
  Report Spec_Report Report_proofs Show Spec_Run Run_proofs Spec_Whole Whole_proofs Spec_Show Show_proofs.
From Verif Require Import Flat_proofs FlatD_proofs FlatM_proofs FlatT_proofs.
Import Spec_Reader.

Lemma spaces_nl k : NL (repeat 32 k).
Proof. induction k; cbn; constructor; easy. Qed.
Lemma padded_nl n s t : padded n s t -> NL s -> NL t.
Proof. intros (k & -> & _) H. apply nl_app. split; [easy|apply spaces_nl]. Qed.
Lemma columns_nl lead n a b t : NL lead -> NL a -> NL b -> columns lead n a b t -> NL t.
Proof.
  intros Hl Ha Hb (a' & b' & A & B & ->). rewrite !nl_app. repeat split; [easy|exact (padded_nl _ _ _ A Ha)|now apply nlb_ok|exact (padded_nl _ _ _ B Hb)|now apply nlb_ok].
Qed.
Lemma app_text_nl raw t : NL raw -> app_text raw t -> NL t.
Proof.
  intros H (o & c & -> & O & C). rewrite !nl_app. split; [easy|]. split; [destruct O as [[_ ->]|[_ ->]]|destruct C as [[_ ->]|[_ ->]]]; now apply nlb_ok.
Qed.
Lemma label_nl o t : OOk NL o -> LabelText o t -> NL t.
Proof. intros H K. destruct K as [| |s N]; [constructor|constructor|]. rewrite !nl_app. split; [now apply nlb_ok|]. split; [exact H|now apply nlb_ok]. Qed.
Lemma int_nl z t : IntText z t -> NL t.
Proof. intros H. apply int_zstr in H as ->. apply nl_zstr. Qed.
Lemma ext_nl prev x t : XOk x -> ExtLine prev x t -> NL t.
Proof.
  intros ([X1 X2] & X3 & X4) [y b n a l E P B I A C|n a l N I A C]; revert C; apply columns_nl; try (now apply nlb_ok).
  - exact (label_nl _ _ X4 B).
  - rewrite !nl_app. split; [exact (int_nl _ _ I)|]. split; [now apply nlb_ok|exact (app_text_nl _ _ X3 A)].
  - rewrite !nl_app. split; [now apply nlb_ok|]. split; [easy|now apply nlb_ok].
  - rewrite !nl_app. split; [exact (int_nl _ _ I)|]. split; [now apply nlb_ok|exact (app_text_nl _ _ X3 A)].
Qed.
Lemma exts_nl prev l ls : Forall XOk l -> ExtLines prev l ls -> Forall NL ls /\ length ls = length l.
Proof.
  intros H X. induction X as [|prev x l line ls E X IH]; [split; [constructor|easy]|]. inversion H as [|? ? Hx Hl]; subst.
  destruct (IH Hl) as [I1 I2]. split; [constructor; [exact (ext_nl _ _ _ Hx E)|easy]|cbn; lia].
Qed.
Lemma incs_nl is ls : Forall (fun i : str * loc => NL (fst i)) is -> Forall2 IncLine is ls -> Forall NL ls /\ length ls = length is.
Proof.
  intros H X. induction X as [|i line is ls E X IH]; [split; [constructor|easy]|]. inversion H as [|? ? Hx Hl]; subst.
  destruct (IH Hl) as [I1 I2]. split; [constructor; [|easy]|cbn; lia]. revert E. apply columns_nl; try (now apply nlb_ok).
  rewrite !nl_app. split; [now apply nlb_ok|]. split; [easy|now apply nlb_ok].
Qed.
Section Printable.
Variable printable : N -> bool.
Lemma ctx_nl h n ls : Forall XOk (stored_of h n) -> Forall (fun i : str * loc => NL (fst i)) (includes_of h n) -> CtxLines printable h n ls ->
  Forall NL ls /\ length ls = (2 + length (stored_of h n) + length (includes_of h n))%nat.
Proof.
  intros X I (q & out & els & ils & Q & Li & E & F & ->). apply quoted_plain in Q. apply plain_nl in Q.
  pose proof (li_all _ _ Li) as P. apply exts_nl in E as [E1 E2]; [|now apply (Permutation_Forall (Permutation_sym P))]. apply incs_nl in F as [F1 F2]; [|easy].
  apply Permutation_length in P. split.
  - constructor; [rewrite !nl_app; split; [now apply nlb_ok|]; split; [easy|now apply nlb_ok]|]. rewrite !Forall_app. split; [easy|]. split; [easy|]. constructor; constructor.
  - cbn [length]. rewrite !app_length. cbn [length]. lia.
Qed.
Definition block_lines (h : list hev) (n : str) : nat := (2 + length (stored_of h n) + length (includes_of h n))%nat.
Definition total (l : list nat) : nat := fold_right Nat.add 0%nat l.
Lemma blocks_nl h ns bs : (forall n, In n ns -> Forall XOk (stored_of h n) /\ Forall (fun i : str * loc => NL (fst i)) (includes_of h n)) ->
  Forall2 (CtxLines printable h) ns bs -> Forall NL (List.concat bs) /\ length (List.concat bs) = total (map (block_lines h) ns).
Proof.
  intros H F. induction F as [|n b ns bs C F IH]; [split; [constructor|easy]|]. destruct (H n (or_introl eq_refl)) as [X I].
  destruct (ctx_nl h n b X I C) as [B1 B2]. destruct IH as [I1 I2]; [intros; apply H; now right|]. cbn [List.concat map total fold_right]. split.
  - apply Forall_app. now split.
  - rewrite app_length, B2, I2. reflexivity.
Qed.
Lemma total_rev l : total (rev l) = total l.
Proof.
  induction l as [|a l IH]; [easy|]. cbn [rev]. assert (A : forall x y, total (x ++ y) = (total x + total y)%nat).
  { induction x as [|b x IHx]; intros y; cbn [List.app]; [easy|]. change (total (b :: x ++ y)) with (b + total (x ++ y))%nat. change (total (b :: x)) with (b + total x)%nat. rewrite IHx. lia. }
  rewrite A, IH. change (total (a :: l)) with (a + total l)%nat. change (total [a]) with (a + 0)%nat. lia.
Qed.
Theorem printout_lines U FT AT fs r name evs h l text : AsciiOk U -> ~ In 10 name ->
  StreamOf fs name evs (Ok tt) -> PlanSays U FT AT evs h l -> Printout printable r h text ->
  exists lines, Ended lines text /\ Forall (fun s => ~ In 10 s) lines /\
    length lines = Nat.max 1 (total (map (block_lines h) (opened h))).
Proof.
  intros HU N S P (ns & bs & O & F & T). destruct (stream_eventually _ _ _ _ S) as [k K].
  destruct (plan_complete U FT AT HU k fs name evs h l (K k (le_n k)) P) as (d & H & I).
  pose proof (parse_dialplan_ok U AT k fs FT name (in_nl _ N)) as [_ D]. rewrite H in D. destruct (D d eq_refl) as [D1 _]. rewrite Forall_forall in D1.
  pose proof (inv_describes U h d I) as De.
  assert (NS : forall n, In n ns -> In n (opened h)) by (intros n Hn; destruct O as [[_ ->]|[_ ->]]; [easy|now apply in_rev]).
  destruct (blocks_nl h ns bs) as [B1 B2]; [|easy|].
  { intros n Hn. apply NS in Hn. rewrite <- (de_names _ _ _ De) in Hn. apply in_map_iff in Hn as (c & <- & Hc). destruct (D1 c Hc) as (_ & _ & C3 & C4).
    now rewrite <- (de_exts _ _ _ De c Hc), <- (de_incs _ _ _ De c Hc). }
  assert (TT : total (map (block_lines h) ns) = total (map (block_lines h) (opened h))).
  { destruct O as [[_ ->]|[_ ->]]; [easy|]. now rewrite map_rev, total_rev. }
  rewrite <- TT, <- B2. destruct T as [[-> ->]|[Hns T]].
  - inversion F; subst. exists [[]]. split; [exact (En_cons [] [] [] En_nil)|]. split; [constructor; [easy|constructor]|reflexivity].
  - exists (List.concat bs). split; [easy|]. split; [rewrite Forall_forall in *; intros s Hs; apply nl_in; now apply B1|].
    assert (1 <= length (List.concat bs))%nat; [|lia]. rewrite B2. destruct ns as [|n ns]; [easy|]. cbn [map total fold_right]. unfold block_lines at 1. lia.
Qed.
(* The other order. *)
Lemma ended_app a : forall b s t, Ended a s -> Ended b t -> Ended (a ++ b) (s ++ t).
Proof.
  induction a as [|x a IH]; intros b s t A B; inversion A as [|? ? u A']; subst; [easy|]. cbn [List.app]. rewrite <- !app_assoc. constructor. now apply IH.
Qed.
Lemma ended_blocks bs : forall t, Ended (List.concat bs) t <-> exists ts, Forall2 Ended bs ts /\ t = List.concat ts.
Proof.
  induction bs as [|b bs IH]; intros t.
  - split; [intros H; inversion H; subst; exists []; split; [constructor|easy]|]. intros (ts & H & ->). inversion H; subst. constructor.
  - cbn [List.concat]. split.
    + intros H. apply ended_iff in H as ->. rewrite flat_map_app. destruct (proj1 (IH (flat_map (fun l => l ++ [10]) (List.concat bs)))) as (ts & A & B); [now apply ended_iff|].
      exists (flat_map (fun l => l ++ [10]) b :: ts). split; [constructor; [now apply ended_iff|easy]|]. cbn [List.concat]. f_equal. exact B.
    + intros (ts & H & ->). inversion H as [|x y l' ts' E F]; subst. cbn [List.concat]. apply ended_app; [easy|]. apply IH. now exists ts'.
Qed.
Lemma forall2_rev {A B} (R : A -> B -> Prop) l m : Forall2 R l m -> Forall2 R (rev l) (rev m).
Proof. induction 1; cbn [rev]; [constructor|]. apply Forall2_app; [easy|]. now constructor. Qed.
Lemma forall2_len {A B} (R : A -> B -> Prop) l m : Forall2 R l m -> length l = length m.
Proof. induction 1; cbn; lia. Qed.
Theorem printout_reverse h text : Printout printable false h text -> opened h <> [] ->
  exists ts, length ts = length (opened h) /\ text = List.concat ts /\ Printout printable true h (List.concat (rev ts)).
Proof.
  intros (ns & bs & O & F & T) N. destruct O as [[_ ->]|[E _]]; [|easy]. destruct T as [[E _]|[_ T]]; [now rewrite E in N|].
  apply ended_blocks in T as (ts & A & ->). exists ts. split; [|split; [easy|]].
  - apply forall2_len in F. apply forall2_len in A. symmetry. exact (eq_trans F A).
  - exists (rev (opened h)), (rev bs). split; [now right|]. split; [now apply forall2_rev|]. right. split.
    + intros E. apply N. rewrite <- (rev_involutive (opened h)), E. reflexivity.
    + apply ended_blocks. exists (rev ts). split; [now apply forall2_rev|easy].
Qed.
End Printable.
