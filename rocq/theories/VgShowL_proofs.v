(* Proofs for C70: the headings and the lines that vg dialplan-show prints. *)
From Verif Require Import Base PyStr Defines FileRd Config Pattern Var VarFun AppM Spec_VarFun Dialplan Spec_Dialplan Dialplan_proofs DialplanJ_proofs
  Report Spec_Report Report_proofs Show Spec_Run Run_proofs Spec_Whole Whole_proofs Spec_Show Show_proofs ShowL_proofs VSpace VgRead VgCheck VgShow Spec_VgPlan Spec_VgCheck Spec_VgWhole Spec_VgShow
  VgWhole_proofs VgShow_proofs.
From Verif Require Import Flat_proofs FlatD_proofs FlatM_proofs FlatT_proofs.
From Verif Require VgCheck_proofs VgPlan_proofs FlatV_proofs.

Lemma vg_parsed U FT AT fs name evs fr h l : AsciiOk U -> VgStream fs name evs (Ok tt) -> VgPlanSays U FT AT evs fr h l ->
  exists fuel d, vg_parse_dialplan U FT AT fuel fs name = (l, Ok d) /\ VgCheck_proofs.Follows U fr h d /\ vsw_stream (vg_parse_file fuel fs name) = (evs, Ok tt).
Proof.
  intros HU S P. destruct (vg_stream_eventually _ _ _ _ S) as [k K]. specialize (K k (le_n k)).
  destruct (VgCheck_proofs.vg_plan_complete U FT AT HU k fs name evs fr h l K P) as (d & H & I). now exists k, d.
Qed.
Theorem vg_headings U FT AT fs name evs fr h l : AsciiOk U -> VgStream fs name evs (Ok tt) -> VgPlanSays U FT AT evs fr h l ->
  filter (stays fr) (opened h) = last_names (ordinary (heads (elems evs))).
Proof.
  intros HU S P. destruct (vg_parsed U FT AT fs name evs fr h l HU S P) as (fuel & d & H & FO & E). rewrite <- (VgCheck_proofs.follows_names U fr h d FO).
  unfold vg_parse_dialplan in H. rewrite E in H. destruct (vg_dp_stream U FT AT dp_init evs (Ok tt)) as [l1 [d1|e|]] eqn:H1; cbn [mbind] in H; [|discriminate H..].
  destruct (on_complete d1) as [l2 [x|e|]]; cbn in H; [|discriminate H..]. injection H as _ ->. apply VgCheck_proofs.stream_steps in H1 as (_ & l' & H1). exact (VgPlan_proofs.names_order _ _ _ _ _ _ H1).
Qed.
Section Printable.
Variable printable : N -> bool.
Theorem vg_printout_lines U FT AT fs r name evs fr h l text : AsciiOk U -> ~ In 10 name ->
  VgStream fs name evs (Ok tt) -> VgPlanSays U FT AT evs fr h l -> VgPrintout printable r fr h text ->
  exists lines, Ended lines text /\ Forall (fun s => ~ In 10 s) lines /\
    length lines = Nat.max 1 (total (map (block_lines h) (last_names (ordinary (heads (elems evs)))))).
Proof.
  intros HU N S P (ns & bs & O & F & T). rewrite <- (vg_headings U FT AT fs name evs fr h l HU S P).
  destruct (vg_parsed U FT AT fs name evs fr h l HU S P) as (k & d & H & FO & _).
  pose proof (FlatV_proofs.vg_plan_ok U FT AT k fs name (in_nl _ N)) as [_ D]. rewrite H in D. destruct (D d eq_refl) as [D1 _]. rewrite Forall_forall in D1.
  pose proof (VgCheck_proofs.follows_names U fr h d FO) as NM. destruct FO as (d' & I & _ & _ & EX & _). pose proof (inv_describes U h d' I) as De.
  assert (NS : forall n, In n ns -> In n (filter (stays fr) (opened h))) by (intros n Hn; destruct O as [[_ ->]|[_ ->]]; [easy|now apply in_rev]).
  destruct (blocks_nl printable h ns bs) as [B1 B2]; [|easy|].
  { intros n Hn. apply NS in Hn. rewrite <- NM in Hn. apply in_map_iff in Hn as (c & <- & Hc). destruct (D1 c Hc) as (_ & _ & C3 & C4).
    rewrite EX in Hc. apply filter_In in Hc as [Hc _]. now rewrite <- (de_exts _ _ _ De c Hc), <- (de_incs _ _ _ De c Hc). }
  assert (TT : total (map (block_lines h) ns) = total (map (block_lines h) (filter (stays fr) (opened h)))).
  { destruct O as [[_ ->]|[_ ->]]; [easy|]. now rewrite map_rev, total_rev. }
  rewrite <- TT, <- B2. destruct T as [[-> ->]|[Hns T]].
  - inversion F; subst. exists [[]]. split; [exact (En_cons [] [] [] En_nil)|]. split; [constructor; [easy|constructor]|reflexivity].
  - exists (List.concat bs). split; [easy|]. split; [rewrite Forall_forall in *; intros s Hs; apply nl_in; now apply B1|].
    assert (1 <= length (List.concat bs))%nat; [|lia]. rewrite B2. destruct ns as [|n ns]; [easy|]. cbn [map total fold_right]. unfold block_lines at 1. lia.
Qed.
Theorem vg_printout_reverse fr h text : VgPrintout printable false fr h text -> filter (stays fr) (opened h) <> [] ->
  exists ts, length ts = length (filter (stays fr) (opened h)) /\ text = List.concat ts /\ VgPrintout printable true fr h (List.concat (rev ts)).
Proof.
  intros (ns & bs & O & F & T) N. destruct O as [[_ ->]|[E _]]; [|easy]. destruct T as [[E _]|[_ T]]; [now rewrite E in N|].
  apply ended_blocks in T as (ts & A & ->). exists ts. split; [|split; [easy|]].
  - apply forall2_len in F. apply forall2_len in A. symmetry. exact (eq_trans F A).
  - exists (rev (filter (stays fr) (opened h))), (rev bs). split; [now right|]. split; [now apply forall2_rev|]. right. split.
    + intros E. apply N. rewrite <- (rev_involutive (filter (stays fr) (opened h))), E. reflexivity.
    + apply ended_blocks. exists (rev ts). split; [now apply forall2_rev|easy].
Qed.
End Printable.
(* Without repeated headers, and where the readers agree, it is dialplan-show. *)
Theorem vg_show_same printable U FT AT fuel fuel' fs r name :
  vsw_stream (vg_parse_file fuel fs name) = vsw_stream (parse_file fuel' fs name) ->
  NoDup (heads (elems (fst (vsw_stream (parse_file fuel' fs name))))) ->
  vg_show_command U FT AT printable fuel fs r name = show_command U FT AT printable fuel' fs r name.
Proof.
  intros E N. unfold vg_show_command, show_command, vg_parse_dialplan, parse_dialplan. rewrite E. destruct (vsw_stream (parse_file fuel' fs name)) as [evs o].
  now rewrite (VgCheck_proofs.streams_same U FT AT evs o N).
Qed.
