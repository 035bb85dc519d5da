(* Proofs for C70: what vg dialplan-show and vg modules-show print. *)
From Coq Require Import Permutation Sorted.
From Verif Require Import Base PyStr Defines FileRd Config VSpace Pattern Var VarFun AppM Spec_VarFun Dialplan Spec_Dialplan Dialplan_proofs DialplanJ_proofs DialplanK_proofs
  FuncOdbc Spec_FuncOdbc FuncOdbc_proofs Check Spec_Check Spec_Page Page_proofs Report Spec_Report Report_proofs Show Spec_Run Run_proofs Spec_Whole Whole_proofs Spec_Show Show_proofs
  VgRead VgCheck VgShow Spec_VgCheck Spec_VgWhole Spec_VgShow VgWhole_proofs.
From Verif Require Import Modules_proofs.
From Verif Require VgCheck_proofs.

Section Printable.
Variable printable : N -> bool.
Lemma vg_printout_fun r fr h a b : VgPrintout printable r fr h a -> VgPrintout printable r fr h b -> a = b.
Proof.
  intros (ns & bl & O & F & T) (ns' & bl' & O' & F' & T'). assert (ns' = ns) as -> by (unfold VgOrder in *; intuition congruence).
  rewrite (forall2_det _ (ctx_fun printable h) _ _ _ F F') in T. destruct T as [[N ->]|[N T]], T' as [[N' ->]|[N' T']]; try easy.
  apply ended_iff in T as ->. now apply ended_iff in T' as ->.
Qed.
Lemma vg_dp_printout U fr h d r : VgCheck_proofs.Follows U fr h d -> VgPrintout printable r fr h (dialplan_show (pyrepr printable) r d ++ [10]).
Proof.
  intros FO. pose proof (VgCheck_proofs.follows_names U fr h d FO) as NM. destruct FO as (d' & I & _ & _ & EX & _).
  pose proof (inv_describes U h d' I) as D. pose proof (inv_memos U h d' I) as M. unfold Memos in M. rewrite Forall_forall in M.
  set (cs := if r then rev (dp_ctxs d) else dp_ctxs d).
  assert (IN : forall c, In c cs -> In c (dp_ctxs d')).
  { intros c H. assert (H' : In c (dp_ctxs d)) by (unfold cs in H; destruct r; [now apply in_rev in H|easy]). rewrite EX in H'. now apply filter_In in H'. }
  exists (map dc_name cs), (map (show_ctx (pyrepr printable)) cs). split; [|split].
  - unfold VgOrder, cs. rewrite <- NM. destruct r; [right|left]; (split; [easy|]); [apply map_rev|easy].
  - clearbody cs. induction cs as [|c cs IH]; cbn [map]; constructor; [|apply IH; intros; apply IN; now right].
    pose proof (IN c (or_introl eq_refl)) as Hc. apply ctx_lines; [apply (de_exts _ _ _ D c Hc)|apply (de_incs _ _ _ D c Hc)|now apply M].
  - unfold dialplan_show. fold cs. destruct cs as [|c cs'] eqn:E; [left; now split|right]. split; [easy|]. apply ended_iff. rewrite flat_map_concat_map.
    apply join_ended. cbn [map List.concat]. unfold show_ctx at 1. discriminate.
Qed.
Lemma vg_show_eventually U FT AT fs r name t n : AsciiOk U ->
  VgShowSays printable U FT AT fs r name t n -> Eventually (fun fuel => vg_show_command U FT AT printable fuel fs r name = Ok (t, n)).
Proof.
  intros HU [evs fr h l text S P O]. destruct (vg_stream_eventually _ _ _ _ S) as [k K]. exists k. intros fuel LE. unfold vg_show_command.
  destruct (VgCheck_proofs.vg_plan_complete U FT AT HU fuel fs name evs fr h l (K fuel LE) P) as (d & H & I). rewrite H. cbn [snd bind].
  do 2 f_equal. exact (vg_printout_fun r fr h _ _ (vg_dp_printout U fr h d r I) O).
Qed.
Theorem vg_show_iff U FT AT fs r name t n : AsciiOk U ->
  VgShowSays printable U FT AT fs r name t n <-> exists fuel, vg_show_command U FT AT printable fuel fs r name = Ok (t, n).
Proof.
  intros HU. split.
  - intros H. apply vg_show_eventually in H as [k K]; [|easy]. exists k. now apply K.
  - unfold vg_show_command. intros [fuel H]. destruct (vg_parse_dialplan U FT AT fuel fs name) as [l [d|e|]] eqn:E; [|discriminate H..]. cbn [snd bind] in H.
    injection H as <- <-. apply (VgCheck_proofs.vg_plan_sound U FT AT HU) in E as (evs & fr & h & E & P & I). apply (Vsh_intro _ _ _ _ _ _ _ evs fr h l); [|easy|now apply (vg_dp_printout U)].
    apply vg_stream_iff. split; [easy|now exists fuel].
Qed.
Theorem vg_show_det U FT AT fs r name t n t' n' : AsciiOk U ->
  VgShowSays printable U FT AT fs r name t n -> VgShowSays printable U FT AT fs r name t' n' -> t = t' /\ n = n'.
Proof.
  intros HU H H'. apply vg_show_eventually in H as [k K]; [|easy]. apply vg_show_eventually in H' as [k' K']; [|easy].
  specialize (K (k + k')%nat ltac:(lia)). specialize (K' (k + k')%nat ltac:(lia)). rewrite K in K'. now injection K' as <- <-.
Qed.
End Printable.

(* ---- modules ---- *)
Lemma vg_stand_in U fs f fns l FT : KeepsBar U -> VgWholeOdbc fs f fns l -> lookup (L "unknown") (register_all U fns FT) = lookup (L "unknown") FT.
Proof.
  intros KB [|g evs os fs' l0 l1 l2 _ _ _ R]; [easy|].
  destruct (register_lookup U FT fs' (L "unknown")) as [(f1 & x & f2 & -> & E & _)|[_ E]]; [|easy].
  exfalso. apply (KB _ E). apply (registers_names _ _ _ _ R). apply in_app_iff. right. now left.
Qed.
Section Modules.
Variable U : uni.
Variable FT : ftable.
Variable AT : atable.
Variable ua : ainfo.
Variable uf : finfo.
Hypothesis HU : AsciiOk U.
Hypothesis KB : KeepsBar U.
Hypothesis Ha : lookup (L "unknown") AT = Some ua.
Hypothesis Ma : a_module ua = L "unknown".
Hypothesis Hf : lookup (L "unknown") FT = Some uf.
Hypothesis Mf : VarFun.f_module uf = L "unknown".
Lemma vg_page there fuel fs arg name l1 fns l2 d : vg_load_odbc there fuel fs arg name = (l1, Ok fns) ->
  let ft := register_all U fns FT in lookup (L "unknown") ft = Some uf ->
  vg_parse_dialplan U ft AT fuel fs name = (l2, Ok d) -> let log := l1 ++ l2 in
  exists lines n, vg_modules_command U FT AT fuel fs there arg name = Ok (flat_map (fun l => l ++ [10]) lines, n) /\
    Page AT ft (log_apps log) (log_funcs log) (run_msgs None log) lines n.
Proof.
  intros H1 ft Hf' H2 log. unfold vg_modules_command. rewrite H1. cbn [fst snd bind]. fold ft. rewrite H2. cbn [fst snd bind]. fold log.
  destruct (used_exact a_name a_module AT ua (log_apps log) Ha) as (ia & E1 & U1). destruct (used_exact VarFun.f_name VarFun.f_module ft uf (log_funcs log) Hf') as (if_ & E3 & U3).
  destruct (Modules_proofs.used_modules_ok a_module AT ua (log_apps log) Ha Ma) as (im & E2 & M1). destruct (Modules_proofs.used_modules_ok VarFun.f_module ft uf (log_funcs log) Hf' Mf) as (fm & E4 & M2).
  rewrite E1, E2, E3, E4. cbn [bind]. destruct (sections ia im) as (la & SA & PA). destruct (sections if_ fm) as (lf & SF & PF). rewrite PA, PF.
  eexists. eexists. split; [reflexivity|]. unfold load_statements.
  eapply (Pg_intro _ _ _ _ _ ua uf ia im if_ fm la lf _ (sorted_set (unknown_apps (run_msgs None log))) (sorted_set (unknown_funcs (run_msgs None log)))); try eassumption.
  - apply Modules_proofs.ss_filter, sorted_set_sorted.
  - apply NoDup_filter, sorted_set_nodup.
  - intros m. rewrite filter_In, sorted_set_in, in_app_iff. destruct (str_eqb_spec m (L "<builtin>")) as [->|N]; cbn; split; try easy; tauto.
  - apply names_apps.
  - apply unknown_lines.
  - apply names_funcs.
  - apply unknown_lines.
  - rewrite !sorted_set_nil. destruct (unknown_apps _) as [|x l]; [destruct (unknown_funcs _) as [|y l']|]; [now left| |]; right; (split; [easy|]); [right|left]; discriminate.
Qed.
Lemma vg_modules_eventually there fs arg name t n :
  VgModulesSays U FT AT there fs arg name t n -> Eventually (fun fuel => vg_modules_command U FT AT fuel fs there arg name = Ok (t, n)).
Proof.
  intros [f fns evs fr h l1 l2 ms apps funcs lines text k F O S P Me [LA LF] Pg En].
  destruct (vg_odbc_eventually _ _ _ _ O) as [k1 K1]. destruct (vg_stream_eventually _ _ _ _ S) as [k2 K2]. exists (k1 + k2)%nat. intros fuel LE.
  specialize (K1 fuel ltac:(lia)). specialize (K2 fuel ltac:(lia)).
  assert (H1 : vg_load_odbc there fuel fs arg name = (map LMsg l1, Ok fns)) by (apply VgCheck_proofs.vg_load_odbc_iff; now exists f, l1).
  destruct (VgCheck_proofs.vg_plan_complete U (register_all U fns FT) AT HU fuel fs name evs fr h l2 K2 P) as (d & H2 & I).
  assert (X : lookup (L "unknown") (register_all U fns FT) = Some uf) by now rewrite (vg_stand_in U fs f fns l1 FT KB O).
  destruct (vg_page there fuel fs arg name _ fns l2 d H1 X H2) as (lines' & n' & E & Pg').
  apply messages_iff in Me. rewrite Me in Pg'.
  apply (page_keys _ _ _ _ apps funcs) in Pg'; [|intros x; now rewrite Modules_proofs.log_apps_in, LA|intros x; now rewrite Modules_proofs.log_funcs_in, LF].
  destruct (page_fun _ _ _ _ _ _ _ _ _ Pg' Pg) as [-> ->]. rewrite E. apply ended_iff in En as ->. reflexivity.
Qed.
Theorem vg_modules_iff there fs arg name t n :
  VgModulesSays U FT AT there fs arg name t n <-> exists fuel, vg_modules_command U FT AT fuel fs there arg name = Ok (t, n).
Proof.
  split.
  - intros H. destruct (vg_modules_eventually _ _ _ _ _ _ H) as [k K]. exists k. now apply K.
  - intros [fuel H]. destruct (vg_load_odbc there fuel fs arg name) as [l0 [fns|e|]] eqn:H1.
    2,3: unfold vg_modules_command in H; rewrite H1 in H; cbn in H; discriminate H.
    pose proof H1 as H1'. apply VgCheck_proofs.vg_load_odbc_iff in H1 as (f & l1 & F & O & ->). apply vg_odbc_whole in O.
    destruct (vg_parse_dialplan U (register_all U fns FT) AT fuel fs name) as [l2 [d|e|]] eqn:H2.
    2,3: unfold vg_modules_command in H; rewrite H1' in H; cbn [fst snd bind] in H; rewrite H2 in H; cbn in H; discriminate H.
    assert (X : lookup (L "unknown") (register_all U fns FT) = Some uf) by now rewrite (vg_stand_in U fs f fns l1 FT KB O).
    destruct (vg_page there fuel fs arg name _ fns l2 d H1' X H2) as (lines & k & E & Pg). rewrite E in H. injection H as <- <-.
    apply (VgCheck_proofs.vg_plan_sound U _ AT HU) in H2 as (evs & fr & h & E2 & P & I).
    eapply (Vmo_intro U FT AT there fs arg name f fns evs fr h l1 l2); try eassumption.
    + apply vg_stream_iff. split; [easy|now exists fuel].
    + now apply messages_iff.
    + split; intros x; [apply Modules_proofs.log_apps_in|apply Modules_proofs.log_funcs_in].
    + now apply ended_iff.
Qed.
Theorem vg_modules_det there fs arg name t n t' n' :
  VgModulesSays U FT AT there fs arg name t n -> VgModulesSays U FT AT there fs arg name t' n' -> t = t' /\ n = n'.
Proof.
  intros H H'. apply vg_modules_eventually in H as [k K]. apply vg_modules_eventually in H' as [k' K'].
  specialize (K (k + k')%nat ltac:(lia)). specialize (K' (k + k')%nat ltac:(lia)). rewrite K in K'. now injection K' as <- <-.
Qed.
End Modules.
