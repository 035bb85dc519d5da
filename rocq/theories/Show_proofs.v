(* Proofs for C62: what dialplan-show and modules-show print. *)
From Coq Require Import Permutation Sorted.
From Verif Require Import Base PyStr Defines FileRd Config VSpace Pattern Var VarFun AppM Spec_VarFun Dialplan Spec_Dialplan Dialplan_proofs DialplanJ_proofs DialplanK_proofs
  FuncOdbc Spec_FuncOdbc FuncOdbc_proofs Check Spec_Check Spec_Page Page_proofs Report Spec_Report Report_proofs Show Spec_Run Run_proofs Spec_Whole Whole_proofs Spec_Show.
From Verif Require Modules_proofs.
Import Spec_Reader.

(* ---- lines ---- *)
Lemma padded_fun n s a b : padded n s a -> padded n s b -> a = b.
Proof.
  intros (k & -> & H1 & H2) (k' & -> & H3 & H4). rewrite !app_length, !repeat_length in *. f_equal. f_equal. lia.
Qed.
Lemma columns_fun lead n a b x y : columns lead n a b x -> columns lead n a b y -> x = y.
Proof.
  intros (p & q & P & Q & ->) (p' & q' & P' & Q' & ->). now rewrite (padded_fun _ _ _ _ P P'), (padded_fun _ _ _ _ Q Q').
Qed.
Lemma app_text_fun raw a b : app_text raw a -> app_text raw b -> a = b.
Proof. intros (o & c & -> & O & C) (o' & c' & -> & O' & C'). intuition congruence. Qed.
Lemma label_iff o t : LabelText o t <-> t = match o with Some (c :: s) => L "[" ++ (c :: s) ++ L "]" | _ => [] end.
Proof.
  split; [intros [| |[|c s] N]; easy|]. intros ->. destruct o as [[|c s]|]; constructor. discriminate.
Qed.
Lemma ext_iff prev x line : ShowExt prev x line <-> ExtLine prev x line.
Proof.
  split.
  - intros [y a E P A C|a N A C].
    + eapply Xl_same; try eassumption; [now apply label_iff|apply zstr_int].
    + apply (Xl_new prev x (zstr (x_prio x)) a); try easy. apply zstr_int.
  - intros [y b n a l E P B I A C|n a l N I A C]; apply int_zstr in I as ->.
    + apply label_iff in B as ->. now apply (SE_next prev x l y a).
    + now apply (SE_first prev x l a).
Qed.
Lemma exts_iff prev l ls : ShowExts prev l ls <-> ExtLines prev l ls.
Proof.
  split; (induction 1; constructor; [now apply ext_iff|easy]).
Qed.
Lemma ext_fun prev x a b : ExtLine prev x a -> ExtLine prev x b -> a = b.
Proof.
  intros [y1 b1 n1 a1 l1 E1 P1 B1 I1 A1 C1|n1 a1 l1 N1 I1 A1 C1] [y2 b2 n2 a2 l2 E2 P2 B2 I2 A2 C2|n2 a2 l2 N2 I2 A2 C2];
    apply int_zstr in I1 as ->; apply int_zstr in I2 as ->; pose proof (app_text_fun _ _ _ A1 A2) as ->.
  - apply label_iff in B1 as ->. apply label_iff in B2 as ->. exact (columns_fun _ _ _ _ _ _ C1 C2).
  - now destruct (N2 _ E1).
  - now destruct (N1 _ E2).
  - exact (columns_fun _ _ _ _ _ _ C1 C2).
Qed.
Lemma exts_fun prev l a : ExtLines prev l a -> forall b, ExtLines prev l b -> a = b.
Proof.
  induction 1 as [|prev x l line ls H _ IH]; intros b Hb; inversion Hb as [|p x' l' line' ls' H' T]; subst; [easy|].
  now rewrite (ext_fun _ _ _ _ H H'), (IH _ T).
Qed.
Lemma ended_iff ls t : Ended ls t <-> t = flat_map (fun l => l ++ [10]) ls.
Proof.
  split.
  - induction 1 as [|l ls t H IH]; [easy|]. cbn [flat_map]. now rewrite IH, <- app_assoc.
  - intros ->. induction ls as [|l ls IH]; [constructor|]. cbn [flat_map]. rewrite <- app_assoc. now constructor.
Qed.
Lemma join_ended ls : ls <> [] -> join [10] ls ++ [10] = flat_map (fun l => l ++ [10]) ls.
Proof.
  induction ls as [|l [|m ls] IH]; intros N; [easy|cbn; now rewrite app_nil_r|]. 
  change (join [10] (l :: m :: ls)) with (l ++ [10] ++ join [10] (m :: ls)). rewrite <- !app_assoc, IH by easy.
  cbn [flat_map]. now rewrite <- !app_assoc.
Qed.

Section Printable.
Variable printable : N -> bool.
Notation CtxLines := (CtxLines printable).
Notation Printout := (Printout printable).

Lemma ctx_fun h n a b : CtxLines h n a -> CtxLines h n b -> a = b.
Proof.
  intros (q & out & els & ils & Q & Li & E & I & ->) (q' & out' & els' & ils' & Q' & Li' & E' & I' & ->).
  apply quoted_iff in Q as ->. apply quoted_iff in Q' as ->. rewrite (listing_det _ _ _ Li Li') in E. rewrite (exts_fun _ _ _ E _ E').
  rewrite (forall2_det IncLine (fun a b b' H H' => columns_fun _ _ _ _ _ _ H H') _ _ _ I I'). reflexivity.
Qed.
Lemma printout_fun r h a b : Printout r h a -> Printout r h b -> a = b.
Proof.
  intros (ns & bl & O & F & T) (ns' & bl' & O' & F' & T'). assert (ns' = ns) as -> by (unfold Order in *; intuition congruence).
  rewrite (forall2_det _ (ctx_fun h) _ _ _ F F') in T. destruct T as [[N ->]|[N T]], T' as [[N' ->]|[N' T']]; try easy.
  apply ended_iff in T as ->. now apply ended_iff in T' as ->.
Qed.
Lemma ctx_lines h c : dc_exts c = stored_of h (dc_name c) -> dc_includes c = includes_of h (dc_name c) -> MemoOk c ->
  CtxLines h (dc_name c) (show_ctx (pyrepr printable) c).
Proof.
  intros E I M. destruct (show_ctx_text (pyrepr printable) c M) as (out & els & ils & Li & X & F & ->).
  exists (pyrepr printable (dc_name c)), out, els, ils. split; [now apply quoted_iff|]. rewrite <- E, <- I. split; [easy|]. split; [now apply exts_iff|]. now split.
Qed.
Lemma dp_printout U h d r : Inv U h d -> Printout r h (dialplan_show (pyrepr printable) r d ++ [10]).
Proof.
  intros I. pose proof (inv_describes U h d I) as D. pose proof (inv_memos U h d I) as M. unfold Memos in M. rewrite Forall_forall in M.
  set (cs := if r then rev (dp_ctxs d) else dp_ctxs d).
  assert (IN : forall c, In c cs -> In c (dp_ctxs d)) by (intros c H; destruct r; [now apply in_rev in H|easy]).
  exists (map dc_name cs), (map (show_ctx (pyrepr printable)) cs). split; [|split].
  - rewrite <- (de_names _ _ _ D) || idtac. unfold Order, cs. rewrite <- (de_names _ _ _ D). destruct r; [right|left]; (split; [easy|]); [apply map_rev|easy].
  - clearbody cs. induction cs as [|c cs IH]; cbn [map]; constructor; [|apply IH; intros; apply IN; now right].
    pose proof (IN c (or_introl eq_refl)) as Hc. apply ctx_lines; [apply (de_exts _ _ _ D c Hc)|apply (de_incs _ _ _ D c Hc)|now apply M].
  - unfold dialplan_show. fold cs. destruct cs as [|c cs'] eqn:E; [left; now split|right]. split; [easy|]. apply ended_iff. rewrite flat_map_concat_map.
    apply join_ended. cbn [map List.concat]. unfold show_ctx at 1. discriminate.
Qed.

Theorem show_iff U FT AT fs r name t n : AsciiOk U ->
  ShowSays printable U FT AT fs r name t n <-> exists fuel, show_command U FT AT printable fuel fs r name = Ok (t, n).
Proof.
  intros HU. unfold show_command. split.
  - intros [evs h l text S P O]. destruct (stream_eventually _ _ _ _ S) as [k K]. exists k.
    destruct (plan_complete U FT AT HU k fs name evs h l (K k (le_n k)) P) as (d & H & I). rewrite H. cbn [snd bind].
    do 2 f_equal. exact (printout_fun r h _ _ (dp_printout U h d r I) O).
  - intros [fuel H]. destruct (parse_dialplan U FT AT fuel fs name) as [l [d|e|]] eqn:E; [|discriminate H..]. cbn [snd bind] in H.
    injection H as <- <-. apply plan_sound in E as (evs & h & E & P & I); [|easy]. apply (Sh_intro _ _ _ _ _ _ _ evs h l); [|easy|now apply (dp_printout U)].
    apply stream_iff. split; [easy|now exists fuel].
Qed.
Theorem show_det U FT AT fs r name t n t' n' : AsciiOk U ->
  ShowSays printable U FT AT fs r name t n -> ShowSays printable U FT AT fs r name t' n' -> t = t' /\ n = n'.
Proof.
  intros HU [evs h l text S P O] [evs' h' l' text' S' P' O']. split; [|easy]. destruct (stream_eventually _ _ _ _ S) as [k K]. specialize (K k (le_n k)).
  destruct (stream_det _ _ _ _ _ _ S S') as [<- _].
  destruct P as (l1 & l2 & P & _). destruct P' as (l1' & l2' & P' & _).
  destruct (Run_proofs.stream_det U FT AT HU [] evs h l1 P [] [] (Hi_nil U FT AT) h' l1' P') as [<- _]. exact (printout_fun r h _ _ O O').
Qed.
End Printable.

(* ---- modules-show ---- *)
Lemma page_keys AT FT apps funcs apps' funcs' ms lines n : (forall k, In k apps <-> In k apps') -> (forall k, In k funcs <-> In k funcs') ->
  Page AT FT apps funcs ms lines n -> Page AT FT apps' funcs' ms lines n.
Proof.
  assert (US : forall A (nm md : A -> str) t u ks ks' is, (forall k, In k ks <-> In k ks') -> Used nm md t u ks is -> Used nm md t u ks' is).
  { intros A nm md t u ks ks' is H (l & S1 & S2 & S3 & S4). exists l. split; [easy|]. split; [easy|]. split; [|easy]. intros k. now rewrite S3, H. }
  assert (MS : forall A (md : A -> str) t ks ks' m, (forall k, In k ks <-> In k ks') -> Modules md t ks m -> Modules md t ks' m).
  { intros A md t ks ks' m H (S1 & S2 & S3). split; [easy|]. split; [easy|]. intros x. rewrite S3. unfold Provides.
    split; intros (k & a & K & R); exists k, a; (split; [now apply H|easy]). }
  intros HA HF H. destruct H. econstructor; try eassumption; try (eapply US; eassumption); eapply MS; eassumption.
Qed.
Lemma registers_names os fns l f : Registers os fns l -> In f fns -> In 95 (VarFun.f_name f).
Proof.
  induction 1 as [|o n os fs l Q (p & -> & _) Z R IH|o os fs l Q R IH]; [easy| |exact IH]. intros [<-|H]; [|now apply IH]. cbn. apply in_app_iff. right. now left.
Qed.
Definition KeepsBar (U : uni) : Prop := forall s, u_lower U s = L "unknown" -> ~ In 95 s.
Lemma stand_in_kept U fs f fns l FT : KeepsBar U -> WholeOdbc fs f fns l -> lookup (L "unknown") (register_all U fns FT) = lookup (L "unknown") FT.
Proof.
  intros KB [|g evs os fs' l0 l1 l2 _ _ _ R]; [easy|].
  destruct (register_lookup U FT fs' (L "unknown")) as [(f1 & x & f2 & -> & E & _)|[_ E]]; [|easy].
  exfalso. apply (KB _ E). apply (registers_names _ _ _ _ R). apply in_app_iff. right. now left.
Qed.
Section Modules.
Variable U : uni.
Variable FT : ftable.
Variable AT : atable.
Variable ua : ainfo.
Variable uf : finfo.
Hypothesis HU : AsciiOk U.
Hypothesis KB : KeepsBar U.
Hypothesis Ha : lookup (L "unknown") AT = Some ua.
Hypothesis Ma : a_module ua = L "unknown".
Hypothesis Hf : lookup (L "unknown") FT = Some uf.
Hypothesis Mf : VarFun.f_module uf = L "unknown".
Lemma modules_eventually there fs arg name t n :
  ModulesSays U FT AT there fs arg name t n -> Eventually (fun fuel => modules_command U FT AT fuel fs there arg name = Ok (t, n)).
Proof.
  intros [f fns evs h l1 l2 ms apps funcs lines text k F O S P Me [LA LF] Pg En].
  destruct (odbc_eventually _ _ _ _ O) as [k1 K1]. destruct (stream_eventually _ _ _ _ S) as [k2 K2]. exists (k1 + k2)%nat. intros fuel LE.
  specialize (K1 fuel ltac:(lia)). specialize (K2 fuel ltac:(lia)).
  assert (H1 : load_odbc there fuel fs arg name = (map LMsg l1, Ok fns)) by (apply load_odbc_iff; now exists f, l1).
  destruct (plan_complete U (register_all U fns FT) AT HU fuel fs name evs h l2 K2 P) as (d & H2 & I).
  assert (H3 : show_run U FT AT there fuel fs arg name = (map LMsg l1 ++ l2, Ok d)) by (unfold show_run; rewrite H1; cbn [mbind]; now rewrite H2).
  destruct (page U FT AT there fuel fs arg name fns d ua uf) as (lines' & n' & E & Pg'); rewrite ?H1, ?H3; try easy.
  { now rewrite (stand_in_kept U fs f fns l1 FT KB O). }
  rewrite H3 in Pg'. cbn [fst] in Pg'. apply messages_iff in Me. rewrite Me in Pg'.
  apply (page_keys _ _ _ _ apps funcs) in Pg'; [|intros x; now rewrite Modules_proofs.log_apps_in, LA|intros x; now rewrite Modules_proofs.log_funcs_in, LF].
  destruct (page_fun _ _ _ _ _ _ _ _ _ Pg' Pg) as [-> ->]. unfold modules_command. rewrite E. cbn [bind fst snd]. apply ended_iff in En as ->. reflexivity.
Qed.
Theorem modules_iff there fs arg name t n :
  ModulesSays U FT AT there fs arg name t n <-> exists fuel, modules_command U FT AT fuel fs there arg name = Ok (t, n).
Proof.
  split.
  - intros H. destruct (modules_eventually _ _ _ _ _ _ H) as [k K]. exists k. now apply K.
  - intros [fuel H]. unfold modules_command in H. destruct (modules_show U FT AT there fuel fs arg name) as [[lines k]|e|] eqn:E; [|discriminate H..]. cbn [bind fst snd] in H. injection H as <- <-.
    destruct (load_odbc there fuel fs arg name) as [l0 [fns|e|]] eqn:H1.
    2,3: unfold modules_show, show_run in E; rewrite H1 in E; cbn in E; discriminate E.
    pose proof H1 as H1'. apply load_odbc_iff in H1 as (f & l1 & F & O & ->). apply odbc_whole in O.
    destruct (parse_dialplan U (register_all U fns FT) AT fuel fs name) as [l2 [d|e|]] eqn:H2.
    2,3: unfold modules_show, show_run in E; rewrite H1' in E; cbn [mbind] in E; rewrite H2 in E; cbn in E; discriminate E.
    assert (H3 : show_run U FT AT there fuel fs arg name = (map LMsg l1 ++ l2, Ok d)) by (unfold show_run; rewrite H1'; cbn [mbind]; now rewrite H2).
    destruct (page U FT AT there fuel fs arg name fns d ua uf) as (lines' & n' & E' & Pg'); rewrite ?H1', ?H3; try easy.
    { now rewrite (stand_in_kept U fs f fns l1 FT KB O). }
    rewrite E in E'. injection E' as <- <-. rewrite H3 in Pg'. cbn [fst] in Pg'.
    apply plan_sound in H2 as (evs & h & E2 & P & I); [|easy].
    eapply (Mo_intro U FT AT there fs arg name f fns evs h l1 l2); try eassumption.
    + apply stream_iff. split; [easy|now exists fuel].
    + now apply messages_iff.
    + split; intros x; [apply Modules_proofs.log_apps_in|apply Modules_proofs.log_funcs_in].
    + now apply ended_iff.
Qed.
Theorem modules_det there fs arg name t n t' n' :
  ModulesSays U FT AT there fs arg name t n -> ModulesSays U FT AT there fs arg name t' n' -> t = t' /\ n = n'.
Proof.
  intros H H'. apply modules_eventually in H as [k K]. apply modules_eventually in H' as [k' K'].
  specialize (K (k + k')%nat ltac:(lia)). specialize (K' (k + k')%nat ltac:(lia)). rewrite K in K'. now injection K' as <- <-.
Qed.
End Modules.
