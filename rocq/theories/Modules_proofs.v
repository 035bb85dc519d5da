(* Proofs about modules-show: C42. *)
From Coq Require Import Permutation Sorted.
From Verif Require Import Base Utf8 PyStr Defines FileRd Config VarFun AppM Dialplan FuncOdbc Loader Commands Check
  Spec_Log Spec_Commands Spec_App Spec_Check Commands_proofs VarFun_proofs Loader_proofs Log_proofs Check_proofs Web_proofs.

(* ---- what is logged about unknown names ---- *)
Section Seen.
Variable U : uni.
Variable FT : ftable.
Variable AT : atable.
Hypothesis low_app : u_lower U (L "Unknown") = L "unknown".
Hypothesis low_fun : u_lower U (L "UNKNOWN") = L "unknown".
Variable ua : ainfo.
Variable uf : finfo.
Hypothesis unk_app : lookup (L "unknown") AT = Some ua.
Hypothesis ua_name : a_name ua = L "Unknown".
Hypothesis ua_kind : a_kind ua <> ABackground.
Hypothesis unk_fun : lookup (L "unknown") FT = Some uf.
Hypothesis uf_name : VarFun.f_name uf = L "UNKNOWN".

Definition Miss (c : mcls) (k : str) (l : list lev) : Prop := exists s w, In (LMsg (Msg c w None [(k, AStr s)])) l.
Definition P3 (l : list lev) (o : res unit) : Prop :=
  (Done o -> forall k, In (LApp k) l -> Missing AT k -> Miss E_APP_MISSING (L "app") l) /\
  (Done o -> forall k, In (LFunc k) l -> Missing FT k -> Miss E_FUNC_MISSING (L "func") l) /\
  (forall m, In (LMsg m) l -> m_cls m = E_APP_MISSING -> exists s, m_args m = [(L "app", AStr s)] /\
     (s = L "(none)" \/ exists k, In (LApp k) l /\ (Missing AT k \/ StandIn a_name (L "Unknown") AT k))) /\
  (forall m, In (LMsg m) l -> m_cls m = E_FUNC_MISSING -> exists s, m_args m = [(L "func", AStr s)] /\
     exists k, In (LFunc k) l /\ (Missing FT k \/ StandIn VarFun.f_name (L "UNKNOWN") FT k)).
Lemma Miss_l c k l l' : Miss c k l -> Miss c k (l ++ l').
Proof. intros (s & w & H). exists s, w. apply in_or_app. now left. Qed.
Lemma Miss_r c k l l' : Miss c k l' -> Miss c k (l ++ l').
Proof. intros (s & w & H). exists s, w. apply in_or_app. now right. Qed.
Lemma p3_app l l' o o' : Done o -> P3 l o -> P3 l' o' -> P3 (l ++ l') o'.
Proof.
  intros D (A1 & A2 & A3 & A4) (B1 & B2 & B3 & B4). split; [|split; [|split]].
  - intros D' k HI HM. apply in_app_or in HI as [HI|HI]; [apply Miss_l|apply Miss_r]; eauto.
  - intros D' k HI HM. apply in_app_or in HI as [HI|HI]; [apply Miss_l|apply Miss_r]; eauto.
  - intros m HI HC. apply in_app_or in HI as [HI|HI]; [destruct (A3 m HI HC) as (s & E & K)|destruct (B3 m HI HC) as (s & E & K)]; exists s; (split; [easy|]);
    destruct K as [K|(k & K1 & K2)]; (try now left); right; exists k; (split; [apply in_or_app; auto|easy]).
  - intros m HI HC. apply in_app_or in HI as [HI|HI]; [destruct (A4 m HI HC) as (s & E & k & K1 & K2)|destruct (B4 m HI HC) as (s & E & k & K1 & K2)]; exists s; (split; [easy|]);
    exists k; (split; [apply in_or_app; auto|easy]).
Qed.
Lemma p3_plain l o : (forall e, In e l -> match e with LApp _ | LFunc _ => False | LMsg m => m_cls m <> E_APP_MISSING /\ m_cls m <> E_FUNC_MISSING | _ => True end) -> P3 l o.
Proof.
  intros H. split; [|split; [|split]].
  - intros _ k HI. now apply H in HI.
  - intros _ k HI. now apply H in HI.
  - intros m HI. apply H in HI. tauto.
  - intros m HI. apply H in HI. tauto.
Qed.
Lemma p3_one e o : match e with LApp _ | LFunc _ => False | LMsg m => m_cls m <> E_APP_MISSING /\ m_cls m <> E_FUNC_MISSING | _ => True end -> P3 [e] o.
Proof. intros H. apply p3_plain. now intros e' [<-|[]]. Qed.
Lemma p3_func f w : inv P3 (func_check U FT f w).
Proof.
  unfold inv, func_check, func_get. set (k := u_lower U f).
  assert (K : forall x, (lookup k FT = Some x \/ Missing FT k /\ x = uf) -> inv P3 (do* f0 <- (do* _ <- mlog (LFunc k); mret x);
     do* _ <- (if str_eqb (VarFun.f_name f0) f then mret tt else if str_eqb (VarFun.f_name f0) (L "UNKNOWN")
              then memit E_FUNC_MISSING w [(L "func", AStr f)]
              else memit E_FUNC_BAD_CASE w [(L "func", AStr f); (L "proper", AStr (VarFun.f_name f0))]); mret f0)).
  { intros x HX. unfold inv. cbn [mlog mret mbind fst snd app]. destruct (str_eqb_spec (VarFun.f_name x) f) as [E|E].
    - split; [|split; [|split]].
      + intros _ k' [H|[]]. discriminate.
      + intros _ k' [[= <-]|[]] HM. exfalso. destruct HX as [HX|[_ ->]]; [unfold Missing in HM; congruence|].
        unfold Missing in HM. unfold k in HM. rewrite <- E, uf_name, low_fun, unk_fun in HM. discriminate.
      + intros m [H|[]]. discriminate.
      + intros m [H|[]]. discriminate.
    - destruct (str_eqb_spec (VarFun.f_name x) (L "UNKNOWN")) as [E2|E2].
      + split; [|split; [|split]].
        * intros _ k' [H|[H|[]]]; discriminate.
        * intros _ k' _ _. exists f, w. right. left. reflexivity.
        * intros m [H|[[= <-]|[]]] HC; discriminate.
        * intros m [H|[[= <-]|[]]] HC; [discriminate|]. exists f. split; [easy|]. exists k. split; [now left|].
          destruct HX as [HX|[HM _]]; [|now left]. right. now exists x.
      + split; [|split; [|split]].
        * intros _ k' [H|[H|[]]]; discriminate.
        * intros _ k' [[= <-]|[H|[]]] HM; [|discriminate]. exfalso. destruct HX as [HX|[_ ->]]; [unfold Missing in HM; congruence|easy].
        * intros m [H|[[= <-]|[]]] HC; discriminate.
        * intros m [H|[[= <-]|[]]] HC; discriminate. }
  destruct (lookup k FT) eqn:E; [apply K; now left|]. rewrite unk_fun. apply K. now right.
Qed.
Lemma p3_appl ap w : inv P3 (do* a <- app_get AT (u_lower U ap); do* _ <- check_availability a ap w; mret a).
Proof.
  unfold inv, app_get. set (k := u_lower U ap).
  assert (K : forall x, (lookup k AT = Some x \/ Missing AT k /\ x = ua) -> inv P3 (do* a <- (do* _ <- mlog (LApp k); mret x); do* _ <- check_availability a ap w; mret a)).
  { intros x HX. unfold inv. cbn [mlog mret mbind fst snd app].
    assert (KB : a_kind x = ABackground -> P3 (LApp k :: [LBg ap w] ++ []) (Ok tt)).
    { intros EK. split; [|split; [|split]].
      - intros _ k' [[= <-]|[H|[]]] HM; [|discriminate]. exfalso. destruct HX as [HX|[_ ->]]; [unfold Missing in HM; congruence|easy].
      - intros _ k' [H|[H|[]]]; discriminate.
      - intros m [H|[H|[]]]; discriminate.
      - intros m [H|[H|[]]]; discriminate. }
    assert (K2 : inv (fun l o => P3 (LApp k :: l) o) (do* _ <- (if str_eqb (a_name x) ap then mret tt else if str_eqb (a_name x) (L "Unknown")
       then memit E_APP_MISSING w [(L "app", AStr ap)] else memit W_APP_BAD_CASE w [(L "app", AStr ap); (L "proper", AStr (a_name x))]); mret x)).
    { unfold inv. destruct (str_eqb_spec (a_name x) ap) as [E|E].
      - split; [|split; [|split]].
        + intros _ k' [[= <-]|[]] HM. exfalso. destruct HX as [HX|[_ ->]]; [unfold Missing in HM; congruence|].
          unfold Missing in HM. unfold k in HM. rewrite <- E, ua_name, low_app, unk_app in HM. discriminate.
        + intros _ k' [H|[]]. discriminate.
        + intros m [H|[]]. discriminate.
        + intros m [H|[]]. discriminate.
      - destruct (str_eqb_spec (a_name x) (L "Unknown")) as [E2|E2].
        + split; [|split; [|split]].
          * intros _ k' _ _. exists ap, w. right. left. reflexivity.
          * intros _ k' [H|[H|[]]]; discriminate.
          * intros m [H|[[= <-]|[]]] HC; [discriminate|]. exists ap. split; [easy|]. right. exists k. split; [now left|].
            destruct HX as [HX|[HM _]]; [|now left]. right. now exists x.
          * intros m [H|[[= <-]|[]]] HC; discriminate.
        + split; [|split; [|split]].
          * intros _ k' [[= <-]|[H|[]]] HM; [|discriminate]. exfalso. destruct HX as [HX|[_ ->]]; [unfold Missing in HM; congruence|easy].
          * intros _ k' [H|[H|[]]]; discriminate.
          * intros m [H|[[= <-]|[]]] HC; discriminate.
          * intros m [H|[[= <-]|[]]] HC; discriminate. }
    unfold check_availability. destruct (a_kind x) eqn:EK; try exact K2. now apply KB. }
  destruct (lookup k AT) eqn:E; [apply K; now left|]. rewrite unk_app. apply K. now right.
Qed.
Lemma p3_all fuel fs name : inv P3 (parse_dialplan U FT AT fuel fs name) /\ inv P3 (mw (load_func_odbc fuel fs name)).
Proof.
  split; [apply (all_dialplan U FT AT P3 (fun _ => True))|apply (all_odbc P3 (fun _ => True))].
  all: try (intros; exact I).
  all: try (intros o; now apply p3_plain).
  all: try (intros l l' o; apply p3_app; unfold Done; auto).
  all: try (intros l e (A1 & A2 & A3 & A4); split; [intros [H|H]; discriminate|]; split; [intros [H|H]; discriminate|now split]).
  all: try (intros v w _; now apply p3_one).
  all: try (intros c w prev args _ _ _ H1 H2 _ _; now apply p3_one).
  all: try (intros w p x _; now apply p3_one).
  all: try (intros w _; split; [intros _ k [H|[]]; discriminate|]; split; [intros _ k [H|[]]; discriminate|]; split;
    [intros m [[= <-]|[]] _; eexists; split; [reflexivity|now left]|intros m [[= <-]|[]]; discriminate]).
  all: try (intros f w _; apply p3_func). all: try (intros f w _; apply p3_appl).
  all: intros w c _ [->| ->]; apply p3_one; cbn; split; discriminate.
Qed.
End Seen.

(* ---- the loader ---- *)
Section Ld.
Context {A : Type}.
Variable module : A -> str.
Variable nm : A -> str.
Variable u : A.
Hypothesis u_module : module u = L "unknown".

Lemma ld_final_state keys : forall t us, lookup (L "unknown") t = Some u ->
  let s := fst (ld_run (Loader t us) (map LGet keys)) in
  ld_used s = rev keys ++ us /\
  forall k, lookup k (ld_tab s) = match lookup k t with Some a => Some a | None => if smem k keys then Some u else None end.
Proof.
  induction keys as [|k0 keys IH]; intros t us HU; cbn [map ld_run].
  - cbn. split; [easy|]. intros k. now destruct (lookup k t).
  - unfold ld_get. cbn [ld_tab ld_used]. destruct (lookup k0 t) as [a|] eqn:E.
    + specialize (IH t (k0 :: us) HU). cbn zeta in *. destruct (ld_run (Loader t (k0 :: us)) (map LGet keys)) as [s xs]. cbn [fst] in *. destruct IH as [I1 I2].
      split; [cbn; now rewrite I1, <- app_assoc|]. intros k. rewrite I2. destruct (lookup k t) eqn:EK; [easy|]. cbn [smem existsb].
      unfold smem. cbn. destruct (str_eqb_spec k k0) as [->|]; [congruence|easy].
    + rewrite HU. assert (HU' : lookup (L "unknown") ((k0, u) :: t) = Some u).
      { cbn [lookup]. now destruct (str_eqb (L "unknown") k0). }
      specialize (IH ((k0, u) :: t) (k0 :: us) HU'). cbn zeta in *. destruct (ld_run (Loader ((k0, u) :: t) (k0 :: us)) (map LGet keys)) as [s xs]. cbn [fst] in *. destruct IH as [I1 I2].
      split; [cbn; now rewrite I1, <- app_assoc|]. intros k. rewrite I2. cbn [lookup]. unfold smem. cbn [existsb]. destruct (str_eqb_spec k k0) as [->|]; [now rewrite E|easy].
Qed.
Lemma ld_modules_ok keys t : lookup (L "unknown") t = Some u ->
  exists ms, ld_modules module (fst (ld_run (Loader t []) (map LGet keys))) = Ok ms /\ forall m, In m ms <-> Provides module t keys m.
Proof.
  intros HU. destruct (ld_final_state keys t [] HU) as [K1 K2]. set (s := fst (ld_run (Loader t []) (map LGet keys))) in *. clearbody s.
  unfold ld_modules. rewrite K1, app_nil_r.
  assert (KI : forall k, In k (rev keys) -> In k keys) by (intros k; now rewrite <- in_rev).
  assert (KE : forall ks, (forall k, In k ks -> In k keys) ->
    exists ms, (fix go l := match l with [] => Ok [] | k :: r => match lookup k (ld_tab s) with Some a => let! ms := go r in
       Ok (if str_eqb (module a) (L "unknown") then ms else module a :: ms) | None => Exn KeyError end end) ks = Ok ms /\
     forall m, In m ms <-> Provides module t ks m).
  { induction ks as [|k ks IH]; intros HK.
    - exists []. split; [easy|]. intros m. split; [easy|]. now intros (k & a & [] & _).
    - destruct IH as (ms & E & HM); [intros; apply HK; now right|]. rewrite E.
      assert (HX : smem k keys = true) by (apply smem_In, HK; now left). rewrite K2, HX.
      destruct (lookup k t) as [a|] eqn:EL; cbn [bind].
      + exists (if str_eqb (module a) (L "unknown") then ms else module a :: ms). split; [easy|]. intros m.
        destruct (str_eqb_spec (module a) (L "unknown")) as [EM|EM].
        * rewrite HM. split; intros (k' & a' & I1 & I2 & I3 & I4).
          -- exists k', a'. split; [now right|easy].
          -- destruct I1 as [<-|I1]; [exfalso; congruence|]. now exists k', a'.
        * cbn [In]. rewrite HM. split.
          -- intros [<-|(k' & a' & I1 & I2 & I3 & I4)]; [exists k, a; repeat split; try easy; now left|]. exists k', a'. split; [now right|easy].
          -- intros (k' & a' & [<-|I1] & I2 & I3 & I4); [left; congruence|]. right. now exists k', a'.
      + rewrite u_module, str_eqb_refl. exists ms. split; [easy|]. intros m. rewrite HM. split; intros (k' & a' & I1 & I2 & I3 & I4).
        * exists k', a'. split; [now right|easy].
        * destruct I1 as [<-|I1]; [exfalso; congruence|]. now exists k', a'. }
  destruct (KE (rev keys) KI) as (ms & E & HM). exists ms. split; [exact E|]. intros m. rewrite HM. unfold Provides.
  split; intros (k & a & I1 & I2); exists k, a; (split; [now apply in_rev + now rewrite <- in_rev in *|easy]).
Qed.
End Ld.

(* ---- the whole command ---- *)
Lemma run_msgs_keep m l : forall chosen, In (LMsg m) l -> In m (run_msgs chosen l).
Proof.
  unfold run_msgs. induction l as [|e l IH]; intros chosen; [easy|]. intros [->|H]; cbn [resolve_bg].
  - destruct (resolve_bg chosen l). cbn. now left.
  - destruct e as [m'| | | |sup w]; try (specialize (IH chosen H); destruct (resolve_bg chosen l); cbn in *; auto using in_or_app; fail).
    destruct (bg_use chosen sup w) as [c ms]. specialize (IH c H). destruct (resolve_bg c l). cbn [snd] in *. unfold log_msgs in *. rewrite flat_map_app.
    apply in_or_app. now right.
Qed.
Lemma run_msgs_from m l chosen : m_cls m <> W_APP_BAD_CASE -> In m (run_msgs chosen l) -> In (LMsg m) l.
Proof.
  intros HC H. assert (K : m_cls m <> W_APP_BAD_CASE -> In (LMsg m) l); [|auto].
  refine (run_msgs_ok (fun m => m_cls m <> W_APP_BAD_CASE -> In (LMsg m) l) chosen l _ _ m H); [auto|]. cbn. congruence.
Qed.
Lemma log_apps_in k l : In k (log_apps l) <-> In (LApp k) l.
Proof.
  unfold log_apps. rewrite in_flat_map. split; [|intros H; exists (LApp k); split; [easy|now left]].
  intros (e & H & HE). destruct e; try easy. destruct HE as [->|[]]. exact H.
Qed.
Lemma log_funcs_in k l : In k (log_funcs l) <-> In (LFunc k) l.
Proof.
  unfold log_funcs. rewrite in_flat_map. split; [|intros H; exists (LFunc k); split; [easy|now left]].
  intros (e & H & HE). destruct e; try easy. destruct HE as [->|[]]. exact H.
Qed.

(* sorted(set()) *)
Lemma sorted_set_in l x : In x (sorted_set l) <-> In x l.
Proof.
  unfold sorted_set. rewrite <- (nodup_In str_eq_dec l x). split; apply Permutation_in; [|symmetry]; apply sort_perm.
Qed.
Lemma sorted_set_sorted l : StronglySorted StrLe (sorted_set l).
Proof.
  unfold sorted_set. eapply (ss_impl (le str_ltb)); [|apply sort_sorted].
  - intros a b H. unfold le in H. now apply str_ltb_le.
  - intros a b H. unfold le. apply str_ltb_le. now apply str_ltb_asym.
  - intros a b c H1 H2. unfold le in *. rewrite str_ltb_le in *. eapply strle_trans; eassumption.
Qed.
Lemma sorted_set_nodup l : NoDup (sorted_set l).
Proof. unfold sorted_set. eapply Permutation_NoDup; [symmetry; apply sort_perm|apply NoDup_nodup]. Qed.

Section Show.
Variable U : uni.
Variable FT : ftable.
Variable AT : atable.
Variable ex : str -> bool.
Variable fuel : nat.
Variable fs : fsys.
Variable arg : option str.
Variable dp : str.
Variable fns : list finfo.
Hypothesis loaded : snd (load_odbc ex fuel fs arg dp) = Ok fns.
Let ft := register_all U fns FT.
Let log := fst (show_run U FT AT ex fuel fs arg dp).
Variable ua : ainfo.
Variable uf : finfo.
Hypothesis unk_app : lookup (L "unknown") AT = Some ua.
Hypothesis unk_fun : lookup (L "unknown") ft = Some uf.
Hypothesis ua_module : a_module ua = L "unknown".
Hypothesis uf_module : VarFun.f_module uf = L "unknown".
Hypothesis ua_name : a_name ua = L "Unknown".
Hypothesis ua_kind : a_kind ua <> ABackground.
Hypothesis uf_name : VarFun.f_name uf = L "UNKNOWN".
Hypothesis low_app : u_lower U (L "Unknown") = L "unknown".
Hypothesis low_fun : u_lower U (L "UNKNOWN") = L "unknown".

Lemma show_p3 : P3 ft AT log (let! _ := snd (show_run U FT AT ex fuel fs arg dp) in Ok tt).
Proof.
  assert (KA : forall l l' o, P3 ft AT l (Ok tt) -> P3 ft AT l' o -> P3 ft AT (l ++ l') o).
  { intros l l' o H1 H2. eapply p3_app; [|exact H1|exact H2]. now left. }
  refine (inv_seq (P3 ft AT) (load_odbc ex fuel fs arg dp) _ KA _ _).
  - unfold load_odbc. assert (KN : forall o, P3 ft AT [] o) by (intros o; now apply p3_plain).
    destruct arg as [[|c s]|]; [apply KN|eapply p3_all; eassumption|]. cbn zeta. destruct (ex _); [eapply p3_all; eassumption|apply KN].
  - intros fns' E. rewrite loaded in E. injection E as <-. fold ft. eapply p3_all; eassumption.
Qed.
Lemma unknown_app_iff : snd (show_run U FT AT ex fuel fs arg dp) <> Hang -> unknown_apps (run_msgs None log) = [] <->
  forall m, In (LMsg m) log -> m_cls m <> E_APP_MISSING.
Proof.
  intros _. destruct show_p3 as (_ & _ & A3 & _). unfold unknown_apps. split.
  - intros H m HI HC. destruct (A3 m HI HC) as (s & HA & _). apply (run_msgs_keep m log None) in HI.
    assert (K : In s (flat_map (fun m => match m_cls m with E_APP_MISSING => arg_str m (L "app") | _ => [] end) (run_msgs None log))); [|now rewrite H in K].
    apply in_flat_map. exists m. split; [easy|]. rewrite HC. unfold arg_str. rewrite HA. cbn. now left.
  - intros H. assert (K : forall ms, (forall m, In m ms -> m_cls m <> E_APP_MISSING) ->
      flat_map (fun m => match m_cls m with E_APP_MISSING => arg_str m (L "app") | _ => [] end) ms = []).
    { induction ms as [|m ms IH]; intros HM; [easy|]. cbn [flat_map]. rewrite IH by (intros; apply HM; now right).
      specialize (HM m (or_introl eq_refl)). now destruct (m_cls m). }
    apply K. intros m HI HC. apply run_msgs_from in HI; [|congruence]. exact (H m HI HC).
Qed.
Lemma unknown_fun_iff : unknown_funcs (run_msgs None log) = [] <->
  forall m, In (LMsg m) log -> m_cls m <> E_FUNC_MISSING.
Proof.
  destruct show_p3 as (_ & _ & _ & A4). unfold unknown_funcs. split.
  - intros H m HI HC. destruct (A4 m HI HC) as (s & HA & _). apply (run_msgs_keep m log None) in HI.
    assert (K : In s (flat_map (fun m => match m_cls m with E_FUNC_MISSING => arg_str m (L "func") | _ => [] end) (run_msgs None log))); [|now rewrite H in K].
    apply in_flat_map. exists m. split; [easy|]. rewrite HC. unfold arg_str. rewrite HA. cbn. now left.
  - intros H. assert (K : forall ms, (forall m, In m ms -> m_cls m <> E_FUNC_MISSING) ->
      flat_map (fun m => match m_cls m with E_FUNC_MISSING => arg_str m (L "func") | _ => [] end) ms = []).
    { induction ms as [|m ms IH]; intros HM; [easy|]. cbn [flat_map]. rewrite IH by (intros; apply HM; now right).
      specialize (HM m (or_introl eq_refl)). now destruct (m_cls m). }
    apply K. intros m HI HC. apply run_msgs_from in HI; [|congruence]. exact (H m HI HC).
Qed.

(* the loaders never fail *)
Lemma used_items_ok {A} (nm md : A -> str) (t : list (str * A)) (u : A) keys : lookup (L "unknown") t = Some u ->
  exists is, used_items nm md t keys = Ok is /\ forall n m, In (n, m) is <->
    exists k a, In k keys /\ k <> L "unknown" /\ (lookup k t = Some a \/ lookup k t = None /\ a = u) /\ n = nm a /\ m = md a.
Proof.
  intros HU. destruct (ld_final_state u keys t [] HU) as [K1 K2]. unfold used_items. set (s := fst (ld_run (Loader t []) (map LGet keys))) in *. clearbody s.
  rewrite K1, app_nil_r. cbn zeta.
  assert (KE : forall ks, (forall k, In k ks -> In k keys) ->
    exists is, (fix go l := match l with [] => Ok [] | k :: r => if str_eqb k (L "unknown") then go r else
       match lookup k (ld_tab s) with Some a => let! xs := go r in Ok ((nm a, md a) :: xs) | None => Exn KeyError end end) ks = Ok is /\
     forall n m, In (n, m) is <-> exists k a, In k ks /\ k <> L "unknown" /\ (lookup k t = Some a \/ lookup k t = None /\ a = u) /\ n = nm a /\ m = md a).
  { induction ks as [|k ks IH]; intros HK.
    - exists []. split; [easy|]. intros n m. split; [easy|]. now intros (k & a & [] & _).
    - destruct IH as (is & E & HM); [intros; apply HK; now right|]. rewrite E. destruct (str_eqb_spec k (L "unknown")) as [->|HN].
      + exists is. split; [easy|]. intros n m. rewrite HM. split; intros (k' & a & I1 & I2); exists k', a; (split; [|easy]); [now right|].
        destruct I1 as [<-|I1]; [now destruct I2|easy].
      + assert (HX : smem k keys = true) by (apply smem_In, HK; now left). rewrite K2, HX.
        assert (KX : exists a, (lookup k t = Some a \/ lookup k t = None /\ a = u) /\ match lookup k t with Some a => Some a | None => Some u end = Some a).
        { destruct (lookup k t) as [a|]; eauto. }
        destruct KX as (a & KX & ->). cbn [bind]. eexists. split; [reflexivity|]. intros n m. cbn [In]. rewrite HM. split.
        * intros [[= <- <-]|(k' & a' & I1 & I2)]; [exists k, a; repeat split; try easy; now left|]. exists k', a'. split; [now right|easy].
        * intros (k' & a' & [<-|I1] & I2 & I3 & I4 & I5); [left|right; now exists k', a']. subst n m.
          destruct KX as [KX|[KX ->]], I3 as [I3|[I3 ->]]; congruence. }
  destruct (KE (sorted_set (rev keys))) as (is & E & HM); [intros k; now rewrite sorted_set_in, <- in_rev|]. exists is. split; [exact E|].
  intros n m. rewrite HM. split; intros (k & a & I1 & I2); exists k, a; (split; [|easy]); [now apply in_rev, (proj1 (sorted_set_in _ _))|].
  apply sorted_set_in. now rewrite <- in_rev.
Qed.
Lemma used_modules_ok {A} (md : A -> str) (t : list (str * A)) (u : A) keys : lookup (L "unknown") t = Some u -> md u = L "unknown" ->
  exists ms, used_modules md t keys = Ok ms /\ StronglySorted StrLe ms /\ NoDup ms /\ forall m, In m ms <-> Provides md t keys m.
Proof.
  intros HU HM. destruct (ld_modules_ok md u HM keys t HU) as (ms & E & K). unfold used_modules. rewrite E. cbn [bind].
  eexists. split; [reflexivity|]. split; [apply sorted_set_sorted|]. split; [apply sorted_set_nodup|]. intros m. now rewrite sorted_set_in.
Qed.
Theorem show_ok : forall d, snd (show_run U FT AT ex fuel fs arg dp) = Ok d -> exists ia im if_ fm,
  used_items a_name a_module AT (log_apps log) = Ok ia /\ used_modules a_module AT (log_apps log) = Ok im /\
  used_items VarFun.f_name VarFun.f_module ft (log_funcs log) = Ok if_ /\ used_modules VarFun.f_module ft (log_funcs log) = Ok fm /\
  modules_show U FT AT ex fuel fs arg dp = Ok (print_modules (L "Application") ia im ++ print_modules (L "Function") if_ fm
      ++ load_statements (im ++ fm)
      ++ print_unknown (L "applications") (unknown_apps (run_msgs None log)) ++ print_unknown (L "functions") (unknown_funcs (run_msgs None log)),
      match unknown_apps (run_msgs None log), unknown_funcs (run_msgs None log) with [], [] => 0 | _, _ => 1 end).
Proof.
  intros d E. destruct (used_items_ok a_name a_module AT ua (log_apps log) unk_app) as (ia & E1 & _).
  destruct (used_modules_ok a_module AT ua (log_apps log) unk_app ua_module) as (im & E2 & _).
  destruct (used_items_ok VarFun.f_name VarFun.f_module ft uf (log_funcs log) unk_fun) as (if_ & E3 & _).
  destruct (used_modules_ok VarFun.f_module ft uf (log_funcs log) unk_fun uf_module) as (fm & E4 & _).
  exists ia, im, if_, fm. repeat (split; [assumption|]). unfold modules_show. rewrite E. cbn [bind]. rewrite loaded. cbn [bind]. fold log. fold ft.
  rewrite E1, E2, E3, E4. reflexivity.
Qed.
(* the exit status *)
Theorem status_exact d : snd (show_run U FT AT ex fuel fs arg dp) = Ok d -> exists lines n,
  modules_show U FT AT ex fuel fs arg dp = Ok (lines, n) /\ (n = 0 \/ n = 1) /\
  ((exists k, In k (log_apps log) /\ Missing AT k) \/ (exists k, In k (log_funcs log) /\ Missing ft k) -> n = 1) /\
  (n = 1 -> (exists k, In k (log_apps log) /\ (Missing AT k \/ StandIn a_name (L "Unknown") AT k)) \/
            (exists k, In k (log_funcs log) /\ (Missing ft k \/ StandIn VarFun.f_name (L "UNKNOWN") ft k)) \/
            (exists m, In m (run_msgs None log) /\ m_cls m = E_APP_MISSING /\ m_args m = [(L "app", AStr (L "(none)"))])).
Proof.
  intros E. destruct (show_ok d E) as (ia & im & if_ & fm & _ & _ & _ & _ & H). eexists. eexists. split; [exact H|].
  assert (KH : snd (show_run U FT AT ex fuel fs arg dp) <> Hang) by (rewrite E; discriminate).
  pose proof (unknown_app_iff KH) as KA. pose proof unknown_fun_iff as KF. destruct show_p3 as (A1 & A2 & A3 & A4). rewrite E in *. cbn [bind] in *.
  split; [|split].
  - destruct (unknown_apps _), (unknown_funcs _); auto.
  - intros [(k & HI & HM)|(k & HI & HM)].
    + apply log_apps_in in HI. destruct (A1 (or_introl eq_refl) k HI HM) as (s & w & K). destruct (unknown_apps _); [|easy].
      exfalso. exact (proj1 KA eq_refl _ K eq_refl).
    + apply log_funcs_in in HI. destruct (A2 (or_introl eq_refl) k HI HM) as (s & w & K). destruct (unknown_funcs _); [|now destruct (unknown_apps _)].
      exfalso. exact (proj1 KF eq_refl _ K eq_refl).
  - intros HN. destruct (existsb (fun e => match e with LMsg m => match m_cls m with E_APP_MISSING => true | _ => false end | _ => false end) log) eqn:EA.
    + apply existsb_exists in EA as (e & HI & HE). destruct e as [m| | | |]; try easy. assert (HC : m_cls m = E_APP_MISSING) by now destruct (m_cls m).
      destruct (A3 m HI HC) as (s & HA & [->|(k & K1 & K2)]).
      * right. right. exists m. split; [now apply run_msgs_keep|now split].
      * left. exists k. now rewrite log_apps_in.
    + destruct (existsb (fun e => match e with LMsg m => match m_cls m with E_FUNC_MISSING => true | _ => false end | _ => false end) log) eqn:EF.
      * apply existsb_exists in EF as (e & HI & HE). destruct e as [m| | | |]; try easy. assert (HC : m_cls m = E_FUNC_MISSING) by now destruct (m_cls m).
        destruct (A4 m HI HC) as (s & HA & k & K1 & K2). right. left. exists k. now rewrite log_funcs_in.
      * exfalso. assert (X1 : unknown_apps (run_msgs None log) = []).
        { apply KA. intros m HI HC. assert (X : existsb (fun e => match e with LMsg m => match m_cls m with E_APP_MISSING => true | _ => false end | _ => false end) log = true); [|congruence].
          apply existsb_exists. exists (LMsg m). split; [easy|]. now rewrite HC. }
        assert (X2 : unknown_funcs (run_msgs None log) = []).
        { apply KF. intros m HI HC. assert (X : existsb (fun e => match e with LMsg m => match m_cls m with E_FUNC_MISSING => true | _ => false end | _ => false end) log = true); [|congruence].
          apply existsb_exists. exists (LMsg m). split; [easy|]. now rewrite HC. }
        rewrite X1, X2 in HN. discriminate.
Qed.
End Show.

(* ---- what is printed ---- *)
Lemma filter_none {A} (p : A -> bool) l : (forall x, In x l -> p x = false) -> filter p l = [].
Proof. induction l as [|x l IH]; intros H; cbn; [easy|]. rewrite (H x (or_introl eq_refl)). apply IH. intros; apply H; now right. Qed.
Lemma filter_every {A} (p : A -> bool) l : (forall x, In x l -> p x = true) -> filter p l = l.
Proof. induction l as [|x l IH]; intros H; cbn; [easy|]. rewrite (H x (or_introl eq_refl)). f_equal. apply IH. intros; apply H; now right. Qed.
Lemma comment_line r : startswith (L "load => ") (L ";" ++ r) = false.
Proof. reflexivity. Qed.
Lemma modules_quiet what is ms : filter (startswith (L "load => ")) (print_modules what is ms) = [].
Proof.
  apply filter_none. intros x H. unfold print_modules in H. destruct H as [<-|H]; [apply comment_line|]. apply in_app_or in H as [H|[<-|[]]]; [|apply comment_line].
  apply in_flat_map in H as (m & _ & H). destruct (item_lines _ _) as [|l r]; [easy|]. destruct H as [<-|H]; [apply comment_line|].
  apply in_map_iff in H as (y & <- & _). apply comment_line.
Qed.
Lemma unknown_quiet what l : filter (startswith (L "load => ")) (print_unknown what l) = [].
Proof. unfold print_unknown. destruct l; [easy|]. apply filter_none. intros x [<-|[<-|[<-|[]]]]; apply comment_line. Qed.
Lemma load_lines ms : filter (startswith (L "load => ")) (load_statements ms) =
  map (fun m => L "load => " ++ m ++ L ".so") (filter (fun m => negb (str_eqb m (L "<builtin>"))) (sorted_set ms)).
Proof.
  unfold load_statements. change (L "; modules.conf") with (L ";" ++ L " modules.conf"). cbn [filter]. rewrite comment_line, filter_app. cbn [filter].
  change (startswith (L "load => ") []) with false. cbn [filter app]. rewrite app_nil_r. apply filter_every. intros x H.
  apply in_map_iff in H as (m & <- & _). apply startswith_app. now exists (m ++ L ".so").
Qed.
Lemma ss_filter {A} (R : A -> A -> Prop) p l : StronglySorted R l -> StronglySorted R (filter p l).
Proof.
  induction 1 as [|x l S IH F]; cbn; [constructor|]. destruct (p x); [|easy]. constructor; [easy|]. rewrite Forall_forall in *. intros y H.
  apply F. now apply filter_In in H.
Qed.
Section Printed.
Variable U : uni.
Variable FT : ftable.
Variable AT : atable.
Variable ex : str -> bool.
Variable fuel : nat.
Variable fs : fsys.
Variable arg : option str.
Variable dp : str.
Variable fns : list finfo.
Hypothesis loaded : snd (load_odbc ex fuel fs arg dp) = Ok fns.
Let ft := register_all U fns FT.
Let log := fst (show_run U FT AT ex fuel fs arg dp).
Variable ua : ainfo.
Variable uf : finfo.
Hypothesis unk_app : lookup (L "unknown") AT = Some ua.
Hypothesis unk_fun : lookup (L "unknown") ft = Some uf.
Hypothesis ua_module : a_module ua = L "unknown".
Hypothesis uf_module : VarFun.f_module uf = L "unknown".
Theorem load_exact d : snd (show_run U FT AT ex fuel fs arg dp) = Ok d -> exists lines n mods,
  modules_show U FT AT ex fuel fs arg dp = Ok (lines, n) /\
  filter (startswith (L "load => ")) lines = map (fun m => L "load => " ++ m ++ L ".so") mods /\
  StronglySorted StrLe mods /\ NoDup mods /\
  forall m, In m mods <-> m <> L "<builtin>" /\ (Provides a_module AT (log_apps log) m \/ Provides VarFun.f_module ft (log_funcs log) m).
Proof.
  intros E. destruct (show_ok U FT AT ex fuel fs arg dp fns loaded ua uf unk_app unk_fun ua_module uf_module d E) as (ia & im & if_ & fm & E1 & E2 & E3 & E4 & H).
  fold log in E1, E2, E3, E4. fold ft in E3, E4.
  destruct (used_modules_ok a_module AT ua (log_apps log) unk_app ua_module) as (im' & E2' & _ & _ & HA). rewrite E2 in E2'. injection E2' as <-.
  destruct (used_modules_ok VarFun.f_module ft uf (log_funcs log) unk_fun uf_module) as (fm' & E4' & _ & _ & HF). rewrite E4 in E4'. injection E4' as <-.
  eexists. eexists. exists (filter (fun m => negb (str_eqb m (L "<builtin>"))) (sorted_set (im ++ fm))). split; [exact H|].
  split; [|split; [|split]].
  - rewrite !filter_app, !modules_quiet, !unknown_quiet, load_lines. cbn [app]. now rewrite app_nil_r.
  - apply ss_filter, sorted_set_sorted.
  - apply NoDup_filter, sorted_set_nodup.
  - intros m. rewrite filter_In, sorted_set_in, in_app_iff, HA, HF. destruct (str_eqb_spec m (L "<builtin>")) as [->|N]; cbn; [|tauto]. split; [easy|]. now intros [H1 _].
Qed.
End Printed.
(* the listing of one module *)
Lemma item_lines_concat names : forall l ls, List.concat (item_lines (l :: ls) names) =
  List.concat (rev ls) ++ (match l, names with _, [] => l | [], _ => [] | _, _ => l ++ L ", " end) ++ join (L ", ") (map (fun n => n ++ L "()") names).
Proof.
  assert (KN : forall n, exists c r, n ++ L "()" = c :: r) by (intros [|c r]; cbn; eauto).
  induction names as [|n names IH]; intros l ls.
  - cbn [item_lines map join rev]. rewrite concat_app. cbn. rewrite !app_nil_r. now destruct l.
  - cbn [item_lines]. set (f := n ++ L "()"). set (l' := match l with [] => [] | _ => l ++ L ", " end).
    transitivity (List.concat (rev ls) ++ l' ++ join (L ", ") (map (fun n => n ++ L "()") (n :: names))); [|unfold l'; now destruct l].
    assert (KF : forall x, (match x ++ f, names with _, [] => x ++ f | [], _ => [] | _, _ => (x ++ f) ++ L ", " end) ++ join (L ", ") (map (fun n => n ++ L "()") names) =
      x ++ join (L ", ") (map (fun n => n ++ L "()") (n :: names))).
    { intros x. cbn [map]. fold f. destruct names as [|n2 names]; cbn [map join].
      - destruct (x ++ f) eqn:EX; [|now rewrite !app_nil_r]. rewrite app_nil_r. now symmetry.
      - destruct (x ++ f) eqn:EX.
        + exfalso. destruct (KN n) as (c & r & K). unfold f in EX. rewrite K in EX. now destruct x.
        + rewrite <- EX, <- !app_assoc. reflexivity. }
    destruct (Nat.ltb _ _).
    + rewrite IH. cbn [rev]. rewrite concat_app. cbn [List.concat]. rewrite app_nil_r, <- !app_assoc. f_equal. f_equal. exact (KF []).
    + rewrite IH. f_equal. exact (KF l').
Qed.
Theorem items_listed names : List.concat (item_lines [[]] names) = join (L ", ") (map (fun n => n ++ L "()") names).
Proof. rewrite item_lines_concat. cbn. now destruct names. Qed.
