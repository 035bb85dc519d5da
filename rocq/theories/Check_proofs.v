(* Proofs about whole runs: C22, C42, C43, C44, C48. *)
From Coq Require Import Permutation Sorted.
From Verif Require Import Base Utf8 PyStr Defines FileRd Config VSpace Pattern Var VarFun AppM Dialplan FuncOdbc Loader Commands
  Check Spec_Log VarFun_proofs Log_proofs.

(* ---- lines of a file ---- *)
Lemma lines_concat b : List.concat (lines_of b) = b.
Proof.
  induction b as [|c b IH]; cbn [lines_of]; [easy|]. destruct (c =? 10); cbn; [now rewrite IH|].
  destruct (lines_of b) as [|l ls]; cbn in *; now rewrite <- IH.
Qed.
Inductive LinesOk : list bytes -> Prop :=
| Lo_nil : LinesOk []
| Lo_last l : l <> [] -> ~ In 10 l -> LinesOk [l]
| Lo_cons l r : ~ In 10 l -> LinesOk r -> LinesOk ((l ++ [10]) :: r).
Lemma lines_ok b : LinesOk (lines_of b).
Proof.
  induction b as [|c b IH]; cbn [lines_of]; [constructor|]. destruct (N.eqb_spec c 10) as [->|HC].
  - apply (Lo_cons [] _); [easy|exact IH].
  - inversion IH as [|l HL HN|l r HN HR].
    + apply Lo_last; [easy|]. intros [H0|[]]. now apply HC.
    + apply Lo_last; [easy|]. intros [H0|H0]; [now apply HC|easy].
    + apply (Lo_cons (c :: l) r); [|easy]. intros [H0|H0]; [now apply HC|easy].
Qed.
Lemma count_none l : ~ In 10 l -> count_occ N.eq_dec l 10 = 0%nat.
Proof. apply count_occ_not_In. Qed.
Lemma lines_split ls pre text post : LinesOk ls -> ls = pre ++ text :: post ->
  count_occ N.eq_dec (List.concat pre) 10 = length pre /\
  (List.concat pre = [] \/ exists p, List.concat pre = p ++ [10]) /\ text <> [] /\
  ((exists t, text = t ++ [10] /\ ~ In 10 t) \/ (~ In 10 text /\ post = [])).
Proof.
  intros H. revert pre. induction H as [|l HL HN|l r HN HR IH]; intros pre E.
  - now destruct pre.
  - destruct pre as [|p pre]; [|now destruct pre]. injection E as <- <-. cbn. auto 6.
  - destruct pre as [|p pre]; cbn [app] in E.
    + injection E as <- <-. cbn. split; [easy|]. split; [now left|]. split; [now destruct l|]. left. now exists l.
    + injection E as <- E. destruct (IH pre E) as (I1 & I2 & I3 & I4). cbn [List.concat length]. rewrite !count_occ_app, I1, (count_none l HN). cbn.
      split; [easy|]. split; [|easy]. right. destruct I2 as [->|[p' ->]]; [exists l; now rewrite app_nil_r|].
      exists ((l ++ [10]) ++ p'). now rewrite app_assoc.
Qed.
Lemma real_line (fs : fsys) name b pre text post : fs name = Ok b -> lines_of b = pre ++ text :: post ->
  RealLine fs (Where name (N.of_nat (length pre) + 1) text).
Proof.
  intros H E. destruct (lines_split _ _ _ _ (lines_ok b) E) as (I1 & I2 & I3 & I4). exists (List.concat pre), (List.concat post). cbn.
  split; [rewrite H, <- (lines_concat b), E, concat_app; reflexivity|]. rewrite I1. split; [easy|]. split; [easy|]. split; [easy|].
  destruct I4 as [I4|[I4 ->]]; [now left|now right].
Qed.

(* ---- the places and arguments of all messages ---- *)
Section Places.
Variable fs : fsys.
Definition LevOk (e : lev) : Prop :=
  match e with
  | LMsg m => Placed fs m /\ In (m_cls m, map fst (m_args m)) raise_sites /\ (forall a, In a (m_args m) -> good_arg (snd a))
  | LVar _ w | LBg _ w => RealLine fs w
  | _ => True
  end.
Definition P1 (l : list lev) (o : res unit) : Prop := Forall LevOk l.

Lemma p1_nil o : P1 [] o. Proof. constructor. Qed.
Lemma p1_app l l' (o o' : res unit) : P1 l o -> P1 l' o' -> P1 (l ++ l') o'.
Proof. intros. now apply Forall_app. Qed.
Lemma p1_msg c w prev args : RealLine fs w -> (forall q, prev = Some q -> RealLine fs q) ->
  In (c, map fst args) raise_sites -> (forall a, In a args -> good_arg (snd a)) -> forall o, P1 [LMsg (Msg c w prev args)] o.
Proof. intros H1 H2 H3 H4 o. constructor; [|constructor]. split; [|now split]. split; [now left|easy]. Qed.
Lemma site_app : In (E_APP_MISSING, [L "app"]) raise_sites.
Proof. unfold raise_sites. repeat (first [left; reflexivity | right]). Qed.
Lemma site_case : In (W_APP_BAD_CASE, [L "app"; L "proper"]) raise_sites.
Proof. unfold raise_sites. repeat (first [left; reflexivity | right]). Qed.
Lemma site_func : In (E_FUNC_MISSING, [L "func"]) raise_sites.
Proof. unfold raise_sites. repeat (first [left; reflexivity | right]). Qed.
Lemma site_fcase : In (E_FUNC_BAD_CASE, [L "func"; L "proper"]) raise_sites.
Proof. unfold raise_sites. repeat (first [left; reflexivity | right]). Qed.
Lemma site_gen : In (H_DP_GENERAL_MISPLACED, []) raise_sites.
Proof. unfold raise_sites. repeat (first [left; reflexivity | right]). Qed.
Lemma site_glob : In (H_DP_GLOBALS_MISPLACED, []) raise_sites.
Proof. unfold raise_sites. repeat (first [left; reflexivity | right]). Qed.
Ltac ga := let a := fresh in let H := fresh in intros a H; cbn [In] in H; repeat (destruct H as [<-|H]; [exact I|]); destruct H.
Lemma p1_cons e (m : M unit) : LevOk e -> P1 (fst m) (Ok tt) -> P1 (e :: fst m) (Ok tt).
Proof. now constructor. Qed.
Lemma p1_none w : RealLine fs w -> inv P1 (memit E_APP_MISSING w [(L "app", AStr (L "(none)"))]).
Proof. intros H. apply p1_msg; [easy|easy|exact site_app|ga]. Qed.
Lemma site_hint : In (H_PAT_NON_CANONICAL, [L "pat"; L "expected"]) raise_sites.
Proof. unfold raise_sites. repeat (first [left; reflexivity | right]). Qed.
Lemma p1_hint w p x : RealLine fs w -> inv P1 (memit H_PAT_NON_CANONICAL w [(L "pat", AStr p); (L "expected", AStr x)]).
Proof. intros H. apply p1_msg; [easy|easy|exact site_hint|ga]. Qed.
Lemma p1_func U FT f w : RealLine fs w -> inv P1 (func_check U FT f w).
Proof.
  intros H. unfold inv, func_check, func_get. set (k := u_lower U f).
  assert (K : forall x, Forall LevOk (fst (do* f0 <- (do* _ <- mlog (LFunc k); mret x);
     do* _ <- (if str_eqb (VarFun.f_name f0) f then mret tt else if str_eqb (VarFun.f_name f0) (L "UNKNOWN")
              then memit E_FUNC_MISSING w [(L "func", AStr f)]
              else memit E_FUNC_BAD_CASE w [(L "func", AStr f); (L "proper", AStr (VarFun.f_name f0))]); mret f0))).
  { intros x. cbn [mlog mret mbind fst snd app]. constructor; [exact I|]. destruct (str_eqb (VarFun.f_name x) f); [constructor|].
    destruct (str_eqb (VarFun.f_name x) (L "UNKNOWN")).
    - refine (p1_msg E_FUNC_MISSING w None [(L "func", AStr f)] H _ site_func _ (Ok tt)); [easy|ga].
    - refine (p1_msg E_FUNC_BAD_CASE w None [(L "func", AStr f); (L "proper", AStr (VarFun.f_name x))] H _ site_fcase _ (Ok tt)); [easy|ga]. }
  destruct (lookup k FT); [apply K|]. destruct (lookup (L "unknown") FT); [apply K|constructor].
Qed.
Lemma p1_appl U AT ap w : RealLine fs w ->
  inv P1 (do* a <- app_get AT (u_lower U ap); do* _ <- check_availability a ap w; mret a).
Proof.
  intros H. unfold inv, app_get. set (k := u_lower U ap).
  assert (K : forall x, Forall LevOk (fst (do* a <- (do* _ <- mlog (LApp k); mret x); do* _ <- check_availability a ap w; mret a))).
  { intros x. cbn [mlog mret mbind fst snd app]. constructor; [exact I|].
    assert (K2 : Forall LevOk (fst (do* _ <- (if str_eqb (a_name x) ap then mret tt else if str_eqb (a_name x) (L "Unknown")
       then memit E_APP_MISSING w [(L "app", AStr ap)] else memit W_APP_BAD_CASE w [(L "app", AStr ap); (L "proper", AStr (a_name x))]); mret x))).
    { destruct (str_eqb (a_name x) ap); [constructor|].
      destruct (str_eqb (a_name x) (L "Unknown")).
      - refine (p1_msg E_APP_MISSING w None [(L "app", AStr ap)] H _ site_app _ (Ok tt)); [easy|ga].
      - refine (p1_msg W_APP_BAD_CASE w None [(L "app", AStr ap); (L "proper", AStr (a_name x))] H _ site_case _ (Ok tt)); [easy|ga]. }
    unfold check_availability. destruct (a_kind x); try exact K2. constructor; [exact H|constructor]. }
  destruct (lookup k AT); [apply K|]. destruct (lookup (L "unknown") AT); [apply K|constructor].
Qed.
Lemma head_of w : RealLine fs w -> FileHead fs (Where (w_file w) 0 []).
Proof. intros (pre & post & E & _). split; [easy|]. split; [easy|]. now exists (pre ++ w_text w ++ post). Qed.
Lemma p1_head w c : RealLine fs w -> c = H_DP_GENERAL_MISPLACED \/ c = H_DP_GLOBALS_MISPLACED -> inv P1 (memit c (Where (w_file w) 0 []) []).
Proof.
  intros H HC. unfold inv, memit, mw. replace (emit c (Where (w_file w) 0 []) None []) with ([Msg c (Where (w_file w) 0 []) None []], Ok tt) by (now destruct HC; subst).
  cbn. constructor; [|constructor]. split; [|split; [destruct HC; subst; [exact site_gen|exact site_glob]|easy]].
  split; [|easy]. right. split; [now apply head_of|exact HC].
Qed.
Lemma p1_all : forall U FT AT fuel name, (inv P1 (parse_dialplan U FT AT fuel fs name) /\
    forall d, snd (parse_dialplan U FT AT fuel fs name) = Ok d -> inv P1 (walk_jump_destinations d)) /\
  inv P1 (mw (load_func_odbc fuel fs name)).
Proof.
  intros U FT AT fuel name. split; [apply (all_dialplan U FT AT P1 (RealLine fs))|apply (all_odbc P1 (RealLine fs))].
  all: try apply p1_nil; try (intros l l' o; apply p1_app); try easy; try apply p1_none; try apply p1_hint; try apply p1_func; try apply p1_appl; try apply p1_head; try apply real_line.
  all: try (intros; now apply p1_msg); intros v w H; (constructor; [exact H|constructor]).
Qed.
End Places.

(* ---- formatted ---- *)
Definition Done (o : res unit) : Prop := o = Ok tt \/ o = Exn VarParseError.
Definition Fmt (e : lev) : Prop := match e with LMsg m => format_ok (mfields (m_cls m)) (m_args m) = Ok tt | _ => True end.
Definition P2 (l : list lev) (o : res unit) : Prop := Done o -> Forall Fmt l.
Lemma format_good fields args : (forall a, In a args -> good_arg (snd a)) ->
  format_ok fields args = Ok tt \/ format_ok fields args = Exn KeyError \/ format_ok fields args = Exn AttributeError.
Proof.
  intros H. induction fields as [|[f b] r IH]; cbn; [now left|]. destruct (lookup f args) as [a|] eqn:E; [|now right; left].
  apply lookup_In' in E. apply H in E. cbn in E. destruct a as [s|z| |s t| |]; cbn; try exact IH.
  destruct E as [E1 E2]. destruct b.
  - exact IH.
  - destruct s as [t'|e|]; cbn; [exact IH| |easy]. rewrite (E2 e eq_refl). now right; right.
Qed.
Lemma p2_done l o : Done o -> (P2 l o <-> Forall Fmt l).
Proof. unfold P2. tauto. Qed.
Lemma p2_msg c w prev args : (forall a, In a args -> good_arg (snd a)) -> P2 [LMsg (Msg c w prev args)] (format_ok (mfields c) args).
Proof. intros H D. constructor; [|constructor]. cbn. destruct (format_good (mfields c) args H) as [E|[E|E]]; rewrite E in *; destruct D; easy. Qed.
Lemma p2_one c w args (A : Type) (x : A) (r : M unit) : (forall a, In a args -> good_arg (snd a)) -> r = memit c w args -> mdupe c = false ->
  P2 (fst (do* _ <- r; mret x)) (let! _ := snd (do* _ <- r; mret x) in Ok tt).
Proof.
  intros H -> HD. unfold memit, mw, emit. rewrite HD. pose proof (p2_msg c w None args H) as K. cbn [fst snd map] in *.
  destruct (format_ok (mfields c) args) as [[]| |]; cbn in *; exact K.
Qed.
Ltac ga := let a := fresh in let H := fresh in intros a H; cbn [In] in H; repeat (destruct H as [<-|H]; [exact I|]); destruct H.
Lemma P2_cons e l o : Fmt e -> P2 l o -> P2 (e :: l) o.
Proof. intros H K D. constructor; auto. Qed.
Lemma p2_func U FT f w : inv P2 (func_check U FT f w).
Proof.
  unfold inv, func_check, func_get. set (k := u_lower U f).
  assert (K : forall x, inv P2 (do* f0 <- (do* _ <- mlog (LFunc k); mret x);
     do* _ <- (if str_eqb (VarFun.f_name f0) f then mret tt else if str_eqb (VarFun.f_name f0) (L "UNKNOWN")
              then memit E_FUNC_MISSING w [(L "func", AStr f)]
              else memit E_FUNC_BAD_CASE w [(L "func", AStr f); (L "proper", AStr (VarFun.f_name f0))]); mret f0)).
  { intros x. unfold inv. cbn [mlog mret mbind fst snd app]. apply P2_cons; [exact I|]. destruct (str_eqb (VarFun.f_name x) f); [intros _; constructor|].
    destruct (str_eqb (VarFun.f_name x) (L "UNKNOWN")); (eapply p2_one; [|reflexivity|reflexivity]; ga). }
  destruct (lookup k FT); [apply K|]. destruct (lookup (L "unknown") FT); [apply K|intros _; constructor].
Qed.
Lemma p2_appl U AT ap w : inv P2 (do* a <- app_get AT (u_lower U ap); do* _ <- check_availability a ap w; mret a).
Proof.
  unfold inv, app_get. set (k := u_lower U ap).
  assert (K : forall x, inv P2 (do* a <- (do* _ <- mlog (LApp k); mret x); do* _ <- check_availability a ap w; mret a)).
  { intros x. unfold inv. cbn [mlog mret mbind fst snd app]. apply P2_cons; [exact I|].
    assert (K2 : inv P2 (do* _ <- (if str_eqb (a_name x) ap then mret tt else if str_eqb (a_name x) (L "Unknown")
       then memit E_APP_MISSING w [(L "app", AStr ap)] else memit W_APP_BAD_CASE w [(L "app", AStr ap); (L "proper", AStr (a_name x))]); mret x)).
    { destruct (str_eqb (a_name x) ap); [intros _; constructor|].
      destruct (str_eqb (a_name x) (L "Unknown")); (eapply p2_one; [|reflexivity|reflexivity]; ga). }
    unfold check_availability. destruct (a_kind x); try exact K2. intros _. constructor; [exact I|constructor]. }
  destruct (lookup k AT); [apply K|]. destruct (lookup (L "unknown") AT); [apply K|intros _; constructor].
Qed.
Lemma p2_all : forall U FT AT fuel fs name, (inv P2 (parse_dialplan U FT AT fuel fs name) /\
    forall d, snd (parse_dialplan U FT AT fuel fs name) = Ok d -> inv P2 (walk_jump_destinations d)) /\
  inv P2 (mw (load_func_odbc fuel fs name)).
Proof.
  intros U FT AT fuel fs name. split; [apply (all_dialplan U FT AT P2 (fun _ => True))|apply (all_odbc P2 (fun _ => True))].
  all: try (intros; exact I).
  all: try (intros o _; solve [constructor]).
  all: try (intros l l' o H1 H2 D; apply Forall_app; split; [apply H1; unfold Done; auto|now apply H2]).
  all: try (intros l e _ [H|H]; discriminate).
  all: try (intros v w _ _; constructor; [exact I|constructor]).
  all: try (intros; now apply p2_msg).
  all: try (intros w _ _; constructor; [reflexivity|constructor]).
  all: try (intros w p x _ _; constructor; [reflexivity|constructor]).
  all: try (intros f w _; apply p2_func). all: try (intros f w _; apply p2_appl).
  all: intros w c _ [->| ->] _; (constructor; [reflexivity|constructor]).
Qed.

(* ---- whole runs ---- *)
Lemma inv_seq (P : list lev -> res unit -> Prop) {A B} (m : M A) (f : A -> M B) : (forall l l' o, P l (Ok tt) -> P l' o -> P (l ++ l') o) ->
  inv P m -> (forall a, snd m = Ok a -> inv P (f a)) -> inv P (mbind m f).
Proof. intros HA H1 H2. unfold inv in *. destruct m as [l [a|e|]]; cbn in *; [|easy|easy]. apply HA; [easy|]. now apply H2. Qed.
Section Whole.
Variable U : uni.
Variable FT : ftable.
Variable AT : atable.
Variable ex : str -> bool.
Variable fuel : nat.
Variable fs : fsys.
Section Any.
Variable P : list lev -> res unit -> Prop.
Hypothesis Pnil : forall o, P [] o.
Hypothesis Papp : forall l l' o, P l (Ok tt) -> P l' o -> P (l ++ l') o.
Hypothesis Pall : forall FT name, (inv P (parse_dialplan U FT AT fuel fs name) /\
    forall d, snd (parse_dialplan U FT AT fuel fs name) = Ok d -> inv P (walk_jump_destinations d)) /\
  inv P (mw (load_func_odbc fuel fs name)).
Lemma whole_odbc arg dp : inv P (load_odbc ex fuel fs arg dp).
Proof. unfold load_odbc. destruct arg as [[|c s]|]; [apply Pnil|apply (Pall [])|]. cbn zeta. destruct (ex _); [apply (Pall [])|apply Pnil]. Qed.
Lemma whole_show arg dp : inv P (show_run U FT AT ex fuel fs arg dp).
Proof. apply inv_seq; [exact Papp|apply whole_odbc|]. intros fns _. apply Pall. Qed.
Lemma whole_check arg dp : inv P (check_run U FT AT ex fuel fs arg dp).
Proof.
  apply inv_seq; [exact Papp|apply whole_show|]. intros d E. unfold show_run in E. apply mbind_snd in E as (fns & _ & E). eapply Pall. exact E.
Qed.
End Any.
Lemma check_levels arg dp : Forall (LevOk fs) (fst (check_run U FT AT ex fuel fs arg dp)).
Proof. apply (whole_check (P1 fs)); [apply p1_nil|intros l l' o; apply p1_app|]. intros. apply p1_all. Qed.
Lemma check_formatted arg dp : Done (let! _ := snd (check_run U FT AT ex fuel fs arg dp) in Ok tt) -> Forall Fmt (fst (check_run U FT AT ex fuel fs arg dp)).
Proof.
  apply (whole_check P2); [intros o _; constructor| |intros; apply p2_all].
  intros l l' o H1 H2 D. apply Forall_app. split; [apply H1; unfold Done; auto|now apply H2].
Qed.
End Whole.

(* the messages of a resolved log *)
Lemma run_msgs_ok (Q : msg -> Prop) chosen l :
  (forall m, In (LMsg m) l -> Q m) -> (forall s w p, In (LBg s w) l -> Q (Msg W_APP_BAD_CASE w None [(L "app", AStr s); (L "proper", AStr p)])) ->
  forall m, In m (run_msgs chosen l) -> Q m.
Proof.
  unfold run_msgs. revert chosen. induction l as [|e l IH]; intros chosen H1 H2 m; cbn [resolve_bg]; [easy|].
  assert (K : forall ch, In m (log_msgs (snd (resolve_bg ch l))) -> Q m).
  { intros ch. apply IH; intros; [apply H1|apply H2]; now right. }
  destruct e as [m'|v w|k|k|s w]; try (specialize (K chosen); destruct (resolve_bg chosen l); exact K).
  - specialize (K chosen). destruct (resolve_bg chosen l). cbn. intros [<-|HI]; [apply H1; now left|now apply K].
  - unfold bg_use. set (ch := match chosen with None => _ | Some _ => _ end). specialize (K ch). destruct (resolve_bg ch l) as [c' r'].
    cbn [snd] in *. unfold log_msgs. rewrite flat_map_app. intros HI. apply in_app_or in HI as [HI|HI]; [|now apply K].
    destruct (str_eqb _ s); cbn -[L] in HI; [easy|]. destruct HI as [<-|[]]. apply H2. now left.
Qed.

(* every site but two supplies everything *)
Definition site_ok (s : mcls * list str) : bool := forallb (fun f => smem f (snd s)) (map fst (mfields (fst s))).
Definition is_bad (c : mcls) : bool := match c with E_DP_LABEL_INVALID | W_FUNC_DYNAMIC => true | _ => false end.
Lemma sites_checked : forallb (fun s => is_bad (fst s) || site_ok s) raise_sites = true.
Proof. vm_compute. reflexivity. Qed.
Lemma site_supplied c names : In (c, names) raise_sites -> ~ bad_site c -> forall f, In f (map fst (mfields c)) -> In f names.
Proof.
  intros H HB f HF. pose proof sites_checked as K. rewrite forallb_forall in K. specialize (K _ H). cbn [fst] in K.
  apply orb_prop in K as [K|K].
  - exfalso. apply HB. unfold bad_site. destruct c; try discriminate; auto.
  - unfold site_ok in K. rewrite forallb_forall in K. apply smem_In. now apply K.
Qed.
Lemma lookup_some {A} f (l : list (str * A)) : In f (map fst l) -> exists a, lookup f l = Some a.
Proof.
  induction l as [|[k a] l IH]; cbn; [easy|]. destruct (str_eqb_spec f k) as [->|HN]; [now exists a|]. intros [H|H]; [congruence|auto].
Qed.
Lemma format_no_key fields args : (forall a, In a args -> good_arg (snd a)) -> (forall f, In f (map fst fields) -> In f (map fst args)) ->
  format_ok fields args = Ok tt \/ format_ok fields args = Exn AttributeError.
Proof.
  intros HG. induction fields as [|[f b] r IH]; cbn; [now left|]. intros H. destruct (lookup_some f args (H f (or_introl eq_refl))) as [a E].
  rewrite E. apply lookup_In', HG in E. cbn in E. assert (IH' := IH (fun f' K => H f' (or_intror K))). clear IH.
  destruct a as [s|z| |s t| |]; cbn; try exact IH'. destruct E as [E1 E2]. destruct b.
  - exact IH'.
  - destruct s as [t'|e|]; cbn; [exact IH'| |easy]. rewrite (E2 e eq_refl). now right.
Qed.

Section Final.
Variable U : uni.
Variable FT : ftable.
Variable AT : atable.
Variable ex : str -> bool.
Variable fuel : nat.
Variable fs : fsys.
Lemma check_msgs arg dp chosen m : In m (run_msgs chosen (fst (check_run U FT AT ex fuel fs arg dp))) ->
  Placed fs m /\ In (m_cls m, map fst (m_args m)) raise_sites /\ (forall a, In a (m_args m) -> good_arg (snd a)).
Proof.
  pose proof (check_levels U FT AT ex fuel fs arg dp) as F. rewrite Forall_forall in F.
  apply (run_msgs_ok (fun m => Placed fs m /\ In (m_cls m, map fst (m_args m)) raise_sites /\ (forall a, In a (m_args m) -> good_arg (snd a)))).
  - intros m' H. exact (F _ H).
  - intros s w p H. apply F in H. cbn [LevOk] in H. cbn. split; [|split; [exact site_case|ga]]. split; [now left|easy].
Qed.
Theorem all_supplied arg dp chosen m : In m (run_msgs chosen (fst (check_run U FT AT ex fuel fs arg dp))) -> ~ bad_site (m_cls m) ->
  Supplied m /\ (format_ok (mfields (m_cls m)) (m_args m) = Ok tt \/ format_ok (mfields (m_cls m)) (m_args m) = Exn AttributeError).
Proof.
  intros H HB. apply check_msgs in H as (_ & H1 & H2). pose proof (site_supplied _ _ H1 HB) as K. split; [exact K|]. now apply format_no_key.
Qed.
Theorem all_formatted arg dp chosen : snd (check_run U FT AT ex fuel fs arg dp) = Ok tt ->
  forall m, In m (run_msgs chosen (fst (check_run U FT AT ex fuel fs arg dp))) -> format_ok (mfields (m_cls m)) (m_args m) = Ok tt.
Proof.
  intros E. pose proof (check_formatted U FT AT ex fuel fs arg dp) as F. rewrite E in F. specialize (F (or_introl eq_refl)). rewrite Forall_forall in F.
  apply (run_msgs_ok (fun m => format_ok (mfields (m_cls m)) (m_args m) = Ok tt)); [|reflexivity]. intros m H. exact (F _ H).
Qed.
Theorem all_placed arg dp chosen m : In m (run_msgs chosen (fst (check_run U FT AT ex fuel fs arg dp))) -> Placed fs m.
Proof. intros H. now apply check_msgs in H. Qed.
End Final.

(* ---- C22 ---- *)
Lemma join_mid c l1 x l2 : join [c] (l1 ++ x :: l2) =
  (match l1 with [] => [] | _ => join [c] l1 ++ [c] end) ++ x ++ (match l2 with [] => [] | _ => c :: join [c] l2 end).
Proof.
  induction l1 as [|y l1 IH].
  - destruct l2; cbn; [now rewrite app_nil_r|easy].
  - cbn [app]. assert (E : forall r, r <> [] -> join [c] (y :: r) = y ++ [c] ++ join [c] r) by (now intros [|z r]).
    rewrite E by now destruct l1. rewrite IH. destruct l1 as [|z l1]; cbn [app]; [cbn; now rewrite <- !app_assoc|].
    rewrite (E (z :: l1)) by easy. now rewrite <- !app_assoc.
Qed.
Lemma split_fields c s item : In item (split_on c s) <->
  exists a b, s = a ++ item ++ b /\ ~ In c item /\ (a = [] \/ exists a', a = a' ++ [c]) /\ (b = [] \/ exists b', b = c :: b').
Proof.
  split.
  - intros H. pose proof (split_on_free c s) as F. rewrite Forall_forall in F. specialize (F _ H). apply in_split in H as (l1 & l2 & E).
    exists (match l1 with [] => [] | _ => join [c] l1 ++ [c] end), (match l2 with [] => [] | _ => c :: join [c] l2 end).
    split; [rewrite <- join_mid, <- E; symmetry; apply join_split_on|]. split; [easy|].
    split; [destruct l1; [now left|right; eauto]|destruct l2; [now left|right; eauto]].
  - intros (a & b & E & HN & HA & HB).
    set (l1 := match a with [] => [] | _ => split_on c (removelast a) end).
    set (l2 := match b with [] => [] | _ :: b' => split_on c b' end).
    assert (E1 : a = match l1 with [] => [] | _ => join [c] l1 ++ [c] end).
    { destruct HA as [->|[a' ->]]; [easy|]. unfold l1. destruct (a' ++ [c]) eqn:EA; [now destruct a'|]. rewrite <- EA, removelast_last.
      destruct (split_on c a') eqn:ES; [now apply split_on_nonempty in ES|]. now rewrite <- ES, join_split_on. }
    assert (E2 : b = match l2 with [] => [] | _ => c :: join [c] l2 end).
    { destruct HB as [->|[b' ->]]; [easy|]. unfold l2. destruct (split_on c b') eqn:ES; [now apply split_on_nonempty in ES|]. now rewrite <- ES, join_split_on. }
    assert (EJ : s = join [c] (l1 ++ item :: l2)) by (now rewrite join_mid, <- E1, <- E2).
    rewrite EJ, split_on_unique; [apply in_or_app; right; now left|now destruct l1|].
    apply Forall_app. split; [unfold l1; destruct a; [constructor|apply split_on_free]|]. constructor; [easy|].
    unfold l2. destruct b; [constructor|apply split_on_free].
Qed.
Lemma last_snoc_iff {A} (l : list A) x : last_opt l = Some x <-> exists p, l = p ++ [x].
Proof.
  split.
  - induction l as [|a l IH]; cbn; [easy|]. destruct l; [intros [= ->]; now exists []|]. intros H. destruct (IH H) as [p ->]. now exists (a :: p).
  - intros [p ->]. induction p as [|a p IH]; [easy|]. cbn [app last_opt]. rewrite IH. now destruct p.
Qed.
Theorem muted_iff env c : muted env c = true <-> Silenced env c.
Proof.
  unfold muted, Silenced, ignores. cbn zeta. split.
  - destruct (existsb (fun i => startswith i (mname c)) _); [|easy]. rewrite existsb_exists. intros (i & HI & HT).
    apply filter_In in HI as [HI HN]. destruct env as [s|]; [|cbn in HI; destruct HI as [<-|[]]; discriminate].
    exists s, i. split; [easy|]. split; [now apply split_fields|]. split; [now intros ->|].
    apply orb_prop in HT as [HT|HT]; [left; now apply str_eqb_eq|]. apply andb_prop in HT as [HL HS]. right.
    destruct (last_opt i) as [z|] eqn:EL; [|easy]. apply N.eqb_eq in HL. subst z. apply last_snoc_iff in EL as [p EP].
    apply startswith_app in HS as [t HS]. now exists p, t.
  - intros (s & i & -> & HF & HN & HC). apply split_fields in HF.
    assert (HI : In i (filter (fun i => match i with [] => false | _ => true end) (split_on 44 s))).
    { apply filter_In. split; [exact HF|]. now destruct i. }
    assert (HS : startswith i (mname c) = true).
    { apply startswith_app. destruct HC as [->|(p & t & _ & E)]; [exists []; now rewrite app_nil_r|now exists t]. }
    assert (E1 : existsb (fun i => startswith i (mname c)) (filter (fun i => match i with [] => false | _ => true end) (split_on 44 s)) = true).
    { apply existsb_exists. now exists i. }
    rewrite E1. apply existsb_exists. exists i. split; [exact HI|]. destruct HC as [->|(p & t & EP & E)]; [now rewrite str_eqb_refl|].
    rewrite HS, (proj2 (last_snoc_iff i 95) (ex_intro _ p EP)). apply orb_true_r.
Qed.

(* [raised] as a dict *)
Lemma mname_inj c d : mname c = mname d -> c = d.
Proof. destruct c, d; try reflexivity; vm_compute; discriminate. Qed.
Definition RaisedOk (r : raised) : Prop := Forall (fun cm => snd cm <> [] /\ Forall (fun m => m_cls m = fst cm) (snd cm)) r.
Lemma raised_add_ok r m : RaisedOk r -> RaisedOk (raised_add r m).
Proof.
  induction 1 as [|[c ms] r [H1 H2] F IH]; cbn [raised_add]; [constructor; [split; [easy|now constructor]|constructor]|].
  destruct (str_eqb_spec (mname c) (mname (m_cls m))) as [E|E]; [|now constructor].
  constructor; [|easy]. cbn in *. split; [now destruct ms|]. apply Forall_app. split; [easy|]. constructor; [symmetry; now apply mname_inj|constructor].
Qed.
Lemma raised_add_in r m x : In x (flat_map snd (raised_add r m)) <-> x = m \/ In x (flat_map snd r).
Proof.
  induction r as [|[c ms] r IH]; cbn [raised_add]; [cbn; intuition auto|]. destruct (str_eqb _ _); cbn; rewrite !in_app_iff; cbn; [intuition auto|].
  rewrite IH. tauto.
Qed.
Lemma raise_all_ok ms : forall r, RaisedOk r -> RaisedOk (fold_left raised_add ms r) /\
  forall x, In x (flat_map snd (fold_left raised_add ms r)) <-> In x (flat_map snd r) \/ In x ms.
Proof.
  induction ms as [|m ms IH]; intros r H; cbn; [split; [easy|]; intuition auto|]. destruct (IH _ (raised_add_ok r m H)) as [K1 K2]. split; [easy|].
  intros x. rewrite K2, raised_add_in. intuition auto.
Qed.
Definition Formatted (ms : list msg) : Prop := forall m, In m ms -> format_ok (mfields (m_cls m)) (m_args m) = Ok tt.
Lemma printed_in env ms m : In m (printed env ms) <-> In m ms /\ format_ok (mfields (m_cls m)) (m_args m) = Ok tt /\ ~ Silenced env (m_cls m).
Proof.
  unfold printed. rewrite filter_In, <- muted_iff. destruct (format_ok _ _) as [[]| |]; [|intuition discriminate|intuition discriminate].
  destruct (muted env (m_cls m)); cbn; intuition (try easy; try congruence).
Qed.
Lemma status_iff env ms : Formatted ms -> check_status env (raise_all ms) = (match printed env ms with [] => 0 | _ => 1 end).
Proof.
  intros HF. unfold check_status, raise_all. destruct (raise_all_ok ms [] (Forall_nil _)) as [K1 K2].
  set (r := fold_left raised_add ms []) in *. clearbody r. cbn in K2. unfold RaisedOk in K1. rewrite Forall_forall in K1.
  destruct (existsb _ r) eqn:E.
  - apply existsb_exists in E as ([c l] & HI & HM). cbn in HM. destruct l as [|m l]; [easy|].
    assert (K : In m ms). { assert (X : In m (flat_map snd r)) by (apply in_flat_map; exists (c, m :: l); split; [easy|now left]). apply K2 in X. tauto. }
    assert (KP : In m (printed env ms)) by (apply filter_In; split; [easy|]; now rewrite (HF m K)). now destruct (printed env ms).
  - destruct (printed env ms) as [|m p] eqn:EP; [easy|]. assert (KP : In m (printed env ms)) by (rewrite EP; now left).
    apply filter_In in KP as [KI KM]. assert (KR : In m (flat_map snd r)) by (apply K2; auto). rewrite (HF m KI) in KM.
    apply in_flat_map in KR as ([c l] & HR & HL). cbn in HL. destruct (K1 _ HR) as [N1 N2]. cbn in N1, N2. rewrite Forall_forall in N2.
    assert (X : existsb (fun cm => match snd cm with m :: _ => negb (muted env (m_cls m)) | [] => false end) r = true); [|congruence].
    apply existsb_exists. exists (c, l). split; [easy|]. cbn. destruct l as [|m' l]; [easy|]. rewrite (N2 m' (or_introl eq_refl)), <- (N2 m HL). exact KM.
Qed.
Lemma process_exact env {A} (m : M A) : ((exists a, snd m = Ok a) -> Formatted (run_msgs None (fst m))) -> let p := process_of env m in
  (forall x, In x (p_printed p) <-> In x (p_raised p) /\ format_ok (mfields (m_cls x)) (m_args x) = Ok tt /\ ~ Silenced env (m_cls x)) /\
  (forall n, p_end p = Ok n -> Formatted (p_raised p) /\ ((n = 1 /\ p_printed p <> []) \/ (n = 0 /\ p_printed p = []))) /\
  (forall e, p_end p = Exn e <-> snd m = Exn e) /\ (p_end p = Hang <-> snd m = Hang).
Proof.
  intros HF. cbn zeta. unfold process_of. cbn [p_printed p_raised p_end]. split; [|split].
  - intros x. apply printed_in.
  - intros n. destruct (snd m) eqn:E; cbn; try easy. specialize (HF (ex_intro _ _ eq_refl)). rewrite status_iff by easy. intros [= <-].
    split; [easy|]. destruct (printed env _); [now right|now left].
  - destruct (snd m); cbn; (split; [intros|]; split; intros; congruence).
Qed.
Lemma odbc_formatted fuel fs name : (exists a, snd (mw (load_func_odbc fuel fs name)) = Ok a) -> Formatted (run_msgs None (fst (mw (load_func_odbc fuel fs name)))).
Proof.
  intros [a E]. pose proof (proj2 (p2_all uni_ascii [] [] fuel fs name)) as F. unfold inv, P2 in F. rewrite E in F. specialize (F (or_introl eq_refl)).
  rewrite Forall_forall in F. intros m. apply (run_msgs_ok (fun m => format_ok (mfields (m_cls m)) (m_args m) = Ok tt)); [|reflexivity]. intros m' H. exact (F _ H).
Qed.
Lemma odbc_placed fuel fs name m : In m (run_msgs None (fst (mw (load_func_odbc fuel fs name)))) -> Placed fs m.
Proof.
  pose proof (proj2 (p1_all fs uni_ascii [] [] fuel name)) as F. unfold inv, P1 in F. rewrite Forall_forall in F.
  apply (run_msgs_ok (fun m => Placed fs m)).
  - intros m' H. apply F in H. now destruct H.
  - intros s w p H. apply F in H. cbn [LevOk] in H. split; [now left|easy].
Qed.
