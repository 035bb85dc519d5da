(* Final theorems about applications: C24-C26, C33, C34. *)
From Coq Require Import Permutation.
From Verif Require Import Base PyStr Defines Var VarFun AppM Tables Loader Spec_Var Spec_App Var_proofs
  App_proofs AppT_proofs Loader_proofs.

Definition at0 : loc := Where (L "x") 1 [].

Lemma Flats l : Forall2 Flat l (map elems l).
Proof. induction l; constructor; [apply Flat_elems|easy]. Qed.
Lemma Flats_fun l ls : Forall2 Flat l ls -> ls = map elems l.
Proof. induction 1 as [|x y l ls Hx _ IH]; [easy|]. cbn. now rewrite (Flat_fun _ _ Hx), IH. Qed.

(* ---- C24 ---- *)

(* [Flat] (Spec_Var) relates a str or Var to its sequence of characters and
   variables; every value has exactly one (C30_flat_unique). *)
Theorem C24_raw_lossless : forall delim t l, Flat t l ->
  exists args, Forall2 Flat (separate_args (SlTok t) delim false) args /\ glue delim args = l.
Proof.
  intros d t l Hf. rewrite (Flat_fun _ _ Hf). exists (map elems (separate_args (SlTok t) d false)).
  split; [apply Flats|apply separate_glue].
Qed.
Print Assumptions C24_raw_lossless.

Theorem C24_quotes_removed : forall delim t raws args,
  Forall2 Flat (separate_args (SlTok t) delim false) raws ->
  Forall2 Flat (separate_args (SlTok t) delim true) args ->
  Forall2 (Unquoted delim) raws args.
Proof. intros d t raws args H1 H2. apply Flats_fun in H1, H2. subst. apply separate_unquoted. Qed.
Print Assumptions C24_quotes_removed.

(* The removal determines its result, so nothing else can be meant. *)
Theorem C24_unquoted_unique : forall delim l m m', Unquoted delim l m -> Unquoted delim l m' -> m = m'.
Proof. intros d l m m' H. now apply Unquoted_fun. Qed.
Print Assumptions C24_unquoted_unique.

(* Data without variables gives arguments without variables. *)
Theorem C24_strs : forall s delim rm, exists l, separate_args (SlTok (TS s)) delim rm = map TS l.
Proof.
  intros s d rm. pose proof (separate_TS s d rm) as H. induction H as [|x l [y ->] _ [m IH]]; [now exists []|].
  exists (y :: m). cbn. now rewrite <- IH.
Qed.
Print Assumptions C24_strs.

Definition c24_data : tok := vjoin [TS (L """a,b"",c\,"); TVar (TS (L "x")); TS (L "(d,e),f")].
Example C24_example :
  separate_args (SlTok c24_data) 44 false =
    [TS (L """a,b"""); TList [TS (L "c\,"); TVar (TS (L "x")); TS (L "(d,e)")]; TS (L "f")] /\
  separate_args (SlTok c24_data) 44 true =
    [TS (L "a,b"); TList [TS (L "c,"); TVar (TS (L "x")); TS (L "(d,e)")]; TS (L "f")].
Proof. split; reflexivity. Qed.

(* ---- C25 ---- *)

Theorem C25_top_level : forall delim t l, DelimOk delim -> Flat t l ->
  exists args, Forall2 Flat (separate_args (SlTok t) delim false) args /\ Separated delim l args.
Proof.
  intros d t l Hd Hf. rewrite (Flat_fun _ _ Hf). exists (map elems (separate_args (SlTok t) d false)).
  split; [apply Flats|now apply separate_Separated].
Qed.
Print Assumptions C25_top_level.

Theorem C25_unique : forall delim l args args',
  Separated delim l args -> Separated delim l args' -> args = args'.
Proof. exact Separated_fun. Qed.
Print Assumptions C25_unique.

(* All but brackets, parentheses and the backslash; the code uses , ? and : *)
Theorem C25_delimiters : forall d, DelimOk d <-> d <> 91 /\ d <> 93 /\ d <> 40 /\ d <> 41 /\ d <> 92.
Proof.
  intros d. unfold DelimOk. change (L "[]()\") with [91; 93; 40; 41; 92]. cbn. split; [intros H; repeat split; intros ->; tauto|].
  intros (? & ? & ? & ? & ?) Hin. repeat destruct Hin as [Hin|Hin]; try congruence; easy.
Qed.
Print Assumptions C25_delimiters.

Example C25_example :
  separate_args (SlTok (TS (L "a(b,c)d,""e,f"",g[h,]],i)"))) 44 false =
    map TS [L "a(b,c)d"; L """e,f"""; L "g[h,]]"; L "i)"] /\
  TopLevel 44 (map Ch (L "a(b,c)d")) /\ ~ TopLevel 44 (map Ch (L "a(b")).
Proof.
  split; [reflexivity|]. assert (Hd : DelimOk 44) by (apply C25_delimiters; lia). split.
  - apply top_spec; [exact Hd|reflexivity].
  - rewrite <- top_spec by exact Hd. vm_compute. discriminate.
Qed.

(* Old-style data of GotoIf, GosubIf and ExecIf arrives as a list of
   arguments, and then nothing is split however many there are. *)
Theorem C25_list_refuted : exists l,
  separate_args (SlTok (TS (L "1,a&b,c&d"))) 44 false = TS (L "1") :: l /\
  separate_args (SlTok (TS (L "a&b"))) 38 false = [TS (L "a"); TS (L "b")] /\
  separate_args (SlList l) 38 false = [TS (L "a&bc&d")].
Proof. exists [TS (L "a&b"); TS (L "c&d")]. repeat split. Qed.
Print Assumptions C25_list_refuted.

(* ---- C26 ---- *)

(* The loop of Goto and GotoIf has no end for more than three arguments: no
   number of rounds suffices.  [Hang] is such a loop. *)
Theorem C26_goto_loop_refuted :
  (forall rounds args, (3 < length args)%nat -> pad_loop rounds args = Hang) /\
  snd (application uni_ascii funcs_v13 apps_v13 (L "Goto(a,b,1,x)") at0) = Hang /\
  snd (application uni_ascii funcs_v13 apps_v13 (L "GotoIf($[1]?a,b,1,x)") at0) = Hang.
Proof. split; [exact pad_loop_long|split; vm_compute; reflexivity]. Qed.
Print Assumptions C26_goto_loop_refuted.

(* Missing for the full property: Goto and GotoIf with more than three
   arguments, see above.  [nested] is what ExecIf would call. *)
Theorem C26_goto_partial : forall U FT nested a data w l, a_kind a = AGoto -> Flat data l ->
  (snd (app_call U FT nested a data w) = Hang -> exists args, Separated 44 l args /\ (3 < length args)%nat) /\
  ((exists args, Separated 44 l args /\ (3 < length args)%nat) ->
     forall ds, snd (app_call U FT nested a data w) <> Ok ds) /\
  (forall ds, snd (app_call U FT nested a data w) = Ok ds ->
     exists args d, Separated 44 l args /\ ds = [d] /\ Padded args d).
Proof. intros U FT nested a data w l Hk Hf. rewrite (Flat_fun _ _ Hf). now apply goto_exact. Qed.
Print Assumptions C26_goto_partial.

Theorem C26_gotoif_partial : forall U FT nested a data w l, a_kind a = AGotoIf -> Flat data l ->
  (snd (app_call U FT nested a data w) = Hang ->
     exists bs b args, Branches l bs /\ In b bs /\ Args 44 b args /\ (3 < length args)%nat) /\
  ((exists bs b args, Branches l bs /\ In b bs /\ Args 44 b args /\ (3 < length args)%nat) ->
     forall ds, snd (app_call U FT nested a data w) <> Ok ds) /\
  (forall ds bs, snd (app_call U FT nested a data w) = Ok ds -> Branches l bs ->
     Forall2 (fun b d => exists args, Args 44 b args /\ Padded args d) bs ds).
Proof. intros U FT nested a data w l Hk Hf. rewrite (Flat_fun _ _ Hf). now apply gotoif_exact. Qed.
Print Assumptions C26_gotoif_partial.

Theorem C26_gosub : forall U FT nested a data w l, a_kind a = AGosub -> Flat data l ->
  snd (app_call U FT nested a data w) <> Hang /\
  (forall ds, snd (app_call U FT nested a data w) = Ok ds -> exists d, ds = [d]) /\
  (forall ds args, snd (app_call U FT nested a data w) = Ok ds -> Separated 44 l args ->
     (length args <= 3)%nat -> ~ In (Ch 40) (last args []) -> exists d, ds = [d] /\ Padded args d).
Proof. intros U FT nested a data w l Hk Hf. rewrite (Flat_fun _ _ Hf). now apply gosub_exact. Qed.
Print Assumptions C26_gosub.

Theorem C26_gosubif : forall U FT nested a data w l, a_kind a = AGosubIf -> Flat data l ->
  snd (app_call U FT nested a data w) <> Hang /\
  (forall ds bs, snd (app_call U FT nested a data w) = Ok ds -> Branches l bs -> length ds = length bs).
Proof.
  intros U FT nested a data w l Hk Hf. rewrite (Flat_fun _ _ Hf). split; [now apply gosubif_ends|].
  intros ds bs. now apply gosubif_triples.
Qed.
Print Assumptions C26_gosubif.

Theorem C26_gotoiftime : forall U FT nested a data w, a_kind a = AIfStyle ->
  snd (app_call U FT nested a data w) <> Hang.
Proof. intros U FT nested a data w. apply ifstyle_ends. Qed.
Print Assumptions C26_gotoiftime.

(* Any application line with fewer than three commas ends, ExecIf and what is
   inside it included; more fuel never changes the outcome. *)
Theorem C26_application_partial : forall U FT AT raw w,
  (count 44 raw < 3)%nat -> snd (application U FT AT raw w) <> Hang.
Proof. exact application_ends. Qed.
Print Assumptions C26_application_partial.

Theorem C26_fuel : forall U FT AT raw w k, (app_fuel raw <= k)%nat ->
  app_new U FT AT k (SlTok (TS raw)) w = application U FT AT raw w.
Proof. exact application_fuel. Qed.
Print Assumptions C26_fuel.

Theorem C26_args_unique : forall delim l m m', Args delim l m -> Args delim l m' -> m = m'.
Proof. exact Args_fun. Qed.
Print Assumptions C26_args_unique.
Theorem C26_branches_unique : forall l m m', Branches l m -> Branches l m' -> m = m'.
Proof. exact Branches_fun. Qed.
Print Assumptions C26_branches_unique.

Example C26_example :
  snd (application uni_ascii funcs_v13 apps_v13 (L "GotoIf($[${x}=1]?ctx,100,1:lbl)") at0) =
    Ok [Dest (Some (TS (L "ctx"))) (Some (TS (L "100"))) (SlTok (TS (L "1")));
        Dest None None (SlTok (TS (L "lbl")))] /\
  snd (application uni_ascii funcs_v13 apps_v13 (L "Gosub(sub,s,1(a,b))") at0) =
    Ok [Dest (Some (TS (L "sub"))) (Some (TS (L "s"))) (SlTok (TS (L "1")))] /\
  snd (application uni_ascii funcs_v13 apps_v13 (L "Goto(s,1)") at0) =
    Ok [Dest None (Some (TS (L "s"))) (SlTok (TS (L "1")))].
Proof. repeat split; vm_compute; reflexivity. Qed.

(* ---- C33 ---- *)

(* [ops]: any sequence of registrations and lookups, on a new loader. *)
Theorem C33_known : forall A (ops : list (ld_op A)) k a, UnkFirst ops -> LastReg ops k a ->
  snd (ld_get (fst (ld_run ld_empty ops)) k) = Ok a.
Proof. intros A. exact get_known. Qed.
Print Assumptions C33_known.

Theorem C33_unknown : forall A (ops : list (ld_op A)) k u, UnkFirst ops -> NeverReg ops k ->
  LastReg ops (L "unknown") u -> snd (ld_get (fst (ld_run ld_empty ops)) k) = Ok u.
Proof. intros A. exact get_unknown. Qed.
Print Assumptions C33_unknown.

Theorem C33_no_unknown : forall A (ops : list (ld_op A)) k, UnkFirst ops -> NeverReg ops k ->
  NeverReg ops (L "unknown") -> snd (ld_get (fst (ld_run ld_empty ops)) k) = Exn NotImplementedError.
Proof. intros A. exact get_no_unknown. Qed.
Print Assumptions C33_no_unknown.

(* The pure tables used in the rest of the model ([app_get], [func_get]) are
   the loader: whatever is looked up in whatever order, each answer is the
   entry of the table, or the unknown entry. *)
Theorem C33_table : forall A (t : list (str * A)) u gets i k,
  NoDup (map fst t) -> lookup (L "unknown") t = Some u -> nth_error gets i = Some k ->
  nth_error (snd (ld_run (fst (ld_run ld_empty (regs_of t))) (map LGet gets))) i =
  Some (Ok (match lookup k t with Some a => a | None => u end)).
Proof. intros A. exact table_exact. Qed.
Print Assumptions C33_table.

Theorem C33_order : forall A (t t' : list (str * A)) u gets,
  NoDup (map fst t) -> lookup (L "unknown") t = Some u -> Permutation t t' ->
  snd (ld_run (fst (ld_run ld_empty (regs_of t))) (map LGet gets)) =
  snd (ld_run (fst (ld_run ld_empty (regs_of t'))) (map LGet gets)).
Proof.
  intros A t t' u gets Hn Hu Hp.
  assert (Hn' : NoDup (map fst t')) by (eapply Permutation_NoDup; [apply Permutation_map; exact Hp|exact Hn]).
  assert (Hu' : lookup (L "unknown") t' = Some u) by now rewrite <- (perm_lookup t t').
  assert (Hlen : forall t gets, length (snd (@ld_run A t (map LGet gets))) = length gets).
  { clear. intros t gets. revert t. induction gets as [|g r IH]; intros t; [easy|]. cbn.
    destruct (ld_get t g) as [s1 x]. specialize (IH s1). destruct (ld_run s1 (map LGet r)). cbn in *. congruence. }
  apply nth_error_ext_list. intros i. destruct (nth_error gets i) as [k|] eqn:E.
  - rewrite (table_exact t u gets i k), (table_exact t' u gets i k) by easy. now rewrite (perm_lookup t t').
  - apply nth_error_None in E. rewrite !(proj2 (nth_error_None _ _)); [easy| |]; now rewrite Hlen.
Qed.
Print Assumptions C33_order.

(* Both real tables fit. *)
Theorem C33_tables_v13 : NoDup (map fst apps_v13) /\ NoDup (map fst funcs_v13) /\
  lookup (L "unknown") apps_v13 = Some (AInfo (L "Unknown") (L "unknown") APlain) /\
  lookup (L "unknown") funcs_v13 = Some (FInfo (L "UNKNOWN") (L "unknown") FPlain).
Proof.
  assert (G : forall l : list str, forallb (fun i => negb (smem (nth i l []) (skipn (S i) l))) (seq 0 (length l)) = true -> NoDup l).
  { clear. intros l H. rewrite forallb_forall in H. apply NoDup_by_tails. intros i Hi.
    specialize (H i). rewrite in_seq in H. specialize (H ltac:(lia)). apply Bool.negb_true_iff in H.
    intros Hin. assert (E : smem (nth i l []) (skipn (S i) l) = true); [|congruence].
    unfold smem. apply existsb_exists. exists (nth i l []). split; [easy|]. now apply str_eqb_eq. }
  repeat split; try (vm_compute; reflexivity); apply G; vm_compute; reflexivity.
Qed.
Print Assumptions C33_tables_v13.

(* Every use of an unknown application or function is reported. *)
Theorem C33_app_reported : forall U FT AT a name data w,
  name <> [] -> ~ In 40 name -> strip_p isspace name = name ->
  lookup (u_lower U name) AT = None -> lookup (L "unknown") AT = Some a ->
  a_name a = L "Unknown" -> a_kind a = APlain -> name <> L "Unknown" ->
  exists l, fst (application U FT AT (name ++ 40 :: data) w) =
    LApp (u_lower U name) :: LMsg (Msg E_APP_MISSING w None [(L "app", AStr name)]) :: l.
Proof. exact unknown_app. Qed.
Print Assumptions C33_app_reported.

Theorem C33_func_reported : forall U FT f name w,
  lookup (u_lower U name) FT = None -> lookup (L "unknown") FT = Some f ->
  f_name f = L "UNKNOWN" -> name <> L "UNKNOWN" ->
  func_check U FT name w =
    ([LFunc (u_lower U name); LMsg (Msg E_FUNC_MISSING w None [(L "func", AStr name)])], Ok f).
Proof. exact unknown_func. Qed.
Print Assumptions C33_func_reported.

Example C33_example :
  snd (ld_run ld_empty [LReg (L "noop") 1; LReg (L "unknown") 2; LGet (L "foo"); LGet (L "noop"); LGet (L "foo");
                        LReg (L "foo") 3; LGet (L "foo")]) = [Ok 2; Ok 1; Ok 2; Ok 3] /\
  UnkFirst [LReg (L "noop") 1; LReg (L "unknown") 2; LGet (L "foo"); LGet (L "noop"); LGet (L "foo");
                        LReg (L "foo") 3; LGet (L "foo")] /\
  map (fun m => mname (m_cls m))
    (log_msgs (fst (application uni_ascii funcs_v13 apps_v13 (L "Foo(${BAR(x)}${BAR(y)})") at0))) =
    [L "E_APP_MISSING"; L "E_FUNC_MISSING"; L "E_FUNC_MISSING"].
Proof.
  split; [vm_compute; reflexivity|]. split; [|vm_compute; reflexivity].
  intros o1 a o2 E k.
  do 7 (destruct o1 as [|? o1]; [try discriminate; cbn in *; tauto|injection E as <- E; try (cbn; intros [H|H]; [discriminate|])]); try (now destruct o1).
Qed.

(* ---- C34 ---- *)

Theorem C34_background : forall log ref, Reference log ref -> Resolved ref log (snd (resolve_bg None log)).
Proof. intros l ref H. apply resolve_exact; [easy|exact H]. Qed.
Print Assumptions C34_background.

Theorem C34_reference_unique : forall log, exists ref, Reference log ref /\ forall r, Reference log r -> r = ref.
Proof. exact Reference_ex. Qed.
Print Assumptions C34_reference_unique.

Example C34_example :
  let log s := fst (application uni_ascii funcs_v13 apps_v13 s at0) in
  let l := log (L "BACKGROUND(a)") ++ log (L "BackGround(a)") ++ log (L "NoOp()") ++ log (L "Background(b)") ++
           log (L "ExecIf($[${x}]?BackGround(c))") in
  Reference l (L "BackGround") /\
  map m_args (log_msgs (snd (resolve_bg None l))) =
    [[(L "app", AStr (L "BACKGROUND")); (L "proper", AStr (L "Background"))];
     [(L "app", AStr (L "Background")); (L "proper", AStr (L "BackGround"))]].
Proof.
  cbn zeta. split; [|vm_compute; reflexivity].
  set (l := _ ++ _). 
  assert (E : l = [LApp (L "background"); LBg (L "BACKGROUND") at0; LApp (L "background")] ++
                  LBg (L "BackGround") at0 :: skipn 4 l) by (vm_compute; reflexivity).
  apply (Rf_first l _ _ _ _ E); [now right|].
  intros s' w' [H|[H|[H|[]]]]; try discriminate. injection H as <- _. intros [H|H]; discriminate.
Qed.
