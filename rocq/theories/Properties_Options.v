(* C73: --func-odbc is used at most once. *)
From Verif Require Import Base PyStr Defines FileRd Config VarFun AppM Dialplan FuncOdbc Check Report Show Options Spec_Options Tables Properties_Crash.

Theorem C73_stored : forall uses x, Stored uses x <-> store_all None uses = x.
Proof.
  intros uses x. split.
  - intros [|o v|u o v r]; [easy|easy|]. now destruct u as [o' v'].
  - intros <-. destruct uses as [|[o v] [|[o' v'] r]]; constructor.
Qed.
Print Assumptions C73_stored.
(* The command runs if and only if the option is used at most once. *)
Theorem C73_runs : forall U FT AT there fuel fs env uses name,
  (exists p, check_main U FT AT there fuel fs env uses name = inr p) <-> (length uses <= 1)%nat.
Proof.
  intros U FT AT there fuel fs env uses name. unfold check_main. destruct uses as [|[o v] [|[o' v'] r]]; cbn.
  - split; [lia|eauto].
  - split; [lia|eauto].
  - split; [intros [p [=]]|lia].
Qed.
Print Assumptions C73_runs.
(* What the commands do is what is said of them for the value that is stored. *)
Theorem C73_value : forall U FT AT there fuel fs env uses arg name, Stored uses (inr arg) ->
  check_main U FT AT there fuel fs env uses name = inr (dialplan_check U FT AT there fuel fs env arg name) /\
  modules_main U FT AT there fuel fs uses name = inr (modules_command U FT AT fuel fs there arg name).
Proof.
  intros U FT AT there fuel fs env uses arg name H. apply C73_stored in H. unfold check_main, modules_main.
  rewrite H. now split.
Qed.
Print Assumptions C73_value.
(* An empty value is a use: it says that no functions are to be read, wherever
   there is a func_odbc.conf. *)
Theorem C73_empty : forall U FT AT there fuel fs env o name,
  check_main U FT AT there fuel fs env [(o, [])] name = inr (dialplan_check U FT AT (fun _ => false) fuel fs env None name) /\
  forall v r, check_main U FT AT there fuel fs env ((o, []) :: (o, v) :: r) name = inl (o ++ L " appears several times").
Proof. now split. Qed.
Print Assumptions C73_empty.
(* modules-show is alike. *)
Theorem C73_modules : forall U FT AT there fuel fs uses name,
  ((exists x, modules_main U FT AT there fuel fs uses name = inr x) <-> (length uses <= 1)%nat) /\
  forall o, modules_main U FT AT there fuel fs [(o, [])] name = inr (modules_command U FT AT fuel fs (fun _ => false) None name) /\
    forall v r, modules_main U FT AT there fuel fs ((o, []) :: (o, v) :: r) name = inl (o ++ L " appears several times").
Proof.
  intros U FT AT there fuel fs uses name. split; [|now split].
  unfold modules_main. destruct uses as [|[o v] [|[o' v'] r]]; cbn [store_all store_from unique_store length].
  - split; [lia|eauto].
  - split; [lia|eauto].
  - split; [intros [p [=]]|lia].
Qed.
Print Assumptions C73_modules.
(* "At most once" for an option with a default: one use is refused. *)
Theorem C73_default_refuted : ~ forall default uses, (length uses <= 1)%nat -> exists x, store_all default uses = inr x.
Proof. intros H. destruct (H (Some []) [(L "--x", L "a")]) as [x E]; [cbn; lia|discriminate E]. Qed.
Print Assumptions C73_default_refuted.
Theorem C73_default : forall d o v r, store_all (Some d) [] = inr (Some d) /\ store_all (Some d) ((o, v) :: r) = inl (o ++ L " appears several times").
Proof. now split. Qed.
Print Assumptions C73_default.

(* ---- examples ---- *)
Definition op_fs : fsys := fs_of [(L "/a/x", L "[general]" ++ [10] ++ L "[globals]" ++ [10] ++ L "[c]" ++ [10] ++ L "exten => 1,1,NoOp(${ODBC_F()})" ++ [10]);
  (L "/a/func_odbc.conf", L "[F]" ++ [10] ++ L "readsql=SELECT 1" ++ [10])].
Definition op_run (uses : list (str * str)) : option (list mcls) :=
  match check_main uni_ascii funcs_v13 apps_v13 (str_eqb (L "/a/func_odbc.conf")) 100 op_fs None uses (L "/a/x") with
  | inl _ => None
  | inr p => Some (map m_cls (p_raised p))
  end.
(* The function is known if its file is read: without the option, or with its name. *)
Example C73_example : op_run [] = op_run [(L "--func-odbc", L "/a/func_odbc.conf")] /\
  op_run [] <> op_run [(L "--func-odbc", [])] /\ op_run [(L "--func-odbc", []); (L "--func", [])] = None /\
  Stored [(L "--func-odbc", []); (L "--func", [])] (inl (L "--func appears several times")).
Proof. split; [vm_compute; reflexivity|]. split; [vm_compute; discriminate|]. split; [vm_compute; reflexivity|constructor]. Qed.
Example C73_example_told : op_run [(L "--func-odbc", [])] = Some [E_FUNC_MISSING].
Proof. vm_compute. reflexivity. Qed.
Example C73_example_modules :
  (match modules_main uni_ascii funcs_v13 apps_v13 (str_eqb (L "/a/func_odbc.conf")) 100 op_fs [(L "--func-odbc", [])] (L "/a/x") with
   | inr (Ok p) => Some (snd p) | _ => None end) = Some 1 /\
  (match modules_main uni_ascii funcs_v13 apps_v13 (str_eqb (L "/a/func_odbc.conf")) 100 op_fs [] (L "/a/x") with
   | inr (Ok p) => Some (snd p) | _ => None end) = Some 0.
Proof. split; vm_compute; reflexivity. Qed.
