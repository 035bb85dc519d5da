(* Final theorems about modules-show: C42. *)
From Coq Require Import Permutation Sorted.
From Verif Require Import Base Utf8 PyStr Defines FileRd Config VarFun AppM Dialplan FuncOdbc Tables Commands Check
  Spec_Commands Spec_Check Spec_Page Modules_proofs Page_proofs Properties_Check.

(* Tables with the stand-ins for unknown names, and str.lower() as far as it
   concerns these names. *)
Definition StandIns (U : uni) (ft : ftable) (at_ : atable) : Prop :=
  u_lower U (L "Unknown") = L "unknown" /\ u_lower U (L "UNKNOWN") = L "unknown" /\
  (exists a, lookup (L "unknown") at_ = Some a /\ a_name a = L "Unknown" /\ a_module a = L "unknown" /\ a_kind a <> ABackground) /\
  (exists f, lookup (L "unknown") ft = Some f /\ VarFun.f_name f = L "UNKNOWN" /\ VarFun.f_module f = L "unknown").

(* Every run that can read its files: the exit status is 1 if a name is used
   that is not in the tables; if it is 1 then there is such a name, or a name
   whose entry is the stand-in itself, or a line without an application. *)
Theorem C42_status_partial : forall U FT AT exists_ fuel fs arg name fns d,
  snd (load_odbc exists_ fuel fs arg name) = Ok fns ->
  snd (show_run U FT AT exists_ fuel fs arg name) = Ok d ->
  let ft := register_all U fns FT in
  let log := fst (show_run U FT AT exists_ fuel fs arg name) in
  StandIns U ft AT -> exists lines n,
  modules_show U FT AT exists_ fuel fs arg name = Ok (lines, n) /\ (n = 0 \/ n = 1) /\
  ((exists k, In k (log_apps log) /\ Missing AT k) \/ (exists k, In k (log_funcs log) /\ Missing ft k) -> n = 1) /\
  (n = 1 -> (exists k, In k (log_apps log) /\ (Missing AT k \/ StandIn a_name (L "Unknown") AT k)) \/
            (exists k, In k (log_funcs log) /\ (Missing ft k \/ StandIn VarFun.f_name (L "UNKNOWN") ft k)) \/
            (exists m, In m (run_msgs None log) /\ m_cls m = E_APP_MISSING /\ m_args m = [(L "app", AStr (L "(none)"))])).
Proof.
  intros U FT AT ex fuel fs arg name fns d HL HD ft log (L1 & L2 & (a & A1 & A2 & A3 & A4) & (f & F1 & F2 & F3)).
  exact (status_exact U FT AT ex fuel fs arg name fns HL a f A1 F1 A3 F3 A2 A4 F2 L1 L2 d HD).
Qed.
Print Assumptions C42_status_partial.

(* The load statements: sorted, once each, exactly the modules that provide the
   used names, but not the builtin ones. *)
Theorem C42_modules : forall U FT AT exists_ fuel fs arg name fns d,
  snd (load_odbc exists_ fuel fs arg name) = Ok fns ->
  snd (show_run U FT AT exists_ fuel fs arg name) = Ok d ->
  let ft := register_all U fns FT in
  let log := fst (show_run U FT AT exists_ fuel fs arg name) in
  StandIns U ft AT -> exists lines n mods,
  modules_show U FT AT exists_ fuel fs arg name = Ok (lines, n) /\
  filter (startswith (L "load => ")) lines = map (fun m => L "load => " ++ m ++ L ".so") mods /\
  StronglySorted StrLe mods /\ NoDup mods /\
  forall m, In m mods <->
    m <> L "<builtin>" /\ (Provides a_module AT (log_apps log) m \/ Provides VarFun.f_module ft (log_funcs log) m).
Proof.
  intros U FT AT ex fuel fs arg name fns d HL HD ft log (L1 & L2 & (a & A1 & A2 & A3 & A4) & (f & F1 & F2 & F3)).
  exact (load_exact U FT AT ex fuel fs arg name fns HL a f A1 F1 A3 F3 d HD).
Qed.
Print Assumptions C42_modules.

(* The names that are listed below the modules, for any table and any lookups. *)
Theorem C42_items : forall (A : Type) (name module : A -> str) tab unknown keys, lookup (L "unknown") tab = Some unknown ->
  exists is, used_items name module tab keys = Ok is /\ forall n m, In (n, m) is <->
    exists k a, In k keys /\ k <> L "unknown" /\ (lookup k tab = Some a \/ lookup k tab = None /\ a = unknown) /\ n = name a /\ m = module a.
Proof. intros A nm md tab u keys. exact (used_items_ok nm md tab u keys). Qed.
Print Assumptions C42_items.
(* Breaking the list of names into lines loses nothing. *)
Theorem C42_listed : forall names,
  List.concat (item_lines [[]] names) = join (L ", ") (map (fun n => n ++ L "()") names).
Proof. exact items_listed. Qed.
Print Assumptions C42_listed.

(* The whole page and the exit status, as rules; the rules give one page. *)
Theorem C42_page : forall U FT AT exists_ fuel fs arg name fns d lines n,
  snd (load_odbc exists_ fuel fs arg name) = Ok fns ->
  snd (show_run U FT AT exists_ fuel fs arg name) = Ok d ->
  let ft := register_all U fns FT in
  let log := fst (show_run U FT AT exists_ fuel fs arg name) in
  StandIns U ft AT ->
  modules_show U FT AT exists_ fuel fs arg name = Ok (lines, n) <->
  Page AT ft (log_apps log) (log_funcs log) (run_msgs None log) lines n.
Proof.
  intros U FT AT ex fuel fs arg name fns d lines n HL HD ft log (_ & _ & (a & A1 & A2 & A3 & A4) & (f & F1 & F2 & F3)).
  destruct (page U FT AT ex fuel fs arg name fns d a f HL A1 F1 A3 F3 HD) as (ls & k & E & HP). fold log in HP. fold ft in HP.
  split; intros H.
  - rewrite E in H. injection H as <- <-. exact HP.
  - destruct (page_fun _ _ _ _ _ _ _ _ _ HP H) as [<- <-]. exact E.
Qed.
Print Assumptions C42_page.

(* The unknown application that is called Unknown goes unnoticed. *)
Definition ms (l : list str) := modules_show uni_ascii funcs_v13 apps_v13 (fun _ => false) 100 (with_text (dp l)) None (L "/e.conf").
Theorem C42_exact_refuted : exists l d lines,
  snd (show_run uni_ascii funcs_v13 apps_v13 (fun _ => false) 100 (with_text (dp l)) None (L "/e.conf")) = Ok d /\
  In (L "unknown") (log_apps (fst (show_run uni_ascii funcs_v13 apps_v13 (fun _ => false) 100 (with_text (dp l)) None (L "/e.conf")))) /\
  ms l = Ok (lines, 0).
Proof.
  exists [L "exten => 1,1,Unknown()"]. remember (snd (show_run _ _ _ _ _ _ _ _)) as r eqn:E. vm_compute in E.
  eexists. eexists. split; [exact E|]. clear r E. split; [vm_compute; now left|vm_compute; reflexivity].
Qed.
Print Assumptions C42_exact_refuted.

Example C42_stand_ins : StandIns uni_ascii (register_all uni_ascii [] funcs_v13) apps_v13.
Proof.
  split; [reflexivity|]. split; [reflexivity|]. split; eexists; (split; [vm_compute; reflexivity|]); vm_compute; repeat split. discriminate.
Qed.
Example C42_example : exists lines,
  ms [L "exten => 1,1,Dial(SIP/x)"; L " same => n,Set(x=${CALLERID(num)})"; L " same => n,Playback(y)"; L " same => n,dial(SIP/y)"] = Ok (lines, 0) /\
  filter (startswith (L "load => ")) lines = [L "load => app_dial.so"; L "load => app_playback.so"; L "load => func_callerid.so"].
Proof. eexists. split; [vm_compute; reflexivity|]. vm_compute. reflexivity. Qed.
Example C42_unknown : exists lines,
  ms [L "exten => 1,1,Dial(SIP/x)"; L " same => n,Set(x=${BAR(num)})"; L " same => n,Foo(y)"] = Ok (lines, 1) /\
  In (L ";   Foo") lines /\ In (L ";   BAR") lines /\ In (L ";   app_dial              Dial()") lines.
Proof. eexists. split; [vm_compute; reflexivity|]. vm_compute. intuition auto 30. Qed.
(* A list of names that needs two rows. *)
Example C42_example_page :
  ms [L "exten => 1,1,Goto(1)"; L " same => n,GotoIf($[1]?1)"; L " same => n,Progress()"; L " same => n,Proceeding()"; L " same => n,SetAMAFlags(a)";
      L " same => n,Wait(1)"; L " same => n,Foo(1)"] =
  Ok ([L "; Application providing modules used:";
       L ";   <builtin>             Goto(), GotoIf(), Proceeding(), Progress(),";
       L ";                         SetAMAFlags(), Wait()";
       L ";";
       L "; Function providing modules used:";
       L ";";
       L "; modules.conf";
       L "";
       L "; WARNING: The following unknown applications were seen:";
       L ";   Foo";
       L ";"], 1).
Proof. vm_compute. reflexivity. Qed.
