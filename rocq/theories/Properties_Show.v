(* C62: what dialplan-show and modules-show print, from the bytes of the files. *)
From Verif Require Import Base PyStr Defines FileRd Config VarFun AppM Spec_VarFun Dialplan Check Report Show Spec_Show Show_proofs ShowL_proofs Spec_Dialplan Spec_Run Whole_proofs Tables Properties_Crash.
From Verif Require Spec_Reader Properties_Run.
Import Spec_Reader.

(* dialplan-show: every outcome with an output is one by the rules, and every
   one by the rules is the outcome. *)
Theorem C62_show : forall printable U FT AT fs reverse name text status, AsciiOk U ->
  ShowSays printable U FT AT fs reverse name text status <->
  exists fuel, show_command U FT AT printable fuel fs reverse name = Ok (text, status).
Proof. exact show_iff. Qed.
Print Assumptions C62_show.
Theorem C62_show_determined : forall printable U FT AT fs reverse name text status text' status', AsciiOk U ->
  ShowSays printable U FT AT fs reverse name text status -> ShowSays printable U FT AT fs reverse name text' status' ->
  text = text' /\ status = status'.
Proof. exact show_det. Qed.
Print Assumptions C62_show_determined.

(* The lines: two for a context, one for an extension or an include.  None is
   broken in two, whatever the names and arguments are. *)
Theorem C62_lines : forall printable U FT AT fs reverse name evs h l text, AsciiOk U -> ~ In 10 name ->
  StreamOf fs name evs (Ok tt) -> PlanSays U FT AT evs h l -> Printout printable reverse h text ->
  exists lines, Ended lines text /\ Forall (fun s => ~ In 10 s) lines /\
    length lines = Nat.max 1 (fold_right Nat.add 0%nat (map (fun n => 2 + length (stored_of h n) + length (includes_of h n))%nat (opened h))).
Proof. exact printout_lines. Qed.
Print Assumptions C62_lines.
(* --reverse turns the order of the contexts, and nothing else. *)
Theorem C62_reverse : forall printable h text, Printout printable false h text -> opened h <> [] ->
  exists ts, length ts = length (opened h) /\ text = List.concat ts /\ Printout printable true h (List.concat (rev ts)).
Proof. exact printout_reverse. Qed.
Print Assumptions C62_reverse.

(* modules-show.  The stand-ins for unknown names are in the tables, and no name
   with an underscore is "unknown" in lower case. *)
Definition Tabled (FT : ftable) (AT : atable) : Prop :=
  (exists a, lookup (L "unknown") AT = Some a /\ a_module a = L "unknown") /\
  (exists f, lookup (L "unknown") FT = Some f /\ VarFun.f_module f = L "unknown").
Theorem C62_modules : forall U FT AT there fs arg name text status, AsciiOk U -> KeepsBar U -> Tabled FT AT ->
  ModulesSays U FT AT there fs arg name text status <->
  exists fuel, modules_command U FT AT fuel fs there arg name = Ok (text, status).
Proof.
  intros U FT AT there fs arg name text status HU KB ((a & A1 & A2) & (f & F1 & F2)). exact (modules_iff U FT AT a f HU KB A1 A2 F1 F2 there fs arg name text status).
Qed.
Print Assumptions C62_modules.
Theorem C62_modules_determined : forall U FT AT there fs arg name text status text' status', AsciiOk U -> KeepsBar U -> Tabled FT AT ->
  ModulesSays U FT AT there fs arg name text status -> ModulesSays U FT AT there fs arg name text' status' ->
  text = text' /\ status = status'.
Proof.
  intros U FT AT there fs arg name text status t' s' HU KB ((a & A1 & A2) & (f & F1 & F2)). exact (modules_det U FT AT a f HU KB A1 A2 F1 F2 there fs arg name text status t' s').
Qed.
Print Assumptions C62_modules_determined.

(* ---- examples ---- *)
Example C62_example_lower : KeepsBar uni_ascii.
Proof.
  intros s H I. cbn [u_lower uni_ascii] in H. assert (X : In 95 (L "unknown")).
  { rewrite <- H. apply in_map_iff. exists 95. split; [reflexivity|easy]. }
  vm_compute in X. repeat destruct X as [X|X]; try discriminate X. easy.
Qed.
Example C62_example_tables : Tabled funcs_v13 apps_v13.
Proof. split; eexists; (split; [vm_compute; reflexivity|vm_compute; reflexivity]). Qed.
(* two files; a context is opened again in the second one; a name with a quote *)
Definition fs_show : fsys := fs_of
  [(L "x", L "[it's]" ++ [10] ++ L "exten => _1X,1,NoOp(a)" ++ [10] ++ L " same => n(lbl),Goto" ++ [10] ++ L "include => b" ++ [10] ++ L "#include y" ++ [10]);
   (L "y", L "[b]" ++ [10] ++ L "[it's]" ++ [10] ++ L "exten => 11,7,Foo(${BAR(x)})" ++ [10])].
Definition out_show (blocks : list (list str)) : str := flat_map (fun l => l ++ [10]) (List.concat blocks).
Definition block_its : list str :=
  [[91; 32] ++ L "Context " ++ [34] ++ L "it's" ++ [34] ++ L " created by 'pbx_config' ]";
   L "  '11' =>           7. Foo(${BAR(x)})                             [pbx_config]";
   L "  '_1X' =>          1. NoOp(a)                                    [pbx_config]";
   L "     [lbl]          2. Goto()                                     [pbx_config]";
   L "  Include =>        'b'                                           [pbx_config]";
   []].
Definition block_b : list str := [L "[ Context 'b' created by 'pbx_config' ]"; []].
Example C62_example_show : ShowSays (fun _ => true) uni_ascii funcs_v13 apps_v13 fs_show false (L "x") (out_show [block_its; block_b]) 0 /\
  ShowSays (fun _ => true) uni_ascii funcs_v13 apps_v13 fs_show true (L "x") (out_show [block_b; block_its]) 0.
Proof. split; (apply C62_show; [exact ascii_ok|]; exists 100%nat; vm_compute; reflexivity). Qed.
(* a file without contexts gives an empty line *)
Example C62_example_empty : ShowSays (fun _ => true) uni_ascii funcs_v13 apps_v13 (fs_of [(L "x", [])]) false (L "x") [10] 0.
Proof. apply C62_show; [exact ascii_ok|]. exists 100%nat. vm_compute. reflexivity. Qed.
Example C62_example_modules : ModulesSays uni_ascii funcs_v13 apps_v13 Properties_Run.there fs_show None (L "x")
  (flat_map (fun l => l ++ [10])
    [L "; Application providing modules used:"; L ";   <builtin>             Goto(), NoOp()"; L ";";
     L "; Function providing modules used:"; L ";"; L "; modules.conf"; [];
     L "; WARNING: The following unknown applications were seen:"; L ";   Foo"; L ";";
     L "; WARNING: The following unknown functions were seen:"; L ";   BAR"; L ";"]) 1.
Proof. apply C62_modules; [exact ascii_ok|exact C62_example_lower|exact C62_example_tables|]. exists 100%nat. vm_compute. reflexivity. Qed.
(* the hypotheses of C62_lines and C62_reverse *)
Example C62_example_lines : exists evs h l, StreamOf fs_show (L "x") evs (Ok tt) /\ PlanSays uni_ascii funcs_v13 apps_v13 evs h l /\
  Printout (fun _ => true) false h (out_show [block_its; block_b]) /\ opened h <> [].
Proof.
  remember (out_show [block_its; block_b]) as t eqn:T. pose proof (proj1 C62_example_show) as H. rewrite <- T in H. destruct H as [evs h l t S P O].
  exists evs, h, l. split; [easy|]. split; [easy|]. split; [easy|]. intros E. destruct O as (ns & bs & [[_ ->]|[D _]] & _ & [[_ X]|[N _]]); [|easy|easy|easy].
  rewrite X in T. vm_compute in T. discriminate T.
Qed.
