(* The command vg dialplan-check: the reader of VgRead.v under the aggregators of
   VgPlan.v (contrib/commands/vg.py, asterisklint/commands/dialplan-check.py). *)
From Verif Require Import Base PyStr Defines FileRd Config VSpace Pattern Var VarFun AppM Dialplan FuncOdbc Check Vg VgRead VgPlan.

Section WithTables.
Variable U : uni.
Variable FT : ftable.
Variable AT : atable.

(* ConfigAggregator.__iter__ over the stream of the parser (config.py:184-199),
   with VoipgridFileDialplanParser.on_context (vg.py:170-186) *)
Fixpoint vg_dp_stream (d : dplan) (evs : list event) (o : res unit) : M dplan :=
  match evs with
  | [] => mlift (let! _ := o in Ok d)
  | EvLine _ _ _ :: r => vg_dp_stream d r o
  | EvMsg m :: r => do* _ <- mlog (LMsg m); vg_dp_stream d r o
  | EvElem e :: r => do* d' <- vg_on_element U FT AT d e; vg_dp_stream d' r o
  end.

(* next(iter(VoipgridFileDialplanParser)) after include(name):
   dialplan-check.py:49-51, vg.py:167-187 *)
Definition vg_parse_dialplan (fuel : nat) (fs : fsys) (name : str) : M dplan :=
  let (evs, o) := vsw_stream (vg_parse_file fuel fs name) in
  do* d <- vg_dp_stream dp_init evs o;
  do* _ <- on_complete d;
  mret d.
End WithTables.

(* VoipgridFileFuncOdbcParser, vg.py:190-201.  _contexts.remove(context) never
   finds anything: the list holds OdbcFunction objects made from the contexts
   (func_odbc.py:263-268), and Context has no __eq__.  The rest is that of
   FuncOdbc.v. *)
Definition vg_load_func_odbc (fuel : nat) (fs : fsys) (name : str) : W (list finfo) :=
  let (evs, o) := vsw_stream (vg_parse_file fuel fs name) in
  do! st <- fo_stream [] evs o; fo_finish (rev st).

Section Run.
Variable U : uni.
Variable FT : ftable.
Variable AT : atable.
Variable exists_ : str -> bool.     (* os.path.exists *)
Variable fuel : nat.
Variable fs : fsys.

(* load_func_odbc_functions with the parser of vg.py:202: mainutil.py:46-64 *)
Definition vg_load_odbc (arg : option str) (dialplan : str) : M (list finfo) :=
  match arg with
  | Some [] => mret []
  | Some name => mw (vg_load_func_odbc fuel fs name)
  | None =>
    let p := path_join (dirname dialplan) (L "func_odbc.conf") in
    if exists_ p then mw (vg_load_func_odbc fuel fs p) else mret []
  end.

(* handle_args of vg (vg.py:220-228), which runs dialplan-check.py:44-59.  The
   command is loaded after the parsers were replaced. *)
Definition vg_check_run (arg : option str) (dialplan : str) : M unit :=
  do* fns <- vg_load_odbc arg dialplan;
  do* d <- vg_parse_dialplan U (register_all U fns FT) AT fuel fs dialplan;
  walk_jump_destinations d.
Definition vg_dialplan_check (env arg : option str) (dialplan : str) : process :=
  process_of env (vg_check_run arg dialplan).
End Run.
