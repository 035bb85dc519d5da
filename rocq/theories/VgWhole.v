(* The command vg func_odbc-check (contrib/commands/vg.py). *)
From Verif Require Import Base PyStr Defines FileRd Config FuncOdbc AppM VarFun Check VgRead VgCheck.

(* handle_args of vg (vg.py:220-228), which runs func_odbc-check.py:37-48 with the
   parser of vg.py:190-202 *)
Definition vg_odbc_check (fuel : nat) (fs : fsys) (env : option str) (name : str) : process :=
  process_of env (mw (vg_load_func_odbc fuel fs name)).
