(* Options that may be used once: UniqueStore of asterisklint/mainutil.py, and
   dialplan-check and modules-show with the uses of --func-odbc. *)
From Verif Require Import Base PyStr Defines FileRd Config VarFun AppM Dialplan FuncOdbc Check Report Show.

(* UniqueStore.__call__: mainutil.py:38-43.  [attr] is the attribute of the
   namespace, None if there is none; [default] is that of the action.  The text is
   given to parser.error, which ends the process with status 2. *)
Definition unique_store (default : option str) (attr : option (option str)) (value option_string : str) : str + option str :=
  match (match attr with Some x => x | None => default end) with
  | Some _ => inl (option_string ++ L " appears several times")
  | None => inr (Some value)
  end.

(* The uses of the option in order, each as it is written and with its value.
   argparse sets the attribute to the default first. *)
Fixpoint store_from (default : option str) (attr : option str) (uses : list (str * str)) : str + option str :=
  match uses with
  | [] => inr attr
  | (o, v) :: r =>
    match unique_store default (Some attr) v o with
    | inl e => inl e
    | inr x => store_from default x r
    end
  end.
Definition store_all (default : option str) (uses : list (str * str)) : str + option str := store_from default default uses.

(* dialplan-check.py:37-59: --func-odbc has no default *)
Definition check_main (U : uni) (FT : ftable) (AT : atable) (there : str -> bool) (fuel : nat) (fs : fsys)
    (env : option str) (uses : list (str * str)) (dialplan : str) : str + process :=
  match store_all None uses with
  | inl e => inl e
  | inr arg => inr (dialplan_check U FT AT there fuel fs env arg dialplan)
  end.
(* modules-show.py:58-66, as well *)
Definition modules_main (U : uni) (FT : ftable) (AT : atable) (there : str -> bool) (fuel : nat) (fs : fsys)
    (uses : list (str * str)) (dialplan : str) : str + res (str * N) :=
  match store_all None uses with
  | inl e => inl e
  | inr arg => inr (modules_command U FT AT fuel fs there arg dialplan)
  end.
