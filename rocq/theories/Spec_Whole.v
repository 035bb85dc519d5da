(* Declarative side of C60: a run of dialplan-check, from the files to what is
   said.  As CheckSays, with the reader as rules too. *)
From Verif Require Import Base Defines Config VarFun AppM Dialplan Spec_Dialplan FuncOdbc Spec_FuncOdbc Spec_Run.
From Verif Require Spec_Reader.

Inductive WholeOdbc (fs : fsys) : option str -> list finfo -> list msg -> Prop :=
| Wo_none : WholeOdbc fs None [] []
| Wo_file f evs os fns l l1 l2 : Spec_Reader.StreamOf fs f evs (Ok tt) -> FileRule (elems evs) os l ->
    OdbcStream [] evs l1 -> Registers os fns l2 -> WholeOdbc fs (Some f) fns (l1 ++ l2).
Inductive WholeSays (U : uni) (FT : ftable) (AT : atable) (there : str -> bool) (fs : fsys) (arg : option str) (name : str) : list lev -> Prop :=
| Wh_intro f fns evs h l1 l2 l3 : OdbcFile there name arg f -> WholeOdbc fs f fns l1 ->
    Spec_Reader.StreamOf fs name evs (Ok tt) -> PlanSays U (register_all U fns FT) AT evs h l2 -> WalkSays U h l3 ->
    WholeSays U FT AT there fs arg name (map LMsg l1 ++ l2 ++ l3).

(* What is raised, what is printed and the exit status. *)
Definition Ends (ms ps : list msg) (n : N) (env : option str) (l : list lev) : Prop :=
  Messages [] l ms /\ Shown env ms ps /\ (ps = [] /\ n = 0 \/ ps <> [] /\ n = 1).
