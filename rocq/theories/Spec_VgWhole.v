(* Declarative side of C69: vg dialplan-check and vg func_odbc-check, from the
   bytes of the files to what is said.  As Spec_Whole.v, with the VoIPGRID reader. *)
From Verif Require Import Base Defines Config VarFun AppM Dialplan Spec_Dialplan FuncOdbc Spec_FuncOdbc Spec_Run Spec_VgCheck.
From Verif Require Spec_Reader Spec_VgRead.

(* A file as the commands see it: with the messages about empty lines. *)
Inductive VgStream (fs : fsys) (name : str) : list event -> res unit -> Prop :=
| Vs_ok text evs out st g : Spec_VgRead.VgReads fs name text evs (Ok tt) -> Spec_Reader.SpacedAll [] evs out st -> Spec_Reader.AllEnd st g ->
    VgStream fs name (out ++ g) (Ok tt)
| Vs_fails text evs out st e : Spec_VgRead.VgReads fs name text evs (Exn e) -> Spec_Reader.SpacedAll [] evs out st -> VgStream fs name out (Exn e).

Inductive VgWholeOdbc (fs : fsys) : option str -> list finfo -> list msg -> Prop :=
| Vw_none : VgWholeOdbc fs None [] []
| Vw_file f evs os fns l l1 l2 : VgStream fs f evs (Ok tt) -> FileRule (elems evs) os l ->
    OdbcStream [] evs l1 -> Registers os fns l2 -> VgWholeOdbc fs (Some f) fns (l1 ++ l2).
Inductive VgWholeSays (U : uni) (FT : ftable) (AT : atable) (there : str -> bool) (fs : fsys) (arg : option str) (name : str) : list lev -> Prop :=
| Vw_intro f fns evs fr h l1 l2 l3 : OdbcFile there name arg f -> VgWholeOdbc fs f fns l1 ->
    VgStream fs name evs (Ok tt) -> VgPlanSays U (register_all U fns FT) AT evs fr h l2 -> VgWalkSays U fr h l3 ->
    VgWholeSays U FT AT there fs arg name (map LMsg l1 ++ l2 ++ l3).
