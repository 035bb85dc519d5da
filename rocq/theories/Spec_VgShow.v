(* Declarative side of C70: what vg dialplan-show and vg modules-show print, from
   the bytes of the files.  As Spec_Show.v, with the VoIPGRID reader (C67) and with
   sections that are wiped when they come again (C68). *)
From Verif Require Import Base Defines FileRd Config Pattern VarFun AppM Dialplan FuncOdbc Spec_Dialplan Spec_Check Spec_Page Spec_Report Spec_Run Spec_Whole Spec_Show
  Spec_VgCheck Spec_VgWhole.

Section Printable.
Variable printable : N -> bool.
(* The sections that stay, in the order in which they are opened for the last time,
   or the other way round. *)
Definition VgOrder (reverse : bool) (fr : list (str * str)) (h : list hev) (ns : list str) : Prop :=
  reverse = false /\ ns = filter (stays fr) (opened h) \/ reverse = true /\ ns = rev (filter (stays fr) (opened h)).
Definition VgPrintout (reverse : bool) (fr : list (str * str)) (h : list hev) (text : str) : Prop :=
  exists ns blocks, VgOrder reverse fr h ns /\ Forall2 (CtxLines printable h) ns blocks /\
    (ns = [] /\ text = [10] \/ ns <> [] /\ Ended (List.concat blocks) text).
Inductive VgShowSays (U : uni) (FT : ftable) (AT : atable) (fs : fsys) (reverse : bool) (name : str) : str -> N -> Prop :=
| Vsh_intro evs fr h l text : VgStream fs name evs (Ok tt) -> VgPlanSays U FT AT evs fr h l -> VgPrintout reverse fr h text ->
    VgShowSays U FT AT fs reverse name text 0.
End Printable.

(* What is looked up in a section that is wiped counts. *)
Inductive VgModulesSays (U : uni) (FT : ftable) (AT : atable) (there : str -> bool) (fs : fsys) (arg : option str) (name : str) : str -> N -> Prop :=
| Vmo_intro f fns evs fr h l1 l2 ms apps funcs lines text n : OdbcFile there name arg f -> VgWholeOdbc fs f fns l1 ->
    VgStream fs name evs (Ok tt) -> VgPlanSays U (register_all U fns FT) AT evs fr h l2 ->
    Messages [] (map LMsg l1 ++ l2) ms -> Looked (map LMsg l1 ++ l2) apps funcs ->
    Page AT (register_all U fns FT) apps funcs ms lines n -> Ended lines text ->
    VgModulesSays U FT AT there fs arg name text n.
