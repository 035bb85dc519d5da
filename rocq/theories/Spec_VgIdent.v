(* Declarative side of C71: what vg ident-scan and vg func_odbc-annotate print,
   from the bytes of the files.  As Spec_IdentRun.v and Spec_Annotate.v, with the
   VoIPGRID reader (C67) and with sections that are wiped when they come again (C68). *)
From Coq Require Import Permutation Sorted.
From Verif Require Import Base Defines FileRd Config VarFun AppM Dialplan FuncOdbc Annotate Spec_Dialplan Spec_FuncOdbc Spec_Annotate Spec_Commands Spec_CmdLs Spec_Ident Spec_Run
  Spec_VgCheck Spec_VgWhole.

(* The names: of the sections in ctxs, of the labels, and of the variables. *)
Definition VgIdentifier (ctxs : list dctx) (label : str -> Prop) (log : list lev) (x : str) : Prop :=
  In x (map dc_name ctxs) \/ label x \/ exists w, Mention log x w.
Definition VgListing (lower : str -> str) (ctxs : list dctx) (label : str -> Prop) (log : list lev) (ls : list str) : Prop :=
  exists labels, NoDup labels /\ StronglySorted (ByName lower) labels /\ (forall s, In s labels <-> label s) /\
    ListingWith lower ctxs log labels ls.
Definition VgScan (U : uni) (isupper islower : str -> bool) (dist : str -> str -> nat) (verbose installed : bool)
    (ctxs : list dctx) (label : str -> Prop) (log : list lev) (ls : list str) (r : res N) : Prop :=
  exists ls1 ls2, ls = ls1 ++ ls2 /\
    (verbose = true -> VgListing (u_lower U) ctxs label log ls1) /\ (verbose = false -> ls1 = []) /\
    (installed = true -> exists ids st isdigit, Digits U isdigit /\ NoDup ids /\ (forall x, In x ids <-> VgIdentifier ctxs label log x) /\
       Distance (u_lower U) isupper islower isdigit dist ids ls2 st /\ r = Ok st) /\
    (installed = false -> ls2 = [] /\ (verbose = true -> r = Ok 0) /\ (verbose = false -> r = Exn ImportError)).
(* The contexts are those that stay; the labels and the variables of those that
   are wiped count. *)
Inductive VgIdentSays (U : uni) (FT : ftable) (AT : atable) (isupper islower : str -> bool) (dist : str -> str -> nat)
    (verbose installed : bool) (fs : fsys) (name : str) : list str -> res N -> Prop :=
| Vi_intro evs fr h log ls r : VgStream fs name evs (Ok tt) -> VgPlanSays U FT AT evs fr h log ->
    VgScan U isupper islower dist verbose installed (kept_contexts fr h) (all_labels (contexts h)) log ls r ->
    VgIdentSays U FT AT isupper islower dist verbose installed fs name ls r.

(* The preamble once the file is open; the sections once it is read to its end. *)
Inductive VgAnnotates (installed : bool) (fmt : str -> str) (parse : str -> list (list sqltok)) (fs : fsys) (name : str) : list str -> res unit -> Prop :=
| Va_absent e : fs name = Exn e -> VgAnnotates installed fmt parse fs name [] (Exn e)
| Va_fails b evs e : fs name = Ok b -> VgStream fs name evs (Exn e) -> VgAnnotates installed fmt parse fs name Preamble (Exn e)
| Va_whole evs os l ls r : VgStream fs name evs (Ok tt) -> FileRule (elems evs) os l -> Writes installed fmt parse os ls r ->
    VgAnnotates installed fmt parse fs name (Preamble ++ ls) r.
