(* Declarative side of C65: what ident-scan prints, from the bytes of the files. *)
From Verif Require Import Base Defines FileRd Config VarFun AppM Dialplan Spec_Dialplan Spec_Run Spec_Ident.
From Verif Require Spec_Reader.

(* An order of the items of every set, each once. *)
Definition SetOrder (f : list str -> list str) : Prop := forall l, NoDup (f l) /\ forall x, In x (f l) <-> In x l.

(* The file is read to its end; then the names in it are listed and compared. *)
Inductive IdentSays (U : uni) (FT : ftable) (AT : atable) (isupper islower : str -> bool) (dist : str -> str -> nat)
    (verbose installed : bool) (fs : fsys) (name : str) : list str -> res N -> Prop :=
| Id_intro evs h log ls r : Spec_Reader.StreamOf fs name evs (Ok tt) -> PlanSays U FT AT evs h log ->
    Scan U isupper islower dist verbose installed (contexts h) log ls r ->
    IdentSays U FT AT isupper islower dist verbose installed fs name ls r.
