(* Declarative side of C62: what dialplan-show and modules-show print, from the
   bytes of the files. *)
From Verif Require Import Base Defines FileRd Config Pattern VarFun AppM Dialplan FuncOdbc Spec_Dialplan Spec_Check Spec_Page Spec_Report Spec_Run Spec_Whole.
From Verif Require Spec_Reader.

(* ---- dialplan-show ---- *)

(* The line of an extension.  The pattern is shown if it is not the one of the
   line before it, else the label, if there is one. *)
Inductive LabelText : option str -> str -> Prop :=
| Lt_none : LabelText None []
| Lt_empty : LabelText (Some []) []
| Lt_some s : s <> [] -> LabelText (Some s) (L "[" ++ s ++ L "]").
Inductive ExtLine (prev : option ext) (x : ext) : str -> Prop :=
| Xl_same y b n a line : prev = Some y -> SamePat (x_pat y) (x_pat x) -> LabelText (x_label x) b ->
    IntText (x_prio x) n -> app_text (x_raw x) a -> columns (L "     ") 14 b (n ++ L ". " ++ a) line -> ExtLine prev x line
| Xl_new n a line : (forall y, prev = Some y -> ~ SamePat (x_pat y) (x_pat x)) ->
    IntText (x_prio x) n -> app_text (x_raw x) a ->
    columns (L "  ") 17 (L "'" ++ praw (x_pat x) ++ L "' =>") (n ++ L ". " ++ a) line -> ExtLine prev x line.
Inductive ExtLines : option ext -> list ext -> list str -> Prop :=
| Xs_nil prev : ExtLines prev [] []
| Xs_cons prev x l line ls : ExtLine prev x line -> ExtLines (Some x) l ls -> ExtLines prev (x :: l) (line :: ls).
Definition IncLine (i : str * loc) (line : str) : Prop := columns (L "  ") 17 (L "Include =>") (L "'" ++ fst i ++ L "'") line.

Section Printable.
Variable printable : N -> bool.
(* The context [n] of a history: a heading, the extensions sorted by their
   patterns, the includes, and an empty line. *)
Definition CtxLines (h : list hev) (n : str) (lines : list str) : Prop :=
  exists q out els ils, Quoted printable n q /\ Listing (stored_of h n) out /\ ExtLines None out els /\
    Forall2 IncLine (includes_of h n) ils /\
    lines = (L "[ Context " ++ q ++ L " created by 'pbx_config' ]") :: els ++ ils ++ [[]].
(* The contexts in the order in which they are first opened, or the other way
   round. *)
Definition Order (reverse : bool) (h : list hev) (ns : list str) : Prop :=
  reverse = false /\ ns = opened h \/ reverse = true /\ ns = rev (opened h).
(* Every line is ended; without any context there is an empty line. *)
Inductive Ended : list str -> str -> Prop :=
| En_nil : Ended [] []
| En_cons l ls t : Ended ls t -> Ended (l :: ls) (l ++ [10] ++ t).
Definition Printout (reverse : bool) (h : list hev) (text : str) : Prop :=
  exists ns blocks, Order reverse h ns /\ Forall2 (CtxLines h) ns blocks /\
    (ns = [] /\ text = [10] \/ ns <> [] /\ Ended (List.concat blocks) text).
Inductive ShowSays (U : uni) (FT : ftable) (AT : atable) (fs : fsys) (reverse : bool) (name : str) : str -> N -> Prop :=
| Sh_intro evs h l text : Spec_Reader.StreamOf fs name evs (Ok tt) -> PlanSays U FT AT evs h l -> Printout reverse h text ->
    ShowSays U FT AT fs reverse name text 0.
End Printable.

(* ---- modules-show ---- *)

(* What was looked up in a log. *)
Definition Looked (l : list lev) (apps funcs : list str) : Prop :=
  (forall k, In k apps <-> In (LApp k) l) /\ (forall k, In k funcs <-> In (LFunc k) l).
Inductive ModulesSays (U : uni) (FT : ftable) (AT : atable) (there : str -> bool) (fs : fsys) (arg : option str) (name : str) : str -> N -> Prop :=
| Mo_intro f fns evs h l1 l2 ms apps funcs lines text n : OdbcFile there name arg f -> WholeOdbc fs f fns l1 ->
    Spec_Reader.StreamOf fs name evs (Ok tt) -> PlanSays U (register_all U fns FT) AT evs h l2 ->
    Messages [] (map LMsg l1 ++ l2) ms -> Looked (map LMsg l1 ++ l2) apps funcs ->
    Page AT (register_all U fns FT) apps funcs ms lines n -> Ended lines text ->
    ModulesSays U FT AT there fs arg name text n.
