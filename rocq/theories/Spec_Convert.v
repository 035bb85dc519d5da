(* Independent specification of the rewriting of ExecIf (C56). *)
From Verif Require Import Base PyStr Utf8 Defines Var VarFun AppM Spec_Var Spec_App Spec_Args Spec_Mutator.

(* The text of a sequence: that of its characters and variables. *)
Inductive Text : list elem -> str -> Prop :=
| Te_nil : Text [] []
| Te_ch c l s : Text l s -> Text (Ch c :: l) (c :: s)
| Te_va t l a s : str_of t = Ok a -> Text l s -> Text (Va t :: l) (a ++ s).

(* Old-style data has no question mark, but a comma, at top level.  Its new form:
   cond,app,arg,... becomes cond?app(arg,...) *)
Definition OldStyle (dl : list elem) : Prop :=
  (exists x, Args 63 dl [x]) /\ exists c a more, Separated 44 dl (c :: a :: more).
Definition NewForm (dl dl' : list elem) : Prop :=
  exists c a more, Separated 44 dl (c :: a :: more) /\ dl' = c ++ Ch 63 :: a ++ Ch 40 :: glue 44 more ++ [Ch 41].
Definition Complains (l : list lev) : Prop := exists m, In (LMsg m) l /\ m_cls m = E_APP_ARG_IFSTYLE.

(* The first occurrence of the old text in the line is replaced. *)
Definition Rewritten (old new line line' : bytes) : Prop :=
  exists a b, FirstOcc old line a b /\ line' = a ++ new ++ b.
