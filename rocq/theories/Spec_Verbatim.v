(* Declarative side of C27: the texts that are printed as they were written. *)
From Verif Require Import Base PyStr Defines Var VarFun Spec_Var Spec_VarFun Spec_Subst.

(* Numbers the way Python prints them. *)
Definition IsDigit (c : N) : Prop := 48 <= c <= 57.
Inductive Printed : str -> Prop :=
| Pr_zero : Printed [48]
| Pr_pos c r : IsDigit c -> c <> 48 -> Forall IsDigit r -> Printed (c :: r)
| Pr_neg c r : IsDigit c -> c <> 48 -> Forall IsDigit r -> Printed (45 :: c :: r).
(* An offset or a length without variables is such a number. *)
Definition Numbers (ps : list (list elem)) : Prop := forall a, In (map Ch a) ps -> Printed a.

(* What may be between the brackets: something; for a function nothing but
   ':offset:length' behind its arguments. *)
Inductive Keeps (il : list elem) : N -> Prop :=
| Ke_expr : il <> [] -> Keeps il 91
| Ke_var : il <> [] -> ~ In (Ch 40) il -> ~ In (Ch 58) il -> Keeps il 123
| Ke_slice n ps : ~ In (Ch 40) il -> In (Ch 58) il -> Split 58 None il (n :: ps) -> Numbers ps -> Keeps il 123
| Ke_func f args : il = f ++ Ch 40 :: args ++ [Ch 41] -> ~ In (Ch 40) f -> Keeps il 123
| Ke_funcs f args tail ps : il = f ++ Ch 40 :: args ++ Ch 41 :: Ch 58 :: tail -> ~ In (Ch 40) f -> ~ In (Ch 41) tail ->
    Split 58 None tail ps -> Numbers ps -> Keeps il 123.

Section Tables.
Variable U : uni.
Variable FT : ftable.
Variable w : loc.
Inductive Verbatim : str -> Prop :=
| Vb_text s : ~ Opens s -> Verbatim s
| Vb_sub s pre o c rest inner rest' il lg : FirstOpen s pre o c rest -> ClosedBy o c rest inner rest' ->
    Verbatim inner -> Stands U FT w inner il lg -> Keeps il o -> Verbatim rest' -> Verbatim s.
End Tables.

(* What Python guarantees about the value of a digit. *)
Definition DecimalOk (U : uni) : Prop := forall c d, u_decimal U c = Some d -> d < 10.
