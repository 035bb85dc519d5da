(* Declarative side of C27 and C29 as far as varfun.py is concerned. *)
From Verif Require Import Base PyStr Defines Var VarFun Spec_Var.

(* What Python guarantees about ASCII digits. *)
Definition AsciiOk (U : uni) : Prop := forall c, c < 128 ->
  (u_isdigit U c = true <-> 48 <= c <= 57) /\
  (forall d, u_decimal U c = Some d <-> 48 <= c <= 57 /\ d = c - 48).

(* Messages telling that the syntax of a substitution is wrong. *)
Definition syntax_classes : list mcls :=
  [E_VAR_SUBSTR_ARGS; E_VAR_SUBSTR_START; E_VAR_SUBSTR_LENGTH; E_FUNC_TAIL; E_FUNC_PARENS].
Definition NoSyntaxError (l : list lev) : Prop :=
  forall m, In (LMsg m) l -> ~ In (m_cls m) syntax_classes.

(* Numbers after a colon are written the way Python prints them. *)
Record NumPlain (U : uni) (i : str) : Prop := {
  np_neg0 : ~ Occurs (L ":-0") i;
  np_zero : forall d, d < 10 -> ~ Occurs (L ":0" ++ [48 + d]) i;
  np_ascii : forall c, In c i -> u_isdigit U c = true -> c < 128
}.

(* Texts whose substitutions are printed back literally. *)
Record Plain (U : uni) (s : str) : Prop := {
  pl_var : ~ Occurs (L "${}") s;
  pl_expr : ~ Occurs (L "$[]") s;
  pl_tail : ~ Occurs (L ")$[:") s;
  pl_num : forall a t i r, s = a ++ L "${" ++ t -> ClosedBy 123 125 t i r -> NumPlain U i
}.

(* C29.  What is reported about an offset and a length, and what is used. *)
Inductive SliceReport (a : str) : option str -> list mcls -> option Z -> option Z -> Prop :=
| SR_bad_off b : (forall z, ~ Literal a z) -> SliceReport a b [E_VAR_SUBSTR_START] None None
| SR_zero : Literal a 0 -> SliceReport a None [E_VAR_SUBSTR_START] None None
| SR_off z : Literal a z -> z <> 0%Z -> SliceReport a None [] (Some z) None
| SR_bad_len z b : Literal a z -> (forall y, ~ Literal b y) ->
    SliceReport a (Some b) [E_VAR_SUBSTR_LENGTH] None None
| SR_senseless z b y : Literal a z -> Literal b y -> ~ LengthMakesSense z y -> z <> 0%Z ->
    SliceReport a (Some b) [E_VAR_SUBSTR_LENGTH] (Some z) None
| SR_senseless0 b y : Literal a 0 -> Literal b y -> ~ LengthMakesSense 0 y ->
    SliceReport a (Some b) [E_VAR_SUBSTR_LENGTH; E_VAR_SUBSTR_START] None None
| SR_ok z b y : Literal a z -> Literal b y -> LengthMakesSense z y ->
    SliceReport a (Some b) [] (Some z) (Some y).

(* Names of variables that are not complained about. *)
Definition LegalName (n : str) : Prop :=
  Forall (fun c => 97 <= c <= 122 \/ 65 <= c <= 90 \/ 48 <= c <= 57 \/ c = 95) n.
