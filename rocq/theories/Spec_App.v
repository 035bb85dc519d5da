(* Declarative side of C24-C26, C33 and C34. *)
From Verif Require Import Base PyStr Defines Var VarFun AppM Loader Spec_Var.

(* ---- C24, C25: argument separation ---- *)

(* The characters of a sequence, variables left out. *)
Definition chars_of (l : list elem) : str :=
  flat_map (fun e => match e with Ch c => [c] | Va _ => [] end) l.

(* A character is escaped if the characters before it end in an odd number of
   backslashes. *)
Inductive Escaping : str -> Prop :=
| Es_intro a n : (forall b, a <> b ++ [92]) -> Escaping (a ++ repeat 92 (S (2 * n))).

(* The unescaped characters of a text, in order. *)
Inductive Active : str -> str -> Prop :=
| Ac_nil : Active [] []
| Ac_keep s c a : Active s a -> ~ Escaping s -> Active (s ++ [c]) (a ++ [c])
| Ac_skip s c a : Active s a -> Escaping s -> Active (s ++ [c]) a.

(* After a text, a bracket is open if some tail of it opens more than it
   closes; quotes are open after an odd number of them. *)
Definition OpenBracket (o c : N) (a : str) : Prop :=
  exists x y, a = x ++ y /\ (count c y < count o y)%nat.
Definition OpenQuote (a : str) : Prop := Nat.odd (count 34 a) = true.

(* Where a delimiter separates: behind [p], outside everything. *)
Definition TopLevel (delim : N) (p : list elem) : Prop :=
  ~ Escaping (chars_of p) /\
  forall a, Active (chars_of p) a ->
    ~ OpenBracket 91 93 a /\ ~ OpenBracket 40 41 a /\ (delim <> 34 -> ~ OpenQuote a).

(* The arguments: put together with the delimiter they give the data, and the
   delimiters put back are exactly those at top level. *)
Definition Separated (delim : N) (data : list elem) (args : list (list elem)) : Prop :=
  args <> [] /\ glue delim args = data /\
  forall p s, data = p ++ Ch delim :: s ->
    (TopLevel delim p <-> exists a b, a <> [] /\ b <> [] /\ args = a ++ b /\ p = glue delim a).

(* Delimiters the code can handle; it uses ',', '?' and ':'. *)
Definition DelimOk (delim : N) : Prop := ~ In delim (L "[]()\").

(* Quotes and backslashes taken away, except for escaped ones.  Variables do
   not end an escape. *)
Definition is_va (e : elem) : Prop := exists t, e = Va t.
Inductive Unquoted (delim : N) : list elem -> list elem -> Prop :=
| Uq_nil : Unquoted delim [] []
| Uq_var t l m : Unquoted delim l m -> Unquoted delim (Va t :: l) (Va t :: m)
| Uq_quote l m : delim <> 34 -> Unquoted delim l m -> Unquoted delim (Ch 34 :: l) m
| Uq_char c l m : c <> 92 -> c <> 34 \/ delim = 34 -> Unquoted delim l m ->
    Unquoted delim (Ch c :: l) (Ch c :: m)
| Uq_esc vs c l m : Forall is_va vs -> Unquoted delim l m ->
    Unquoted delim (Ch 92 :: vs ++ Ch c :: l) (vs ++ Ch c :: m)
| Uq_end vs : Forall is_va vs -> Unquoted delim (Ch 92 :: vs) vs.

(* ---- C26: jump applications ---- *)

(* Missing parts of a destination are None. *)
Inductive Padded : list (list elem) -> dest -> Prop :=
| Pd_prio p pt : Canon pt p -> Padded [p] (Dest None None (SlTok pt))
| Pd_exten e et p pt : Canon et e -> Canon pt p -> Padded [e; p] (Dest None (Some et) (SlTok pt))
| Pd_full c ct e et p pt : Canon ct c -> Canon et e -> Canon pt p ->
    Padded [c; e; p] (Dest (Some ct) (Some et) (SlTok pt)).

(* Arguments with quotes and backslashes taken away. *)
Definition Args (delim : N) (data : list elem) (args : list (list elem)) : Prop :=
  exists raws, Separated delim data raws /\ Forall2 (Unquoted delim) raws args.

(* The non-empty branches of cond?true[:false]. *)
Inductive Branches (data : list elem) : list (list elem) -> Prop :=
| Br_intro c act more bs : Args 63 data (c :: act :: more) -> Separated 58 act bs ->
    Branches data (filter (fun b => match b with [] => false | _ => true end) (firstn 2 bs)).

(* ---- C33: loaders ---- *)
(* The object last registered under a key. *)
Definition LastReg {A} (ops : list (ld_op A)) (key : str) (a : A) : Prop :=
  exists o1 o2, ops = o1 ++ LReg key a :: o2 /\ forall b, ~ In (LReg key b) o2.
Definition NeverReg {A} (ops : list (ld_op A)) (key : str) : Prop := forall a, ~ In (LReg key a) ops.
(* 'unknown' is not registered again after a lookup: what was aliased to the
   old entry would keep it.  register() is called at load time, and by
   func_odbc.py with names containing an underscore. *)
Definition UnkFirst {A} (ops : list (ld_op A)) : Prop :=
  forall o1 a o2, ops = o1 ++ LReg (L "unknown") a :: o2 -> forall k, ~ In (LGet k) o1.

(* ---- C34: spelling of Background ---- *)
Definition Accepted (s : str) : Prop := s = L "Background" \/ s = L "BackGround".
Inductive Reference (l : list lev) : str -> Prop :=
| Rf_first l1 s w l2 : l = l1 ++ LBg s w :: l2 -> Accepted s ->
    (forall s' w', In (LBg s' w') l1 -> ~ Accepted s') -> Reference l s
| Rf_none : (forall s' w', In (LBg s' w') l -> ~ Accepted s') -> Reference l (L "Background").

(* A log with the uses replaced by the messages about them. *)
Inductive Resolved (ref : str) : list lev -> list lev -> Prop :=
| Rs_nil : Resolved ref [] []
| Rs_other e l m : (forall s w, e <> LBg s w) -> Resolved ref l m -> Resolved ref (e :: l) (e :: m)
| Rs_good w l m : Resolved ref l m -> Resolved ref (LBg ref w :: l) m
| Rs_bad s w proper l m : s <> ref -> Accepted proper -> proper <> s -> Resolved ref l m ->
    Resolved ref (LBg s w :: l)
      (LMsg (Msg W_APP_BAD_CASE w None [(L "app", AStr s); (L "proper", AStr proper)]) :: m).
