(* Declarative side of C27-C32: what the values of variable.py mean, written
   without the functions of the model.  Only the data type [tok] is shared. *)
From Verif Require Import Base PyStr Var.

(* A value seen as a sequence: characters and variables. *)
Inductive elem := Ch (c : N) | Va (t : tok).

Inductive Named : tok -> Prop :=
| Nm_var n : Named (TVar n)
| Nm_expr n : Named (TExpr n)
| Nm_slice n s l : Named (TSlice n s l)
| Nm_dyn n s l : Named (TDyn n s l)
| Nm_func f a : Named (TFunc f a)
| Nm_funcs f a s l : Named (TFuncS f a s l).

Inductive Flat : tok -> list elem -> Prop :=
| Fl_str s : Flat (TS s) (map Ch s)
| Fl_list l ls : Forall2 Flat l ls -> Flat (TList l) (List.concat ls)
| Fl_named t : Named t -> Flat t [Va t].

(* C30.  Balanced texts.  A quoted part runs up to the next quote of the same
   kind, whatever is in between. *)
Definition special : list N := [34; 39; 40; 41; 91; 93; 123; 125].   (* double quote, quote, ()[]{} *)
Inductive Bracket : N -> N -> Prop :=
| Br_round : Bracket 40 41 | Br_square : Bracket 91 93 | Br_curly : Bracket 123 125.
Definition Quote (q : N) : Prop := q = 34 \/ q = 39.

Inductive Balanced : list elem -> Prop :=
| Ba_nil : Balanced []
| Ba_char c l : ~ In c special -> Balanced l -> Balanced (Ch c :: l)
| Ba_var t l : Balanced l -> Balanced (Va t :: l)
| Ba_bracket o c a l : Bracket o c -> Balanced a -> Balanced l ->
    Balanced (Ch o :: a ++ Ch c :: l)
| Ba_quote q a l : Quote q -> ~ In (Ch q) a -> Balanced l ->
    Balanced (Ch q :: a ++ Ch q :: l).

(* C31.  Splitting a sequence at the first [max] separators (all if None). *)
Inductive Split (c : N) : option nat -> list elem -> list (list elem) -> Prop :=
| Sp_none max l : ~ In (Ch c) l -> Split c max l [l]
| Sp_stop l : Split c (Some O) l [l]
| Sp_next max a l ls : max <> Some O -> ~ In (Ch c) a ->
    Split c (option_map pred max) l ls -> Split c max (a ++ Ch c :: l) (a :: ls).

Fixpoint glue (c : N) (ls : list (list elem)) : list elem :=
  match ls with
  | [] => []
  | [l] => l
  | l :: r => l ++ Ch c :: glue c r
  end.

(* A value as the parser builds it: lists are not nested. *)
Inductive Shallow : tok -> Prop :=
| Sh_str s : Shallow (TS s)
| Sh_named t : Named t -> Shallow t
| Sh_list l : Forall (fun t => (exists s, t = TS s) \/ Named t) l -> Shallow (TList l).

(* C31.  The name of a variable as a sequence; of a function, with its arguments. *)
Inductive NameSeq : tok -> list elem -> Prop :=
| Ns_var n l : Flat n l -> NameSeq (TVar n) l
| Ns_expr n l : Flat n l -> NameSeq (TExpr n) l
| Ns_slice n s k l : Flat n l -> NameSeq (TSlice n s k) l
| Ns_dyn n s k l : Flat n l -> NameSeq (TDyn n s k) l
| Ns_func f a l : Flat a l -> NameSeq (TFunc f a) (map Ch f ++ Ch 40 :: l ++ [Ch 41])
| Ns_funcs f a s k l : Flat a l -> NameSeq (TFuncS f a s k) (map Ch f ++ Ch 40 :: l ++ [Ch 41]).
(* The name is a str. *)
Inductive TextName : tok -> str -> Prop :=
| Tn_var s : TextName (TVar (TS s)) s
| Tn_expr s : TextName (TExpr (TS s)) s
| Tn_slice s b k : TextName (TSlice (TS s) b k) s
| Tn_dyn s b k : TextName (TDyn (TS s) b k) s
| Tn_func f s : TextName (TFunc f (TS s)) (f ++ 40 :: s ++ [41])
| Tn_funcs f s b k : TextName (TFuncS f (TS s) b k) (f ++ 40 :: s ++ [41]).

(* C32.  Texts obtained by putting any text in place of each variable. *)
Inductive Instance : list elem -> str -> Prop :=
| In_nil : Instance [] []
| In_char c l s : Instance l s -> Instance (Ch c :: l) (c :: s)
| In_var t x l s : Instance l s -> Instance (Va t :: l) (x ++ s).
(* The same, with texts that have no line feed.  One variable with a name stands
   for every text. *)
Inductive LineInstance : list elem -> str -> Prop :=
| Li_nil : LineInstance [] []
| Li_char c l s : LineInstance l s -> LineInstance (Ch c :: l) (c :: s)
| Li_var t x l s : ~ In 10 x -> LineInstance l s -> LineInstance (Va t :: l) (x ++ s).
Inductive Nameless : tok -> Prop :=
| Nl_var n : Flat n [] -> Nameless (TVar n)
| Nl_expr n : Flat n [] -> Nameless (TExpr n)
| Nl_slice n s l : Flat n [] -> Nameless (TSlice n s l)
| Nl_dyn n s l : Flat n [] -> Nameless (TDyn n s l).
Definition CouldBe (t : tok) (l : list elem) (s : str) : Prop :=
  (Named t /\ ~ Nameless t) \/ exists x, LineInstance l x /\ (s = x \/ s = x ++ [10]).

(* C29.  The substring taken by Asterisk, main/pbx_variables.c, substring():
   a negative offset counts from the end, but not beyond the beginning; a
   negative length leaves out characters at the end. *)
Definition ast_offset (n off : Z) : Z :=
  if (off <? 0)%Z then Z.max 0 (n + off) else off.
Definition AstSubstring (v : str) (off : Z) (len : option Z) (r : str) : Prop :=
  let n := Z.of_nat (length v) in
  let o := ast_offset n off in
  exists a b, v = a ++ r ++ b /\
    Z.of_nat (length a) = Z.min o n /\
    Z.of_nat (length r) =
      match len with
      | None => n - Z.min o n
      | Some l => if (l <? 0)%Z then Z.max 0 (n + l - Z.min o n)
                  else Z.min l (n - Z.min o n)
      end%Z.

(* Decimal literals with an optional minus sign. *)
Inductive Digits : str -> N -> Prop :=
| Di_one d : d < 10 -> Digits [48 + d] d
| Di_snoc s n d : Digits s n -> d < 10 -> Digits (s ++ [48 + d]) (n * 10 + d).
Inductive Literal : str -> Z -> Prop :=
| Li_pos s n : Digits s n -> Literal s (Z.of_N n)
| Li_neg s n : Digits s n -> Literal (45 :: s) (- Z.of_N n)%Z.

(* Offset and length that make sense: varfun.py:416-428 *)
Definition LengthMakesSense (off len : Z) : Prop :=
  len <> 0%Z /\ ~ (off < 0 /\ len >= - off)%Z.

(* C28.  The bracket closing an opened one: nesting of the same kind counts. *)
Definition count (c : N) (s : str) : nat := length (filter (N.eqb c) s).
Definition ClosedBy (o c : N) (text inner rest : str) : Prop :=
  text = inner ++ c :: rest /\ count c inner = count o inner /\
  forall a b, inner = a ++ b -> (count c a <= count o a)%nat.

Inductive Opener : N -> N -> Prop := Op_curly : Opener 123 125 | Op_square : Opener 91 93.

(* The text before the first '${' or '$[', and the text after it. *)
Definition Opens (s : str) : Prop := exists a o c b, Opener o c /\ s = a ++ 36 :: o :: b.
Definition FirstOpen (s pre : str) (o c : N) (rest : str) : Prop :=
  Opener o c /\ s = pre ++ 36 :: o :: rest /\ ~ Opens pre.

(* Some '${' or '$[' that the parser comes across has no closing bracket. *)
Inductive Unterminated : str -> Prop :=
| Un_here s pre o c rest : FirstOpen s pre o c rest ->
    (forall i r, ~ ClosedBy o c rest i r) -> Unterminated s
| Un_inner s pre o c rest i r : FirstOpen s pre o c rest -> ClosedBy o c rest i r ->
    Unterminated i -> Unterminated s
| Un_after s pre o c rest i r : FirstOpen s pre o c rest -> ClosedBy o c rest i r ->
    Unterminated r -> Unterminated s.

(* C27.  [p] occurs in [s]. *)
Definition Occurs (p s : str) : Prop := exists a b, s = a ++ p ++ b.

(* The one value standing for a sequence, as joining makes it: neighbouring
   characters are one str, and a Var without name has at least two parts. *)
Definition Part (t : tok) : Prop := Named t \/ exists c s, t = TS (c :: s).
Definition Parts (m : list tok) (l : list elem) : Prop :=
  Forall Part m /\ (forall a x y b, m <> a ++ TS x :: TS y :: b) /\
  exists ls, Forall2 Flat m ls /\ List.concat ls = l.
Definition Canon (t : tok) (l : list elem) : Prop :=
  exists m, Parts m l /\ t = match m with [] => TS [] | [x] => x | _ => TList m end.
