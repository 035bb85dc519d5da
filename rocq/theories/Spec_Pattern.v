(* Independent specification of dialplan patterns.  It speaks about the text of
   a pattern and about extensions only, not about the parsed form in Pattern.v. *)
From Verif Require Import Base.

(* ---- Which texts are patterns (C02) ---- *)

(* [Closed p]: every '[' of p is closed by a ']' after at least one character. *)
Inductive Closed : str -> Prop :=
| Closed_nil : Closed []
| Closed_chr c p : c <> 0x5b -> Closed p -> Closed (c :: p)
| Closed_set c inner p :
    c <> 0x5d -> ~ In 0x5d inner -> Closed p ->
    Closed (0x5b :: (c :: inner) ++ 0x5d :: p).

(* [FirstUnclosed p]: the first defect is a '[' without a ']' behind it. *)
Inductive FirstUnclosed : str -> Prop :=
| FU_here p : ~ In 0x5d p -> FirstUnclosed (0x5b :: p)
| FU_chr c p : c <> 0x5b -> FirstUnclosed p -> FirstUnclosed (c :: p)
| FU_set c inner p :
    c <> 0x5d -> ~ In 0x5d inner -> FirstUnclosed p ->
    FirstUnclosed (0x5b :: (c :: inner) ++ 0x5d :: p).

(* [FirstEmpty p]: the first defect is "[]". *)
Inductive FirstEmpty : str -> Prop :=
| FE_here p : FirstEmpty (0x5b :: 0x5d :: p)
| FE_chr c p : c <> 0x5b -> FirstEmpty p -> FirstEmpty (c :: p)
| FE_set c inner p :
    c <> 0x5d -> ~ In 0x5d inner -> FirstEmpty p ->
    FirstEmpty (0x5b :: (c :: inner) ++ 0x5d :: p).

(* A str without surrogate code points (what decoding a file gives). *)
Definition unicode_scalar (c : N) : Prop := c < 0xd800 \/ (0xe000 <= c /\ c < 0x110000).
Definition valid_str (s : str) : Prop := Forall unicode_scalar s.

(* ---- The language of a pattern (C05) ---- *)

(* [InSet inner d]: byte d belongs to the set written between brackets.  A dash
   between two characters is a range (in either direction); a dash in the last
   two places is literal. *)
Inductive InSet : bytes -> N -> Prop :=
| IS_range a b rest d :
    (a <= d <= b \/ b <= d <= a) -> InSet (a :: 0x2d :: b :: rest) d
| IS_after_range a b rest d :
    InSet rest d -> InSet (a :: 0x2d :: b :: rest) d
| IS_head a m b rest : m <> 0x2d -> InSet (a :: m :: b :: rest) a
| IS_tail a m b rest d :
    m <> 0x2d -> InSet (m :: b :: rest) d -> InSet (a :: m :: b :: rest) d
| IS_one a : InSet [a] a
| IS_two_l a b : InSet [a; b] a
| IS_two_r a b : InSet [a; b] b.

(* [PatLang p e]: the pattern text p (after the underscore) describes exactly
   the extension e. *)
Inductive PatLang : bytes -> bytes -> Prop :=
| PL_end : PatLang [] []
| PL_dash p e : PatLang p e -> PatLang (0x2d :: p) e
| PL_X c p d e : c = 0x58 \/ c = 0x78 -> 0x30 <= d <= 0x39 ->
    PatLang p e -> PatLang (c :: p) (d :: e)
| PL_Z c p d e : c = 0x5a \/ c = 0x7a -> 0x31 <= d <= 0x39 ->
    PatLang p e -> PatLang (c :: p) (d :: e)
| PL_N c p d e : c = 0x4e \/ c = 0x6e -> 0x32 <= d <= 0x39 ->
    PatLang p e -> PatLang (c :: p) (d :: e)
| PL_dot p d e : PatLang (0x2e :: p) (d :: e)       (* one or more of anything *)
| PL_bang p e : PatLang (0x21 :: p) e               (* zero or more of anything *)
| PL_set inner p d e : ~ In 0x5d inner -> InSet inner d ->
    PatLang p e -> PatLang (0x5b :: inner ++ 0x5d :: p) (d :: e)
| PL_lit c p e :
    ~ In c [0x2d; 0x58; 0x78; 0x5a; 0x7a; 0x4e; 0x6e; 0x2e; 0x21; 0x5b] ->
    PatLang p e -> PatLang (c :: p) (c :: e).

(* ---- Order (C01) ---- *)

Record StrictTotalOrder {A} (eqv lt : A -> A -> Prop) : Prop := {
  sto_eq_refl : forall a, eqv a a;
  sto_eq_sym : forall a b, eqv a b -> eqv b a;
  sto_eq_trans : forall a b c, eqv a b -> eqv b c -> eqv a c;
  sto_irrefl : forall a b, eqv a b -> ~ lt a b;
  sto_trans : forall a b c, lt a b -> lt b c -> lt a c;
  sto_total : forall a b, lt a b \/ eqv a b \/ lt b a;
  sto_compat_l : forall a b c, eqv a b -> lt b c -> lt a c;
  sto_compat_r : forall a b c, lt a b -> eqv b c -> lt a c
}.

(* ---- Elements of a pattern text, for the canonical form (C03, C04) ---- *)

(* TAny1 is '.', TAny0 is '!', TOne P is one character out of the set P. *)
Inductive tok := TAny1 | TAny0 | TOne (P : N -> Prop).

Inductive Toks : bytes -> list tok -> Prop :=
| TK_nil : Toks [] []
| TK_dash p ts : Toks p ts -> Toks (0x2d :: p) ts
| TK_X c p ts : c = 0x58 \/ c = 0x78 -> Toks p ts ->
    Toks (c :: p) (TOne (fun d => 0x30 <= d <= 0x39) :: ts)
| TK_Z c p ts : c = 0x5a \/ c = 0x7a -> Toks p ts ->
    Toks (c :: p) (TOne (fun d => 0x31 <= d <= 0x39) :: ts)
| TK_N c p ts : c = 0x4e \/ c = 0x6e -> Toks p ts ->
    Toks (c :: p) (TOne (fun d => 0x32 <= d <= 0x39) :: ts)
| TK_dot p ts : Toks p ts -> Toks (0x2e :: p) (TAny1 :: ts)
| TK_bang p ts : Toks p ts -> Toks (0x21 :: p) (TAny0 :: ts)
| TK_set inner p ts : ~ In 0x5d inner -> Toks p ts ->
    Toks (0x5b :: inner ++ 0x5d :: p) (TOne (InSet inner) :: ts)
| TK_lit c p ts :
    ~ In c [0x2d; 0x58; 0x78; 0x5a; 0x7a; 0x4e; 0x6e; 0x2e; 0x21; 0x5b] ->
    Toks p ts -> Toks (c :: p) (TOne (fun d => d = c) :: ts).

(* All elements are single characters: the characters *)
Definition Singles (ts : list tok) (cs : bytes) : Prop :=
  Forall2 (fun t c => exists P, t = TOne P /\ forall d, P d <-> d = c) ts cs.

(* Elements whose canonical spelling can be read back: not the single '[', and
   ']' not a member, unless alone or strictly inside a range of at least four. *)
Definition SafeTok (t : tok) : Prop :=
  match t with
  | TOne P =>
    ~ (forall d, P d <-> d = 0x5b) /\
    (~ P 0x5d \/ (forall d, P d <-> d = 0x5d) \/
     exists lo hi, lo < 0x5d < hi /\ lo + 3 <= hi /\ forall d, P d <-> lo <= d <= hi)
  | _ => True
  end.

Definition ascii_str (s : str) : Prop := Forall (fun c => c < 0x80) s.

(* When the canonical spelling of the pattern text '_' p is faithful. *)
Definition SafePattern (p : bytes) : Prop :=
  exists ts, Toks p ts /\
    ((exists cs, Singles ts cs /\ cs <> [] /\ hd 0 cs <> 0x5f /\ ~ In 0x2d cs) \/
     ((forall cs, ~ Singles ts cs) /\ Forall SafeTok ts)).

(* The same for any exten text: without dashes a literal is its own spelling,
   which must not be empty and not look like a pattern. *)
Definition SafeText (raw : str) : Prop :=
  match raw with
  | [] => False
  | c :: p =>
    if c =? 0x5f then SafePattern p
    else let s := filter (fun x => negb (x =? 0x2d)) raw in s <> [] /\ hd 0 s <> 0x5f
  end.

(* Additionally for the hint: no bracket on its own, no newline in a set. *)
Definition PlainTok (t : tok) : Prop :=
  match t with
  | TOne P => ~ (forall d, P d <-> d = 0x5d) /\ ~ (forall d, P d <-> d = 0x5b) /\ ~ P 0x0a
  | _ => True
  end.
Definition PlainPattern (p : bytes) : Prop := exists ts, Toks p ts /\ Forall PlainTok ts.

(* The extensions a whole exten text stands for: dashes never count. *)
Definition ExtenLang (raw e : str) : Prop :=
  match raw with
  | c :: p => if c =? 0x5f then PatLang p e else e = filter (fun x => negb (x =? 0x2d)) raw
  | [] => False
  end.

(* The lowest member of the set is not a dash (C06). *)
Definition LowDashFree (t : tok) : Prop :=
  match t with
  | TOne P => ~ (P 0x2d /\ forall d, P d -> 0x2d <= d)
  | _ => True
  end.

(* The example for a pattern: the lowest member of each set, and fixed texts for
   '.' and '!' (C06). *)
Inductive ExampleText : list tok -> str -> Prop :=
| ET_nil : ExampleText [] []
| ET_any1 ts e : ExampleText ts e -> ExampleText (TAny1 :: ts) (L "0-123456789-333" ++ e)
| ET_any0 ts e : ExampleText ts e -> ExampleText (TAny0 :: ts) (L "-123456789-333" ++ e)
| ET_one (P : N -> Prop) c ts e : P c -> (forall d, P d -> c <= d) -> ExampleText ts e -> ExampleText (TOne P :: ts) (c :: e).

(* Texts that consist of sets (whose first character is no newline and may be a
   closing bracket) and of characters other than brackets and dashes (C04). *)
Inductive Lossless : str -> Prop :=
| Ll_nil : Lossless []
| Ll_chr c s : ~ In c [0x5b; 0x5d; 0x2d] -> Lossless s -> Lossless (c :: s)
| Ll_set d inner s : d <> 0x0a -> ~ In 0x5d inner -> Lossless s -> Lossless (0x5b :: d :: inner ++ 0x5d :: s).
(* What is compared with the canonical spelling: dashes, and brackets that belong
   to no set, are left out. *)
Definition SetAt (s : str) : Prop := exists d inner r, s = d :: inner ++ 0x5d :: r /\ d <> 0x0a /\ ~ In 0x5d inner.
Inductive Compared : str -> str -> Prop :=
| Kp_nil : Compared [] []
| Kp_chr c s k : ~ In c [0x5b; 0x5d; 0x2d] -> Compared s k -> Compared (c :: s) (c :: k)
| Kp_set d inner s k : d <> 0x0a -> ~ In 0x5d inner -> Compared s k ->
    Compared (0x5b :: d :: inner ++ 0x5d :: s) (0x5b :: d :: inner ++ 0x5d :: k)
| Kp_drop c s k : c = 0x5d \/ c = 0x2d -> Compared s k -> Compared (c :: s) k
| Kp_open s k : ~ SetAt s -> Compared s k -> Compared (0x5b :: s) k.
