(* Declarative side of C61: the text that is printed. *)
From Verif Require Import Base PyStr Defines Spec_Annotate Report Spec_Run.

(* ---- numbers ---- *)
Inductive HexDigit : N -> N -> Prop :=
| Hd_digit d : d < 10 -> HexDigit (48 + d) d
| Hd_letter d : 10 <= d < 16 -> HexDigit (87 + d) d.
(* leading zeros count *)
Inductive Hex : str -> N -> Prop :=
| Hx_nil : Hex [] 0
| Hx_snoc s n c d : Hex s n -> HexDigit c d -> Hex (s ++ [c]) (n * 16 + d).
Definition Address (t : str) : Prop := t <> [] /\ (exists n, Hex t n) /\ (forall r, t = 48 :: r -> r = []).
Inductive IntText : Z -> str -> Prop :=
| It_pos n s : Numeral s n -> IntText (Z.of_N n) s
| It_neg n s : Numeral s n -> 0 < n -> IntText (- Z.of_N n) (45 :: s).

Section Printable.
Variable printable : N -> bool.

(* ---- a text in quotes ---- *)
Definition Plain (c : N) : Prop := 32 <= c < 127 \/ 127 < c /\ printable c = true.
(* How one character is written between the quotes [q].  Code points have at
   most eight digits. *)
Inductive Written (q : N) : N -> str -> Prop :=
| Wr_mark c : c = q \/ c = 92 -> Written q c [92; c]
| Wr_tab : Written q 9 (L "\t")
| Wr_nl : Written q 10 (L "\n")
| Wr_cr : Written q 13 (L "\r")
| Wr_plain c : Plain c -> c <> q -> c <> 92 -> Written q c [c]
| Wr_two c h : ~ Plain c -> ~ In c [9; 10; 13] -> c < 256 -> Hex h c -> length h = 2%nat -> Written q c (L "\x" ++ h)
| Wr_four c h : ~ Plain c -> 256 <= c < 65536 -> Hex h c -> length h = 4%nat -> Written q c (L "\u" ++ h)
| Wr_eight c h : ~ Plain c -> 65536 <= c -> Hex h (c mod 4294967296) -> length h = 8%nat -> Written q c (L "\U" ++ h).
Inductive WrittenAll (q : N) : str -> str -> Prop :=
| Wa_nil : WrittenAll q [] []
| Wa_cons c s a b : Written q c a -> WrittenAll q s b -> WrittenAll q (c :: s) (a ++ b).
(* Single quotes, unless that is the only kind of quote in the text. *)
Definition OnlySingle (s : str) : Prop := In 39 s /\ ~ In 34 s.
Definition Quoted (s t : str) : Prop :=
  exists q b, (OnlySingle s /\ q = 34 \/ ~ OnlySingle s /\ q = 39) /\ WrittenAll q s b /\ t = [q] ++ b ++ [q].

(* Reading it back, as Python reads a literal.  [Literal q t s]: between the
   quotes, [t] means [s]. *)
Inductive Literal (q : N) : str -> str -> Prop :=
| Li_nil : Literal q [] []
| Li_char c t s : c <> q -> c <> 92 -> c <> 10 -> Literal q t s -> Literal q (c :: t) (c :: s)
| Li_mark c t s : In c [39; 34; 92] -> Literal q t s -> Literal q (92 :: c :: t) (c :: s)
| Li_tab t s : Literal q t s -> Literal q (L "\t" ++ t) (9 :: s)
| Li_nl t s : Literal q t s -> Literal q (L "\n" ++ t) (10 :: s)
| Li_cr t s : Literal q t s -> Literal q (L "\r" ++ t) (13 :: s)
| Li_two h c t s : Hex h c -> length h = 2%nat -> Literal q t s -> Literal q (L "\x" ++ h ++ t) (c :: s)
| Li_four h c t s : Hex h c -> length h = 4%nat -> Literal q t s -> Literal q (L "\u" ++ h ++ t) (c :: s)
| Li_eight h c t s : Hex h c -> length h = 8%nat -> Literal q t s -> Literal q (L "\U" ++ h ++ t) (c :: s).
Definition Means (t s : str) : Prop := exists q b, (q = 39 \/ q = 34) /\ t = [q] ++ b ++ [q] /\ Literal q b s.

(* ---- values ---- *)

(* Nothing says which address an object has. *)
Inductive PartsText : list rp -> str -> Prop :=
| Pt_nil : PartsText [] []
| Pt_lit s r t : PartsText r t -> PartsText (RLit s :: r) (s ++ t)
| Pt_str s a r t : Quoted s a -> PartsText r t -> PartsText (RStr s :: r) (a ++ t)
| Pt_addr a r t : Address a -> PartsText r t -> PartsText (RAddr :: r) (a ++ t).
(* [b]: quoted *)
Inductive ArgText : bool -> arg -> str -> Prop :=
| At_str s : ArgText false (AStr s) s
| At_quoted s t : Quoted s t -> ArgText true (AStr s) t
| At_int b z t : IntText z t -> ArgText b (AInt z) t
| At_none b : ArgText b ANone (L "None")
| At_obj s r : ArgText false (AObj (Ok s) r) s
| At_default s r t : PartsText r t -> ArgText true (AObj s r) t
| At_list b r t : PartsText r t -> ArgText b (AList r) t
| At_shown r t : PartsText r t -> ArgText false (AShown r) t
| At_shownq r t u : PartsText r t -> Quoted t u -> ArgText true (AShown r) u.

(* ---- a message ---- *)
Definition Named (args : list (str * arg)) (f : str) (a : arg) : Prop :=
  exists before after, args = before ++ (f, a) :: after /\ ~ In f (map fst before).
Definition FieldName (f : str) : Prop := ~ In 125 f /\ ~ In 33 f.
(* The template with the values filled in. *)
Inductive Filled (args : list (str * arg)) : str -> str -> Prop :=
| Fi_nil : Filled args [] []
| Fi_text c r t : c <> 123 -> Filled args r t -> Filled args (c :: r) (c :: t)
| Fi_value f a v r t : FieldName f -> Named args f a -> ArgText false a v -> Filled args r t ->
    Filled args (L "{" ++ f ++ L "}" ++ r) (v ++ t)
| Fi_quoted f a v r t : FieldName f -> Named args f a -> ArgText true a v -> Filled args r t ->
    Filled args (L "{" ++ f ++ L "!r}" ++ r) (v ++ t).
(* A value that is shown, quoted or not, with the address of an object in it. *)
Definition ShowsAddress (quoted : bool) (a : arg) : Prop :=
  match a with AObj _ r => quoted = true /\ In RAddr r | AList r | AShown r => In RAddr r | _ => False end.
Definition Addressed (m : msg) : Prop :=
  exists f b a, In (f, b) (mfields (m_cls m)) /\ Named (m_args m) f a /\ ShowsAddress b a.
Definition Words (m : msg) (t : str) : Prop := Filled (m_args m) (mtemplate (m_cls m)) t.
Definition Line (m : msg) (t : str) : Prop :=
  exists num body, Numeral num (w_line (m_where m)) /\ Words m body /\
    t = w_file (m_where m) ++ L ":" ++ num ++ L " " ++ mname (m_cls m) ++ L ": " ++ body ++ [10].
Inductive Lines : list msg -> str -> Prop :=
| Ln_nil : Lines [] []
| Ln_cons m ms t u : Line m t -> Lines ms u -> Lines (m :: ms) (t ++ u).
End Printable.
