(* Independent specification of the front end (C38-C41). *)
From Verif Require Import Base PyStr.

(* The words of a text: what is between white space. *)
Inductive Words : str -> list str -> Prop :=
| W_none gap : forallb isspace gap = true -> Words gap []
| W_word gap w rest ws : forallb isspace gap = true -> w <> [] -> (forall c, In c w -> isspace c = false) ->
    (forall c r, rest = c :: r -> isspace c = true) -> Words rest ws -> Words (gap ++ w ++ rest) (w :: ws).

(* Lines filled with words. *)
Definition line_of (g : list str) : str := join [32] g.
Definition Filled (width : nat) (groups : list (list str)) : Prop :=
  (forall g, In g groups -> g <> [] /\ (length g = 1%nat \/ (length (line_of g) <= width)%nat)) /\
  (forall a g w g' b, groups = a ++ g :: (w :: g') :: b -> (width <= length (line_of g) + length w)%nat).

(* Command names. *)
Definition name_first (c : N) : Prop := (97 <= c <= 122) \/ (48 <= c <= 57).
Definition name_char (c : N) : Prop := name_first c \/ c = 95 \/ c = 45.
Definition CommandName (s : str) : Prop :=
  exists c r, name_first c /\ (forall x, In x r -> name_char x) /\ (s = c :: r \/ s = c :: r ++ [10]).

(* The version of every call in a history: the first request decides. *)
Definition requested (v : option str) : option str :=
  match v with Some (c :: s) => Some (c :: s) | _ => None end.
Definition VersionAnswers (calls : list (option str)) (answers : list (option str)) : Prop :=
  match calls with
  | [] => answers = []
  | v0 :: _ =>
    exists chosen, (requested v0 = Some chosen \/ (requested v0 = None /\ chosen = L "v13")) /\
      Forall2 (fun v a => (a = Some chosen /\ (requested v = None \/ requested v = Some chosen)) \/
                          (a = None /\ exists o, requested v = Some o /\ o <> chosen)) calls answers
  end.

(* ident-scan: identifiers sorted by a key, neighbours with similar names. *)
Inductive StrLe : str -> str -> Prop :=
| SL_nil b : StrLe [] b
| SL_lt x a y b : x < y -> StrLe (x :: a) (y :: b)
| SL_eq x a b : StrLe a b -> StrLe (x :: a) (x :: b).
Definition ByName (lower : str -> str) (a b : str) : Prop := StrLe (lower a) (lower b).
Definition ByLen (lower : str -> str) (a b : str) : Prop :=
  (length a < length b)%nat \/ (length a = length b /\ StrLe (lower a) (lower b)).
Definition ArgN (isdigit : str -> bool) (s : str) : Prop := exists d, s = L "ARG" ++ d /\ isdigit d = true.
Definition Similar (lower : str -> str) (isupper islower isdigit : str -> bool) (dist : str -> str -> nat) (a b : str) : Prop :=
  let d := dist (lower a) (lower b) in
  ~ (d = 0%nat /\ ((isupper a = true /\ islower b = true) \/ (islower a = true /\ isupper b = true))) /\
  ~ (ArgN isdigit a /\ ArgN isdigit b) /\
  (d <= 2 /\ d + 1 < length a /\ d + 1 < length b)%nat.
