(* The subset of Python's [re] used by the code: an anchored sequence of items,
   each a single character class or a starred character class (greedy or lazy),
   ended by [$].  The matcher is re's backtracking search: the items are tried
   from left to right, a greedy star first with as many characters as possible,
   a lazy one first with as few as possible.  The result is the text matched by
   every item; a group of the pattern covers the items stated where it is used. *)
From Verif Require Import Base.

Inductive item :=
| One (p : N -> bool)
| Greedy (p : N -> bool)
| Lazy (p : N -> bool).

(* [$] without re.MULTILINE matches at the end and before a final newline *)
Definition at_end (s : str) : bool :=
  match s with [] => true | [c] => c =? 10 | _ => false end.

Section stars.
  Variable k : str -> option (list str).   (* matcher for the remaining items *)
  Variable p : N -> bool.
  Fixpoint greedy (s : str) : option (list str) :=
    match s with
    | c :: r =>
      if p c then
        match greedy r with
        | Some (seg :: segs) => Some ((c :: seg) :: segs)
        | _ => option_map (cons []) (k s)
        end
      else option_map (cons []) (k s)
    | [] => option_map (cons []) (k s)
    end.
  Fixpoint lazy (s : str) : option (list str) :=
    match k s with
    | Some segs => Some ([] :: segs)
    | None =>
      match s with
      | c :: r =>
        if p c then
          match lazy r with
          | Some (seg :: segs) => Some ((c :: seg) :: segs)
          | _ => None
          end
        else None
      | [] => None
      end
    end.
End stars.

Fixpoint re_match (l : list item) (s : str) : option (list str) :=
  match l with
  | [] => if at_end s then Some [] else None
  | One p :: l' =>
    match s with
    | c :: r => if p c then option_map (cons [c]) (re_match l' r) else None
    | [] => None
    end
  | Greedy p :: l' => greedy (re_match l') p s
  | Lazy p :: l' => lazy (re_match l') p s
  end.

(* character classes *)
Definition is_chr (c : N) : N -> bool := fun x => x =? c.
Definition not_in (l : list N) : N -> bool := fun x => negb (memb x l).
Definition dot : N -> bool := fun x => negb (x =? 10).
