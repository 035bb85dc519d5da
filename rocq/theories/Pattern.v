(* Model of asterisklint/pattern.py *)
From Verif Require Import Base Utf8.

(* An element of Pattern.values[1:]: the tuple (num,) or (num, bytes).
   pattern.py:82-101 *)
Definition value : Type := (N * option bytes)%type.

(* Pattern.values: the pattern type followed by elements, pattern.py:82-101.
   Simplification: the type tag and the elements are two fields here. *)
Record values := mkv { ptype : N; pvals : list value }.

(* pattern.py:70-71 *)
Definition NOT_A_PATTERN : N := 0.
Definition IS_A_PATTERN : N := 1.

(* list(range(a, b + 1)) as used in pattern.py:171 *)
Fixpoint nrange_len (a : N) (len : nat) : list N :=
  match len with
  | O => []
  | S k => a :: nrange_len (a + 1) k
  end.
Definition nrange (a b : N) : list N := nrange_len a (N.to_nat (b + 1 - a)).

(* The while loop of parse_range_list, pattern.py:164-178: the list usedlist *)
Fixpoint range_used (rawlist : bytes) : list N :=
  match rawlist with
  | a :: ((m :: b :: rest) as tl) =>
    if m =? 0x2d
    then (if b <? a then nrange b a else nrange a b) ++ range_used rest
    else a :: range_used tl
  | _ => rawlist
  end.

(* sorted(set(l)) on bytes, pattern.py:181-188: insertion into a sorted list
   without duplicates *)
Fixpoint set_insert (x : N) (l : list N) : list N :=
  match l with
  | [] => [x]
  | y :: l' => if x <? y then x :: l
               else if x =? y then l
               else y :: set_insert x l'
  end.
Fixpoint sorted_set (l : list N) : list N :=
  match l with [] => [] | x :: l' => set_insert x (sorted_set l') end.

(* list[-1] with a default that is never used on the paths below *)
Definition last_of (l : list N) (d : N) : N := last l d.

(* pattern.py:158-197 *)
Definition parse_range_list (rawlist : bytes) : res value :=
  let usedlist := sorted_set (range_used rawlist) in
  match usedlist with
  | [] => Exn IndexError                       (* usedlist[0], line 189 *)
  | first :: _ =>
    let len := N.of_nat (List.length usedlist) in
    let num := N.lor (len * 0x100) first in
    if (1 <? len) && negb (last_of usedlist 0 - first =? len - 1)
    then Ok (num, Some usedlist)
    else Ok (num, None)
  end.

(* raw.index(0x5d) followed by raw[0:i] and raw[i+1:], pattern.py:143,148-149.
   [None] is the ValueError of list.index. *)
Fixpoint cut_rbracket (raw : bytes) : option (bytes * bytes) :=
  match raw with
  | [] => None
  | x :: r =>
    if x =? 0x5d then Some ([], r)
    else match cut_rbracket r with
         | Some (a, b) => Some (x :: a, b)
         | None => None
         end
  end.

(* The loop of parse_pattern on the byte list, pattern.py:122-156.  Fuel: the
   list gets shorter in every iteration, so [length raw + 1] always suffices.
   The code catches IndexError around list.index, which raises ValueError: so an
   unclosed bracket raises ValueError (line 142-147). *)
Fixpoint parse_pattern_b (fuel : nat) (raw : bytes) : res (list value) :=
  match fuel with
  | O => Hang
  | S fuel' =>
    match raw with
    | [] => Ok [(0x30000, None)]
    | num :: rest =>
      if num =? 0x2d then parse_pattern_b fuel' rest
      else if (num =? 0x58) || (num =? 0x78) then
        let! r := parse_pattern_b fuel' rest in Ok ((0xa30, None) :: r)
      else if (num =? 0x5a) || (num =? 0x7a) then
        let! r := parse_pattern_b fuel' rest in Ok ((0x931, None) :: r)
      else if (num =? 0x4e) || (num =? 0x6e) then
        let! r := parse_pattern_b fuel' rest in Ok ((0x832, None) :: r)
      else if num =? 0x2e then
        let! r := parse_pattern_b fuel' rest in Ok ((0x18000, None) :: r)
      else if num =? 0x21 then
        let! r := parse_pattern_b fuel' rest in Ok ((0x28000, None) :: r)
      else if num =? 0x5b then
        match cut_rbracket rest with
        | None => Exn ValueError
        | Some (inner, rest') =>
          let! v := parse_range_list inner in
          let! r := parse_pattern_b fuel' rest' in Ok (v :: r)
        end
      else
        let! r := parse_pattern_b fuel' rest in Ok ((0x100 + num, None) :: r)
    end
  end.

Definition parse_pattern (raw : str) : res (list value) :=
  let! b := utf8_encode raw in parse_pattern_b (S (List.length b)) b.

(* pattern.py:109-120.  tuple(-1, (0x40000,)) raises TypeError (line 113). *)
Definition parse (raw : str) : res values :=
  match raw with
  | [] => Exn TypeError
  | c :: rest =>
    if c =? 0x5f then
      let! vs := parse_pattern rest in Ok (mkv IS_A_PATTERN vs)
    else
      let! b := utf8_encode raw in
      Ok (mkv NOT_A_PATTERN
            (map (fun i => (0x100 + i, None)) (filter (fun i => negb (i =? 0x2d)) b)))
  end.

(* A Pattern object: raw text and parsed values, pattern.py:78-107 (the
   position [where] is not part of the pattern's behaviour and left out). *)
Record pattern := mkpat { praw : str; pv : values }.

Definition mk_pattern (raw : str) : res pattern :=
  let! v := parse raw in Ok (mkpat raw v).

(* Python tuple/bytes comparison: lexicographic, shorter first; used by
   pattern.py:397-405 *)
Fixpoint lex {A} (cmp : A -> A -> comparison) (a b : list A) : comparison :=
  match a, b with
  | [], [] => Eq
  | [], _ :: _ => Lt
  | _ :: _, [] => Gt
  | x :: a', y :: b' => match cmp x y with Eq => lex cmp a' b' | c => c end
  end.

Definition value_cmp (a b : value) : comparison :=
  match N.compare (fst a) (fst b) with
  | Eq => match snd a, snd b with
          | None, None => Eq
          | None, Some _ => Lt
          | Some _, None => Gt
          | Some x, Some y => lex N.compare x y
          end
  | c => c
  end.

Definition values_cmp (a b : values) : comparison :=
  match N.compare (ptype a) (ptype b) with
  | Eq => lex value_cmp (pvals a) (pvals b)
  | c => c
  end.

(* pattern.py:397-400 __eq__ *)
Definition pat_eqb (a b : pattern) : bool :=
  match values_cmp (pv a) (pv b) with Eq => true | _ => false end.
(* pattern.py:402-405 __lt__ *)
Definition pat_ltb (a b : pattern) : bool :=
  match values_cmp (pv a) (pv b) with Lt => true | _ => false end.
(* functools.total_ordering (pattern.py:68) derives <= as (a < b or a == b) *)
Definition pat_leb (a b : pattern) : bool := pat_ltb a b || pat_eqb a b.

Definition value_eqb (a b : value) : bool :=
  match value_cmp a b with Eq => true | _ => false end.
Definition vlist_eqb (a b : list value) : bool :=
  match lex value_cmp a b with Eq => true | _ => false end.

(* values[1:-1]: all but the first (type) and the last *)
Definition drop_last {A} (l : list A) : list A := removelast l.

(* pattern.py:381-392 matches_same *)
Definition matches_same (a b : values) : bool :=
  if ptype a =? ptype b then vlist_eqb (pvals a) (pvals b)
  else if ptype a =? IS_A_PATTERN then vlist_eqb (drop_last (pvals a)) (pvals b)
  else vlist_eqb (pvals a) (drop_last (pvals b)).

(* pattern.py:352-379 matches_extension.  Loop over the bytes with the list of
   values advancing in step. *)
Fixpoint match_vals (vals : list value) (ext : bytes) : bool :=
  match ext with
  | [] => match vals with
          | [] => true                                       (* line 377-378 *)
          | v :: _ => (fst v =? 0x28000) || (fst v =? 0x30000)   (* line 379 *)
          end
  | char :: ext' =>
    match vals with
    | [] => false                                            (* line 360-361 *)
    | (num, set) :: vals' =>
      if (num =? 0x18000) || (num =? 0x28000) || (num =? 0x30000) then true
      else match set with
           | Some s => if memb char s then match_vals vals' ext' else false
           | None =>
             let rangelen := N.land (N.shiftr num 8) 0xff in
             let rangestart := N.land num 0xff in
             if (rangestart <=? char) && (char <? rangestart + rangelen)
             then match_vals vals' ext' else false
           end
    end
  end.

(* extension.replace('-', '') *)
Definition no_dash (s : str) : str := filter (fun c => negb (c =? 0x2d)) s.

Definition matches_extension (p : values) (extension : str) : res bool :=
  let! e := latin1_encode (no_dash extension) in Ok (match_vals (pvals p) e).

(* pattern.py:327-350 example.  A third kind of pattern (assert False, line 348)
   cannot be constructed; the model raises too. *)
Definition example_piece (v : value) : str :=
  if fst v =? 0x18000 then L "0-123456789-333"
  else if fst v =? 0x28000 then L "-123456789-333"
  else if fst v =? 0x30000 then []
  else [N.land (fst v) 0xff].

Definition example (p : values) : res str :=
  if ptype p =? NOT_A_PATTERN then
    if forallb (fun v => match snd v with None => true | Some _ => false end) (pvals p)
    then Ok (map (fun v => N.land (fst v) 0xff) (pvals p))
    else Exn AssertionError
  else if ptype p =? IS_A_PATTERN then
    Ok (List.concat (map example_piece (pvals p)))
  else Exn AssertionError.

(* pattern.py:301-316 _canonical_pattern_get_ranges.  [run_at] is the largest
   i such that binstr[k] - binstr[0] == k for all k <= i (lines 305-310). *)
Fixpoint run_at (first : N) (i : N) (l : list N) : nat :=
  match l with
  | [] => O
  | x :: l' => if x =? first + i then S (run_at first (i + 1) l') else O
  end.

Inductive crange := CSingle (a : N) | CRange (a b : N).

Fixpoint get_ranges (fuel : nat) (binstr : list N) : list crange :=
  match fuel with
  | O => []
  | S fuel' =>
    match binstr with
    | [] => []
    | first :: rest =>
      let i := run_at first 1 rest in
      if (2 <=? i)%nat
      then CRange first (first + N.of_nat i) :: get_ranges fuel' (skipn i rest)
      else CSingle first :: get_ranges fuel' rest
    end
  end.

(* pattern.py:318-325 *)
Definition crange_start (r : crange) : N :=
  match r with CSingle a => a | CRange a _ => a end.
Definition crange_key (r : crange) : N :=
  let a := crange_start r in
  if in_rng 0x30 0x39 a || in_rng 0x41 0x5a a || in_rng 0x61 0x7a a
  then a else a + 0x100.

(* ranges.sort(key=...): stable insertion sort, pattern.py:286 *)
Fixpoint crange_insert (r : crange) (l : list crange) : list crange :=
  match l with
  | [] => [r]
  | x :: l' => if crange_key r <=? crange_key x then r :: l else x :: crange_insert r l'
  end.
Fixpoint crange_sort (l : list crange) : list crange :=
  match l with [] => [] | r :: l' => crange_insert r (crange_sort l') end.

(* pattern.py:287-296 *)
Definition crange_bytes (r : crange) : bytes :=
  match r with
  | CSingle a => [a]
  | CRange a b =>
    let len := b - a + 1 in
    if len <=? 3 then nrange a b else [a; 0x2d; b]
  end.

(* list.remove(x), first occurrence *)
Fixpoint remove1 (x : N) (l : list N) : list N :=
  match l with [] => [] | y :: l' => if x =? y then l' else y :: remove1 x l' end.

(* pattern.py:274-299 _canonical_pattern_add_range: the bytes appended *)
Definition canonical_add_range (binstr0 : list N) : bytes :=
  let dash := memb 0x2d binstr0 in
  let binstr1 := if dash then remove1 0x2d binstr0 else binstr0 in
  let brack := memb 0x5d binstr1 in
  let binstr := if brack then remove1 0x5d binstr1 else binstr1 in
  let ranges := crange_sort (get_ranges (List.length binstr) binstr) in
  [0x5b] ++ (if brack then [0x5d] else [])
         ++ List.concat (map crange_bytes ranges)
         ++ (if dash then [0x2d] else []) ++ [0x5d].

(* pattern.py:239-240 *)
Definition special : list N := [0x21; 0x2d; 0x2e; 0x4e; 0x58; 0x5a; 0x6e; 0x78; 0x7a].

(* pattern.py:231-272, the bytes for one value *)
Definition canonical_value (v : value) : bytes :=
  match v with
  | (num, None) =>
    if num <? 0x200 then
      let start := N.land num 0xff in
      if memb start special then [0x5b; start; 0x5d] else [start]
    else if num =? 0xa30 then [0x58]
    else if num =? 0x931 then [0x5a]
    else if num =? 0x832 then [0x4e]
    else if num =? 0x18000 then [0x2e]
    else if num =? 0x28000 then [0x21]
    else
      let length := N.shiftr (N.land num 0xff00) 8 in
      let start := N.land num 0xff in
      if length =? 2 then [0x5b; start; start + 1; 0x5d]
      else if length =? 3 then [0x5b; start; start + 1; start + 2; 0x5d]
      else [0x5b; start; 0x2d; start + length - 1; 0x5d]
  | (_, Some s) => canonical_add_range s
  end.

(* pattern.py:208-229.  decode('latin1') is the identity on code points.
   Simplification: bytes(...) of numbers above 255 (ValueError) cannot happen
   for parsed patterns and is not modelled. *)
Definition canonical (p : values) : str :=
  if ptype p =? NOT_A_PATTERN then map (fun v => N.land (fst v) 0xff) (pvals p)
  else if forallb (fun v => fst v <? 0x200) (drop_last (pvals p))
          && vlist_eqb (skipn (List.length (pvals p) - 1) (pvals p)) [(0x30000, None)]
  then map (fun v => N.land (fst v) 0xff) (drop_last (pvals p))
  else 0x5f :: List.concat (map canonical_value (drop_last (pvals p))).

(* pattern.py:73 RE_NO_DASH.findall joined: the regex is
   (\[.[^]]*\]|[^][-]+); '.' is any character but newline.  [take_set] matches
   [^]]*\] greedily. *)
Fixpoint take_set (s : str) : option (str * str) :=
  match s with
  | [] => None
  | c :: r => if c =? 0x5d then Some ([c], r)
              else match take_set r with
                   | Some (a, b) => Some (c :: a, b)
                   | None => None
                   end
  end.

Fixpoint re_no_dash (fuel : nat) (s : str) : str :=
  match fuel with
  | O => []
  | S fuel' =>
    match s with
    | [] => []
    | c :: r =>
      if c =? 0x5b then
        match r with
        | d :: r' =>
          if d =? 0x0a then re_no_dash fuel' r
          else match take_set r' with
               | Some (a, b) => c :: d :: a ++ re_no_dash fuel' b
               | None => re_no_dash fuel' r
               end
        | [] => re_no_dash fuel' r
        end
      else if (c =? 0x5d) || (c =? 0x2d) then re_no_dash fuel' r
      else c :: re_no_dash fuel' r
    end
  end.

(* pattern.py:199-206 *)
Definition is_canonical (p : pattern) : bool :=
  str_eqb (re_no_dash (List.length (praw p)) (praw p)) (canonical (pv p)).

(* dialplan.py:277-278: set(i.pattern for i in self) keeps the first of the
   patterns that are == (pattern.py:394-400); its iteration order is not
   defined, so users of this take any permutation of [pat_dedup]. *)
Fixpoint pat_dedup_acc (seen : list pattern) (l : list pattern) : list pattern :=
  match l with
  | [] => []
  | p :: l' => if existsb (pat_eqb p) seen then pat_dedup_acc seen l'
               else p :: pat_dedup_acc (p :: seen) l'
  end.
Definition pat_dedup (l : list pattern) : list pattern := pat_dedup_acc [] l.

(* sorted(...), dialplan.py:278: a stable insertion sort with Pattern.__lt__ *)
Fixpoint pat_insert (p : pattern) (l : list pattern) : list pattern :=
  match l with
  | [] => [p]
  | x :: l' => if pat_ltb x p then x :: pat_insert p l' else p :: l
  end.
Fixpoint pat_sort (l : list pattern) : list pattern :=
  match l with [] => [] | p :: l' => pat_insert p (pat_sort l') end.
