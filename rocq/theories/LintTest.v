(* The test harness: asterisklint/alinttest.py.  A message counts by the name of
   its class. *)
From Verif Require Import Base PyStr Defines Commands Check.

(* ---- _IgnoreLinted: alinttest.py:196-224 ---- *)
Record ignore := Ignore { ig_equals : list str; ig_starts : list str }.
(* One value; None is one that is not a str.  value.split('*'), 205-213 *)
Inductive item := IEq (s : str) | IStart (s : str).
Definition ignore_item (v : option str) : res item :=
  match v with
  | None => Exn TypeError
  | Some s => match split_on 42 s with
              | [p] => Ok (IEq p)
              | [p; []] => Ok (IStart p)
              | _ => Exn ValueError
              end
  end.
Fixpoint ignore_of (vs : list (option str)) : res ignore :=
  match vs with
  | [] => Ok (Ignore [] [])
  | v :: r =>
    let! i := ignore_item v in
    let! g := ignore_of r in
    Ok (match i with
        | IEq s => Ignore (s :: ig_equals g) (ig_starts g)
        | IStart s => Ignore (ig_equals g) (s :: ig_starts g)
        end)
  end.
(* __call__: 219-222; no prefixes: startswith(()) is False *)
Definition ignored (g : ignore) (k : str) : bool :=
  existsb (str_eqb k) (ig_equals g) || existsb (fun p => startswith p k) (ig_starts g).

(* ---- assertLinted: alinttest.py:55-84 ---- *)
Definition counts := list (str * N).
(* d[k] += n of a defaultdict(int) *)
Fixpoint count_add (k : str) (n : N) (d : counts) : counts :=
  match d with
  | [] => [(k, n)]
  | (k', n') :: r => if str_eqb k k' then (k', n' + n) :: r else (k', n') :: count_add k n r
  end.
Definition add_all (d new : counts) : counts := fold_left (fun d kn => count_add (fst kn) (snd kn) d) new d.
(* == of dicts *)
Definition same_at (a b : counts) (k : str) : bool :=
  match lookup k a, lookup k b with
  | Some x, Some y => x =? y
  | None, None => true
  | _, _ => false
  end.
Definition dict_eqb (a b : counts) : bool := forallb (same_at a b) (map fst a ++ map fst b).

(* MessageDefManager.raised, as the number of messages of each class, and
   linted_counts of the test *)
Record tstate := TState { ts_raised : counts; ts_linted : counts }.
Definition assert_linted (ig : option ignore) (expected : counts) (st : tstate) : tstate * bool :=
  let c := match ig with
           | Some g => filter (fun kn => negb (ignored g (fst kn))) (ts_raised st)
           | None => ts_raised st
           end in
  (TState [] (add_all (ts_linted st) (ts_raised st)), dict_eqb c expected).

(* ---- a test ---- *)

(* What a test does: it raises a message, calls assertLinted, or raises an
   exception. *)
Inductive act := Raise (k : str) | Assert (expected : counts) | Stop.
Record test := Test { t_class : option ignore; t_method : option ignore; t_body : list act }.
(* the one of the class, else the one of the method: 64-74 *)
Definition ignore_for (t : test) : option ignore :=
  match t_class t with Some g => Some g | None => t_method t end.
Fixpoint run_body (ig : option ignore) (l : list act) (st : tstate) : tstate * bool :=
  match l with
  | [] => (st, true)
  | Raise k :: r => run_body ig r (TState (count_add k 1 (ts_raised st)) (ts_linted st))
  | Assert e :: r => let x := assert_linted ig e st in
                     if snd x then run_body ig r (fst x) else (fst x, false)
  | Stop :: _ => (st, false)
  end.
(* setUp, the test, tearDown: 33-53.  [raised]: what was raised before.  The
   results: raised afterwards, linted_counts, and whether it passed. *)
Definition run_test (raised : counts) (t : test) : counts * counts * bool :=
  let ig := ignore_for t in
  let x := run_body ig (t_body t) (TState raised []) in
  if snd x then let y := assert_linted ig [] (fst x) in ([], ts_linted (fst y), snd y)
  else ([], ts_linted (fst x), false).

(* ---- ALintTestResult: alinttest.py:105-141 ---- *)
Fixpoint run_suite (raised total : counts) (ts : list test) : counts * list bool :=
  match ts with
  | [] => (total, [])
  | t :: r => let '(raised', linted, ok) := run_test raised t in
              let y := run_suite raised' (add_all total linted) r in
              (fst y, ok :: snd y)
  end.
(* print_untested; [types] is MessageDefManager.types *)
Definition untested (types : list str) (total : counts) : str :=
  match sorted_set (filter (fun k => negb (existsb (str_eqb k) (map fst total))) types) with
  | [] => []
  | l => [10; 10] ++ L "Still untested messages:" ++ [10] ++ L " - " ++ join ([10] ++ L " - ") l ++ [10]
  end.

(* ---- GenerateTestCases: alinttest.py:148-187 ---- *)

(* The class body, as a dict, with a test for each of the argument lists; the
   arguments are given by their str(). *)
Inductive member := Written (k : N) | Generated (args : list str).
Fixpoint dict_set (k : str) (v : member) (d : list (str * member)) : list (str * member) :=
  match d with
  | [] => [(k, v)]
  | (k', v') :: r => if str_eqb k k' then (k', v) :: r else (k', v') :: dict_set k v r
  end.
Definition case_name (args : list str) : str := L "test_" ++ join (L "_") args.
Definition generate (dct : list (str * member)) (argslist : list (list str)) : list (str * member) :=
  fold_left (fun d a => dict_set (case_name a) (Generated a) d) argslist dct.
