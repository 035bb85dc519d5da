(* Declarative side of C64: the test harness. *)
From Coq Require Import Permutation Sorted.
From Verif Require Import Base PyStr Defines Spec_Commands Spec_Check LintTest.

(* ---- what is ignored ---- *)
(* A name, or the beginning of a name and an asterisk. *)
Inductive Value : str -> Prop :=
| Va_name s : ~ In 42 s -> Value s
| Va_start p : ~ In 42 p -> Value (p ++ [42]).
Definition Ignored (vs : list str) (k : str) : Prop :=
  (In k vs /\ ~ In 42 k) \/ exists p r, In (p ++ [42]) vs /\ k = p ++ r.

(* What a test ignores, from the values of the decorator of its class and of its
   own: with both, those of the class only. *)
Definition Skip (c m : option (list str)) (k : str) : Prop :=
  match c, m with
  | Some vs, _ => Ignored vs k
  | None, Some vs => Ignored vs k
  | None, None => False
  end.

(* ---- a test ---- *)
Definition times (k : str) (l : list str) : N := N.of_nat (length (filter (str_eqb k) l)).
(* The numbers expected, for the messages since the last time and what is
   ignored: every class that is not ignored with its number, and no other. *)
Definition Expects (skip : str -> Prop) (seg : list str) (expected : counts) : Prop :=
  forall k, (In k seg /\ ~ skip k -> lookup k expected = Some (times k seg)) /\
            (~ In k seg \/ skip k -> lookup k expected = None).
Inductive Passes (skip : str -> Prop) : list act -> Prop :=
| Ps_end seg : (forall k, In k seg -> skip k) -> Passes skip (map Raise seg)
| Ps_assert seg e rest : Expects skip seg e -> Passes skip rest -> Passes skip (map Raise seg ++ Assert e :: rest).
(* The messages that count as tested. *)
Inductive Tested (skip : str -> Prop) : list act -> list str -> Prop :=
| Ts_end seg : Tested skip (map Raise seg) seg
| Ts_stop seg rest : Tested skip (map Raise seg ++ Stop :: rest) []
| Ts_ok seg e rest l : Expects skip seg e -> Tested skip rest l -> Tested skip (map Raise seg ++ Assert e :: rest) (seg ++ l)
| Ts_bad seg e rest : ~ Expects skip seg e -> Tested skip (map Raise seg ++ Assert e :: rest) seg.

(* ---- the list at the end ---- *)
Definition Untested (types tested : list str) (page : str) : Prop :=
  exists l, StronglySorted StrLe l /\ NoDup l /\ (forall k, In k l <-> In k types /\ ~ In k tested) /\
  page = match l with [] => [] | _ => [10; 10] ++ L "Still untested messages:" ++ flat_map (fun k => [10] ++ L " - " ++ k) l ++ [10] end.

(* ---- generated tests ---- *)
Definition CaseName (args : list str) (n : str) : Prop :=
  exists s, n = L "test_" ++ s /\ match args with [] => s = [] | a :: r => s = a ++ flat_map (fun b => L "_" ++ b) r end.
(* What a class with generated tests has under a name: the last of the argument
   lists that give this name, else what was written. *)
Inductive Has (written : list (str * member)) (argslist : list (list str)) (n : str) : member -> Prop :=
| Hs_case before a after : argslist = before ++ a :: after -> CaseName a n -> (forall b, In b after -> ~ CaseName b n) ->
    Has written argslist n (Generated a)
| Hs_written m : (forall a, In a argslist -> ~ CaseName a n) -> lookup n written = Some m -> Has written argslist n m.
