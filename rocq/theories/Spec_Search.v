(* Declarative side of C12: which searches for a Goto target come back although
   there is an include cycle. *)
From Verif Require Import Base Pattern Dialplan Spec_Pattern Spec_Dialplan.

Section Searches.
Variable ctxs : list dctx.

(* There is something to find before the first include that leads to a cycle:
   in the context itself, or below an include with only fruitless, acyclic
   includes before it. *)
Inductive Finds (e : str) (q : jprio) (c : dctx) : Prop :=
| Fi_own x : HitIn c e q x -> Finds e q c
| Fi_below l w r c' x : dc_includes c = l ++ (dc_name c', w) :: r -> In c' ctxs ->
    (forall n u c1, In (n, u) l -> In c1 ctxs -> dc_name c1 = n -> ~ Cyclic ctxs c1 /\ forall y, ~ Target ctxs c1 e q y) ->
    ~ Cyclic ctxs c' -> Target ctxs c' e q x -> Finds e q c
| Fi_cycle l w r c' : dc_includes c = l ++ (dc_name c', w) :: r -> In c' ctxs ->
    (forall n u c1, In (n, u) l -> In c1 ctxs -> dc_name c1 = n -> ~ Cyclic ctxs c1 /\ forall y, ~ Target ctxs c1 e q y) ->
    Finds e q c' -> Finds e q c.

(* A stored pattern in a reachable context matches the extension. *)
Definition Touches (c : dctx) (e : str) : Prop :=
  exists c' x, Reach ctxs c c' /\ In x (dc_exts c') /\ matches_extension (pv (x_pat x)) e = Ok true.

(* The search for a destination comes back.  A priority that is a list of
   tokens raises as soon as it is compared. *)
Definition Returns (c : dctx) (e : str) (q : jprio) : Prop :=
  match q with
  | JList _ => ~ Cyclic ctxs c /\ ~ Touches c e
  | _ => ~ Cyclic ctxs c \/ Finds e q c
  end.
End Searches.
