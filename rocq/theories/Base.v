(* Common base of the model: Python strings, bytes, outcomes and exceptions. *)
From Coq Require Export List Arith NArith ZArith Bool String Ascii Lia.
From Coq Require Export Permutation Sorted.
From Coq Require Import ZifyBool ZifyN ZifyNat.
Export ListNotations.
Notation length := List.length.
Open Scope list_scope.
Open Scope N_scope.

(* A Python [str] is a list of code points, a Python [bytes] a list of bytes. *)
Definition str := list N.
Definition bytes := list N.

(* Literals: [L "abc"] is the str/bytes with these (ASCII) characters. *)
Definition lit (s : string) : str := map N_of_ascii (list_ascii_of_string s).
Notation L s := (lit s%string).

(* Python exception classes that can escape from the modelled code.  The
   hierarchy matters only for [except] clauses; see [is_value_error]. *)
Inductive exn :=
| TypeError | ValueError | UnicodeEncodeError | UnicodeDecodeError
| IndexError | KeyError | AttributeError | AssertionError
| UnboundLocalError | OSError | NotImplementedError | RecursionError | ImportError
| ProgrammingError    (* config.py:67-73, wraps any exception of a handler *)
| VarParseError.      (* varfun.py:76, a subclass of ValueError *)

(* UnicodeError, its subclasses and VarParseError derive from ValueError. *)
Definition is_value_error (e : exn) : bool :=
  match e with
  | ValueError | UnicodeEncodeError | UnicodeDecodeError | VarParseError => true
  | _ => false
  end.

(* Outcome of a Python call.  [Hang] stands for a call that has not returned
   within the given fuel; it is never produced by anything but fuel. *)
Inductive res (A : Type) :=
| Ok (a : A)
| Exn (e : exn)
| Hang.
Arguments Ok {A} a.
Arguments Exn {A} e.
Arguments Hang {A}.

Definition bind {A B} (r : res A) (f : A -> res B) : res B :=
  match r with Ok a => f a | Exn e => Exn e | Hang => Hang end.
Notation "'let!' x := r 'in' b" := (bind r (fun x => b))
  (at level 200, x pattern, r at level 100, b at level 200).

Definition is_ok {A} (r : res A) : bool :=
  match r with Ok _ => true | _ => false end.

(* Equality on strings: Python == on str/bytes. *)
Fixpoint str_eqb (a b : str) : bool :=
  match a, b with
  | [], [] => true
  | x :: a', y :: b' => (x =? y) && str_eqb a' b'
  | _, _ => false
  end.

Lemma str_eqb_spec a b : reflect (a = b) (str_eqb a b).
Proof.
  revert b; induction a as [|x a IH]; intros [|y b]; cbn; try (constructor; congruence).
  destruct (N.eqb_spec x y) as [->|Hne]; cbn.
  - destruct (IH b) as [->|Hne]; constructor; congruence.
  - constructor; congruence.
Qed.

Lemma str_eqb_eq a b : str_eqb a b = true <-> a = b.
Proof. destruct (str_eqb_spec a b); split; congruence. Qed.

Lemma str_eqb_refl a : str_eqb a a = true.
Proof. now apply str_eqb_eq. Qed.

Lemma str_eqb_neq a b : str_eqb a b = false <-> a <> b.
Proof. destruct (str_eqb_spec a b); split; congruence. Qed.

Definition str_eq_dec (a b : str) : {a = b} + {a <> b}.
Proof. decide equality; apply N.eq_dec. Defined.

(* [x in l] on a str/bytes, for one character. *)
Definition memb (x : N) (l : list N) : bool := existsb (N.eqb x) l.

Lemma memb_In x l : memb x l = true <-> In x l.
Proof.
  unfold memb; rewrite existsb_exists; split.
  - intros [y [Hy E]]; apply N.eqb_eq in E; now subst.
  - intros H; exists x; split; [easy | apply N.eqb_refl].
Qed.

Lemma memb_not_In x l : memb x l = false <-> ~ In x l.
Proof.
  destruct (memb x l) eqn:E.
  - apply memb_In in E; split; [congruence | tauto].
  - split; [|easy]; intros _ H; apply memb_In in H; congruence.
Qed.

Definition smem (x : str) (l : list str) : bool := existsb (str_eqb x) l.

Lemma smem_In x l : smem x l = true <-> In x l.
Proof.
  unfold smem; rewrite existsb_exists; split.
  - intros [y [Hy E]]; apply str_eqb_eq in E; now subst.
  - intros H; exists x; split; [easy | apply str_eqb_refl].
Qed.

Lemma smem_not_In x l : smem x l = false <-> ~ In x l.
Proof.
  destruct (smem x l) eqn:E.
  - apply smem_In in E; split; [congruence | tauto].
  - split; [|easy]; intros _ H; apply smem_In in H; congruence.
Qed.

(* Nonterminating-looking helpers are kept folded by simplification tactics. *)
Arguments N.add : simpl never.
Arguments N.sub : simpl never.
Arguments N.mul : simpl never.
Arguments N.eqb : simpl never.
Arguments N.ltb : simpl never.
Arguments N.leb : simpl never.
Arguments N.div : simpl never.
Arguments N.modulo : simpl never.
Arguments N.shiftr : simpl never.
Arguments N.land : simpl never.
Arguments N.lor : simpl never.
