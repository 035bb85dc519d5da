(* The loaders of applications and functions as state machines:
   application.py:38-84 and varfun.py:80-129, which are the same but for the
   names.  [A] is the loaded object. *)
From Verif Require Import Base PyStr Defines.

Section Loader.
Context {A : Type}.

(* _lower_apps, newest entry first, and _used_apps (a set; newest first) *)
Record loader := Loader { ld_tab : list (str * A); ld_used : list str }.
Definition ld_empty : loader := Loader [] [].

(* register: application.py:82-84, varfun.py:127-129; the key is the lowered
   name *)
Definition ld_register (s : loader) (key : str) (a : A) : loader :=
  Loader ((key, a) :: ld_tab s) (ld_used s).

(* get: application.py:67-80, varfun.py:112-125 *)
Definition ld_get (s : loader) (key : str) : loader * res A :=
  match lookup key (ld_tab s) with
  | Some a => (Loader (ld_tab s) (key :: ld_used s), Ok a)
  | None =>
    match lookup (L "unknown") (ld_tab s) with
    | Some a => (Loader ((key, a) :: ld_tab s) (key :: ld_used s), Ok a)
    | None => (s, Exn NotImplementedError)
    end
  end.

(* Any interleaving of registrations and lookups; the answers in order. *)
Inductive ld_op := LReg (key : str) (a : A) | LGet (key : str).
Fixpoint ld_run (s : loader) (ops : list ld_op) : loader * list (res A) :=
  match ops with
  | [] => (s, [])
  | LReg k a :: r => ld_run (ld_register s k a) r
  | LGet k :: r =>
    let '(s1, x) := ld_get s k in
    let '(s2, xs) := ld_run s1 r in (s2, x :: xs)
  end.
End Loader.
Arguments loader A : clear implicits.
Arguments ld_op A : clear implicits.

(* used_modules: application.py:51-57, varfun.py:98-104.  The set of modules
   is sorted in the code; here it is in order of use. *)
Definition ld_modules {A} (module : A -> str) (s : loader A) : res (list str) :=
  let fix go l := match l with
                  | [] => Ok []
                  | k :: r => match lookup k (ld_tab s) with
                              | Some a => let! ms := go r in
                                          Ok (if str_eqb (module a) (L "unknown") then ms else module a :: ms)
                              | None => Exn KeyError
                              end
                  end in
  go (ld_used s).
