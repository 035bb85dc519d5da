(* Independent specification of ident-scan (C41, C54). *)
From Verif Require Import Base PyStr Defines Var VarFun AppM Dialplan Spec_Dialplan Spec_Commands Spec_CmdLs Spec_Annotate.
From Coq Require Import Permutation Sorted.

(* A text filled up with blanks to 32 characters. *)
Definition Padded (s t : str) : Prop :=
  exists k, t = s ++ repeat 32 k /\ (length t = 32%nat \/ (k = 0%nat /\ (32 < length t)%nat)).

(* a stands before b *)
Definition Before {A} (l : list A) (a b : A) : Prop := exists l1 l2 l3, l = l1 ++ a :: l2 ++ b :: l3.
(* A list put in the order of R, items that R does not tell apart in their own order. *)
Definition PutInOrder (R : str -> str -> Prop) (l l' : list str) : Prop :=
  Permutation l' l /\ StronglySorted (fun a b => R a b /\ (R b a -> Before l a b)) l'.

(* ---- similar identifiers ---- *)
Section Similar.
Variable lower : str -> str.
Variables isupper islower isdigit : str -> bool.
Variable dist : str -> str -> nat.
(* x is directly before y; the empty name has no neighbour after it *)
Definition Next (l : list str) (x y : str) : Prop := x <> [] /\ exists a b, l = a ++ x :: y :: b.
Definition Pair (l1 l2 : list str) (x y : str) : Prop :=
  ((Next l1 x y \/ Next l2 x y) /\ Similar lower isupper islower isdigit dist x y) \/
  ((Next l1 y x \/ Next l2 y x) /\ Similar lower isupper islower isdigit dist y x).

Definition SimLine (row : str * list str) (line : str) : Prop :=
  exists p, Padded (fst row) p /\ line = L "  " ++ p ++ L "  [similar to: " ++ join (L ", ") (snd row) ++ L "]".

(* The similar neighbours of a list, one after the other. *)
Inductive Found : list str -> list str -> Prop :=
| Fo_nil : Found [] []
| Fo_one x : Found [x] []
| Fo_yes x y l ns : x <> [] -> Similar lower isupper islower isdigit dist x y -> Found (y :: l) ns -> Found (x :: y :: l) (x :: y :: ns)
| Fo_no x y l ns : x = [] \/ ~ Similar lower isupper islower isdigit dist x y -> Found (y :: l) ns -> Found (x :: y :: l) ns.
(* The items of a list, each once, in the order in which they come up. *)
Definition Firsts (l keys : list str) : Prop :=
  NoDup keys /\ (forall x, In x keys <-> In x l) /\ StronglySorted (fun a b => exists l1 l2, l = l1 ++ a :: l2 /\ ~ In b l1) keys.

(* The rows are in order of the names; names that differ only in case in the
   order in which they were found. *)
Definition Distance (ids ls : list str) (st : N) : Prop :=
  exists l1 l2, PutInOrder (ByName lower) ids l1 /\ PutInOrder (ByLen lower) ids l2 /\
  (((forall x y, ~ Pair l1 l2 x y) /\ ls = [] /\ st = 0) \/
   (exists rows lines, rows <> [] /\
      (exists ns1 ns2 keys, Found l1 ns1 /\ Found l2 ns2 /\ Firsts (ns1 ++ ns2) keys /\ PutInOrder (ByName lower) keys (map fst rows)) /\
      (forall k vs, In (k, vs) rows -> StronglySorted StrLt vs /\ vs <> [] /\ forall v, In v vs <-> Pair l1 l2 k v) /\
      (forall k v, Pair l1 l2 k v -> In k (map fst rows)) /\
      Forall2 SimLine rows lines /\ ls = L "Identifiers with similar names include:" :: lines ++ [[]] /\ st = 1)).
End Similar.

(* ---- the command ---- *)
Definition Mention (log : list lev) (v : str) (w : loc) : Prop := In (LVar v w) log.
Definition is_mention (v : str) (e : lev) : bool := match e with LVar v' _ => str_eqb v v' | _ => false end.
(* a is mentioned before the first mention of b *)
Definition FirstOf (log : list lev) (a b : str) : Prop :=
  exists l1 w l2, log = l1 ++ LVar a w :: l2 /\ forall w', ~ In (LVar b w') l1.
Definition VarLine (log : list lev) (v line : str) : Prop :=
  exists p times nfiles files, Padded v p /\
    Numeral times (N.of_nat (length (filter (is_mention v) log))) /\
    NoDup files /\ (forall f, In f files <-> exists w, Mention log v w /\ w_file w = f) /\
    Numeral nfiles (N.of_nat (length files)) /\
    line = L "  " ++ p ++ L "  [" ++ times ++ L " times in " ++ nfiles ++ L " files]".
(* What -v prints, for the labels in some order. *)
Definition ListingWith (lower : str -> str) (ctxs : list dctx) (log : list lev) (labels ls : list str) : Prop :=
  exists contexts vars lines,
    PutInOrder (ByName lower) (map dc_name ctxs) contexts /\
    NoDup vars /\ (forall v, In v vars <-> exists w, Mention log v w) /\
    StronglySorted (fun a b => ByName lower a b /\ (ByName lower b a -> FirstOf log a b)) vars /\
    Forall2 (VarLine log) vars lines /\
    ls = L "Contexts encountered:" :: map (fun x => L "  " ++ x) contexts ++ [[]] ++
         L "Labels encountered:" :: map (fun x => L "  " ++ x) labels ++ [[]] ++
         L "Variables encountered:" :: lines ++ [[]].
Definition Listing (lower : str -> str) (ctxs : list dctx) (log : list lev) (ls : list str) : Prop :=
  exists labels, NoDup labels /\ StronglySorted (ByName lower) labels /\ (forall s, In s labels <-> all_labels ctxs s) /\
    ListingWith lower ctxs log labels ls.
(* Names of contexts, labels and variables. *)
Definition Identifier (ctxs : list dctx) (log : list lev) (x : str) : Prop :=
  In x (map dc_name ctxs) \/ all_labels ctxs x \/ exists w, Mention log x w.

Definition Digits (U : uni) (isdigit : str -> bool) : Prop :=
  forall s, isdigit s = true <-> s <> [] /\ Forall (fun c => u_isdigit U c = true) s.
(* The lines and the exit status after a dialplan was read. *)
Definition Scan (U : uni) (isupper islower : str -> bool) (dist : str -> str -> nat) (verbose installed : bool)
    (ctxs : list dctx) (log : list lev) (ls : list str) (r : res N) : Prop :=
  exists ls1 ls2, ls = ls1 ++ ls2 /\
    (verbose = true -> Listing (u_lower U) ctxs log ls1) /\ (verbose = false -> ls1 = []) /\
    (installed = true -> exists ids st isdigit, Digits U isdigit /\ NoDup ids /\ (forall x, In x ids <-> Identifier ctxs log x) /\
       Distance (u_lower U) isupper islower isdigit dist ids ls2 st /\ r = Ok st) /\
    (installed = false -> ls2 = [] /\ (verbose = true -> r = Ok 0) /\ (verbose = false -> r = Exn ImportError)).
