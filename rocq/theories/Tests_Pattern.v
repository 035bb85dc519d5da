(* Validation of the model: the expectations of /repo/tests/pattern evaluated on
   the model.  These are tests of the translation, not proofs of properties. *)
From Verif Require Import Base Utf8 Pattern Properties_Pattern.

Definition l2 (l : list (string * string)) : list (str * str) := map (fun x => (lit (fst x), lit (snd x))) l.
Local Open Scope string_scope.

(* tests/pattern/test_normal.py *)
Definition same : list (string * string) := [("100", "_100"); ("100", "1-0-0"); ("100", "_1-0-0"); ("_X", "_[0-9]"); ("_Z", "_[1-9]"); ("_N", "_[2-9]"); ("_N", "_[23-56-89]"); ("_N", "_[23456789]"); ("_N", "_[2-92-92-9]"); ("_X", "_x"); ("_Z", "_z"); ("_N", "_n"); ("-_", "_-_"); ("----12", "12"); ("12----", "12")].
Example test_same : forallb (fun x => matches_same (pv (pat (fst x))) (pv (pat (snd x))) && matches_same (pv (pat (snd x))) (pv (pat (fst x)))) (l2 same) = true.
Proof. vm_compute. reflexivity. Qed.
Definition lower : list (string * string) := [("100", "101"); ("1-0-0", "101"); ("100", "1-0-1"); ("A", "B"); ("A", "a"); ("0", "A"); ("000", "0000"); ("_XXX", "_XX"); ("100", "_100"); ("2222", "_100"); ("_N", "_Z"); ("_N", "_[1-9]"); ("_Z", "_X"); ("_N1", "_N2"); ("_N2", "_X1"); ("_0N2", "_0X1"); ("_N2", "_"); ("_s-[0-5]", "_s-[1-6]"); ("_s-[1-6]", "_s-[0-59]"); ("_s-[1259]", "_s-[1269]"); ("_s-[0-259]", "_s-[01269]"); ("_.", "_!"); ("_A.", "_A!"); ("_AA", "_A."); ("_AA.", "_AA"); ("_AA!", "_AA"); ("_AX!", "_B")].
Example test_lower : forallb (fun x => pat_ltb (pat (fst x)) (pat (snd x)) && negb (pat_leb (pat (snd x)) (pat (fst x)))) (l2 lower) = true.
Proof. vm_compute. reflexivity. Qed.
(* tests/pattern/test_canonical.py *)
Definition canon : list (string * string) := [("_100", "100"); ("1-0-0", "100"); ("_X[0-9]X!", "_XXX!"); ("_N[23456789]", "_NN"); ("_[1-9876]", "_Z"); ("_xorxor", "_XorXor"); ("_[n][a][m][e][d]-[1-4]", "_[n]amed[1-4]"); ("_[N][n][X][x][Z][z][.][!]", "NnXxZz.!"); ("_X[N][n][X][x][Z][z][.][!]", "_X[N][n][X][x][Z][z][.][!]"); ("_[0-26-94]", "_[01246-9]"); ("_[A-Z0-9+]", "_[0-9A-Z+]"); ("_[A-EQc-z0-9+#*]", "_[0-9A-EQc-z#*+]"); ("_[23]xx", "_[23]XX"); ("_[+abs]", "_[abs+]"); ("_[{Aa@QqZz`]", "_[AQZaqz@`{]")].
Example test_canon : forallb (fun x => str_eqb (canonical (pv (pat (fst x)))) (snd x)) (l2 canon) = true.
Proof. vm_compute. reflexivity. Qed.
Definition good : list string := ["100"; "1-0-0"; "_[01]"; "_[012]"; "_[013]"; "_[0134]"; "_[0-3]"; "_[0-4]"; "_XXX!"; "_ZN[3-9]"; "_XorXor"; "1-0-0-"; "-1-0-0"; "_[n]amed[1-5]"; "s-yes"; "t"; "_1NN-XXX!"; "_[01246-9]"; "_[1-46-9]"; "_[1236-9]"; "_[0-9A-Z+]"; "_[0-9A-EQc-z#*+]"].
Example test_good : forallb (fun x => is_canonical (pat (lit x))) good = true.
Proof. vm_compute. reflexivity. Qed.
Definition bad : list string := ["_100"; "_X[0-9]X!"; "_ZN[2-9]"; "_xorxor"; "_named[1-3]"; "_[1-46-94]"; "_[0126-94]"; "_[A-Z0-9+]"].
Example test_bad : forallb (fun x => negb (is_canonical (pat (lit x)))) bad = true.
Proof. vm_compute. reflexivity. Qed.
