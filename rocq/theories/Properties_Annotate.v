(* Final theorems about func_odbc-annotate: C53. *)
From Verif Require Import Base PyStr Defines FileRd Config VSpace VarFun FuncOdbc Annotate
  Spec_FuncOdbc Spec_Dialplan FuncOdbc_proofs Spec_Annotate Annotate_proofs.

(* The whole command, for every file, with every sqlparse or without it: what is
   printed and how it ends.  If it ends early, what was printed stays. *)
Theorem C53_annotate : forall fmt parse installed fuel fs name ls r,
  annotate installed fmt parse fuel fs name = (ls, r) <->
  (exists b, fs name = Ok b /\
    let (evs, o) := vsw_stream (parse_file fuel fs name) in
    (o = Ok tt /\ exists os l ls', FileRule (elems evs) os l /\ Writes installed fmt parse os ls' r /\ ls = Preamble ++ ls') \/
    (ls = Preamble /\ ((exists e, o = Exn e /\ r = Exn e) \/ (o = Hang /\ r = Hang)))) \/
  (ls = [] /\ ((exists e, fs name = Exn e /\ r = Exn e) \/ (fs name = Hang /\ r = Hang))).
Proof. exact annotate_iff. Qed.
Print Assumptions C53_annotate.
(* The rules of the output determine it. *)
Theorem C53_determined : forall fmt parse installed es os l ls r ls' r', FileRule es os l ->
  Writes installed fmt parse os ls r -> Writes installed fmt parse os ls' r' -> ls = ls' /\ r = r'.
Proof.
  intros fmt parse installed es os l ls r ls' r' R W W'. apply (all_iff _ _ _ _ _ _ R) in W, W'. split; congruence.
Qed.
Print Assumptions C53_determined.

(* ---- Example: a query in every key, a SELECT, a section without queries ---- *)
Definition ann_text : bytes := flat_map (fun s => s ++ [10])
  [L "[FOO]"; L "prefix=MY"; L "readsql=SELECT 1"; L "writesql=  UPDATE\;"; L "insertsql=INSERT"; L ""; L "[BAR]"; L "dsn=x"].
Definition ann_parse (q : str) : list (list sqltok) :=
  if startswith (L "SELECT") q then
    [[TkSelect; TkSpace; TkList [Ident None (L "a"); Ident (Some (L "b")) (L "x AS b")]; TkSpace; TkFrom]] else [[TkOther]].
Example C53_example : annotate true (fun s => s) ann_parse 50 (fs_of [(L "f", ann_text)]) (L "f") =
  (Preamble ++
   [L "-- MY_FOO"; L "-- ."; L "-- FUNCTION TYPE: insert"; L "INSERT;";
    L "-- FUNCTION TYPE: read"; L "-- COLUMNS:"; L "--  1. a"; L "--  2. b"; L "SELECT 1;";
    L "-- FUNCTION TYPE: write"; L "UPDATE;"; [];
    L "-- ODBC_BAR"; L "-- ."; []], Ok tt).
Proof. vm_compute. reflexivity. Qed.
(* SELECT NOT a FROM t: what was printed before stays. *)
Example C53_example_fails :
  annotate true (fun s => s) (fun _ => [[TkSelect; TkSpace; TkOther; TkSpace; TkIdent (Ident None (L "a"))]]) 50
    (fs_of [(L "f", ann_text)]) (L "f") =
  (Preamble ++ [L "-- MY_FOO"; L "-- ."; L "-- FUNCTION TYPE: insert"; L "INSERT;"; L "-- FUNCTION TYPE: read"], Exn NotImplementedError)
  /\ annotate false (fun s => s) ann_parse 50 (fs_of [(L "f", ann_text)]) (L "f") =
     (Preamble ++ [L "-- MY_FOO"; L "-- ."; L "-- FUNCTION TYPE: insert"], Exn ImportError)
  /\ annotate false (fun s => s) ann_parse 50 (fs_of [(L "f", ann_text)]) (L "g") = ([], Exn OSError).
Proof. vm_compute. auto. Qed.
