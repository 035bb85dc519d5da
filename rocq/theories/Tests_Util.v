(* Running the model the way the unit tests run the code: alinttest.py. *)
From Verif Require Import Base Utf8 PyStr Defines FileRd Config VSpace Pattern Var VarFun AppM Tables Dialplan Aggregator.

Definition lines (l : list str) : bytes := flat_map (fun s => s ++ [10]) l.
(* assertLinted: alinttest.py:50-86, ignoreLinted: alinttest.py:183-215 *)
Definition ignored (ig : list str) (n : str) : bool :=
  existsb (fun i => if endswith [42] i then startswith (FileRd.drop_last 1%nat i) n else str_eqb i n) ig.
Definition linted (ig : list str) (ms : list msg) (expected : list (mcls * nat)) : bool :=
  let names := filter (fun n => negb (ignored ig n)) (map (fun m => mname (m_cls m)) ms) in
  forallb (fun e => Nat.eqb (length (filter (str_eqb (mname (fst e))) names)) (snd e)) expected &&
  Nat.eqb (length names) (list_sum (map snd expected)).

(* A file read by FileReader alone. *)
Fixpoint read_lines (ff : ffst) (name : str) (no : N) (ls : list bytes) : W (list (loc * str * str)) :=
  match ls with
  | [] => do! _ <- ff_finish ff; wret []
  | b :: r =>
    let w := Where name (no + 1) b in
    do! x <- read_line ff w b;
    let '(ff', data, comment) := x in
    do! rest <- read_lines ff' name (no + 1) r;
    wret ((w, data, comment) :: rest)
  end.
Definition done {A} (d : A) (r : res A) : A := match r with Ok a => a | _ => d end.
Definition read_all (fs : fsys) (name : str) : list msg * list (loc * str * str) :=
  let m := do! b <- wlift (fs name); read_lines ff_init name 0 (lines_of b) in
  (fst m, done [] (snd m)).
Definition run_config (fs : fsys) (name : str) : list msg * list sec :=
  let m := parse_config 1000 fs name in (fst m, done [] (snd m)).
Definition run_dialplan (fs : fsys) (name : str) : list msg * list dplan :=
  let m := parse_dialplan uni_ascii funcs_v13 apps_v13 1000 fs name in
  (log_msgs (fst m), match snd m with Ok d => [d] | _ => [] end).

Definition w0 : loc := Where [] 0 [].
Definition no_line : loc * str * str := (w0, [], []).
Definition no_var : varset := Varset [] [] None false w0.
Definition no_sec : sec := (Ctx [] [] false w0, []).
Definition no_ctx : dctx := DCtx [] w0 [] [] None [] None.
Definition no_ext : ext := Ext (mkpat [] (mkv 0 [])) 0 None [] w0.
Definition label_of (x : ext) : str := match x_label x with Some l => l | None => [] end.
Definition quoted (s : str) : str := [39] ++ s ++ [39].
Definition canon (p : pattern) : str := canonical (pv p).
