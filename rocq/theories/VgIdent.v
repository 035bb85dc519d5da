(* The commands vg ident-scan and vg func_odbc-annotate (contrib/commands/vg.py). *)
From Verif Require Import Base PyStr Defines Var VarFun AppM FileRd Config VSpace FuncOdbc Annotate Dialplan Commands IdentScan VgRead VgCheck.

Section IdentScan.
Variable U : uni.
Variable FT : ftable.
Variable AT : atable.
Variables isupper islower : str -> bool.
Variable dist : str -> str -> nat.
Variables labiter iditer : list str -> list str.

(* handle_args of vg (vg.py:220-228), which runs ident-scan.py:49-86 with the
   parser of vg.py:167-187; as IdentScan.v otherwise *)
Definition vg_ident_scan (verbose installed : bool) (fuel : nat) (fs : fsys) (name : str) : list str * res N :=
  let (log, r) := vg_parse_dialplan U FT AT fuel fs name in
  match r with
  | Exn e => ([], Exn e)
  | Hang => ([], Hang)
  | Ok d =>
    let contexts := sort_by (lt_name (u_lower U)) (map dc_name (dp_ctxs d)) in
    let labels := sort_by (lt_name (u_lower U)) (labiter (g_labels (dp_glob d))) in
    let vars := sort_by (fun a b => lt_name (u_lower U) (fst a) (fst b)) (variables log) in
    let listing := if verbose
      then print_names (L "Contexts encountered:") contexts ++ print_names (L "Labels encountered:") labels ++ print_vars vars
      else [] in
    if installed then
      let (ls, st) := print_distance (u_lower U) isupper islower (str_isdigit U) dist
                        (iditer (contexts ++ labels ++ map fst vars)) in
      (listing ++ ls, Ok st)
    else if verbose then (listing, Ok 0)
    else (listing, Exn ImportError)
  end.
End IdentScan.

Section Sql.
Variable installed : bool.
Variable sql_format : str -> str.
Variable sql_parse : str -> list (list sqltok).

(* handle_args of vg (vg.py:220-228), which runs func_odbc-annotate.py:40-70 with
   the parser of vg.py:190-201; as Annotate.v otherwise.  A section that comes
   again is shown again: see VgCheck.v. *)
Definition vg_annotate (fuel : nat) (fs : fsys) (name : str) : out unit :=
  obind (olift (open_frame fs name)) (fun _ =>
  obind (L "-- BEWARE: This output format is not standardized yet" :: L "-- NOT FOR MACHINE CONSUMPTION" :: [[]], Ok tt) (fun _ =>
  let (evs, o) := vsw_stream (vg_parse_file fuel fs name) in
  obind (olift (snd (fo_stream [] evs o))) (fun st => annotate_all installed sql_format sql_parse (rev st)))).
End Sql.
