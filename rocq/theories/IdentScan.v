(* The command ident-scan: asterisklint/commands/ident-scan.py. *)
From Verif Require Import Base PyStr Defines Var VarFun AppM FileRd Config Dialplan Commands.

Section IdentScan.
Variable U : uni.
Variable FT : ftable.
Variable AT : atable.
Variables isupper islower : str -> bool.        (* str.isupper, str.islower *)
Variable dist : str -> str -> nat.              (* editdistance.eval *)
(* The orders in which the sets of labels and of identifiers are iterated over:
   they depend on hash values, and on how the set was made. *)
Variables labiter iditer : list str -> list str.

(* str.isdigit *)
Definition str_isdigit (s : str) : bool := match s with [] => false | _ => forallb (u_isdigit U) s end.

(* VarLoader._variables: a dict of lists; count_var, varfun.py:378 *)
Fixpoint var_add (s : list (str * list loc)) (v : str) (w : loc) : list (str * list loc) :=
  match s with
  | [] => [(v, [w])]
  | (v', ws) :: r => if str_eqb v v' then (v', ws ++ [w]) :: r else (v', ws) :: var_add r v w
  end.
Definition var_step (s : list (str * list loc)) (e : lev) : list (str * list loc) :=
  match e with LVar v w => var_add s v w | _ => s end.
Definition variables (l : list lev) : list (str * list loc) := fold_left var_step l [].

(* print_contexts, print_labels: ident-scan.py:88-98 *)
Definition print_names (title : str) (l : list str) : list str :=
  title :: map (fun x => L "  " ++ x) l ++ [[]].
(* print_variables: ident-scan.py:100-106 *)
Definition var_line (x : str * list loc) : str :=
  L "  " ++ ljust32 (fst x) ++ L "  [" ++ nstr (N.of_nat (length (snd x))) ++ L " times in "
  ++ nstr (N.of_nat (length (nodup str_eq_dec (map w_file (snd x))))) ++ L " files]".
Definition print_vars (l : list (str * list loc)) : list str :=
  L "Variables encountered:" :: map var_line l ++ [[]].

(* handle_args: ident-scan.py:49-86; the lines printed and the exit status.
   Messages are muted, which only means that they are not printed.  The union of
   three sets is the set of the concatenation, iterated over in some order. *)
Definition ident_scan (verbose installed : bool) (fuel : nat) (fs : fsys) (name : str) : list str * res N :=
  let (log, r) := parse_dialplan U FT AT fuel fs name in
  match r with
  | Exn e => ([], Exn e)
  | Hang => ([], Hang)
  | Ok d =>
    let contexts := sort_by (lt_name (u_lower U)) (map dc_name (dp_ctxs d)) in
    let labels := sort_by (lt_name (u_lower U)) (labiter (g_labels (dp_glob d))) in
    let vars := sort_by (fun a b => lt_name (u_lower U) (fst a) (fst b)) (variables log) in
    let listing := if verbose
      then print_names (L "Contexts encountered:") contexts ++ print_names (L "Labels encountered:") labels ++ print_vars vars
      else [] in
    if installed then
      let (ls, st) := print_distance (u_lower U) isupper islower str_isdigit dist
                        (iditer (contexts ++ labels ++ map fst vars)) in
      (listing ++ ls, Ok st)
    else if verbose then (listing, Ok 0)
    else (listing, Exn ImportError)
  end.
End IdentScan.
