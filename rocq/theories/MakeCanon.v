(* contrib/make_patterns_canonical.py: the whole script.  process_issue and
   FileMutatorBase are in Mutator.v. *)
From Verif Require Import Base PyStr Utf8 Defines FileRd Config VarFun AppM Dialplan Commands Mutator.

(* open(name, 'rb') and its content, file.py:64, 68.  The files do not change
   while they are read. *)
Definition disk_fs (d : disk) : fsys := fun p =>
  if existsb (N.eqb 0) p then Exn ValueError
  else match resolve max_links d p with
       | Some q => match d q with Some (File b _ _ _) => Ok b | _ => Exn OSError end
       | None => Exn OSError
       end.

(* Replacement without the line number: make_patterns_canonical.py:38 *)
Definition repl := (bytes * bytes)%type.
(* a defaultdict(list), in order of the first issue of a file: line 44 *)
Definition issues := list (str * list (N * repl)).
Fixpoint issue_add (f : str) (i : N * repl) (l : issues) : issues :=
  match l with
  | [] => [(f, [i])]
  | (f', is) :: r => if str_eqb f' f then (f', is ++ [i]) :: r else (f', is) :: issue_add f i r
  end.

(* Aggregator.on_message: make_patterns_canonical.py:46-51, called for every
   H_PAT_NON_CANONICAL (defines.py:107-122).  It runs inside the handler of an
   element, so that an exception becomes a ProgrammingError (config.py:196-199). *)
Definition mpc_message (m : msg) (l : issues) : res issues :=
  match m_cls m with
  | H_PAT_NON_CANONICAL =>
    match lookup (L "pat") (m_args m), lookup (L "expected") (m_args m) with
    | Some (AStr p), Some (AStr x) =>
      match utf8_encode p, utf8_encode x with
      | Ok a, Ok b => Ok (issue_add (w_file (m_where m)) (w_line (m_where m) - 1, (a, b)) l)
      | _, _ => Exn ProgrammingError
      end
    | _, _ => Exn ProgrammingError               (* not reached *)
    end
  | _ => Ok l
  end.
Fixpoint mpc_collect (ms : list msg) (l : issues) : res issues :=
  match ms with
  | [] => Ok l
  | m :: r => let! l' := mpc_message m l in mpc_collect r l'
  end.

(* mutator.py:38-40 *)
Definition by_name (l : issues) : issues := sort_by (fun a b => str_ltb (fst a) (fst b)) l.

(* print(), each line with its end *)
Definition mpc_title : str :=
  L "Making dialplan patterns into canonical form." ++ [10] ++ L "Parsing current config..." ++ [10].
Fixpoint name_lines (l : list str) : str :=
  match l with
  | [] => []
  | n :: r => L "  " ++ n ++ [10] ++ name_lines r
  end.
Definition mpc_question (names : list str) : str :=
  L "The following files have issues:" ++ [10] ++ name_lines names ++ L "Update all [y/n] ? ".

(* The script: what it prints until it rewrites files, and what it does then.
   [argv] is sys.argv[1], [answer] what input() returns (mutator.py:42-56,
   make_patterns_canonical.py:73-83). *)
Definition mpc_main (U : uni) (FT : ftable) (AT : atable) (fuel : nat) (d : disk) (argv : option str) (answer : str)
  : str * prog :=
  match argv with
  | None => ([], Ret (Exn IndexError))
  | Some name =>
    match disk_fs d name with
    | Exn e => ([], Ret (Exn e))
    | Hang => ([], Ret Hang)
    | Ok _ =>
      let (l, r) := parse_dialplan U FT AT fuel (disk_fs d) name in
      match (let! is := mpc_collect (log_msgs l) [] in let! _ := r in Ok is) with
      | Exn e => (mpc_title, Ret (Exn e))
      | Hang => (mpc_title, Ret Hang)
      | Ok [] => (mpc_title ++ [10] ++ L "Your dialplan has no issues. We're done here." ++ [10], Ret (Ok tt))
      | Ok is =>
        let text := mpc_title ++ [10] ++ mpc_question (map fst (by_name is)) in
        if str_eqb answer (L "y") then (text, process mpc_issue (by_name is))
        else (text ++ L "Aborted." ++ [10], Ret (Ok tt))
      end
    end
  end.
(* what is printed while files are rewritten (mutator.py:56, 111) *)
Definition mpc_later (tr : trace) (r : res unit) : str :=
  flat_map (fun x => match fst x with ORename _ dst => L "Overwriting " ++ dst ++ L " ..." ++ [10] | _ => [] end) tr
  ++ match r with Ok _ => L "Done" ++ [10] | _ => [] end.
