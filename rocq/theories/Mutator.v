(* asterisklint/helper/mutator.py: rewriting configuration files in place.  The
   program is a tree of operations on the file system; every operation may fail,
   and the process may stop at every point between two operations. *)
From Verif Require Import Base PyStr FileRd.

(* ---- the file system ---- *)

(* Paths are taken as they are: two different texts are two different places
   (no "..", no links among directories).  The working directory is the empty
   directory name. *)
Inductive node := File (content : bytes) (uid gid mode : N) | Link (target : str).
Definition disk := str -> option node.
Definition upd (d : disk) (p : str) (n : option node) : disk :=
  fun q => if str_eqb p q then n else d q.

(* What a relative link target is relative to. *)
Definition link_path (p target : str) : str :=
  match target with
  | 47 :: _ => target
  | _ => path_join (dirname p) target
  end.
(* open(), stat(): following links, at most [n] of them (ELOOP) *)
Fixpoint resolve (n : nat) (d : disk) (p : str) : option str :=
  match d p with
  | None => None
  | Some (File _ _ _ _) => Some p
  | Some (Link t) => match n with O => None | S n' => resolve n' d (link_path p t) end
  end.
Definition max_links : nat := 40.

Inductive op :=
| OReadlink (p : str)
| OMktemp (dir : str)
| OOpen (p : str)
| ORead                              (* one more line, or the end, of the open file *)
| OWrite (t : str) (b : bytes)
| OFlush (t : str) (all : bytes)     (* [all]: everything written before *)
| OClose (t : str)
| OUnlink (p : str)
| OStat (p : str)
| OChown (p : str) (uid gid : N)
| OChmod (p : str) (mode : N)
| ORename (src dst : str).

Inductive reply := RFail (e : exn) | RUnit | RPath (p : str) | RLines (l : list bytes) | RStat (uid gid mode : N).

(* What the operating system may answer, and the effect on the disk.  A failing
   operation leaves the disk alone, but the content of a file that is being
   written is unknown until a flush succeeds.  No other process writes to the
   files concerned. *)
Inductive does : disk -> op -> reply -> disk -> Prop :=
| D_fail d o e : does d o (RFail e) d
| D_readlink d p t : d p = Some (Link t) -> does d (OReadlink p) (RPath t) d
| D_mktemp d dir name u g m : d name = None -> dirname name = dir ->
    does d (OMktemp dir) (RPath name) (upd d name (Some (File [] u g m)))
| D_open d p q b u g m : resolve max_links d p = Some q -> d q = Some (File b u g m) ->
    does d (OOpen p) (RLines (lines_of b)) d
| D_read d : does d ORead RUnit d
| D_write d t b r x u g m y : d t = Some (File x u g m) -> r = RUnit \/ (exists e, r = RFail e) ->
    does d (OWrite t b) r (upd d t (Some (File y u g m)))
| D_flush d t all x u g m : d t = Some (File x u g m) ->
    does d (OFlush t all) RUnit (upd d t (Some (File all u g m)))
| D_flush_fail d t all e x u g m y : d t = Some (File x u g m) ->
    does d (OFlush t all) (RFail e) (upd d t (Some (File y u g m)))
| D_close d t : does d (OClose t) RUnit d
| D_unlink d p n : d p = Some n -> does d (OUnlink p) RUnit (upd d p None)
| D_stat d p q b u g m : resolve max_links d p = Some q -> d q = Some (File b u g m) ->
    does d (OStat p) (RStat u g m) d
| D_chown d p b u g m u' g' : d p = Some (File b u g m) ->
    does d (OChown p u' g') RUnit (upd d p (Some (File b u' g' m)))
| D_chmod d p b u g m m' : d p = Some (File b u g m) ->
    does d (OChmod p m') RUnit (upd d p (Some (File b u g m')))
| D_rename d src dst n : d src = Some n ->
    does d (ORename src dst) RUnit (upd (upd d src None) dst (Some n)).

(* ---- programs ---- *)
Inductive prog := Ret (r : res unit) | Do (o : op) (k : reply -> prog).

(* The states an execution passes through, with the operations and answers so
   far; the last one need not be final. *)
Definition trace := list (op * reply).
Inductive reach : disk -> prog -> trace -> disk -> prog -> Prop :=
| R_here d p : reach d p [] d p
| R_step d o k r d1 tr d2 p : does d o r d1 -> reach d1 (k r) tr d2 p -> reach d (Do o k) ((o, r) :: tr) d2 p.

(* An operation whose exceptions are not caught. *)
Definition must (o : op) (k : reply -> prog) : prog :=
  Do o (fun r => match r with RFail e => Ret (Exn e) | _ => k r end).

Section Mutator.
Context {I : Type}.
(* process_issue: what it writes, piece by piece, and whether it raises *)
Variable proc : I -> bytes -> list bytes * res unit.

(* mutator.py:96-100: the exception handler (a second exception replaces the
   first) and close *)
Definition give_up (t : str) (e : exn) : prog :=
  Do (OUnlink t) (fun r =>
    let e1 := match r with RFail e' => e' | _ => e end in
    Do (OClose t) (fun r => match r with RFail e' => Ret (Exn e') | _ => Ret (Exn e1) end)).

(* mutator.py:102-112: permissions and rename *)
Definition take_over (t filename dst : str) : prog :=
  must (OStat t) (fun src =>
  must (OStat filename) (fun dsts =>
    match src, dsts with
    | RStat u g m, RStat u' g' m' =>
      let chmod := if m =? m' then must (ORename t dst) (fun _ => Ret (Ok tt))
                   else must (OChmod t m') (fun _ => must (ORename t dst) (fun _ => Ret (Ok tt))) in
      if (u =? u') && (g =? g') then chmod
      else must (OChown t u' g') (fun _ => chmod)
    | _, _ => Ret (Exn TypeError)                (* not reached *)
    end)).

(* tempout.write for every piece, then [k] with all that was written so far *)
Fixpoint write_all (t : str) (written : bytes) (l : list bytes) (k : bytes -> prog) : prog :=
  match l with
  | [] => k written
  | b :: r => Do (OWrite t b) (fun a => match a with
                                        | RFail e => give_up t e
                                        | _ => write_all t (written ++ b) r k
                                        end)
  end.

(* mutator.py:79-95: the loop; [issues] are the remaining ones, [no] is lineno *)
Fixpoint mut_loop (t filename dst : str) (no : N) (issues : list (N * I)) (written : bytes) (lines : list bytes)
  : prog :=
  Do ORead (fun a => match a with
  | RFail e => give_up t e
  | _ =>
    match lines with
    | [] =>
      Do (OFlush t written) (fun a => match a with
      | RFail e => give_up t e
      | _ => must (OClose t) (fun _ => take_over t filename dst)
      end)
    | line :: rest =>
      match issues with
      | (n, i) :: more =>
        if no =? n then
          let (out, r) := proc i line in
          write_all t written out (fun w =>
            match r with
            | Ok _ => mut_loop t filename dst (no + 1) more w rest
            | Exn e => give_up t e
            | Hang => Ret Hang
            end)
        else write_all t written [line] (fun w => mut_loop t filename dst (no + 1) issues w rest)
      | [] => write_all t written [line] (fun w => mut_loop t filename dst (no + 1) issues w rest)
      end
    end
  end).

(* process_file: mutator.py:62-112 *)
Definition process_file (filename : str) (issues : list (N * I)) : prog :=
  Do (OReadlink filename) (fun a =>
    match a with RFail OSError | RPath _ =>
    let dst := match a with RPath t => t | _ => filename end in
    must (OMktemp (dirname dst)) (fun a =>
      match a with
      | RPath t =>
        match issues with
        | [] => give_up t IndexError
        | _ => Do (OOpen filename) (fun a => match a with
               | RLines lines => mut_loop t filename dst 0 issues [] lines
               | RFail e => give_up t e
               | _ => give_up t TypeError        (* not reached *)
               end)
        end
      | _ => Ret (Exn TypeError)                 (* not reached *)
      end)
    | RFail e => Ret (Exn e)
    | _ => Ret (Exn TypeError)                   (* not reached *)
    end).

(* process: mutator.py:58-60, after sorting the names (mutator.py:40) *)
Fixpoint seq (p : prog) (q : prog) : prog :=
  match p with
  | Ret (Ok _) => q
  | Ret r => Ret r
  | Do o k => Do o (fun a => seq (k a) q)
  end.
Fixpoint process (l : list (str * list (N * I))) : prog :=
  match l with
  | [] => Ret (Ok tt)
  | (name, issues) :: r => seq (process_file name issues) (process r)
  end.
End Mutator.


(* bytes.replace(needle, replacement, 1), for a needle that is not empty *)
Fixpoint replace_first (needle repl s : bytes) : bytes :=
  if startswith needle s then repl ++ skipn (length needle) s
  else match s with
       | [] => []
       | c :: r => c :: replace_first needle repl r
       end.

(* contrib/make_patterns_canonical.py:54-70 (process_issue); an issue is the
   needle and its replacement.  linetail[0] is an int, so the comparison with
   b">" in line 57 is always false, but linetail[0] raises for an empty tail. *)
Definition mpc_issue (issue : bytes * bytes) (line : bytes) : list bytes * res unit :=
  match index_of 61 line with
  | None => ([], Exn ValueError)
  | Some i =>
    let tail := skipn (S i) line in
    match tail with
    | [] => ([], Exn IndexError)
    | _ => ([firstn i line ++ [61] ++ replace_first (fst issue) (snd issue) tail], Ok tt)
    end
  end.
