(* Declarative side of C66: what make_patterns_canonical asks and does. *)
From Verif Require Import Base PyStr Defines FileRd Config Pattern VarFun AppM Dialplan Spec_Pattern Spec_Dialplan Spec_Commands Spec_CmdLs Spec_File Spec_Config Spec_Run Mutator Spec_Mutator.
From Verif Require Spec_Reader Spec_Include.
From Coq Require Import Sorting.Sorted.

(* The files as the reader sees them. *)
Definition Opens (d : disk) (fs : str -> res bytes) : Prop := forall p,
  (In 0 p -> fs p = Exn ValueError) /\
  (~ In 0 p -> match content d p with Some b => fs p = Ok b | None => fs p = Exn OSError end).

(* ---- what there is to change ---- *)
Definition Hint (m : msg) : Prop := m_cls m = H_PAT_NON_CANONICAL.
(* [Hints f l is]: the hints about file [f] in the log [l], in their order, as
   number of the line (from 0), pattern and canonical pattern in UTF-8. *)
Inductive Hints (f : str) : list lev -> list (N * (bytes * bytes)) -> Prop :=
| Hn_nil : Hints f [] []
| Hn_hint m p x n a b l is : Hint m -> w_file (m_where m) = f -> w_line (m_where m) = n + 1 ->
    m_args m = [(L "pat", AStr p); (L "expected", AStr x)] -> Utf8 p a -> Utf8 x b -> Hints f l is ->
    Hints f (LMsg m :: l) ((n, (a, b)) :: is)
| Hn_other e l is : (forall m, e = LMsg m -> Hint m -> w_file (m_where m) <> f) -> Hints f l is -> Hints f (e :: l) is.
Definition Concerned (l : list lev) (names : list str) : Prop :=
  StronglySorted StrLt names /\ forall f, In f names <-> exists m, In (LMsg m) l /\ Hint m /\ w_file (m_where m) = f.

(* ---- the dialogue ---- *)
Definition greeting : str :=
  L "Making dialplan patterns into canonical form." ++ [10] ++ L "Parsing current config..." ++ [10] ++ [10].
Definition question (names : list str) : str :=
  L "The following files have issues:" ++ [10] ++ List.concat (map (fun n => L "  " ++ n ++ [10]) names) ++ L "Update all [y/n] ? ".
(* [Answer log names answer out work]: what is printed, and the files that are
   rewritten with their hints. *)
Inductive Answer (log : list lev) (answer : str) : list str -> str -> list (str * list (N * (bytes * bytes))) -> Prop :=
| An_clean : Answer log answer [] (greeting ++ L "Your dialplan has no issues. We're done here." ++ [10]) []
| An_no names : names <> [] -> answer <> L "y" -> Answer log answer names (greeting ++ question names ++ L "Aborted." ++ [10]) []
| An_yes names work : names <> [] -> answer = L "y" -> Forall2 (fun f x => fst x = f /\ Hints f log (snd x)) names work ->
    Answer log answer names (greeting ++ question names) work.
Inductive Outcome (U : uni) (FT : ftable) (AT : atable) (fs : str -> res bytes) (name answer : str)
  : str -> list (str * list (N * (bytes * bytes))) -> Prop :=
| Oc_intro evs h log names out work : Spec_Reader.StreamOf fs name evs (Ok tt) -> PlanSays U FT AT evs h log -> Concerned log names ->
    Answer log answer names out work -> Outcome U FT AT fs name answer out work.

(* ---- lines ---- *)

(* The numbers of the lines of a file as they are read. *)
Definition lines_read (f : str) (evs : list event) : list N :=
  flat_map (fun ev => match ev with EvLine w _ _ => if str_eqb (w_file w) f then [w_line w] else [] | _ => [] end) evs.

(* Text up to the pattern of an exten line, and its bytes. *)
Definition ExtenHead (s : str) : Prop :=
  exists bl sp1 arrow sp2, s = bl ++ L "exten" ++ sp1 ++ arrow ++ sp2 /\ blank_str bl /\ ws sp1 /\ ws sp2 /\
    (arrow = [61] \/ arrow = [61; 62]).
Definition Spelled (s : str) (b : bytes) : Prop := Utf8 s b \/ Forall2 Cp1252 b s.
(* The line has the pattern [a] behind exten =>; it is replaced. *)
Definition Replaced (a b line new : bytes) : Prop :=
  exists head s rest, ExtenHead s /\ Spelled s head /\ line = head ++ a ++ 44 :: rest /\ new = head ++ b ++ 44 :: rest.
(* Patterns that are in the file as they are read, and cannot be taken for what
   is before them. *)
Definition Findable (p : str) : Prop := ~ In 59 p /\ exists c r, p = c :: r /\ c < 128 /\ c <> 62.

(* [Rewritten log f old new]: the lines of [f] without a hint are kept, and in
   those with a hint the pattern is replaced, if it can be found. *)
Definition Rewritten (log : list lev) (f : str) (old new : bytes) : Prop :=
  exists ls outs, Spec_Include.Lines old ls /\ List.concat outs = new /\ length outs = length ls /\
    forall i line, nth_error ls i = Some line -> exists out, nth_error outs i = Some out /\
      ((forall m, In (LMsg m) log -> Hint m -> w_file (m_where m) = f -> w_line (m_where m) <> N.of_nat i + 1) -> out = line) /\
      (forall m p x a b, In (LMsg m) log -> Hint m -> w_file (m_where m) = f -> w_line (m_where m) = N.of_nat i + 1 ->
         m_args m = [(L "pat", AStr p); (L "expected", AStr x)] -> Utf8 p a -> Utf8 x b -> Findable p ->
         (exists s, Utf8 s line) \/ Forall (fun c => c < 128) p -> Replaced a b line out).
Definition Holds (d : disk) (f : str) (b : bytes) : Prop := exists u g m, d f = Some (File b u g m).
