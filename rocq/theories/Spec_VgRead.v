(* Declarative side of C67: what the VoIPGRID reader gives for a file and those it
   includes, and in which order.  Uses the types of Config.v and the rules for
   single lines, none of the functions. *)
From Verif Require Import Base PyStr Defines Config Spec_File Spec_Config Spec_Include Spec_Reader Spec_Vg.

(* A line as yielded: where it started, data, comment. *)
Definition item : Type := loc * str * str.

(* The lines of a file; the position holds the bytes of the line. *)
Inductive Numbered (name : str) : N -> list bytes -> list loc -> Prop :=
| Nu_nil n : Numbered name n [] []
| Nu_cons n b bs ws : Numbered name (n + 1) bs ws -> Numbered name n (b :: bs) (Where name (n + 1) b :: ws).
Definition FileLines (fs : str -> res bytes) (p : str) (ws : list loc) : Prop :=
  exists content ls, fs p = Ok content /\ Lines content ls /\ Numbered p 0 ls ws.

(* A line that is given is taken for what it is (C21).  An included file is
   looked for as soon as its line is given: [lines] are those to be read, or
   there is an exception. *)
Inductive Given (fs : str -> res bytes) : item -> list event -> list loc + exn -> Prop :=
| Gi_plain w d k kd ms p : LineKind d kd -> LineResult w d (nonempty k) kd ms p -> (forall t must, p <> PAct (PPinclude t must)) ->
    Given fs (w, d, k) (EvLine w d k :: map EvMsg ms ++ elem_ev p) (inl [])
| Gi_found w d k kd ms t must p lines : LineKind d kd -> LineResult w d (nonempty k) kd ms (PAct (PPinclude t must)) ->
    Target (w_file w) t p -> FileLines fs p lines -> Given fs (w, d, k) (EvLine w d k :: map EvMsg ms) (inl lines)
| Gi_missing w d k kd ms t must p : LineKind d kd -> LineResult w d (nonempty k) kd ms (PAct (PPinclude t must)) ->
    Target (w_file w) t p -> fs p = Exn OSError ->
    Given fs (w, d, k) (EvLine w d k :: map EvMsg ms ++
      if must then [EvMsg (Msg W_PP_INCLUDE_MISSING w None [(L "filename", AStr t)])] else []) (inl [])
| Gi_fails w d k kd ms t must p e : LineKind d kd -> LineResult w d (nonempty k) kd ms (PAct (PPinclude t must)) ->
    Target (w_file w) t p -> fs p = Exn e -> e <> OSError -> Given fs (w, d, k) (EvLine w d k :: map EvMsg ms) (inr e).
Inductive KeptGiven (fs : str -> res bytes) : option item -> list event -> list loc + exn -> Prop :=
| Kg_none : KeptGiven fs None [] (inl [])
| Kg_some x evs r : Given fs x evs r -> KeptGiven fs (Some x) evs r.

(* The next line, with the text [s] without its line end, when [kept] waits to be
   continued: what is given, then the line that waits now and the lines of the
   files that were found; or an exception.  What the line says itself is said
   after the waiting line was given.  The files of a preprocessor line are read
   before those of the line that waited. *)
Definition continues (kept : option item) (s : str) : Prop := kept <> None /\ begins_blank s.
Inductive Next (fs : str -> res bytes) (kept : option item) (w : loc) (s : str) : list event -> (option item * list loc) + exn -> Prop :=
| Nx_continued w0 d0 k0 d k l b : kept = Some (w0, d0, k0) -> begins_blank s -> VgPart w s d k l -> when (d0 = []) W_WSH_BOL w b ->
    Next fs kept w s (map EvMsg (l ++ b)) (inl (Some (w0, d0 ++ d, k0 ++ k), []))
| Nx_kept d k l evs found : ~ continues kept s -> KeptGiven fs kept evs (inl found) -> VgPart w s d k l -> ~ IsPP d ->
    Next fs kept w s (evs ++ map EvMsg l) (inl (Some (w, d, k), found))
| Nx_pp d k l evs found evs' found' : ~ continues kept s -> KeptGiven fs kept evs (inl found) -> VgPart w s d k l -> IsPP d ->
    Given fs (w, d, k) evs' (inl found') -> Next fs kept w s (evs ++ map EvMsg l ++ evs') (inl (None, found' ++ found))
| Nx_fails evs e : ~ continues kept s -> KeptGiven fs kept evs (inr e) -> Next fs kept w s evs (inr e)
| Nx_pp_fails d k l evs found evs' e : ~ continues kept s -> KeptGiven fs kept evs (inl found) -> VgPart w s d k l -> IsPP d ->
    Given fs (w, d, k) evs' (inr e) -> Next fs kept w s (evs ++ map EvMsg l ++ evs') (inr e).

(* Line ends.  Of every file that was begun and is not over: whether it is taken for
   a DOS file, which its first line tells, and its latest line.  The file begun last
   comes first.  Files are over when a line of one begun before them comes. *)
Record begun := Begun { g_name : str; g_dos : bool; g_where : loc; g_text : str }.
Definition over (l : list begun) : list msg := flat_map (fun g => end_msgs (g_dos g) (Some (g_where g, g_text g))) l.
Inductive LineEnd (st : list begun) (w : loc) (t : str) : list msg -> list begun -> Prop :=
| Le_again ended g rest : st = ended ++ g :: rest -> Forall (fun x => g_name x <> w_file w) ended -> g_name g = w_file w ->
    LineEnd st w t (over ended ++ line_msgs (g_dos g) w t) (Begun (w_file w) (g_dos g) w t :: rest)
| Le_first dos : Forall (fun x => g_name x <> w_file w) st -> dos = match eol_of t with LF => false | _ => true end ->
    LineEnd st w t (line_msgs dos w t) (Begun (w_file w) dos w t :: st).

(* The lines that are still to be read; those of a file that was found come
   first.  After the last one all files are over, then the waiting line is given,
   and what it includes is not read.  [text] are the lines that were read. *)
Inductive TextOf (w : loc) : str -> str -> list msg -> Prop :=
| Tx_text t body e l1 l2 : Spec_File.Decoded (w_text w) t -> Ends t body e -> when (forall s', ~ Utf8 s' (w_text w)) E_FILE_UTF8_BAD w l1 ->
    when (Exists unusual t) W_FILE_CTRL_CHAR w l2 -> TextOf w t body (l1 ++ l2).
Inductive Goes (fs : str -> res bytes) : list begun -> option item -> list loc -> list (loc * str) -> list event -> res unit -> Prop :=
| Go_end st kept evs unread : KeptGiven fs kept evs (inl unread) -> Goes fs st kept [] [] (map EvMsg (over st) ++ evs) (Ok tt)
| Go_end_fails st kept evs e : KeptGiven fs kept evs (inr e) -> Goes fs st kept [] [] (map EvMsg (over st) ++ evs) (Exn e)
| Go_undecodable st kept w todo : (forall s, ~ Spec_File.Decoded (w_text w) s) ->
    Goes fs st kept (w :: todo) [] [EvMsg (msg0 E_FILE_UTF8_BAD w)] (Exn UnicodeDecodeError)
| Go_line st kept w todo t s l ms st' evs kept' found text rest o : TextOf w t s l -> LineEnd st w t ms st' -> Next fs kept w s evs (inl (kept', found)) ->
    Goes fs st' kept' (found ++ todo) text rest o -> Goes fs st kept (w :: todo) ((w, s) :: text) (map EvMsg (l ++ ms) ++ evs ++ rest) o
| Go_line_fails st kept w todo t s l ms st' evs e : TextOf w t s l -> LineEnd st w t ms st' -> Next fs kept w s evs (inr e) ->
    Goes fs st kept (w :: todo) [(w, s)] (map EvMsg (l ++ ms) ++ evs) (Exn e).

Inductive VgReads (fs : str -> res bytes) (name : str) : list (loc * str) -> list event -> res unit -> Prop :=
| Vr_file ws text evs o : FileLines fs name ws -> Goes fs [] None ws text evs o -> VgReads fs name text evs o
| Vr_unopened e : fs name = Exn e -> VgReads fs name [] [] (Exn e).

Definition given (evs : list event) : list item := flat_map (fun v => match v with EvLine w d k => [(w, d, k)] | _ => [] end) evs.

(* The messages about blanks and comments that only this reader gives. *)
Definition remark (m : msg) : bool := match m_cls m with W_WSH_EOL | W_WSH_COMMENT => true | _ => false end.
Definition remarks (evs : list event) : list msg := flat_map (fun v => match v with EvMsg m => if remark m then [m] else [] | _ => [] end) evs.

(* [Within a b]: b has all of a, in this order. *)
Inductive Within {A} : list A -> list A -> Prop :=
| Wi_nil l : Within [] l
| Wi_here x a b : Within a b -> Within (x :: a) (x :: b)
| Wi_skip x a b : Within a b -> Within a (x :: b).

(* The plain order: a preprocessor line that includes a file is followed by the
   lines of the file. *)
Definition Includes (fs : str -> res bytes) (w : loc) (s : str) (lines : list loc) : Prop :=
  exists d k l kd ms t must p, VgPart w s d k l /\ IsPP d /\ LineKind d kd /\ LineResult w d (nonempty k) kd ms (PAct (PPinclude t must)) /\
    Target (w_file w) t p /\ FileLines fs p lines.
Inductive InPlace (fs : str -> res bytes) : list loc -> list (loc * str) -> Prop :=
| Ip_end : InPlace fs [] []
| Ip_line w s todo text : (forall lines, ~ Includes fs w s lines) -> InPlace fs todo text -> InPlace fs (w :: todo) ((w, s) :: text)
| Ip_include w s lines todo text : Includes fs w s lines -> InPlace fs (lines ++ todo) text -> InPlace fs (w :: todo) ((w, s) :: text).
