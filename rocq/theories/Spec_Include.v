(* Independent specification of reading with includes (C16, C17).  Uses the
   specifications of Spec_File.v and Spec_Config.v and the event type. *)
From Verif Require Import Base PyStr Defines Config Spec_File Spec_Config.

(* the lines of a file, each with its '\n' *)
Inductive Lines : bytes -> list bytes -> Prop :=
| Ln_nil : Lines [] []
| Ln_last l : l <> [] -> ~ In 10 l -> Lines l [l]
| Ln_cons l b ls : ~ In 10 l -> Lines b ls -> Lines (l ++ 10 :: b) ((l ++ [10]) :: ls).

(* [Decoded b s]: UTF-8 if possible, otherwise Windows-1252 *)
Definition Decoded (b : bytes) (s : str) : Prop :=
  Utf8 s b \/ (forall s', ~ Utf8 s' b) /\ Forall2 Cp1252 b s.

(* [RawLine b data comment]: data and comment of a raw line *)
Definition RawLine (b : bytes) (d k : str) : Prop :=
  exists s body e s' blanks bare,
    Decoded b s /\ Ends s body e /\ body = s' ++ blanks /\ blank_str blanks
    /\ ~ ends_blank s' /\ CommentSplit s' d k bare.

(* [IncludeLine b t must]: the raw line is #include (must) or #tryinclude of t *)
Definition IncludeLine (b : bytes) (t : str) (must : bool) : Prop :=
  exists d k sp text gap arg bad,
    RawLine b d k /\ LineKind d KDirective /\ d = sp ++ text /\ ws sp /\ ~ starts_ws text
    /\ DirText text (if must then KInclude else KTryinclude) gap arg /\ Unquoted arg t bad.

(* [Target file t p]: p is the path of t as seen from the directory of file *)
Definition slashes (s : str) : Prop := s <> [] /\ Forall (fun c => c = 47) s.
Inductive Target (file t : str) : str -> Prop :=
| Tg_abs r : t = 47 :: r -> Target file t t
| Tg_here : ~ In 47 file -> (forall r, t <> 47 :: r) -> Target file t t
| Tg_root sl base : file = sl ++ base -> slashes sl -> ~ In 47 base ->
    (forall r, t <> 47 :: r) -> Target file t (sl ++ t)
| Tg_dir dir c sl base : file = dir ++ [c] ++ sl ++ base -> c <> 47 -> slashes sl -> ~ In 47 base ->
    (forall r, t <> 47 :: r) -> Target file t (dir ++ [c] ++ [47] ++ t).

(* what the parser gets to see: lines with their position, missing files *)
Inductive xev :=
| XLine (w : loc) (data comment : str)
| XMissing (m : msg).

Inductive Expand (fs : str -> res bytes) : str -> N -> list bytes -> list xev -> Prop :=
| Ex_nil name n : Expand fs name n [] []
| Ex_plain name n b bs d k out :
    RawLine b d k -> (forall t must, ~ IncludeLine b t must) ->
    Expand fs name (n + 1) bs out ->
    Expand fs name n (b :: bs) (XLine (Where name (n + 1) b) d k :: out)
| Ex_include name n b bs d k t must p content ls sub out :
    RawLine b d k -> IncludeLine b t must -> Target name t p ->
    fs p = Ok content -> Lines content ls -> Expand fs p 0 ls sub ->
    Expand fs name (n + 1) bs out ->
    Expand fs name n (b :: bs) (XLine (Where name (n + 1) b) d k :: sub ++ out)
| Ex_missing name n b bs d k t must p out :
    RawLine b d k -> IncludeLine b t must -> Target name t p -> fs p = Exn OSError ->
    Expand fs name (n + 1) bs out ->
    Expand fs name n (b :: bs)
      (XLine (Where name (n + 1) b) d k
       :: (if must then [XMissing (Msg W_PP_INCLUDE_MISSING (Where name (n + 1) b) None
                                     [(L "filename", AStr t)])] else []) ++ out).

Definition is_missing (m : msg) : bool :=
  match m_cls m with W_PP_INCLUDE_MISSING => true | _ => false end.
Definition xview (evs : list event) : list xev :=
  flat_map (fun ev => match ev with
    | EvLine w d k => [XLine w d k]
    | EvMsg m => if is_missing m then [XMissing m] else []
    | EvElem _ => [] end) evs.

(* [Inc fs a b]: file a contains a directive that includes the existing file b *)
Definition Inc (fs : str -> res bytes) (a b : str) : Prop :=
  exists content ls line t must,
    fs a = Ok content /\ Lines content ls /\ In line ls /\ IncludeLine line t must
    /\ Target a t b /\ exists c, fs b = Ok c.

(* every file can be read and decoded, missing files are reported as such *)
Definition Readable (fs : str -> res bytes) : Prop :=
  (forall p, (exists c, fs p = Ok c) \/ fs p = Exn OSError) /\
  (forall p c ls line, fs p = Ok c -> Lines c ls -> In line ls -> exists s, Decoded line s).
