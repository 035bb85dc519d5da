(* Declarative side of C51: comments and folded lines of the VoIPGRID reader. *)
From Verif Require Import Base PyStr Defines Spec_File.

(* What stands in the pair of delimiters o (0: in none): characters and groups.
   In double quotes, parentheses are characters; a closing parenthesis is one
   everywhere but in parentheses.  A semicolon is one only in a group. *)
Definition Opens (o q : N) : Prop := (q = 40 /\ o <> 34) \/ ((q = 34 \/ q = 39) /\ o <> q).
Definition Closes (q e : N) : Prop := (q = 40 /\ e = 41) \/ ((q = 34 \/ q = 39) /\ e = q).
Definition Chr (o c : N) : Prop :=
  (~ In c [34; 39; 40; 41] /\ (c = 59 -> o <> 0)) \/ (c = 41 /\ o <> 40) \/ (c = 40 /\ o = 34).
Inductive Items (o : N) : str -> Prop :=
| It_nil : Items o []
| It_chr c s : Chr o c -> Items o s -> Items o (c :: s)
| It_group q e body s : Opens o q -> Items q body -> Closes q e -> Items o s -> Items o (q :: body ++ e :: s).

(* The comment starts at the semicolon behind such items and takes the blanks
   before it. *)
Inductive VgSplit (line : str) : str -> str -> bool -> Prop :=
| Vs_none : (forall a b, line = a ++ 59 :: b -> ~ Items 0 a) -> VgSplit line line [] false
| Vs_some data blanks text bare : line = (data ++ blanks) ++ 59 :: text -> Items 0 (data ++ blanks) ->
    blank_str blanks -> ~ ends_blank data -> (bare = true <-> data ++ blanks <> [] /\ blanks = []) ->
    VgSplit line data (blanks ++ 59 :: text) bare.
Definition VgPart (w : loc) (s data comment : str) (l : list msg) : Prop :=
  exists text blanks bare l1 l2, s = text ++ blanks /\ blank_str blanks /\ ~ ends_blank text /\
    VgSplit text data comment bare /\ when (blanks <> []) W_WSH_EOL w l1 /\ when (bare = true) W_WSH_COMMENT w l2 /\ l = l1 ++ l2.

(* A line that starts with a blank continues the one before; a preprocessor line
   is not continued. *)
Definition begins_blank (s : str) : Prop := exists c r, s = c :: r /\ (c = 32 \/ c = 9).
Inductive Folded (d0 : str) : list (loc * str) -> str -> str -> list msg -> Prop :=
| Fd_nil : Folded d0 [] [] [] []
| Fd_cons w s data comment l more d c l' b : begins_blank s -> VgPart w s data comment l -> when (d0 = []) W_WSH_BOL w b ->
    Folded (d0 ++ data) more d c l' -> Folded d0 ((w, s) :: more) (data ++ d) (comment ++ c) (l ++ b ++ l').
Definition IsPP (data : str) : Prop := exists r, data = 35 :: r.
Inductive Unfolds : list (loc * str) -> list (loc * str * str) -> list msg -> Prop :=
| Uf_nil : Unfolds [] [] []
| Uf_pp w s data comment l rest out l' : VgPart w s data comment l -> IsPP data -> Unfolds rest out l' ->
    Unfolds ((w, s) :: rest) ((w, data, comment) :: out) (l ++ l')
| Uf_line w s data comment l more d c l1 rest out l' : VgPart w s data comment l -> ~ IsPP data ->
    Folded data more d c l1 -> (forall x rest', rest = x :: rest' -> ~ begins_blank (snd x)) -> Unfolds rest out l' ->
    Unfolds ((w, s) :: more ++ rest) ((w, data ++ d, comment ++ c) :: out) (l ++ l1 ++ l').
