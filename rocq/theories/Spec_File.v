(* Independent specification of the reading layers (file.py).  Uses the message
   and position types of Defines.v but none of the functions of FileRd.v. *)
From Verif Require Import Base Defines.

(* ---- Text encodings (C18) ---- *)

(* The UTF-8 encoding form of the Unicode standard, as equations. *)
Inductive Utf8_1 : N -> bytes -> Prop :=
| U8_1 c : c < 128 -> Utf8_1 c [c]
| U8_2 x y : 2 <= x < 32 -> y < 64 -> Utf8_1 (64 * x + y) [192 + x; 128 + y]
| U8_3 x y z : x < 16 -> y < 64 -> z < 64 ->
    0x800 <= 4096 * x + 64 * y + z ->
    ~ (0xd800 <= 4096 * x + 64 * y + z <= 0xdfff) ->
    Utf8_1 (4096 * x + 64 * y + z) [224 + x; 128 + y; 128 + z]
| U8_4 x y z t : x < 8 -> y < 64 -> z < 64 -> t < 64 ->
    0x10000 <= 262144 * x + 4096 * y + 64 * z + t <= 0x10ffff ->
    Utf8_1 (262144 * x + 4096 * y + 64 * z + t) [240 + x; 128 + y; 128 + z; 128 + t].
Inductive Utf8 : str -> bytes -> Prop :=
| U8_nil : Utf8 [] []
| U8_cons c b s bs : Utf8_1 c b -> Utf8 s bs -> Utf8 (c :: s) (b ++ bs).

(* Windows-1252: the 27 defined code points of 0x80-0x9f, the rest as Latin-1. *)
Definition cp1252_table : list (N * N) :=
  [(0x80, 0x20ac); (0x82, 0x201a); (0x83, 0x0192); (0x84, 0x201e); (0x85, 0x2026);
   (0x86, 0x2020); (0x87, 0x2021); (0x88, 0x02c6); (0x89, 0x2030); (0x8a, 0x0160);
   (0x8b, 0x2039); (0x8c, 0x0152); (0x8e, 0x017d); (0x91, 0x2018); (0x92, 0x2019);
   (0x93, 0x201c); (0x94, 0x201d); (0x95, 0x2022); (0x96, 0x2013); (0x97, 0x2014);
   (0x98, 0x02dc); (0x99, 0x2122); (0x9a, 0x0161); (0x9b, 0x203a); (0x9c, 0x0153);
   (0x9e, 0x017e); (0x9f, 0x0178)].
Definition Cp1252 (b c : N) : Prop :=
  In (b, c) cp1252_table \/ ((b < 0x80 \/ 0xa0 <= b) /\ c = b).
Definition cp1252_undefined (b : N) : Prop :=
  b = 0x81 \/ b = 0x8d \/ b = 0x8f \/ b = 0x90 \/ b = 0x9d.

(* ---- Line ends (C19) ---- *)

(* [Ends s body eol]: s is body followed by its line end. *)
Inductive Ends : str -> str -> str -> Prop :=
| Ends_crlf body : Ends (body ++ [13; 10]) body [13; 10]
| Ends_lf body : (forall b, body <> b ++ [13]) -> Ends (body ++ [10]) body [10]
| Ends_none body : (forall b, body <> b ++ [10]) -> Ends body body [].

(* A file with the files included by its lines: a line (position and text with
   line end), possibly followed by the contents of an included file. *)
Inductive ftree := FT (name : str) (items : fitems)
with fitems :=
| FNil
| FLine (w : loc) (s : str) (r : fitems)
| FIncl (w : loc) (s : str) (t : ftree) (r : fitems).

(* The sequence of lines a reader sees. *)
Fixpoint flat_tree (t : ftree) : list (loc * str) :=
  match t with FT _ items => flat_items items end
with flat_items (i : fitems) : list (loc * str) :=
  match i with
  | FNil => []
  | FLine w s r => (w, s) :: flat_items r
  | FIncl w s t r => (w, s) :: flat_tree t ++ flat_items r
  end.

(* Every line belongs to its file, no file contains itself. *)
Fixpoint wf_tree (above : list str) (t : ftree) : Prop :=
  match t with FT name items => ~ In name above /\ wf_items (name :: above) name items end
with wf_items (above : list str) (name : str) (i : fitems) : Prop :=
  match i with
  | FNil => True
  | FLine w s r => w_file w = name /\ wf_items above name r
  | FIncl w s t r => w_file w = name /\ wf_tree above t /\ wf_items above name r
  end.

Inductive eol := CRLF | LF | NOEOL.
Definition eol_of (s : str) : eol :=
  match rev s with
  | 10 :: 13 :: _ => CRLF
  | 10 :: _ => LF
  | _ => NOEOL
  end.

(* A file is a DOS file unless its first line ends in a bare LF. *)
Definition first_dos (i : fitems) : bool :=
  match i with
  | FNil => false
  | FLine _ s _ | FIncl _ s _ _ => match eol_of s with LF => false | _ => true end
  end.

Definition line_msgs (dos : bool) (w : loc) (s : str) : list msg :=
  match dos, eol_of s with
  | true, LF => [msg0 W_FILE_DOS_BARELF w]
  | false, CRLF => [msg0 W_FILE_UNIX_CRLF w]
  | _, _ => []
  end.

Fixpoint last_line (i : fitems) (d : option (loc * str)) : option (loc * str) :=
  match i with
  | FNil => d
  | FLine w s r | FIncl w s _ r => last_line r (Some (w, s))
  end.

(* A DOS file should end without, a UNIX file with a line end. *)
Definition end_msgs (dos : bool) (l : option (loc * str)) : list msg :=
  match l with
  | None => []
  | Some (w, s) =>
    match dos, eol_of s with
    | true, (CRLF | LF) => [msg0 W_FILE_DOS_EOFCRLF w]
    | false, NOEOL => [msg0 W_FILE_UNIX_NOLF w]
    | _, _ => []
    end
  end.

Fixpoint ff_spec (t : ftree) : list msg :=
  match t with
  | FT _ i => ff_spec_items (first_dos i) i ++ end_msgs (first_dos i) (last_line i None)
  end
with ff_spec_items (dos : bool) (i : fitems) : list msg :=
  match i with
  | FNil => []
  | FLine w s r => line_msgs dos w s ++ ff_spec_items dos r
  | FIncl w s t r => line_msgs dos w s ++ ff_spec t ++ ff_spec_items dos r
  end.

(* ---- Comments (C20) ---- *)

Definition blank_str (s : str) : Prop := Forall (fun c => c = 32 \/ c = 9) s.
Definition ends_blank (s : str) : Prop := exists a c, s = a ++ [c] /\ (c = 32 \/ c = 9).

(* [Unesc raw data]: raw has no bare semicolon and data is raw with every
   backslash-semicolon replaced by a semicolon. *)
Inductive Unesc : str -> str -> Prop :=
| Un_nil : Unesc [] []
| Un_esc r d : Unesc r d -> Unesc (92 :: 59 :: r) (59 :: d)
| Un_chr c r d : c <> 59 -> (c = 92 -> forall r', r <> 59 :: r') ->
    Unesc r d -> Unesc (c :: r) (c :: d).

(* [Split line data comment bare]: the comment starts at the first semicolon not
   directly behind a backslash and takes the blanks before it; [bare] says that
   it directly follows other data. *)
Inductive CommentSplit : str -> str -> str -> bool -> Prop :=
| CS_none line data :
    Unesc line data -> CommentSplit line data [] false
| CS_some raw text data0 data blanks bare :
    Unesc raw data0 -> (forall r, raw <> r ++ [92]) ->
    data0 = data ++ blanks -> blank_str blanks -> ~ ends_blank data ->
    (bare = true <-> data0 <> [] /\ blanks = []) ->
    CommentSplit (raw ++ 59 :: text) data (blanks ++ 59 :: text) bare.

(* ---- One line through all layers (C47) ---- *)

(* C0 controls without tab, line feed and carriage return. *)
Definition unusual (c : N) : Prop := c <= 0x08 \/ c = 0x0b \/ c = 0x0c \/ 0x0e <= c <= 0x1f.
Definition when (P : Prop) (c : mcls) (w : loc) (l : list msg) : Prop :=
  (P /\ l = [msg0 c w]) \/ (~ P /\ l = []).
Definition Decoded (b : bytes) (s : str) : Prop :=
  Utf8 s b \/ ((forall s', ~ Utf8 s' b) /\ Forall2 Cp1252 b s).

(* The text, its messages before (encoding, control characters) and after
   (blanks at the end, comment) those about the line end. *)
Definition LineRead (w : loc) (b : bytes) (s data comment : str) (before after : list msg) : Prop :=
  exists body e text blanks bare l1 l2 l3,
    Decoded b s /\ Ends s body e /\ body = text ++ blanks /\ blank_str blanks /\ ~ ends_blank text /\
    CommentSplit text data comment bare /\
    when (forall s', ~ Utf8 s' b) E_FILE_UTF8_BAD w l1 /\ when (Exists unusual s) W_FILE_CTRL_CHAR w l2 /\
    when (blanks <> []) W_WSH_EOL w l3 /\ before = l1 ++ l2 /\
    after = l3 ++ (if bare : bool then [msg0 W_WSH_COMMENT w] else []).
