(* Independent specification of the configuration grammar (config.py).  It uses
   Python's notion of white space (PyStr.isspace), the element types of Config.v,
   and none of its functions. *)
From Verif Require Import Base PyStr Defines Config.

Definition ws (s : str) : Prop := Forall (fun c => isspace c = true) s.
Definition no_nl (s : str) : Prop := ~ In 10 s.
Definition ends_ws (s : str) : Prop := exists a c, s = a ++ [c] /\ isspace c = true.
Definition starts_ws (s : str) : Prop := exists c r, s = c :: r /\ isspace c = true.

(* ---- Kinds of lines (C21) ---- *)

(* [Header d bol name t]: bol[name] or bol[name](t).  The text in parentheses is
   one character other than ')' and '+'. *)
Inductive Header : str -> str -> str -> str -> Prop :=
| Hd_plain bol name : ws bol -> ~ In 93 name ->
    Header (bol ++ [91] ++ name ++ [93]) bol name []
| Hd_tmpl bol name gap t : ws bol -> ~ In 93 name -> ws gap -> t <> 41 -> t <> 43 ->
    Header (bol ++ [91] ++ name ++ [93] ++ gap ++ [40; t; 41]) bol name [t].

(* [Assign d key sep value arrow]: d is key, separator and value; the separator
   is the first "=" (or "=>") with the white space around it. *)
Inductive Assign : str -> str -> str -> str -> bool -> Prop :=
| As_obj key sp1 sp2 value :
    ~ In 61 key -> ~ ends_ws key -> ws sp1 -> ws sp2 -> ~ starts_ws value ->
    Assign (key ++ (sp1 ++ [61; 62] ++ sp2) ++ value) key (sp1 ++ [61; 62] ++ sp2) value true
| As_var key sp1 sp2 value :
    ~ In 61 key -> ~ ends_ws key -> ws sp1 -> ws sp2 -> ~ starts_ws value ->
    (sp2 = [] -> forall r, value <> 62 :: r) ->
    Assign (key ++ (sp1 ++ [61] ++ sp2) ++ value) key (sp1 ++ [61] ++ sp2) value false.

Inductive kind :=
| KHeader (bol name t : str)
| KAssign (key sep value : str) (arrow : bool)
| KBlank
| KDirective
| KBad.

Inductive LineKind (d : str) : kind -> Prop :=
| LK_header bol name t : Header d bol name t -> LineKind d (KHeader bol name t)
| LK_assign key sep value arrow : (forall b n t, ~ Header d b n t) ->
    Assign d key sep value arrow -> LineKind d (KAssign key sep value arrow)
| LK_blank : ws d -> LineKind d KBlank
| LK_directive sp r : d = sp ++ 35 :: r -> ws sp ->
    (forall b n t, ~ Header d b n t) -> ~ In 61 d -> LineKind d KDirective
| LK_bad sp c r : d = sp ++ c :: r -> ws sp -> isspace c = false -> c <> 35 ->
    (forall b n t, ~ Header d b n t) -> ~ In 61 d -> LineKind d KBad.

(* [VarName key bl v]: v is the key without leading blanks bl. *)
Definition VarName (key bl v : str) : Prop :=
  key = bl ++ v /\ Forall (fun c => c = 32 \/ c = 9) bl
  /\ (forall c r, v = c :: r -> c <> 32 /\ c <> 9).

Definition some_if (b : bool) (m : msg) : list msg := if b then [m] else [].
Definition nonempty {A} (l : list A) : bool := match l with [] => false | _ => true end.

(* ---- Directives ---- *)

Inductive kw := KInclude | KTryinclude | KExec.
Definition kw_text (k : kw) : str :=
  match k with
  | KInclude => L "#include" | KTryinclude => L "#tryinclude" | KExec => L "#exec"
  end.

(* [DirText text k gap arg]: keyword, separating characters up to 32, argument *)
Definition DirText (text : str) (k : kw) (gap arg : str) : Prop :=
  text = kw_text k ++ gap ++ arg /\ gap <> [] /\ Forall (fun c => c <= 32) gap
  /\ exists c r, arg = c :: r /\ 32 < c.

(* [Unquoted arg t bad]: quotes or angle brackets around the argument are
   removed; [bad] if there is only one side. *)
Inductive Unquoted : str -> str -> bool -> Prop :=
| Uq_dq t : Unquoted (34 :: t ++ [34]) t false
| Uq_dq1 : Unquoted [34] [] false
| Uq_ab t : Unquoted (60 :: t ++ [62]) t false
| Uq_plain a : (forall t, a <> 34 :: t) -> (forall t, a <> 60 :: t) ->
    (forall t, a <> t ++ [34]) -> (forall t, a <> t ++ [62]) -> Unquoted a a false
| Uq_bad a : (forall t, a <> 34 :: t ++ [34]) -> a <> [34] -> (forall t, a <> 60 :: t ++ [62]) ->
    ((exists t, a = 34 :: t) \/ (exists t, a = 60 :: t)
     \/ (exists t, a = t ++ [34]) \/ (exists t, a = t ++ [62])) ->
    Unquoted a a true.

(* ---- What a line results in (C21) ---- *)

Definition badline (w : loc) (text : str) : msg :=
  Msg E_CONF_BAD_LINE w None [(L "startswith", AStr (firstn 16 text))].

(* messages of an element line, in order *)
Definition header_msgs (w : loc) (bol t : str) : list msg :=
  some_if (nonempty bol) (msg0 W_WSH_BOL w) ++ some_if (nonempty t) (msg0 I_NOTIMPL_TEMPLATES w).
Definition sep_msgs (w : loc) (sep : str) (arrow : bool) : list msg :=
  if arrow then some_if (negb (str_eqb sep (L " => "))) (msg0 W_WSH_OBJSET w)
  else some_if (negb (str_eqb sep (L "="))) (msg0 W_WSH_VARSET w).
Definition indent_msgs (w : loc) (bl v : str) : list msg :=
  some_if (nonempty bl && negb (str_eqb v (L "same"))) (msg0 W_WSH_BOL w).

(* all blanks in the gap are equal *)
Definition gap_ok (gap : str) : Prop :=
  Forall (fun c => c = 32) gap \/ Forall (fun c => c = 9) gap.

Inductive DirResult (w : loc) (text : str) : list msg -> ppact -> Prop :=
| DR_ok k gap arg t bad c :
    DirText text k gap arg -> Unquoted arg t bad -> (c = true <-> ~ gap_ok gap) ->
    DirResult w text
      (some_if c (msg0 W_WSH_CTRL w) ++ some_if bad (msg0 W_PP_QUOTE_BAD w)
       ++ match k with KExec => [Msg W_PP_EXEC w None [(L "cmd", AStr t)]] | _ => [] end)
      match k with KInclude => PPinclude t true | KTryinclude => PPinclude t false | KExec => PPnone end
| DR_bad : (forall k gap arg, ~ DirText text k gap arg) ->
    DirResult w text [badline w text] PPnone.

Inductive LineResult (w : loc) (d : str) (cm : bool) : kind -> list msg -> parsed -> Prop :=
| LR_header bol name t :
    LineResult w d cm (KHeader bol name t) (header_msgs w bol t) (PElem (ECtx (Ctx name t cm w)))
| LR_assign key sep value arrow bl v : VarName key bl v ->
    LineResult w d cm (KAssign key sep value arrow) (sep_msgs w sep arrow ++ indent_msgs w bl v)
      (PElem (EVar (Varset v value (Some arrow) cm w)))
| LR_blank : LineResult w d cm KBlank [] (PElem (EEmpty cm w))
| LR_directive sp text ms a : d = sp ++ text -> ws sp -> ~ starts_ws text -> DirResult w text ms a ->
    LineResult w d cm KDirective (some_if (nonempty sp) (msg0 W_WSH_BOL w) ++ ms) (PAct a)
| LR_bad : LineResult w d cm KBad [badline w d] (PAct PPnone).
