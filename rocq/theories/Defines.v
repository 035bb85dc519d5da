(* Messages: asterisklint/defines.py and the message classes of all modules. *)
From Verif Require Import Base PyStr.

(* where.py:18-25.  The dummy position (line -1, where.py:28) is used by tests
   only and not modelled. *)
Record loc := Where { w_file : str; w_line : N; w_text : bytes }.

(* One constructor per message class. *)
Inductive mcls :=
| E_FILE_UTF8_BAD | W_FILE_CTRL_CHAR | W_FILE_DOS_EOFCRLF | W_FILE_DOS_BARELF
| W_FILE_UNIX_CRLF | W_FILE_UNIX_NOLF | W_WSH_BOL | W_WSH_EOL | W_WSH_COMMENT
| W_WSV_BOF | W_WSV_EOF                                   (* file.py:20-52 *)
| E_CONF_BAD_LINE | E_CONF_CTX_MISSING | E_CONF_KEY_DUPE | E_CONF_KEY_INVALID
| W_CONF_KEY_LATE | W_CONF_CTX_DUPE | W_PP_EXEC | W_PP_INCLUDE_MISSING
| W_PP_QUOTE_BAD | W_WSH_CTRL | H_CONF_HAS_ARROW | H_CONF_NO_ARROW  (* config.py:25-64 *)
| I_NOTIMPL_TEMPLATES | W_WSH_OBJSET | W_WSH_VARSET      (* configobj.py:20-28 *)
| H_WSV_CTX_BETWEEN | H_WSV_VARSET_BETWEEN               (* configws.py:21-27 *)
| E_ODBC_NOSQL | W_ODBC_BADTOKENS | W_ODBC_LEGACY | W_ODBC_TAILSEMI (* func_odbc.py:31-46 *)
| E_APP_ARG_FEW | E_APP_ARG_MANY | E_APP_ARG_BADOPT | E_APP_ARG_DUPEOPT
| E_APP_ARG_IFCONST | E_APP_ARG_IFEMPTY | E_APP_ARG_IFSTYLE | E_APP_ARG_PIPEDELIM
| E_APP_ARG_SYNTAX | E_APP_MISSING | W_APP_BAD_CASE | W_APP_BALANCE (* app/__init__.py:19-61 *)
| E_APP_WSH | E_APP_PARSE_ERROR | W_APP_NEED_PARENS | W_APP_WSH  (* application.py:25-36 *)
| H_PAT_NON_CANONICAL                                    (* pattern.py:22-24 *)
| E_ASSIGN_EMPTY | E_ASSIGN_NO_EQUALS | E_FUNC_BAD_CASE | E_FUNC_MISSING
| E_FUNC_PARENS | E_FUNC_TAIL | E_VAR_BAD_TOKENS | E_VAR_SUBSTR_ARGS
| E_VAR_SUBSTR_START | E_VAR_SUBSTR_LENGTH | W_ASSIGN_SPACES | W_FUNC_DYNAMIC
                                                         (* varfun.py:28-69 *)
| E_FUNC_BAD_ARGS | W_FUNC_BALANCE                       (* func/__init__.py:19-26 *)
| I_NOTIMPL_HINT | I_NOTIMPL_IGNOREPAT | I_NOTIMPL_SWITCH | E_DP_VAR_INVALID
| E_DP_INCLUDE_POSITION | E_DP_PAT_INVALID | E_DP_PAT_MISSING | E_DP_PRIO_INVALID
| E_DP_PRIO_MISSING | E_DP_PRIO_DUPE | E_DP_LABEL_INVALID | E_DP_GLOBALS_DUPE
| E_DP_LABEL_DUPE | E_DP_PRIO_BAD | E_DP_GOTO_CONTEXT_NOLABEL | E_DP_GOTO_NOCONTEXT
| E_DP_GOTO_NOLABEL | W_DP_GOTO_CONTEXT_NOEXTEN | W_DP_PRIO_BADORDER
| H_DP_GENERAL_MISPLACED | H_DP_GLOBALS_MISPLACED.       (* dialplan.py:26-93 *)

(* cls.__name__ *)
Definition mname (c : mcls) : str :=
  match c with
  | E_FILE_UTF8_BAD => L "E_FILE_UTF8_BAD"
  | W_FILE_CTRL_CHAR => L "W_FILE_CTRL_CHAR"
  | W_FILE_DOS_EOFCRLF => L "W_FILE_DOS_EOFCRLF"
  | W_FILE_DOS_BARELF => L "W_FILE_DOS_BARELF"
  | W_FILE_UNIX_CRLF => L "W_FILE_UNIX_CRLF"
  | W_FILE_UNIX_NOLF => L "W_FILE_UNIX_NOLF"
  | W_WSH_BOL => L "W_WSH_BOL"
  | W_WSH_EOL => L "W_WSH_EOL"
  | W_WSH_COMMENT => L "W_WSH_COMMENT"
  | W_WSV_BOF => L "W_WSV_BOF"
  | W_WSV_EOF => L "W_WSV_EOF"
  | E_CONF_BAD_LINE => L "E_CONF_BAD_LINE"
  | E_CONF_CTX_MISSING => L "E_CONF_CTX_MISSING"
  | E_CONF_KEY_DUPE => L "E_CONF_KEY_DUPE"
  | E_CONF_KEY_INVALID => L "E_CONF_KEY_INVALID"
  | W_CONF_KEY_LATE => L "W_CONF_KEY_LATE"
  | W_CONF_CTX_DUPE => L "W_CONF_CTX_DUPE"
  | W_PP_EXEC => L "W_PP_EXEC"
  | W_PP_INCLUDE_MISSING => L "W_PP_INCLUDE_MISSING"
  | W_PP_QUOTE_BAD => L "W_PP_QUOTE_BAD"
  | W_WSH_CTRL => L "W_WSH_CTRL"
  | H_CONF_HAS_ARROW => L "H_CONF_HAS_ARROW"
  | H_CONF_NO_ARROW => L "H_CONF_NO_ARROW"
  | I_NOTIMPL_TEMPLATES => L "I_NOTIMPL_TEMPLATES"
  | W_WSH_OBJSET => L "W_WSH_OBJSET"
  | W_WSH_VARSET => L "W_WSH_VARSET"
  | H_WSV_CTX_BETWEEN => L "H_WSV_CTX_BETWEEN"
  | H_WSV_VARSET_BETWEEN => L "H_WSV_VARSET_BETWEEN"
  | E_ODBC_NOSQL => L "E_ODBC_NOSQL"
  | W_ODBC_BADTOKENS => L "W_ODBC_BADTOKENS"
  | W_ODBC_LEGACY => L "W_ODBC_LEGACY"
  | W_ODBC_TAILSEMI => L "W_ODBC_TAILSEMI"
  | E_APP_ARG_FEW => L "E_APP_ARG_FEW"
  | E_APP_ARG_MANY => L "E_APP_ARG_MANY"
  | E_APP_ARG_BADOPT => L "E_APP_ARG_BADOPT"
  | E_APP_ARG_DUPEOPT => L "E_APP_ARG_DUPEOPT"
  | E_APP_ARG_IFCONST => L "E_APP_ARG_IFCONST"
  | E_APP_ARG_IFEMPTY => L "E_APP_ARG_IFEMPTY"
  | E_APP_ARG_IFSTYLE => L "E_APP_ARG_IFSTYLE"
  | E_APP_ARG_PIPEDELIM => L "E_APP_ARG_PIPEDELIM"
  | E_APP_ARG_SYNTAX => L "E_APP_ARG_SYNTAX"
  | E_APP_MISSING => L "E_APP_MISSING"
  | W_APP_BAD_CASE => L "W_APP_BAD_CASE"
  | W_APP_BALANCE => L "W_APP_BALANCE"
  | E_APP_WSH => L "E_APP_WSH"
  | E_APP_PARSE_ERROR => L "E_APP_PARSE_ERROR"
  | W_APP_NEED_PARENS => L "W_APP_NEED_PARENS"
  | W_APP_WSH => L "W_APP_WSH"
  | H_PAT_NON_CANONICAL => L "H_PAT_NON_CANONICAL"
  | E_ASSIGN_EMPTY => L "E_ASSIGN_EMPTY"
  | E_ASSIGN_NO_EQUALS => L "E_ASSIGN_NO_EQUALS"
  | E_FUNC_BAD_CASE => L "E_FUNC_BAD_CASE"
  | E_FUNC_MISSING => L "E_FUNC_MISSING"
  | E_FUNC_PARENS => L "E_FUNC_PARENS"
  | E_FUNC_TAIL => L "E_FUNC_TAIL"
  | E_VAR_BAD_TOKENS => L "E_VAR_BAD_TOKENS"
  | E_VAR_SUBSTR_ARGS => L "E_VAR_SUBSTR_ARGS"
  | E_VAR_SUBSTR_START => L "E_VAR_SUBSTR_START"
  | E_VAR_SUBSTR_LENGTH => L "E_VAR_SUBSTR_LENGTH"
  | W_ASSIGN_SPACES => L "W_ASSIGN_SPACES"
  | W_FUNC_DYNAMIC => L "W_FUNC_DYNAMIC"
  | E_FUNC_BAD_ARGS => L "E_FUNC_BAD_ARGS"
  | W_FUNC_BALANCE => L "W_FUNC_BALANCE"
  | I_NOTIMPL_HINT => L "I_NOTIMPL_HINT"
  | I_NOTIMPL_IGNOREPAT => L "I_NOTIMPL_IGNOREPAT"
  | I_NOTIMPL_SWITCH => L "I_NOTIMPL_SWITCH"
  | E_DP_VAR_INVALID => L "E_DP_VAR_INVALID"
  | E_DP_INCLUDE_POSITION => L "E_DP_INCLUDE_POSITION"
  | E_DP_PAT_INVALID => L "E_DP_PAT_INVALID"
  | E_DP_PAT_MISSING => L "E_DP_PAT_MISSING"
  | E_DP_PRIO_INVALID => L "E_DP_PRIO_INVALID"
  | E_DP_PRIO_MISSING => L "E_DP_PRIO_MISSING"
  | E_DP_PRIO_DUPE => L "E_DP_PRIO_DUPE"
  | E_DP_LABEL_INVALID => L "E_DP_LABEL_INVALID"
  | E_DP_GLOBALS_DUPE => L "E_DP_GLOBALS_DUPE"
  | E_DP_LABEL_DUPE => L "E_DP_LABEL_DUPE"
  | E_DP_PRIO_BAD => L "E_DP_PRIO_BAD"
  | E_DP_GOTO_CONTEXT_NOLABEL => L "E_DP_GOTO_CONTEXT_NOLABEL"
  | E_DP_GOTO_NOCONTEXT => L "E_DP_GOTO_NOCONTEXT"
  | E_DP_GOTO_NOLABEL => L "E_DP_GOTO_NOLABEL"
  | W_DP_GOTO_CONTEXT_NOEXTEN => L "W_DP_GOTO_CONTEXT_NOEXTEN"
  | W_DP_PRIO_BADORDER => L "W_DP_PRIO_BADORDER"
  | H_DP_GENERAL_MISPLACED => L "H_DP_GENERAL_MISPLACED"
  | H_DP_GLOBALS_MISPLACED => L "H_DP_GLOBALS_MISPLACED"
  end.

Definition all_mcls : list mcls :=
  [E_FILE_UTF8_BAD;
   W_FILE_CTRL_CHAR;
   W_FILE_DOS_EOFCRLF;
   W_FILE_DOS_BARELF;
   W_FILE_UNIX_CRLF;
   W_FILE_UNIX_NOLF;
   W_WSH_BOL;
   W_WSH_EOL;
   W_WSH_COMMENT;
   W_WSV_BOF;
   W_WSV_EOF;
   E_CONF_BAD_LINE;
   E_CONF_CTX_MISSING;
   E_CONF_KEY_DUPE;
   E_CONF_KEY_INVALID;
   W_CONF_KEY_LATE;
   W_CONF_CTX_DUPE;
   W_PP_EXEC;
   W_PP_INCLUDE_MISSING;
   W_PP_QUOTE_BAD;
   W_WSH_CTRL;
   H_CONF_HAS_ARROW;
   H_CONF_NO_ARROW;
   I_NOTIMPL_TEMPLATES;
   W_WSH_OBJSET;
   W_WSH_VARSET;
   H_WSV_CTX_BETWEEN;
   H_WSV_VARSET_BETWEEN;
   E_ODBC_NOSQL;
   W_ODBC_BADTOKENS;
   W_ODBC_LEGACY;
   W_ODBC_TAILSEMI;
   E_APP_ARG_FEW;
   E_APP_ARG_MANY;
   E_APP_ARG_BADOPT;
   E_APP_ARG_DUPEOPT;
   E_APP_ARG_IFCONST;
   E_APP_ARG_IFEMPTY;
   E_APP_ARG_IFSTYLE;
   E_APP_ARG_PIPEDELIM;
   E_APP_ARG_SYNTAX;
   E_APP_MISSING;
   W_APP_BAD_CASE;
   W_APP_BALANCE;
   E_APP_WSH;
   E_APP_PARSE_ERROR;
   W_APP_NEED_PARENS;
   W_APP_WSH;
   H_PAT_NON_CANONICAL;
   E_ASSIGN_EMPTY;
   E_ASSIGN_NO_EQUALS;
   E_FUNC_BAD_CASE;
   E_FUNC_MISSING;
   E_FUNC_PARENS;
   E_FUNC_TAIL;
   E_VAR_BAD_TOKENS;
   E_VAR_SUBSTR_ARGS;
   E_VAR_SUBSTR_START;
   E_VAR_SUBSTR_LENGTH;
   W_ASSIGN_SPACES;
   W_FUNC_DYNAMIC;
   E_FUNC_BAD_ARGS;
   W_FUNC_BALANCE;
   I_NOTIMPL_HINT;
   I_NOTIMPL_IGNOREPAT;
   I_NOTIMPL_SWITCH;
   E_DP_VAR_INVALID;
   E_DP_INCLUDE_POSITION;
   E_DP_PAT_INVALID;
   E_DP_PAT_MISSING;
   E_DP_PRIO_INVALID;
   E_DP_PRIO_MISSING;
   E_DP_PRIO_DUPE;
   E_DP_LABEL_INVALID;
   E_DP_GLOBALS_DUPE;
   E_DP_LABEL_DUPE;
   E_DP_PRIO_BAD;
   E_DP_GOTO_CONTEXT_NOLABEL;
   E_DP_GOTO_NOCONTEXT;
   E_DP_GOTO_NOLABEL;
   W_DP_GOTO_CONTEXT_NOEXTEN;
   W_DP_PRIO_BADORDER;
   H_DP_GENERAL_MISPLACED;
   H_DP_GLOBALS_MISPLACED].

(* The placeholders of cls.message in order, with the !r flag; same sources as
   [mcls].  A class not listed has a constant text. *)
Definition mfields (c : mcls) : list (str * bool) :=
  match c with
  | E_CONF_BAD_LINE =>
    [(L "startswith", true)]
  | E_CONF_KEY_DUPE | E_CONF_KEY_INVALID | W_CONF_KEY_LATE =>
    [(L "key", true)]
  | W_PP_EXEC =>
    [(L "cmd", true)]
  | W_PP_INCLUDE_MISSING =>
    [(L "filename", true)]
  | W_ODBC_BADTOKENS =>
    [(L "name", true)]
  | E_APP_ARG_FEW =>
    [(L "app", true); (L "min_args", false)]
  | E_APP_ARG_MANY =>
    [(L "app", true); (L "max_args", false)]
  | E_APP_ARG_BADOPT | E_APP_ARG_DUPEOPT =>
    [(L "opts", true); (L "argno", false); (L "app", true)]
  | E_APP_ARG_IFCONST =>
    [(L "app", true); (L "data", false); (L "cond", false)]
  | E_APP_ARG_IFEMPTY =>
    [(L "app", true); (L "data", false)]
  | E_APP_ARG_IFSTYLE =>
    [(L "app", true); (L "data", false); (L "cond", false); (L "args", false)]
  | E_APP_ARG_PIPEDELIM | E_APP_ARG_SYNTAX =>
    [(L "app", true); (L "data", true)]
  | E_APP_MISSING | E_APP_WSH | W_APP_NEED_PARENS | W_APP_WSH =>
    [(L "app", true)]
  | W_APP_BAD_CASE =>
    [(L "app", true); (L "proper", true)]
  | W_APP_BALANCE | W_FUNC_BALANCE =>
    [(L "data", true)]
  | E_APP_PARSE_ERROR =>
    [(L "app", true); (L "args", true)]
  | H_PAT_NON_CANONICAL =>
    [(L "pat", true); (L "expected", true)]
  | E_ASSIGN_NO_EQUALS | E_FUNC_PARENS | E_FUNC_TAIL | E_VAR_BAD_TOKENS | E_VAR_SUBSTR_ARGS | W_FUNC_DYNAMIC =>
    [(L "data", false)]
  | E_FUNC_BAD_CASE =>
    [(L "func", true); (L "proper", true)]
  | E_FUNC_MISSING =>
    [(L "func", true)]
  | E_VAR_SUBSTR_START =>
    [(L "start", false)]
  | E_VAR_SUBSTR_LENGTH =>
    [(L "length", false)]
  | W_ASSIGN_SPACES =>
    [(L "name", false)]
  | E_FUNC_BAD_ARGS =>
    [(L "func", true); (L "data", false)]
  | E_DP_VAR_INVALID =>
    [(L "variable", true)]
  | E_DP_PRIO_INVALID | E_DP_PRIO_DUPE =>
    [(L "prio", true)]
  | E_DP_LABEL_INVALID | E_DP_LABEL_DUPE =>
    [(L "label", true)]
  | E_DP_PRIO_BAD =>
    [(L "pat", true)]
  | E_DP_GOTO_CONTEXT_NOLABEL | E_DP_GOTO_NOLABEL =>
    [(L "context", false); (L "exten", false); (L "label", false)]
  | E_DP_GOTO_NOCONTEXT | W_DP_GOTO_CONTEXT_NOEXTEN =>
    [(L "context", false); (L "exten", false); (L "prio", false)]
  | W_DP_PRIO_BADORDER =>
    [(L "pat", true); (L "prio", false)]
  | _ => []
  end.

(* classes using DupeDefMixin: config.py:32,41, dialplan.py:56,62 *)
Definition mdupe (c : mcls) : bool :=
  match c with
  | E_CONF_KEY_DUPE | W_CONF_CTX_DUPE | E_DP_PRIO_DUPE | E_DP_GLOBALS_DUPE => true
  | _ => false
  end.

(* Parts of the repr() of an object: fixed text, the repr() of a str, and the
   address in the default repr() of an object, which no input determines. *)
Inductive rp := RLit (s : str) | RStr (s : str) | RAddr.

(* Values passed as format arguments.  [AObj] is an object whose str() has the
   given outcome and whose repr() the given parts (a Var, whose __str__ may
   raise and which has the default repr).  [AList] is a list, whose str() is
   its repr(); [AShown] is a str with those parts as its text (str() of a
   list). *)
Inductive arg := AStr (s : str) | AInt (z : Z) | ANone
               | AObj (pstr : res str) (prepr : list rp) | AList (rs : list rp) | AShown (rs : list rp).

Record msg := Msg { m_cls : mcls; m_where : loc; m_prev : option loc;
                    m_args : list (str * arg) }.

(* Conversion of one placeholder: whether it succeeds.  The text is in
   Report.v. *)
Definition arg_ok (is_repr : bool) (a : arg) : res unit :=
  match a with
  | AObj s _ => if is_repr then Ok tt else let! _ := s in Ok tt
  | _ => Ok tt
  end.

Fixpoint lookup {A} (k : str) (l : list (str * A)) : option A :=
  match l with
  | [] => None
  | (k', v) :: r => if str_eqb k k' then Some v else lookup k r
  end.

(* msg.message.format( **fmtkwargs): defines.py:82 *)
Fixpoint format_ok (fields : list (str * bool)) (args : list (str * arg)) : res unit :=
  match fields with
  | [] => Ok tt
  | (f, is_repr) :: r =>
    match lookup f args with
    | None => Exn KeyError
    | Some a => let! _ := arg_ok is_repr a in format_ok r args
    end
  end.

(* Computations that raise messages: the messages so far and the outcome. *)
Definition W (A : Type) : Type := (list msg * res A)%type.
Definition wret {A} (a : A) : W A := ([], Ok a).
Definition wexn {A} (e : exn) : W A := ([], Exn e).
Definition wlift {A} (r : res A) : W A := ([], r).
Definition wbind {A B} (m : W A) (f : A -> W B) : W B :=
  match m with
  | (l, Ok a) => let y := f a in (l ++ fst y, snd y)
  | (l, Exn e) => (l, Exn e)
  | (l, Hang) => (l, Hang)
  end.
Notation "'do!' x '<-' m ';' b" := (wbind m (fun x => b))
  (at level 200, x pattern, m at level 100, b at level 200).

(* Instantiating a message class: defines.py:79-124 (MessageDef.__init__ and
   MessageDefManager.on_message) and DupeDefMixin, defines.py:139-144.  The
   message is recorded before it is formatted (line 81), the text is formatted
   also when muted.  No callbacks are registered by the modelled commands. *)
Definition emit (c : mcls) (w : loc) (prev : option loc) (args : list (str * arg)) : W unit :=
  match mdupe c, prev with
  | true, None => ([], Exn TypeError)
  | _, _ => ([Msg c w prev args], format_ok (mfields c) args)
  end.

(* A message without arguments; used where the template is constant. *)
Definition msg0 (c : mcls) (w : loc) : msg := Msg c w None [].

Lemma wbind_assoc {A B C} (m : W A) (f : A -> W B) (g : B -> W C) :
  wbind (wbind m f) g = wbind m (fun a => wbind (f a) g).
Proof.
  destruct m as [l [a|e|]]; cbn; [|easy|easy].
  destruct (f a) as [l' [b|e|]]; cbn; try easy. now rewrite app_assoc.
Qed.
