(* The words of messages and what is printed to stderr: defines.py:78-101. *)
From Verif Require Import Base PyStr Defines Var Check.

(* The [message] of each class as written (line numbers of the files named). *)
Definition mtemplate (c : mcls) : str :=
  match c with
  (* file.py *)
  | E_FILE_UTF8_BAD => L "expected UTF-8 encoding, got something else"   (* 22 *)
  | W_FILE_CTRL_CHAR => L "unexpected control character found"   (* 25 *)
  | W_FILE_DOS_EOFCRLF => L "unexpected trailing CRLF in DOS file format"   (* 28 *)
  | W_FILE_DOS_BARELF => L "unexpected bare LF in DOS file format"   (* 31 *)
  | W_FILE_UNIX_CRLF => L "unexpected CRLF in UNIX file format"   (* 34 *)
  | W_FILE_UNIX_NOLF => L "unexpected line without LF in UNIX file format"   (* 37 *)
  | W_WSH_BOL => L "unexpected leading whitespace"   (* 40 *)
  | W_WSH_EOL => L "unexpected trailing whitespace"   (* 43 *)
  | W_WSH_COMMENT => L "missing whitespace around comment semicolon"   (* 46 *)
  | W_WSV_BOF => L "unexpected vertical space at beginning of file"   (* 49 *)
  | W_WSV_EOF => L "unexpected vertical space at end of file"   (* 52 *)
  (* config.py *)
  | E_CONF_BAD_LINE => L "expected variable = value, line starts with {startswith!r}"   (* 27 *)
  | E_CONF_CTX_MISSING => L "expected context before var/object set"   (* 30 *)
  | E_CONF_KEY_DUPE => L "duplicate varset of {key!r}"   (* 33 *)
  | E_CONF_KEY_INVALID => L "expected valid var/object or new context, got {key!r}"   (* 36 *)
  | W_CONF_KEY_LATE => L "expected varset {key!r} earlier, fix your ordering"   (* 39 *)
  | W_CONF_CTX_DUPE => L "duplicate context found, in some cases it is legal"   (* 46 *)
  | W_PP_EXEC => L "using #exec is not recommended; command is {cmd!r}"   (* 49 *)
  | W_PP_INCLUDE_MISSING => L "the #include file {filename!r} could not be found"   (* 52 *)
  | W_PP_QUOTE_BAD => L "bad quoting near preprocessor directive"   (* 55 *)
  | W_WSH_CTRL => L "unexpected non-space/tab whitespace or a mix"   (* 58 *)
  | H_CONF_HAS_ARROW => L "expected an equals sign instead of arrow here"   (* 61 *)
  | H_CONF_NO_ARROW => L "expected an arrow sign instead of equals here"   (* 64 *)
  (* configobj.py *)
  | I_NOTIMPL_TEMPLATES => L "asterisklint does not implement template use yet"   (* 22 *)
  | W_WSH_OBJSET => L "expected "" => "" horizontal whitespace around arrow operator"   (* 25 *)
  | W_WSH_VARSET => L "expected no horizontal whitespace around equals operator"   (* 28 *)
  (* configws.py *)
  | H_WSV_CTX_BETWEEN => L "expected one or two lines between non-tiny contexts"   (* 24 *)
  | H_WSV_VARSET_BETWEEN => L "expected zero or one lines between varsets"   (* 27 *)
  (* func_odbc.py *)
  | E_ODBC_NOSQL => L "a readsql and/or writesql (and insertsql) statement is required"   (* 33 *)
  | W_ODBC_BADTOKENS => L "odbc function {name!r} should be uppercase with A-Z0-9_ only"   (* 37 *)
  | W_ODBC_LEGACY => L "read and write are legacy, use readsql and writesql (and insertsql) instead"   (* 41 *)
  | W_ODBC_TAILSEMI => L "tailing semicolon is unnecessary"   (* 45 *)
  (* app/__init__.py *)
  | E_APP_ARG_FEW => L "too few arguments for app {app!r}, minimum is {min_args}"   (* 21 *)
  | E_APP_ARG_MANY => L "too many arguments for app {app!r}, maximum is {max_args}"   (* 24 *)
  | E_APP_ARG_BADOPT => L "unrecognised options {opts!r} in arg {argno} for app {app!r}"   (* 27 *)
  | E_APP_ARG_DUPEOPT => L "duplicate options {opts!r} in arg {argno} for app {app!r}"   (* 31 *)
  | E_APP_ARG_IFCONST => L "apparent constant in If-condition; app {app!r}, data '{data}' and cond '{cond}'"   (* 34 *)
  | E_APP_ARG_IFEMPTY => L "empty If-condition; app {app!r}, data '{data}'"   (* 38 *)
  | E_APP_ARG_IFSTYLE => L "{app!r} takes the form <cond>?<iftrue>[:<iffalse>] but data is '{data}', cond '{cond}', args '''{args}'''"   (* 41 *)
  | E_APP_ARG_PIPEDELIM => L "the application delimiter is now the comma, not the pipe; see app {app!r} and data {data!r}"   (* 45 *)
  | E_APP_ARG_SYNTAX => L "generic application syntax error; app {app!r} and data {data!r}"   (* 49 *)
  | E_APP_MISSING => L "app {app!r} does not exist, dialplan will halt here!"   (* 53 *)
  | W_APP_BAD_CASE => L "app {app!r} does not have the proper Case {proper!r}"   (* 56 *)
  | W_APP_BALANCE => L "app data {data!r} looks like unbalanced parentheses/quotes/curlies"   (* 59 *)
  (* application.py *)
  | E_APP_WSH => L "whitespace before app {app!r} will result in unknown app"   (* 27 *)
  | E_APP_PARSE_ERROR => L "app {app!r} arguments {args!r} raise a parse error"   (* 30 *)
  | W_APP_NEED_PARENS => L "app {app!r} should have parentheses (only NoOp is exempt)"   (* 33 *)
  | W_APP_WSH => L "unexpected whitespace after app {app!r}"   (* 36 *)
  (* pattern.py *)
  | H_PAT_NON_CANONICAL => L "pattern {pat!r} is not in the canonical form {expected!r}"   (* 24 *)
  (* varfun.py *)
  | E_ASSIGN_EMPTY => L "Set/SET requires one variable name/value pair"   (* 30 *)
  | E_ASSIGN_NO_EQUALS => L "Set/SET requires an '=' to be a valid assignment, not just '{data}'"   (* 33 *)
  | E_FUNC_BAD_CASE => L "function {func!r} does not have the proper Case {proper!r}"   (* 38 *)
  | E_FUNC_MISSING => L "function {func!r} does not exist (or func_odbc created?)"   (* 43 *)
  | E_FUNC_PARENS => L "missing trailing parenthesis for function call '{data}'"   (* 46 *)
  | E_FUNC_TAIL => L "excess tokens at the end of the function call '{data}'"   (* 49 *)
  | E_VAR_BAD_TOKENS => L "bad tokens in variable name '{data}'"   (* 52 *)
  | E_VAR_SUBSTR_ARGS => L "bad substring syntax of variable '{data}'"   (* 55 *)
  | E_VAR_SUBSTR_START => L "bad substring start value '{start}'"   (* 58 *)
  | E_VAR_SUBSTR_LENGTH => L "bad substring length value '{length}'"   (* 61 *)
  | W_ASSIGN_SPACES => L "space in variable name '{name}' found; produces unexpected results"   (* 64 *)
  | W_FUNC_DYNAMIC => L "calling functions dynamically is not good practise '{data}'"   (* 69 *)
  (* func/__init__.py *)
  | E_FUNC_BAD_ARGS => L "function {func!r} does not take these arguments '{data}'"   (* 21 *)
  | W_FUNC_BALANCE => L "function data {data!r} looks like unbalanced parentheses/quotes/curlies"   (* 24 *)
  (* dialplan.py *)
  | I_NOTIMPL_HINT => L "the dialplan hint directive has not been implemented yet"   (* 28 *)
  | I_NOTIMPL_IGNOREPAT => L "the dialplan ignorepat directive has not been implemented yet"   (* 31 *)
  | I_NOTIMPL_SWITCH => L "the dialplan switch directive has not been implemented yet"   (* 35 *)
  | E_DP_VAR_INVALID => L "unexpected variable name {variable!r} (not exten/same/include)"   (* 38 *)
  | E_DP_INCLUDE_POSITION => L "an include should always be at the tail of the context"   (* 42 *)
  | E_DP_PAT_INVALID => L "badly formatted pattern"   (* 45 *)
  | E_DP_PAT_MISSING => L "missing pattern"   (* 48 *)
  | E_DP_PRIO_INVALID => L "invalid priority {prio!r}"   (* 51 *)
  | E_DP_PRIO_MISSING => L "missing priority"   (* 54 *)
  | E_DP_PRIO_DUPE => L "duplicate priority {prio!r}"   (* 57 *)
  | E_DP_LABEL_INVALID => L "unexpected label value {label!r}"   (* 60 *)
  | E_DP_GLOBALS_DUPE => L "second globals context, will not be used"   (* 63 *)
  | E_DP_LABEL_DUPE => L "duplicate label {label!r}, one of them will not be used"   (* 66 *)
  | E_DP_PRIO_BAD => L "cannot match priority for pattern {pat!r}"   (* 69 *)
  | E_DP_GOTO_CONTEXT_NOLABEL => L "label not found in context for goto to {context}, {exten}, {label}"   (* 72 *)
  | E_DP_GOTO_NOCONTEXT => L "context not found for goto to {context}, {exten}, {prio}"   (* 76 *)
  | E_DP_GOTO_NOLABEL => L "label not found anywhere for goto to {context}, {exten}, {label}"   (* 79 *)
  | W_DP_GOTO_CONTEXT_NOEXTEN => L "possibly non-existent extension/pattern for goto to {context}, {exten}, {prio}"   (* 83 *)
  | W_DP_PRIO_BADORDER => L "bad priority order for pattern {pat!r} and prio {prio}"   (* 87 *)
  | H_DP_GENERAL_MISPLACED => L "[general] context not found or not at top of file"   (* 90 *)
  | H_DP_GLOBALS_MISPLACED => L "[globals] context not found or not at position two"   (* 93 *)
  end.

(* ---- repr() of a str ---- *)
Definition hexd (n : N) : N := if n <? 10 then 48 + n else 87 + n.
(* [k] digits *)
Fixpoint hexs (k : nat) (n : N) : str :=
  match k with
  | O => []
  | S j => hexs j (n / 16) ++ [hexd (n mod 16)]
  end.
(* as many digits as needed *)
Fixpoint hex_fuel (fuel : nat) (n : N) (acc : str) : str :=
  match fuel with
  | O => acc
  | S k => let acc' := hexd (n mod 16) :: acc in
           if n / 16 =? 0 then acc' else hex_fuel k (n / 16) acc'
  end.
Definition hexstr (n : N) : str := hex_fuel (S (N.to_nat (N.log2 n))) n [].

Section Words.
Variable printable : N -> bool.     (* str.isprintable, beyond ASCII *)
Variable addr : nat -> N.           (* id() of the objects in the order in which they are printed *)

(* Python's unicode_repr (Objects/unicodeobject.c). *)
Definition esc (quote c : N) : str :=
  if (c =? quote) || (c =? 92) then [92; c]
  else if c =? 9 then L "\t" else if c =? 10 then L "\n" else if c =? 13 then L "\r"
  else if (c <? 32) || (c =? 127) then L "\x" ++ hexs 2 c
  else if c <? 127 then [c]
  else if printable c then [c]
  else if c <? 256 then L "\x" ++ hexs 2 c
  else if c <? 65536 then L "\u" ++ hexs 4 c
  else L "\U" ++ hexs 8 c.
Definition quote_of (s : str) : N :=
  if existsb (N.eqb 39) s && negb (existsb (N.eqb 34) s) then 34 else 39.
Definition pyrepr (s : str) : str :=
  let q := quote_of s in [q] ++ flat_map (esc q) s ++ [q].

(* ---- the fields of a template ---- *)

(* str.format on templates as above: no doubled braces, no format
   specifications; of the conversions there is only !r. *)
Inductive piece := Txt (s : str) | Fld (name : str) (is_repr : bool).
Definition field_of (f : str) : piece :=
  if endswith (L "!r") f then Fld (firstn (length f - 2) f) true else Fld f false.
(* [lit]: the text so far reversed; [fld]: the field so far, if in one *)
Fixpoint pieces_from (lit : str) (fld : option str) (s : str) : list piece :=
  match s, fld with
  | [], None => match lit with [] => [] | _ => [Txt (rev lit)] end
  | [], Some _ => []
  | c :: r, None => if c =? 123 then match lit with [] => [] | _ => [Txt (rev lit)] end ++ pieces_from [] (Some []) r
                    else pieces_from (c :: lit) None r
  | c :: r, Some f => if c =? 125 then field_of (rev f) :: pieces_from [] None r
                      else pieces_from [] (Some (c :: f)) r
  end.
Definition pieces (s : str) : list piece := pieces_from [] None s.

(* [k]: how many objects have been printed by address before *)
Fixpoint parts_text (k : nat) (l : list rp) : str * nat :=
  match l with
  | [] => ([], k)
  | RLit s :: r => let y := parts_text k r in (s ++ fst y, snd y)
  | RStr s :: r => let y := parts_text k r in (pyrepr s ++ fst y, snd y)
  | RAddr :: r => let y := parts_text (S k) r in (hexstr (addr k) ++ fst y, snd y)
  end.
Definition arg_text (k : nat) (is_repr : bool) (a : arg) : res (str * nat) :=
  match a with
  | AStr s => Ok (if is_repr then pyrepr s else s, k)
  | AInt z => Ok (zstr z, k)
  | ANone => Ok (L "None", k)
  | AObj s r => if is_repr then Ok (parts_text k r) else let! x := s in Ok (x, k)
  | AList rs => Ok (parts_text k rs)
  | AShown rs => let y := parts_text k rs in Ok (if is_repr then pyrepr (fst y) else fst y, snd y)
  end.
Fixpoint format (k : nat) (ps : list piece) (args : list (str * arg)) : res (str * nat) :=
  match ps with
  | [] => Ok ([], k)
  | Txt s :: r => let! y := format k r args in Ok (s ++ fst y, snd y)
  | Fld f b :: r =>
    match lookup f args with
    | None => Exn KeyError
    | Some a => let! x := arg_text k b a in
                let! y := format (snd x) r args in Ok (fst x ++ fst y, snd y)
    end
  end.
Definition words (k : nat) (m : msg) : res (str * nat) := format k (pieces (mtemplate (m_cls m))) (m_args m).

(* Where.__str__: where.py:24-25 *)
Definition where_text (w : loc) : str := w_file w ++ L ":" ++ zstr (Z.of_N (w_line w)).

(* on_message without callbacks, show_line and show_previous, which no command
   sets: defines.py:78-101.  A message that is muted is formatted too.  The
   second result is the exception raised, if any. *)
Fixpoint report (env : option str) (k : nat) (ms : list msg) : str * res nat :=
  match ms with
  | [] => ([], Ok k)
  | m :: r =>
    match words k m with
    | Ok (t, k') =>
      let y := report env k' r in
      ((if muted env (m_cls m) then [] else where_text (m_where m) ++ L " " ++ mname (m_cls m) ++ L ": " ++ t ++ [10]) ++ fst y, snd y)
    | Exn e => ([], Exn e)
    | Hang => ([], Hang)
    end
  end.
End Words.
