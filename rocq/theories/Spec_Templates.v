(* The words of the messages, taken from the sources: class, message, file and
   line of the message. *)
From Verif Require Import Base.

Definition written : list (str * str) :=
  [(L "E_APP_ARG_FEW", L "too few arguments for app {app!r}, minimum is {min_args}")   (* app/__init__.py:21 *);
   (L "E_APP_ARG_MANY", L "too many arguments for app {app!r}, maximum is {max_args}")   (* app/__init__.py:24 *);
   (L "E_APP_ARG_BADOPT", L "unrecognised options {opts!r} in arg {argno} for app {app!r}")   (* app/__init__.py:27 *);
   (L "E_APP_ARG_DUPEOPT", L "duplicate options {opts!r} in arg {argno} for app {app!r}")   (* app/__init__.py:31 *);
   (L "E_APP_ARG_IFCONST", L "apparent constant in If-condition; app {app!r}, data '{data}' and cond '{cond}'")   (* app/__init__.py:34 *);
   (L "E_APP_ARG_IFEMPTY", L "empty If-condition; app {app!r}, data '{data}'")   (* app/__init__.py:38 *);
   (L "E_APP_ARG_IFSTYLE", L "{app!r} takes the form <cond>?<iftrue>[:<iffalse>] but data is '{data}', cond '{cond}', args '''{args}'''")   (* app/__init__.py:41 *);
   (L "E_APP_ARG_PIPEDELIM", L "the application delimiter is now the comma, not the pipe; see app {app!r} and data {data!r}")   (* app/__init__.py:45 *);
   (L "E_APP_ARG_SYNTAX", L "generic application syntax error; app {app!r} and data {data!r}")   (* app/__init__.py:49 *);
   (L "E_APP_MISSING", L "app {app!r} does not exist, dialplan will halt here!")   (* app/__init__.py:53 *);
   (L "W_APP_BAD_CASE", L "app {app!r} does not have the proper Case {proper!r}")   (* app/__init__.py:56 *);
   (L "W_APP_BALANCE", L "app data {data!r} looks like unbalanced parentheses/quotes/curlies")   (* app/__init__.py:59 *);
   (L "E_APP_WSH", L "whitespace before app {app!r} will result in unknown app")   (* application.py:27 *);
   (L "E_APP_PARSE_ERROR", L "app {app!r} arguments {args!r} raise a parse error")   (* application.py:30 *);
   (L "W_APP_NEED_PARENS", L "app {app!r} should have parentheses (only NoOp is exempt)")   (* application.py:33 *);
   (L "W_APP_WSH", L "unexpected whitespace after app {app!r}")   (* application.py:36 *);
   (L "E_CONF_BAD_LINE", L "expected variable = value, line starts with {startswith!r}")   (* config.py:27 *);
   (L "E_CONF_CTX_MISSING", L "expected context before var/object set")   (* config.py:30 *);
   (L "E_CONF_KEY_DUPE", L "duplicate varset of {key!r}")   (* config.py:33 *);
   (L "E_CONF_KEY_INVALID", L "expected valid var/object or new context, got {key!r}")   (* config.py:36 *);
   (L "W_CONF_KEY_LATE", L "expected varset {key!r} earlier, fix your ordering")   (* config.py:39 *);
   (L "W_CONF_CTX_DUPE", L "duplicate context found, in some cases it is legal")   (* config.py:46 *);
   (L "W_PP_EXEC", L "using #exec is not recommended; command is {cmd!r}")   (* config.py:49 *);
   (L "W_PP_INCLUDE_MISSING", L "the #include file {filename!r} could not be found")   (* config.py:52 *);
   (L "W_PP_QUOTE_BAD", L "bad quoting near preprocessor directive")   (* config.py:55 *);
   (L "W_WSH_CTRL", L "unexpected non-space/tab whitespace or a mix")   (* config.py:58 *);
   (L "H_CONF_HAS_ARROW", L "expected an equals sign instead of arrow here")   (* config.py:61 *);
   (L "H_CONF_NO_ARROW", L "expected an arrow sign instead of equals here")   (* config.py:64 *);
   (L "I_NOTIMPL_TEMPLATES", L "asterisklint does not implement template use yet")   (* configobj.py:22 *);
   (L "W_WSH_OBJSET", L "expected "" => "" horizontal whitespace around arrow operator")   (* configobj.py:25 *);
   (L "W_WSH_VARSET", L "expected no horizontal whitespace around equals operator")   (* configobj.py:28 *);
   (L "H_WSV_CTX_BETWEEN", L "expected one or two lines between non-tiny contexts")   (* configws.py:24 *);
   (L "H_WSV_VARSET_BETWEEN", L "expected zero or one lines between varsets")   (* configws.py:27 *);
   (L "I_NOTIMPL_HINT", L "the dialplan hint directive has not been implemented yet")   (* dialplan.py:28 *);
   (L "I_NOTIMPL_IGNOREPAT", L "the dialplan ignorepat directive has not been implemented yet")   (* dialplan.py:31 *);
   (L "I_NOTIMPL_SWITCH", L "the dialplan switch directive has not been implemented yet")   (* dialplan.py:35 *);
   (L "E_DP_VAR_INVALID", L "unexpected variable name {variable!r} (not exten/same/include)")   (* dialplan.py:38 *);
   (L "E_DP_INCLUDE_POSITION", L "an include should always be at the tail of the context")   (* dialplan.py:42 *);
   (L "E_DP_PAT_INVALID", L "badly formatted pattern")   (* dialplan.py:45 *);
   (L "E_DP_PAT_MISSING", L "missing pattern")   (* dialplan.py:48 *);
   (L "E_DP_PRIO_INVALID", L "invalid priority {prio!r}")   (* dialplan.py:51 *);
   (L "E_DP_PRIO_MISSING", L "missing priority")   (* dialplan.py:54 *);
   (L "E_DP_PRIO_DUPE", L "duplicate priority {prio!r}")   (* dialplan.py:57 *);
   (L "E_DP_LABEL_INVALID", L "unexpected label value {label!r}")   (* dialplan.py:60 *);
   (L "E_DP_GLOBALS_DUPE", L "second globals context, will not be used")   (* dialplan.py:63 *);
   (L "E_DP_LABEL_DUPE", L "duplicate label {label!r}, one of them will not be used")   (* dialplan.py:66 *);
   (L "E_DP_PRIO_BAD", L "cannot match priority for pattern {pat!r}")   (* dialplan.py:69 *);
   (L "E_DP_GOTO_CONTEXT_NOLABEL", L "label not found in context for goto to {context}, {exten}, {label}")   (* dialplan.py:72 *);
   (L "E_DP_GOTO_NOCONTEXT", L "context not found for goto to {context}, {exten}, {prio}")   (* dialplan.py:76 *);
   (L "E_DP_GOTO_NOLABEL", L "label not found anywhere for goto to {context}, {exten}, {label}")   (* dialplan.py:79 *);
   (L "W_DP_GOTO_CONTEXT_NOEXTEN", L "possibly non-existent extension/pattern for goto to {context}, {exten}, {prio}")   (* dialplan.py:83 *);
   (L "W_DP_PRIO_BADORDER", L "bad priority order for pattern {pat!r} and prio {prio}")   (* dialplan.py:87 *);
   (L "H_DP_GENERAL_MISPLACED", L "[general] context not found or not at top of file")   (* dialplan.py:90 *);
   (L "H_DP_GLOBALS_MISPLACED", L "[globals] context not found or not at position two")   (* dialplan.py:93 *);
   (L "E_FILE_UTF8_BAD", L "expected UTF-8 encoding, got something else")   (* file.py:22 *);
   (L "W_FILE_CTRL_CHAR", L "unexpected control character found")   (* file.py:25 *);
   (L "W_FILE_DOS_EOFCRLF", L "unexpected trailing CRLF in DOS file format")   (* file.py:28 *);
   (L "W_FILE_DOS_BARELF", L "unexpected bare LF in DOS file format")   (* file.py:31 *);
   (L "W_FILE_UNIX_CRLF", L "unexpected CRLF in UNIX file format")   (* file.py:34 *);
   (L "W_FILE_UNIX_NOLF", L "unexpected line without LF in UNIX file format")   (* file.py:37 *);
   (L "W_WSH_BOL", L "unexpected leading whitespace")   (* file.py:40 *);
   (L "W_WSH_EOL", L "unexpected trailing whitespace")   (* file.py:43 *);
   (L "W_WSH_COMMENT", L "missing whitespace around comment semicolon")   (* file.py:46 *);
   (L "W_WSV_BOF", L "unexpected vertical space at beginning of file")   (* file.py:49 *);
   (L "W_WSV_EOF", L "unexpected vertical space at end of file")   (* file.py:52 *);
   (L "E_FUNC_BAD_ARGS", L "function {func!r} does not take these arguments '{data}'")   (* func/__init__.py:21 *);
   (L "W_FUNC_BALANCE", L "function data {data!r} looks like unbalanced parentheses/quotes/curlies")   (* func/__init__.py:24 *);
   (L "E_ODBC_NOSQL", L "a readsql and/or writesql (and insertsql) statement is required")   (* func_odbc.py:33 *);
   (L "W_ODBC_BADTOKENS", L "odbc function {name!r} should be uppercase with A-Z0-9_ only")   (* func_odbc.py:37 *);
   (L "W_ODBC_LEGACY", L "read and write are legacy, use readsql and writesql (and insertsql) instead")   (* func_odbc.py:41 *);
   (L "W_ODBC_TAILSEMI", L "tailing semicolon is unnecessary")   (* func_odbc.py:45 *);
   (L "H_PAT_NON_CANONICAL", L "pattern {pat!r} is not in the canonical form {expected!r}")   (* pattern.py:24 *);
   (L "E_ASSIGN_EMPTY", L "Set/SET requires one variable name/value pair")   (* varfun.py:30 *);
   (L "E_ASSIGN_NO_EQUALS", L "Set/SET requires an '=' to be a valid assignment, not just '{data}'")   (* varfun.py:33 *);
   (L "E_FUNC_BAD_CASE", L "function {func!r} does not have the proper Case {proper!r}")   (* varfun.py:38 *);
   (L "E_FUNC_MISSING", L "function {func!r} does not exist (or func_odbc created?)")   (* varfun.py:43 *);
   (L "E_FUNC_PARENS", L "missing trailing parenthesis for function call '{data}'")   (* varfun.py:46 *);
   (L "E_FUNC_TAIL", L "excess tokens at the end of the function call '{data}'")   (* varfun.py:49 *);
   (L "E_VAR_BAD_TOKENS", L "bad tokens in variable name '{data}'")   (* varfun.py:52 *);
   (L "E_VAR_SUBSTR_ARGS", L "bad substring syntax of variable '{data}'")   (* varfun.py:55 *);
   (L "E_VAR_SUBSTR_START", L "bad substring start value '{start}'")   (* varfun.py:58 *);
   (L "E_VAR_SUBSTR_LENGTH", L "bad substring length value '{length}'")   (* varfun.py:61 *);
   (L "W_ASSIGN_SPACES", L "space in variable name '{name}' found; produces unexpected results")   (* varfun.py:64 *);
   (L "W_FUNC_DYNAMIC", L "calling functions dynamically is not good practise '{data}'")   (* varfun.py:69 *)].
