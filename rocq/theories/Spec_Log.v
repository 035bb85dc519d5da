(* Independent specification of messages over whole runs (C22, C42-C44, C48). *)
From Verif Require Import Base PyStr Defines.

(* Every place that raises a message, with the names of the arguments given
   there (without where= and previous=).  One entry per class and set of names;
   file and lines in /repo/asterisklint. *)
Definition raise_sites : list (mcls * list str) :=
  [ (* file.py:98,120,133,135,166,169,215,257,269 *)
    (E_FILE_UTF8_BAD, []); (W_FILE_CTRL_CHAR, []); (W_FILE_DOS_EOFCRLF, []); (W_FILE_UNIX_NOLF, []);
    (W_FILE_DOS_BARELF, []); (W_FILE_UNIX_CRLF, []); (W_WSH_COMMENT, []); (W_WSH_EOL, []);
    (* config.py:128,134,146,154,159,168,172,180,219 *)
    (E_CONF_BAD_LINE, [L "startswith"]); (W_WSH_BOL, []); (W_WSH_CTRL, []); (W_PP_QUOTE_BAD, []);
    (W_PP_EXEC, [L "cmd"]); (W_PP_INCLUDE_MISSING, [L "filename"]); (E_CONF_CTX_MISSING, []);
    (* configobj.py:51,60,93,97,104 *)
    (I_NOTIMPL_TEMPLATES, []); (W_WSH_OBJSET, []); (W_WSH_VARSET, []);
    (* configws.py:85,96,104,123,136 with the classes of lines 63 and 70 *)
    (H_WSV_CTX_BETWEEN, []); (H_WSV_VARSET_BETWEEN, []); (W_WSV_BOF, []); (W_WSV_EOF, []);
    (* func_odbc.py:179,181,198,208,213,233,264,276 *)
    (W_ODBC_LEGACY, []); (W_ODBC_TAILSEMI, []); (E_CONF_KEY_INVALID, [L "key"]); (E_CONF_KEY_DUPE, [L "key"]);
    (W_CONF_KEY_LATE, [L "key"]); (E_ODBC_NOSQL, []); (W_ODBC_BADTOKENS, [L "name"]); (H_CONF_HAS_ARROW, []);
    (* varfun.py:151,161,171,211,213,233,239,245,376,394,406,420,422,428 *)
    (E_FUNC_PARENS, [L "data"]); (E_FUNC_TAIL, [L "data"]); (W_FUNC_DYNAMIC, [L "func"]);
    (E_FUNC_MISSING, [L "func"]); (E_FUNC_BAD_CASE, [L "func"; L "proper"]); (E_ASSIGN_EMPTY, []);
    (E_ASSIGN_NO_EQUALS, [L "data"]); (W_ASSIGN_SPACES, [L "name"]); (E_VAR_BAD_TOKENS, [L "data"]);
    (E_VAR_SUBSTR_ARGS, [L "data"]); (E_VAR_SUBSTR_START, [L "start"]); (E_VAR_SUBSTR_LENGTH, [L "length"]);
    (* func/base.py:33, func/vall/func_audiohookinherit.py:25 *)
    (W_FUNC_BALANCE, [L "data"]); (E_FUNC_BAD_ARGS, [L "func"; L "data"]);
    (* app/base.py:50,53,74,80,82,189,192,229,255,279,282,290,314,
       app/vall/app_stack.py:33,61, app_originate.py:22, builtin.py:53 *)
    (E_APP_ARG_BADOPT, [L "argno"; L "app"; L "opts"]); (E_APP_ARG_DUPEOPT, [L "argno"; L "app"; L "opts"]);
    (W_APP_BALANCE, [L "data"]); (E_APP_MISSING, [L "app"]); (W_APP_BAD_CASE, [L "app"; L "proper"]);
    (E_APP_ARG_FEW, [L "app"; L "min_args"]); (E_APP_ARG_MANY, [L "app"; L "max_args"]);
    (E_APP_ARG_PIPEDELIM, [L "app"; L "data"]); (E_APP_ARG_MANY, [L "app"; L "data"; L "max_args"]);
    (E_APP_ARG_IFSTYLE, [L "app"; L "data"; L "cond"; L "args"]); (E_APP_ARG_FEW, [L "app"; L "data"; L "min_args"]);
    (E_APP_ARG_IFEMPTY, [L "app"; L "data"]); (E_APP_ARG_IFCONST, [L "app"; L "data"; L "cond"]);
    (* application.py:151,164,181,184 *)
    (E_APP_PARSE_ERROR, [L "app"; L "args"]); (W_APP_NEED_PARENS, [L "app"]); (E_APP_WSH, [L "app"]); (W_APP_WSH, [L "app"]);
    (* dialplan.py:120,126,131,135,161,168,177,187,352,360,365,370,386,394,420,431,
       493,496,501,519,523,624,636 *)
    (W_CONF_CTX_DUPE, []); (H_DP_GENERAL_MISPLACED, []); (E_DP_GLOBALS_DUPE, []); (H_DP_GLOBALS_MISPLACED, []);
    (E_DP_GOTO_NOLABEL, [L "context"; L "exten"; L "label"]); (E_DP_GOTO_NOCONTEXT, [L "context"; L "exten"; L "prio"]);
    (E_DP_GOTO_CONTEXT_NOLABEL, [L "context"; L "exten"; L "label"]);
    (W_DP_GOTO_CONTEXT_NOEXTEN, [L "context"; L "exten"; L "prio"]);
    (E_DP_PAT_MISSING, []); (E_DP_PRIO_MISSING, [L "pat"]); (W_DP_PRIO_BADORDER, [L "pat"; L "prio"]);
    (E_DP_PRIO_INVALID, [L "prio"]); (E_DP_PRIO_DUPE, [L "prio"]); (E_DP_LABEL_DUPE, [L "label"]);
    (I_NOTIMPL_HINT, []); (E_DP_LABEL_INVALID, []); (I_NOTIMPL_SWITCH, []); (I_NOTIMPL_IGNOREPAT, []);
    (H_PAT_NON_CANONICAL, [L "pat"; L "expected"]); (H_CONF_NO_ARROW, []) ].

(* The two sites that lack an argument. *)
Definition bad_site (c : mcls) : Prop := c = E_DP_LABEL_INVALID \/ c = W_FUNC_DYNAMIC.

(* A line of a file: line number [w_line], from 1, has the text [w_text],
   including its line feed. *)
Definition RealLine (fs : str -> res bytes) (w : loc) : Prop :=
  exists pre post,
    fs (w_file w) = Ok (pre ++ w_text w ++ post) /\
    w_line w = N.of_nat (count_occ N.eq_dec pre 10) + 1 /\
    (pre = [] \/ exists p, pre = p ++ [10]) /\
    w_text w <> [] /\
    ((exists t, w_text w = t ++ [10] /\ ~ In 10 t) \/ (~ In 10 (w_text w) /\ post = [])).
(* The place of a message about the whole file. *)
Definition FileHead (fs : str -> res bytes) (w : loc) : Prop :=
  w_line w = 0 /\ w_text w = [] /\ exists b, fs (w_file w) = Ok b.

(* C44: every placeholder of the message is supplied. *)
Definition Supplied (m : msg) : Prop :=
  forall f, In f (map fst (mfields (m_cls m))) -> In f (map fst (m_args m)).

(* C48: where a message may point to. *)
Definition Placed (fs : str -> res bytes) (m : msg) : Prop :=
  (RealLine fs (m_where m) \/
   FileHead fs (m_where m) /\ (m_cls m = H_DP_GENERAL_MISPLACED \/ m_cls m = H_DP_GLOBALS_MISPLACED)) /\
  forall q, m_prev m = Some q -> RealLine fs q.

(* C22: a comma separated item of [s]. *)
Definition Field (s item : str) : Prop :=
  exists a b, s = a ++ item ++ b /\ ~ In 44 item /\
    (a = [] \/ exists a', a = a' ++ [44]) /\ (b = [] \/ exists b', b = 44 :: b').
Definition Silenced (env : option str) (c : mcls) : Prop :=
  exists s item, env = Some s /\ Field s item /\ item <> [] /\
    (mname c = item \/ exists p t, item = p ++ [95] /\ mname c = item ++ t).
