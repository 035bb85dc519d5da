(* Proof that the words of the messages are those of the sources (C61). *)
From Verif Require Import Base PyStr Defines Report Spec_Templates.
From Verif Require Ident_proofs.

Fixpoint distinct (l : list str) : bool := match l with [] => true | x :: r => negb (smem x r) && distinct r end.
Lemma distinct_ok l : distinct l = true -> NoDup l.
Proof.
  induction l as [|x l IH]; cbn [distinct]; [constructor|]. rewrite andb_true_iff, negb_true_iff. intros [H1 H2]. constructor; [|now apply IH].
  intros X. apply smem_In in X. congruence.
Qed.
Definition classes : list mcls :=
  [E_FILE_UTF8_BAD; W_FILE_CTRL_CHAR; W_FILE_DOS_EOFCRLF; W_FILE_DOS_BARELF; W_FILE_UNIX_CRLF; W_FILE_UNIX_NOLF;
   W_WSH_BOL; W_WSH_EOL; W_WSH_COMMENT; W_WSV_BOF; W_WSV_EOF; E_CONF_BAD_LINE; E_CONF_CTX_MISSING; E_CONF_KEY_DUPE;
   E_CONF_KEY_INVALID; W_CONF_KEY_LATE; W_CONF_CTX_DUPE; W_PP_EXEC; W_PP_INCLUDE_MISSING; W_PP_QUOTE_BAD; W_WSH_CTRL;
   H_CONF_HAS_ARROW; H_CONF_NO_ARROW; I_NOTIMPL_TEMPLATES; W_WSH_OBJSET; W_WSH_VARSET; H_WSV_CTX_BETWEEN;
   H_WSV_VARSET_BETWEEN; E_ODBC_NOSQL; W_ODBC_BADTOKENS; W_ODBC_LEGACY; W_ODBC_TAILSEMI; E_APP_ARG_FEW; E_APP_ARG_MANY;
   E_APP_ARG_BADOPT; E_APP_ARG_DUPEOPT; E_APP_ARG_IFCONST; E_APP_ARG_IFEMPTY; E_APP_ARG_IFSTYLE; E_APP_ARG_PIPEDELIM;
   E_APP_ARG_SYNTAX; E_APP_MISSING; W_APP_BAD_CASE; W_APP_BALANCE; E_APP_WSH; E_APP_PARSE_ERROR; W_APP_NEED_PARENS;
   W_APP_WSH; H_PAT_NON_CANONICAL; E_ASSIGN_EMPTY; E_ASSIGN_NO_EQUALS; E_FUNC_BAD_CASE; E_FUNC_MISSING; E_FUNC_PARENS;
   E_FUNC_TAIL; E_VAR_BAD_TOKENS; E_VAR_SUBSTR_ARGS; E_VAR_SUBSTR_START; E_VAR_SUBSTR_LENGTH; W_ASSIGN_SPACES;
   W_FUNC_DYNAMIC; E_FUNC_BAD_ARGS; W_FUNC_BALANCE; I_NOTIMPL_HINT; I_NOTIMPL_IGNOREPAT; I_NOTIMPL_SWITCH;
   E_DP_VAR_INVALID; E_DP_INCLUDE_POSITION; E_DP_PAT_INVALID; E_DP_PAT_MISSING; E_DP_PRIO_INVALID; E_DP_PRIO_MISSING;
   E_DP_PRIO_DUPE; E_DP_LABEL_INVALID; E_DP_GLOBALS_DUPE; E_DP_LABEL_DUPE; E_DP_PRIO_BAD; E_DP_GOTO_CONTEXT_NOLABEL;
   E_DP_GOTO_NOCONTEXT; E_DP_GOTO_NOLABEL; W_DP_GOTO_CONTEXT_NOEXTEN; W_DP_PRIO_BADORDER; H_DP_GENERAL_MISPLACED;
   H_DP_GLOBALS_MISPLACED].
Theorem written_iff : (forall c w, In (mname c, w) written <-> w = mtemplate c) /\ (forall n w, In (n, w) written -> exists c, n = mname c).
Proof.
  assert (N : NoDup (map fst written)).
  { apply distinct_ok. vm_compute. reflexivity. }
  assert (I : forall c, In (mname c, mtemplate c) written).
  { assert (B : forall c, existsb (fun p => str_eqb (mname c) (fst p) && str_eqb (mtemplate c) (snd p)) written = true) by (intros c; destruct c; vm_compute; reflexivity).
    intros c. specialize (B c). apply existsb_exists in B as ([n w] & H & E). apply andb_true_iff in E as [E1 E2]. cbn [fst snd] in E1, E2.
    destruct (str_eqb_spec (mname c) n) as [->|]; [|discriminate]. now destruct (str_eqb_spec (mtemplate c) w) as [->|]. }
  split.
  - intros c w. split; [|intros ->; apply I]. intros H. exact (Ident_proofs.nodup_fst written _ _ _ N H (I c)).
  - intros n w H. revert n w H.
    assert (B : forallb (fun p => existsb (fun c => str_eqb (fst p) (mname c)) classes) written = true) by (vm_compute; reflexivity).
    intros n w H. rewrite forallb_forall in B. specialize (B _ H). apply existsb_exists in B as (c & _ & E). exists c. cbn [fst] in E.
    now destruct (str_eqb_spec n (mname c)).
Qed.
