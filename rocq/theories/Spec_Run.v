(* Declarative side of C59: everything said in a run of dialplan-check. *)
From Verif Require Import Base PyStr Defines FileRd Config VSpace Pattern Var VarFun AppM Dialplan Spec_Dialplan Spec_Search
  Spec_App Spec_Line FuncOdbc Spec_FuncOdbc Check Spec_Check Spec_Log.

Section Tables.
Variable U : uni.
Variable FT : ftable.
Variable AT : atable.

(* ---- lines of a context: what is said about them, and what they give ---- *)
Inductive LineGives (v : varset) : list lev -> option dvar -> Prop :=
| Lg_nothing l : NoLine U v l -> LineGives v l None
| Lg_include l : v_variable v = L "include" -> arrow_msgs v l -> LineGives v l (Some (DInc (v_value v) (v_where v)))
| Lg_line pat prio label text p ds l1 l2 : LineText U v pat prio label text -> arrow_msgs v l1 -> pat_of pat p ->
    LineSays U FT AT (v_where v) text l2 ds -> LineGives v (l1 ++ l2) (Some (DExt (XLine p prio label text ds (v_where v)))).

(* ---- one element; [h] is the history of the elements before it ---- *)
Definition hints (x : xline) (l : list lev) : Prop :=
  match i_pat x with
  | Some p => is_canonical p = true /\ l = [] \/
      is_canonical p = false /\ l = [LMsg (pmsg H_PAT_NON_CANONICAL x None
        [(L "pat", AStr (praw p)); (L "expected", AStr (canonical (pv p)))])]
  | None => l = []
  end.
Inductive ElemSays (h : list hev) : elem -> list hev -> list lev -> Prop :=
| Es_header e h' l : (forall v, e <> EVar v) -> ElemRule U FT AT h e h' l -> ElemSays h e h' l
| Es_outside v : (forall e, In e h -> ~ Header e) ->
    ElemSays h (EVar v) [] [LMsg (Msg E_CONF_CTX_MISSING (v_where v) None [])]
| Es_plain v e : Latest Header h e -> (forall n w, e <> HOpen n w) -> ElemSays h (EVar v) [] []
| Es_nothing v n w l : Latest Header h (HOpen n w) -> LineGives v l None -> ElemSays h (EVar v) [] l
| Es_include v n w l i w' : Latest Header h (HOpen n w) -> LineGives v l (Some (DInc i w')) ->
    ElemSays h (EVar v) [HInc n i w'] l
| Es_line v n w x f ms l1 l2 : Latest Header h (HOpen n w) -> LineGives v l1 (Some (DExt x)) -> hints x l2 ->
    LineRule h n x f ms -> ElemSays h (EVar v) [HLine n x f] (l1 ++ l2 ++ map LMsg ms).

(* What the reader says and the elements it gives, in turn. *)
Inductive StreamSays (h : list hev) : list event -> list hev -> list lev -> Prop :=
| Ss_nil : StreamSays h [] h []
| Ss_line w d k evs h' l : StreamSays h evs h' l -> StreamSays h (EvLine w d k :: evs) h' l
| Ss_msg m evs h' l : StreamSays h evs h' l -> StreamSays h (EvMsg m :: evs) h' (LMsg m :: l)
| Ss_elem e evs h1 h' l1 l2 : ElemSays h e h1 l1 -> StreamSays (h ++ h1) evs h' l2 ->
    StreamSays h (EvElem e :: evs) h' (l1 ++ l2).

(* ---- jumps ---- *)

(* The contexts that a history makes. *)
Definition contexts (h : list hev) : list dctx :=
  map (fun n => DCtx n (Where [] 0 []) (stored_of h n) (includes_of h n) None [] None) (opened h).

(* The search for the destination comes back: see C12.  Extensions are encoded
   in latin1 to be matched. *)
Definition SearchEnds (ctxs : list dctx) (c : dctx) (e : str) (q : jprio) : Prop :=
  latin1_str e /\ Returns ctxs c e q \/
  ~ latin1_str e /\ ~ Cyclic ctxs c /\ forall c', Reach ctxs c c' -> dc_exts c' = [].
Definition Printed (l : list lev) : Prop := forall m k a, In (LMsg m) l -> In (k, a) (m_args m) -> prints a.
Definition JumpSays (ctxs : list dctx) (j : jump) (l : list lev) : Prop :=
  Report ctxs j l /\ Printed l /\
  forall c e, In c ctxs -> j_ctx j = TS (dc_name c) -> j_ext j = TS e -> SearchEnds ctxs c e (j_prio j).

(* ---- the file, then the walk through its jumps ---- *)
Definition PlanSays (evs : list event) (h : list hev) (l : list lev) : Prop :=
  exists l1 l2, StreamSays [] evs h l1 /\ (exists js, JumpsOf U h js) /\ Completion h l2 /\ l = l1 ++ l2.
Definition WalkSays (h : list hev) (l : list lev) : Prop :=
  exists js ls, JumpsOf U h js /\ Forall2 (JumpSays (contexts h)) js ls /\ l = List.concat ls.
End Tables.

(* ---- func_odbc.conf ---- *)

(* The file to read, if any: as told, or the one beside the dialplan. *)
Inductive OdbcFile (there : str -> bool) (dialplan : str) : option str -> option str -> Prop :=
| Of_off : OdbcFile there dialplan (Some []) None
| Of_told c n : OdbcFile there dialplan (Some (c :: n)) (Some (c :: n))
| Of_beside p : p = path_join (dirname dialplan) (L "func_odbc.conf") -> there p = true -> OdbcFile there dialplan None (Some p)
| Of_none : there (path_join (dirname dialplan) (L "func_odbc.conf")) = false -> OdbcFile there dialplan None None.

(* What is said about an element is what the rules for the file say more than
   they said before it. *)
Inductive OdbcStream (es : list elem) : list event -> list msg -> Prop :=
| Od_nil : OdbcStream es [] []
| Od_line w d k evs l : OdbcStream es evs l -> OdbcStream es (EvLine w d k :: evs) l
| Od_msg m evs l : OdbcStream es evs l -> OdbcStream es (EvMsg m :: evs) (m :: l)
| Od_elem e evs os os' l l1 l2 : FileRule es os l -> FileRule (es ++ [e]) os' (l ++ l1) ->
    OdbcStream (es ++ [e]) evs l2 -> OdbcStream es (EvElem e :: evs) (l1 ++ l2).
Inductive OdbcSays (fuel : nat) (fs : fsys) : option str -> list finfo -> list msg -> Prop :=
| Oy_none : OdbcSays fuel fs None [] []
| Oy_file f evs os fns l l1 l2 : vsw_stream (parse_file fuel fs f) = (evs, Ok tt) -> FileRule (elems evs) os l ->
    OdbcStream [] evs l1 -> Registers os fns l2 -> OdbcSays fuel fs (Some f) fns (l1 ++ l2).

(* ---- dialplan-check ---- *)
Inductive CheckSays (U : uni) (FT : ftable) (AT : atable) (there : str -> bool) (fuel : nat) (fs : fsys)
    (arg : option str) (name : str) : list lev -> Prop :=
| Ck_intro f fns evs h l1 l2 l3 : OdbcFile there name arg f -> OdbcSays fuel fs f fns l1 ->
    vsw_stream (parse_file fuel fs name) = (evs, Ok tt) -> PlanSays U (register_all U fns FT) AT evs h l2 -> WalkSays U h l3 ->
    CheckSays U FT AT there fuel fs arg name (map LMsg l1 ++ l2 ++ l3).

(* ---- messages ---- *)

(* The messages of a log.  A use of Background is held against the spelling
   that counts up to it (C34); [before] is the log up to here. *)
Inductive Messages (before : list lev) : list lev -> list msg -> Prop :=
| Me_nil : Messages before [] []
| Me_msg m l ms : Messages (before ++ [LMsg m]) l ms -> Messages before (LMsg m :: l) (m :: ms)
| Me_other e l ms : (forall m, e <> LMsg m) -> (forall s w, e <> LBg s w) -> Messages (before ++ [e]) l ms -> Messages before (e :: l) ms
| Me_good s w l ms : Reference (before ++ [LBg s w]) s -> Messages (before ++ [LBg s w]) l ms -> Messages before (LBg s w :: l) ms
| Me_bad s w ref l ms : Reference (before ++ [LBg s w]) ref -> ref <> s -> Messages (before ++ [LBg s w]) l ms ->
    Messages before (LBg s w :: l) (Msg W_APP_BAD_CASE w None [(L "app", AStr s); (L "proper", AStr ref)] :: ms).
(* Those that are printed. *)
Inductive Shown (env : option str) : list msg -> list msg -> Prop :=
| Sw_nil : Shown env [] []
| Sw_mute m ms ps : Silenced env (m_cls m) -> Shown env ms ps -> Shown env (m :: ms) ps
| Sw_show m ms ps : ~ Silenced env (m_cls m) -> Shown env ms ps -> Shown env (m :: ms) (m :: ps).
