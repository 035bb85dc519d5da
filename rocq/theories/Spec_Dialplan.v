(* Independent specification of the dialplan (C07-C13, C46): what every line
   does, in terms of the history of the lines before it.  No caches, no current
   context, no remembered priorities: everything is read off the history. *)
From Verif Require Import Base Defines Config Pattern Var VarFun AppM Dialplan.

(* ---- Histories ---- *)

(* What became of an exten/same line. *)
Inductive fate :=
| Refused
| Dropped (p : pattern) (q : Z) (first : ext)   (* accepted, but a duplicate of [first] *)
| Stored (e : ext).

Inductive hev :=
| HGen (w : loc)                                (* [general] *)
| HGlob (w : loc)                               (* [globals] *)
| HOpen (n : str) (w : loc)                     (* any other header *)
| HLine (n : str) (x : xline) (f : fate)        (* exten or same in context n *)
| HInc (n i : str) (w : loc).                   (* include => i in context n *)

(* The latest event with property P. *)
Definition Latest (P : hev -> Prop) (h : list hev) (e : hev) : Prop :=
  exists h1 h2, h = h1 ++ e :: h2 /\ P e /\ Forall (fun e' => ~ P e') h2.

(* The priority of an accepted line, stored or dropped. *)
Definition Accepts (e : hev) (q : Z) : Prop :=
  match e with
  | HLine _ _ (Dropped _ q' _) => q = q'
  | HLine _ _ (Stored y) => q = x_prio y
  | _ => False
  end.
Definition Accepted (e : hev) : Prop := exists q, Accepts e q.

(* The extensions and includes of a context, in file order. *)
Definition stored_of (h : list hev) (n : str) : list ext :=
  flat_map (fun e => match e with
                     | HLine m _ (Stored y) => if str_eqb m n then [y] else []
                     | _ => []
                     end) h.
Definition includes_of (h : list hev) (n : str) : list (str * loc) :=
  flat_map (fun e => match e with
                     | HInc m i w => if str_eqb m n then [(i, w)] else []
                     | _ => []
                     end) h.

(* The context names in the order in which they first occur. *)
Fixpoint opened_after (seen : list str) (h : list hev) : list str :=
  match h with
  | [] => []
  | HOpen n _ :: r => if smem n seen then opened_after seen r else n :: opened_after (n :: seen) r
  | _ :: r => opened_after seen r
  end.
Definition opened (h : list hev) : list str := opened_after [] h.

(* ---- One exten/same line ---- *)

Definition SamePat (p q : pattern) : Prop := pv p = pv q.
Definition SameCanon (p q : pattern) : Prop := canonical (pv p) = canonical (pv q).
Definition last_is {A} (l : list A) (a : A) : Prop := exists r, l = r ++ [a].

(* No pattern ("same", or an empty one) means that of the last stored extension
   of the context. *)
Definition EffPat (h : list hev) (n : str) (x : xline) (p : pattern) : Prop :=
  i_pat x = Some p \/ (i_pat x = None /\ exists y, last_is (stored_of h n) y /\ p = x_pat y).

(* The context got an accepted line after it was opened for the last time. *)
Definition Continues (h : list hev) (n : str) : Prop :=
  exists m x f, Latest (fun e => (exists w, e = HOpen n w) \/
                                 (Accepted e /\ exists x f, e = HLine n x f)) h (HLine m x f).

Definition pmsg (c : mcls) (x : xline) (prev : option loc) (args : list (str * arg)) : msg :=
  Msg c (i_where x) prev args.

(* The priority, and a warning if it is out of order. *)
Inductive EffPrio (h : list hev) (n : str) (x : xline) (p : pattern) : Z -> list msg -> Prop :=
| EP_next_ok e q :
    i_prio x = None -> Latest Accepted h e -> Accepts e q ->
    Continues h n -> (exists y, last_is (stored_of h n) y /\ SamePat (x_pat y) p) ->
    EffPrio h n x p (q + 1) []
| EP_next_bad e q :
    i_prio x = None -> Latest Accepted h e -> Accepts e q ->
    ~ (Continues h n /\ exists y, last_is (stored_of h n) y /\ SamePat (x_pat y) p) ->
    EffPrio h n x p (q + 1)
      [pmsg W_DP_PRIO_BADORDER x None [(L "pat", AStr (praw p)); (L "prio", AStr (L "<unset>"))]]
| EP_one : i_prio x = Some 1%Z -> EffPrio h n x p 1 []
| EP_num_ok q l y r :
    i_prio x = Some q -> (2 <= q)%Z ->
    stored_of h n = l ++ y :: r -> SamePat (x_pat y) p -> Forall (fun z => ~ SamePat (x_pat z) p) r ->
    x_prio y = q \/ x_prio y = (q - 1)%Z ->
    EffPrio h n x p q []
| EP_num_bad q :
    i_prio x = Some q -> (2 <= q)%Z ->
    (forall l y r, stored_of h n = l ++ y :: r -> SamePat (x_pat y) p ->
       Forall (fun z => ~ SamePat (x_pat z) p) r -> x_prio y <> q /\ x_prio y <> (q - 1)%Z) ->
    EffPrio h n x p q
      [pmsg W_DP_PRIO_BADORDER x None [(L "pat", AStr (praw p)); (L "prio", AInt q)]].

(* The label that is kept: a second one of the same pattern is wiped. *)
Definition HasLabel (y : ext) (s : str) : Prop := x_label y = Some s.
Inductive EffLabel (h : list hev) (n : str) (x : xline) (p : pattern) : option str -> list msg -> Prop :=
| EL_none : i_label x = None \/ i_label x = Some [] -> EffLabel h n x p (i_label x) []
| EL_new s : i_label x = Some s -> s <> [] ->
    (forall y, In y (stored_of h n) -> SameCanon (x_pat y) p -> ~ HasLabel y s) ->
    EffLabel h n x p (Some s) []
| EL_dup s y : i_label x = Some s -> s <> [] ->
    In y (stored_of h n) -> SameCanon (x_pat y) p -> HasLabel y s ->
    EffLabel h n x p (Some []) [pmsg E_DP_LABEL_DUPE x (Some (x_where y)) [(L "label", AStr s)]].

Inductive LineRule (h : list hev) (n : str) (x : xline) : fate -> list msg -> Prop :=
| LR_no_pattern : i_pat x = None -> stored_of h n = [] ->
    LineRule h n x Refused [pmsg E_DP_PAT_MISSING x None []]
| LR_no_priority p : EffPat h n x p -> i_prio x = None -> (forall e, In e h -> ~ Accepted e) ->
    LineRule h n x Refused [pmsg E_DP_PRIO_MISSING x None [(L "pat", AStr (praw p))]]
| LR_bad_priority p q : EffPat h n x p -> i_prio x = Some q -> (q < 1)%Z ->
    LineRule h n x Refused [pmsg E_DP_PRIO_INVALID x None [(L "prio", AInt q)]]
| LR_duplicate p q ms y : EffPat h n x p -> EffPrio h n x p q ms ->
    In y (stored_of h n) -> SameCanon (x_pat y) p -> x_prio y = q ->
    LineRule h n x (Dropped p q y)
      (ms ++ [pmsg E_DP_PRIO_DUPE x (Some (x_where y)) [(L "prio", AInt q)]])
| LR_stored p q ms label ms' : EffPat h n x p -> EffPrio h n x p q ms ->
    (forall y, In y (stored_of h n) -> SameCanon (x_pat y) p -> x_prio y <> q) ->
    EffLabel h n x p label ms' ->
    LineRule h n x (Stored (Ext p q label (i_raw x) (i_where x))) (ms ++ ms').

(* ---- Jump destinations of a line (app.jump_destinations) ---- *)

Definition isnothing (o : option tok) : Prop := forall t, o = Some t -> truthy t = false.

Inductive JumpExt (p : pattern) : option tok -> tok -> Prop :=
| JE_default o s : isnothing o -> example (pv p) = Ok s -> JumpExt p o (TS s)
| JE_text s : s <> [] -> JumpExt p (Some (TS s)) (TS s)
| JE_var t s r : truthy t = true -> is_str t = false -> example (pv p) = Ok s ->
    tformat (fun k => if str_eqb k (L "EXTEN") then Some s else None) t = Ok r ->
    JumpExt p (Some t) (TS r)
| JE_open t s : truthy t = true -> is_str t = false -> example (pv p) = Ok s ->
    tformat (fun k => if str_eqb k (L "EXTEN") then Some s else None) t = Exn KeyError ->
    JumpExt p (Some t) t.

Definition JumpPrio (U : uni) (a : sliced) (b : jprio) : Prop :=
  match a with
  | SlTok (TS s) => (sisdigit U s = true /\ exists z, int_of U s = Ok z /\ b = JInt z) \/
                    (sisdigit U s = false /\ b = JTok (TS s))
  | SlTok t => b = JTok t
  | SlList l => b = JList l
  end.

Definition JumpOf (U : uni) (n : str) (p : pattern) (w : loc) (d : dest) (j : jump) : Prop :=
  ((isnothing (d_ctx d) /\ j_ctx j = TS n) \/ (truthy (j_ctx j) = true /\ d_ctx d = Some (j_ctx j))) /\
  JumpExt p (d_ext d) (j_ext j) /\ JumpPrio U (d_prio d) (j_prio j) /\ j_where j = w.

(* The jumps of a whole history, in file order. *)
Definition jumping (h : list hev) : list (str * xline * ext) :=
  flat_map (fun e => match e with HLine n x (Stored y) => [(n, x, y)] | _ => [] end) h.
Definition JumpsOf (U : uni) (h : list hev) (js : list jump) : Prop :=
  exists jss, Forall2 (fun l s => match l with
                                  | (n, x, y) => Forall2 (JumpOf U n (x_pat y) (x_where y)) (i_dests x) s
                                  end) (jumping h) jss /\
              js = List.concat jss.

(* ---- One element of the file ---- *)

Definition Header (e : hev) : Prop :=
  match e with HGen _ | HGlob _ | HOpen _ _ => True | _ => False end.
Definition misplaced (c : mcls) (w : loc) (ok : Prop) (l : list lev) : Prop :=
  (ok /\ l = []) \/ (~ ok /\ l = [LMsg (Msg c w None [])]).

Inductive ElemRule (U : uni) (FT : ftable) (AT : atable) (h : list hev) : elem -> list hev -> list lev -> Prop :=
| ER_empty b w : ElemRule U FT AT h (EEmpty b w) [] []
| ER_general c l : c_name c = L "general" -> (forall w, ~ In (HGen w) h) ->
    misplaced H_DP_GENERAL_MISPLACED (c_where c)
      ((forall w, ~ In (HGlob w) h) /\ (forall n w, ~ In (HOpen n w) h)) l ->
    ElemRule U FT AT h (ECtx c) [HGen (c_where c)] l
| ER_globals c l : c_name c = L "globals" -> (forall w, ~ In (HGlob w) h) ->
    misplaced H_DP_GLOBALS_MISPLACED (c_where c)
      ((exists w, In (HGen w) h) /\ (forall n w, ~ In (HOpen n w) h)) l ->
    ElemRule U FT AT h (ECtx c) [HGlob (c_where c)] l
| ER_globals_again c h1 w h2 : c_name c = L "globals" ->
    h = h1 ++ HGlob w :: h2 -> (forall w', ~ In (HGlob w') h1) ->
    ElemRule U FT AT h (ECtx c) [HGlob (c_where c)] [LMsg (Msg E_DP_GLOBALS_DUPE (c_where c) (Some w) [])]
| ER_open c : c_name c <> L "general" -> c_name c <> L "globals" ->
    (forall w, ~ In (HOpen (c_name c) w) h) ->
    ElemRule U FT AT h (ECtx c) [HOpen (c_name c) (c_where c)]
      (match c_templates c with [] => [] | _ => [LMsg (Msg I_NOTIMPL_TEMPLATES (c_where c) None [])] end)
| ER_reopen c w : c_name c <> L "general" -> c_name c <> L "globals" ->
    In (HOpen (c_name c) w) h -> c_comment c = false -> c_templates c = [] ->
    ElemRule U FT AT h (ECtx c) [HOpen (c_name c) (c_where c)] []
| ER_outside v : (forall e, In e h -> ~ Header e) ->
    ElemRule U FT AT h (EVar v) [] [LMsg (Msg E_CONF_CTX_MISSING (v_where v) None [])]
| ER_plain v e : Latest Header h e -> (forall n w, e <> HOpen n w) ->
    ElemRule U FT AT h (EVar v) [] []
| ER_nothing v n w l : Latest Header h (HOpen n w) -> from_varset U FT AT v = (l, Ok None) ->
    ElemRule U FT AT h (EVar v) [] l
| ER_include v n w l i w' : Latest Header h (HOpen n w) -> from_varset U FT AT v = (l, Ok (Some (DInc i w'))) ->
    ElemRule U FT AT h (EVar v) [HInc n i w'] l
| ER_line v n w l x f ms hint : Latest Header h (HOpen n w) ->
    from_varset U FT AT v = (l, Ok (Some (DExt x))) ->
    hint = match i_pat x with
           | Some p => if is_canonical p then []
                       else [pmsg H_PAT_NON_CANONICAL x None
                               [(L "pat", AStr (praw p)); (L "expected", AStr (canonical (pv p)))]]
           | None => []
           end ->
    LineRule h n x f ms ->
    ElemRule U FT AT h (EVar v) [HLine n x f] (l ++ map LMsg (hint ++ ms)).

(* All elements of a file, one after the other. *)
Inductive History (U : uni) (FT : ftable) (AT : atable) : list elem -> list hev -> list lev -> Prop :=
| Hi_nil : History U FT AT [] [] []
| Hi_snoc es h l e h' l' : History U FT AT es h l -> ElemRule U FT AT h e h' l' ->
    History U FT AT (es ++ [e]) (h ++ h') (l ++ l').

(* ---- What the finished dialplan says about the history ---- *)

Record Describes (U : uni) (h : list hev) (d : dplan) : Prop := {
  de_names : map dc_name (dp_ctxs d) = opened h;
  de_exts : forall c, In c (dp_ctxs d) -> dc_exts c = stored_of h (dc_name c);
  de_incs : forall c, In c (dp_ctxs d) -> dc_includes c = includes_of h (dc_name c);
  de_where : forall c, In c (dp_ctxs d) ->
    Latest (fun e => exists w, e = HOpen (dc_name c) w) h (HOpen (dc_name c) (dc_where c));
  de_ctx_labels : forall c s, In c (dp_ctxs d) ->
    (has_label c s = true <-> s <> [] /\ exists y, In y (stored_of h (dc_name c)) /\ HasLabel y s);
  de_all_labels : forall s,
    all_label d s = true <-> s <> [] /\ exists n y, In y (stored_of h n) /\ HasLabel y s;
  de_jumps : JumpsOf U h (g_jumps (dp_glob d))
}.

(* A dialplan that was read from some elements. *)
Definition Ready (U : uni) (FT : ftable) (AT : atable) (d : dplan) : Prop :=
  exists es l, dp_steps U FT AT dp_init es = (l, Ok d).

(* ---- The whole file ---- *)

Definition elems (evs : list event) : list elem :=
  flat_map (fun e => match e with EvElem x => [x] | _ => [] end) evs.
Definition ev_msgs (evs : list event) : list lev :=
  flat_map (fun e => match e with EvMsg m => [LMsg m] | _ => [] end) evs.

(* [Merge a b c]: c consists of a and b, each in its own order. *)
Inductive Merge {A} : list A -> list A -> list A -> Prop :=
| Mg_nil : Merge [] [] []
| Mg_l x a b c : Merge a b c -> Merge (x :: a) b (x :: c)
| Mg_r x a b c : Merge a b c -> Merge a (x :: b) (x :: c).

(* At the end: missing sections are reported for the file of the first context. *)
Inductive Completion (h : list hev) : list lev -> Prop :=
| Co_empty : opened h = [] -> Completion h []
| Co_some n r w lg lb : opened h = n :: r ->
    Latest (fun e => exists w, e = HOpen n w) h (HOpen n w) ->
    misplaced H_DP_GENERAL_MISPLACED (Where (w_file w) 0 []) (exists w, In (HGen w) h) lg ->
    misplaced H_DP_GLOBALS_MISPLACED (Where (w_file w) 0 []) (exists w, In (HGlob w) h) lb ->
    Completion h (lg ++ lb).

(* ---- Listings (C10) ---- *)

Definition pat_lt (a b : pattern) : Prop := pat_ltb a b = true.
Record Listing (stored out : list ext) : Prop := {
  li_all : Permutation out stored;
  li_sorted : StronglySorted (fun x y => pat_lt (x_pat x) (x_pat y) \/ SamePat (x_pat x) (x_pat y)) out;
  li_stable : forall p, filter (fun x => pat_eqb (x_pat x) p) out = filter (fun x => pat_eqb (x_pat x) p) stored
}.

(* The text of dialplan show: a header per context, one line per stored
   extension, one per include, an empty line.  An extension shows its pattern if
   it is the first or its predecessor has another pattern, else its label. *)
Definition padded (n : nat) (s out : str) : Prop :=
  exists k, out = s ++ repeat 32 k /\ (n <= length out)%nat /\ (k = O \/ length out = n).
Definition columns (lead : str) (n : nat) (a b line : str) : Prop :=
  exists a' b', padded n a a' /\ padded 45 b b' /\ line = lead ++ a' ++ L " " ++ b' ++ L " [pbx_config]".
Definition app_text (raw out : str) : Prop :=
  exists o c, out = raw ++ o ++ c /\ ((In 40 raw /\ o = []) \/ (~ In 40 raw /\ o = L "("))
                            /\ ((In 41 raw /\ c = []) \/ (~ In 41 raw /\ c = L ")")).
Inductive ShowExt (prev : option ext) (x : ext) (line : str) : Prop :=
| SE_next y a : prev = Some y -> SamePat (x_pat y) (x_pat x) -> app_text (x_raw x) a ->
    columns (L "     ") 14 (match x_label x with Some (c :: s) => L "[" ++ (c :: s) ++ L "]" | _ => [] end)
      (zstr (x_prio x) ++ L ". " ++ a) line -> ShowExt prev x line
| SE_first a : (forall y, prev = Some y -> ~ SamePat (x_pat y) (x_pat x)) -> app_text (x_raw x) a ->
    columns (L "  ") 17 (L "'" ++ praw (x_pat x) ++ L "' =>") (zstr (x_prio x) ++ L ". " ++ a) line ->
    ShowExt prev x line.
Inductive ShowExts : option ext -> list ext -> list str -> Prop :=
| SX_nil prev : ShowExts prev [] []
| SX_cons prev x l line ls : ShowExt prev x line -> ShowExts (Some x) l ls -> ShowExts prev (x :: l) (line :: ls).
Definition ShowCtx (repr : str -> str) (c : dctx) (lines : list str) : Prop :=
  exists out els ils, Listing (dc_exts c) out /\ ShowExts None out els /\
    Forall2 (fun i line => columns (L "  ") 17 (L "Include =>") (L "'" ++ fst i ++ L "'") line) (dc_includes c) ils /\
    lines = (L "[ Context " ++ repr (dc_name c) ++ L " created by 'pbx_config' ]") :: els ++ ils ++ [[]].

(* What can happen to a context: additions, reopenings, includes, and the two
   uses of the memoised pattern list. *)
Inductive CStep (U : uni) : dctx -> dctx -> Prop :=
| CS_add g x l g' c c' : ctx_add U g c x = (l, Ok (g', c')) -> CStep U c c'
| CS_reopen n c c' : ctx_update c n = Ok c' -> CStep U c c'
| CS_include i c : CStep U c (DCtx (dc_name c) (dc_where c) (dc_exts c) (dc_includes c ++ [i])
                                   (dc_last c) (dc_cache c) (dc_sorted c))
| CS_list c : CStep U c (snd (by_pattern c))
| CS_match c : CStep U c (snd (sorted_patterns c)).
Inductive CSteps (U : uni) : dctx -> dctx -> Prop :=
| CSs_nil c : CSteps U c c
| CSs_cons c c1 c2 : CStep U c c1 -> CSteps U c1 c2 -> CSteps U c c2.
Definition new_ctx (n : str) (w : loc) : dctx := DCtx n w [] [] None [] None.

(* The memoised list is the list of the patterns that are stored now. *)
Definition MemoOk (c : dctx) : Prop :=
  dc_sorted c = None \/
  exists ps, dc_sorted c = Some ps /\ StronglySorted pat_lt ps /\
    (forall p, In p ps -> exists x, In x (dc_exts c) /\ p = x_pat x) /\
    (forall x, In x (dc_exts c) -> exists p, In p ps /\ SamePat (x_pat x) p).

(* ---- Targets of a Goto (C11-C13) ---- *)

Section Targets.
Variable ctxs : list dctx.

(* c includes c' (an include of a missing context counts for nothing) *)
Definition Incl (c c' : dctx) : Prop :=
  In c' ctxs /\ exists w, In (dc_name c', w) (dc_includes c).
Inductive Reach : dctx -> dctx -> Prop :=
| Reach_refl c : Reach c c
| Reach_step c c1 c2 : Incl c c1 -> Reach c1 c2 -> Reach c c2.

(* An include cycle that can be entered from c. *)
Definition Cyclic (c : dctx) : Prop :=
  exists c1 c2, Reach c c1 /\ Incl c1 c2 /\ Reach c2 c1.

(* The priority or label of x answers q.  A Var is compared against the
   decimal priority and against the label, where no label reads None. *)
Definition Answers (q : jprio) (x : ext) : Prop :=
  match q with
  | JInt z => x_prio x = z
  | JTok (TS s) => x_label x = Some s
  | JTok t => could_match t (zstr (x_prio x)) = true \/
              could_match t (match x_label x with Some l => l | None => L "None" end) = true
  | JList _ => False
  end.

Definition HitIn (c : dctx) (e : str) (q : jprio) (x : ext) : Prop :=
  In x (dc_exts c) /\ matches_extension (pv (x_pat x)) e = Ok true /\ Answers q x.

(* An answer in a context reachable through includes, or, for a number, the
   invalid extension there (but not for the invalid extension itself). *)
Definition Target (c : dctx) (e : str) (q : jprio) (x : ext) : Prop :=
  exists c', Reach c c' /\
    (HitIn c' e q x \/ ((exists z, q = JInt z) /\ e <> L "i" /\ HitIn c' (L "i") (JInt 1) x)).

(* x is the first hit of its context: no hit has a smaller pattern, and none
   with an equal pattern is stored before it. *)
Definition BestIn (c : dctx) (e : str) (q : jprio) (x : ext) : Prop :=
  exists l r, dc_exts c = l ++ x :: r /\ HitIn c e q x /\
    (forall y, HitIn c e q y -> ~ pat_lt (x_pat y) (x_pat x)) /\
    (forall y, In y l -> SamePat (x_pat y) (x_pat x) -> ~ HitIn c e q y).

(* Text that can be looked up at all: matching encodes it in latin1. *)
Definition latin1_str (e : str) : Prop := Forall (fun c => c < 0x100) e.
Definition usable (q : jprio) : Prop := match q with JList _ => False | _ => True end.

(* A context without an include cycle below it, text that can be formatted. *)
Definition prints (a : arg) : Prop := exists u, arg_ok false a = Ok u.
Definition checkable (j : jump) : Prop :=
  (prints (targ (j_ctx j)) /\ prints (targ (j_ext j)) /\ prints (jarg (j_prio j))) /\
  (forall n e, j_ctx j = TS n -> j_ext j = TS e -> latin1_str e /\ usable (j_prio j)) /\
  (forall c, In c ctxs -> j_ctx j = TS (dc_name c) -> ~ Cyclic c).

(* The labels that exist. *)
Definition ctx_labels (c : dctx) (s : str) : Prop := s <> [] /\ exists y, In y (dc_exts c) /\ HasLabel y s.
Definition all_labels (s : str) : Prop := exists c, In c ctxs /\ ctx_labels c s.

(* The report for one destination. *)
Definition jmsg (c : mcls) (j : jump) (last : str * arg) : lev :=
  LMsg (Msg c (j_where j) None [(L "context", targ (j_ctx j)); (L "exten", targ (j_ext j)); last]).
Inductive Report (j : jump) : list lev -> Prop :=
| Rp_varctx_ok : is_str (j_ctx j) = false ->
    (forall s, j_prio j = JTok (TS s) -> all_labels s) -> Report j []
| Rp_varctx_bad s : is_str (j_ctx j) = false -> j_prio j = JTok (TS s) -> ~ all_labels s ->
    Report j [jmsg E_DP_GOTO_NOLABEL j (L "label", AStr s)]
| Rp_noctx n : j_ctx j = TS n -> (forall c, In c ctxs -> dc_name c <> n) ->
    Report j [jmsg E_DP_GOTO_NOCONTEXT j (L "prio", jarg (j_prio j))]
| Rp_varext_ok c : In c ctxs -> j_ctx j = TS (dc_name c) -> is_str (j_ext j) = false ->
    (forall s, j_prio j = JTok (TS s) -> ctx_labels c s) -> Report j []
| Rp_varext_bad c s : In c ctxs -> j_ctx j = TS (dc_name c) -> is_str (j_ext j) = false ->
    j_prio j = JTok (TS s) -> ~ ctx_labels c s ->
    Report j [jmsg E_DP_GOTO_CONTEXT_NOLABEL j (L "label", AStr s)]
| Rp_found c e x : In c ctxs -> j_ctx j = TS (dc_name c) -> j_ext j = TS e ->
    Target c e (j_prio j) x -> Report j []
| Rp_missing c e : In c ctxs -> j_ctx j = TS (dc_name c) -> j_ext j = TS e ->
    (forall x, ~ Target c e (j_prio j) x) ->
    Report j [jmsg W_DP_GOTO_CONTEXT_NOEXTEN j (L "prio", jarg (j_prio j))].
End Targets.

(* ---- The text of an exten/same line (C46) ---- *)

Inductive PrioText (U : uni) : str -> option Z -> Prop :=
| PT_next : PrioText U (L "n") None
| PT_num s z : s <> L "n" -> sisdigit U s = true -> int_of U s = Ok z -> PrioText U s (Some z).

Inductive LabelText : str -> option str -> Prop :=
| LT_none : LabelText [] None
| LT_some l : LabelText (40 :: l ++ [41]) (Some l).

(* prio(label),app -- the application with its comma may be missing *)
Definition BodyText (U : uni) (body : str) (q : option Z) (l : option str) (app : str) : Prop :=
  exists prio lt, PrioText U prio q /\ LabelText lt l /\
    ~ In 44 prio /\ ~ In 40 prio /\ ~ In 44 lt /\
    (body = prio ++ lt ++ 44 :: app \/ (body = prio ++ lt /\ app = [])).

Definition LineText (U : uni) (v : varset) (pat : str) (q : option Z) (l : option str) (app : str) : Prop :=
  (v_variable v = L "exten" /\ ~ In 44 pat /\ exists body, v_value v = pat ++ 44 :: body /\ BodyText U body q l app) \/
  (v_variable v = L "same" /\ pat = [] /\ BodyText U (v_value v) q l app).

(* The hint for = instead of =>. *)
Definition arrow_msgs (v : varset) (l : list lev) : Prop :=
  (v_arrow v = Some true /\ l = []) \/ (v_arrow v = Some false /\ l = [LMsg (msg0 H_CONF_NO_ARROW (v_where v))]).
Definition pat_of (pat : str) (o : option pattern) : Prop :=
  match o with None => pat = [] | Some p => pat <> [] /\ mk_pattern pat = Ok p end.

(* Where the priority of an exten/same line is: up to a comma or parenthesis. *)
Definition PrioField (v : varset) (prio : str) : Prop :=
  ~ In 44 prio /\ ~ In 40 prio /\
  exists body tail : str, body = prio ++ tail /\ (tail = [] \/ exists t, tail = 44 :: t \/ tail = 40 :: t) /\
    ((v_variable v = L "exten" /\ exists pat, ~ In 44 pat /\ v_value v = pat ++ 44 :: body) \/
     (v_variable v = L "same" /\ v_value v = body)).

(* The lines that define nothing, and what is said about them. *)
Inductive NoLine (U : uni) (v : varset) : list lev -> Prop :=
| Nl_switch la : v_variable v = L "switch" -> arrow_msgs v la ->
    NoLine U v (la ++ [LMsg (msg0 I_NOTIMPL_SWITCH (v_where v))])
| Nl_ignorepat la : v_variable v = L "ignorepat" -> arrow_msgs v la ->
    NoLine U v (la ++ [LMsg (msg0 I_NOTIMPL_IGNOREPAT (v_where v))])
| Nl_key : ~ In (v_variable v) [L "exten"; L "same"; L "include"; L "switch"; L "ignorepat"] ->
    NoLine U v [LMsg (Msg E_CONF_KEY_INVALID (v_where v) None [(L "key", AStr (v_variable v))])]
| Nl_hint la : PrioField v (L "hint") -> sisdigit U (L "hint") = false -> arrow_msgs v la ->
    NoLine U v (la ++ [LMsg (msg0 I_NOTIMPL_HINT (v_where v))])
| Nl_prio la prio : PrioField v prio -> prio <> L "n" -> prio <> L "hint" -> sisdigit U prio = false ->
    arrow_msgs v la ->
    NoLine U v (la ++ [LMsg (Msg E_DP_PRIO_INVALID (v_where v) None [(L "prio", AStr prio)])]).
