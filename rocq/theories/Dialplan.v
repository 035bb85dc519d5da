(* asterisklint/dialplan.py and config.py:183-225 (ConfigAggregator). *)
From Verif Require Import Base Utf8 PyStr Regex Defines FileRd Config VSpace Pattern Var VarFun AppM.

(* What from_varset makes of an exten/same line: Extension before it is added,
   dialplan.py:508-511; of the App only raw and jump_destinations are used. *)
Record xline := XLine { i_pat : option pattern; i_prio : option Z; i_label : option str;
                        i_raw : str; i_dests : list dest; i_where : loc }.

(* A stored Extension: the xline with pattern and priority filled in. *)
Record ext := Ext { x_pat : pattern; x_prio : Z; x_label : option str; x_raw : str; x_where : loc }.

(* The third part of a jump destination: int, str or Var, or list. *)
Inductive jprio := JInt (z : Z) | JTok (t : tok) | JList (l : list tok).
(* dialplan.py:144-145 *)
Record jump := Jump { j_ctx : tok; j_ext : tok; j_prio : jprio; j_where : loc }.

(* An entry of pattern_cache, dialplan.py:403-415.  Dicts are association
   lists, newest entry first. *)
Record pcache := PCache { pc_labels : list (str * ext); pc_prios : list (Z * ext) }.

(* DialplanContext: dialplan.py:247-254, configobj.py:48-60.  Fields that are
   never read again (comment, templates) are left out. *)
Record dctx := DCtx { dc_name : str; dc_where : loc; dc_exts : list ext;
                      dc_includes : list (str * loc); dc_last : option Z;
                      dc_cache : list (str * pcache); dc_sorted : option (list pattern) }.

(* Dialplan without the contexts: dialplan.py:96-104. *)
Record glob := Glob { g_last : option Z; g_jumps : list jump; g_labels : list str }.

Fixpoint zlookup {A} (k : Z) (l : list (Z * A)) : option A :=
  match l with
  | [] => None
  | (k', v) :: r => if (k =? k')%Z then Some v else zlookup k r
  end.

(* if extension.label: *)
Definition lab (l : option str) : option str :=
  match l with Some ((_ :: _) as s) => Some s | _ => None end.

Definition set_sorted (c : dctx) (s : option (list pattern)) : dctx :=
  DCtx (dc_name c) (dc_where c) (dc_exts c) (dc_includes c) (dc_last c) (dc_cache c) s.

(* DialplanContext.get_sorted_patterns, dialplan.py:272-279.  See [pat_dedup]
   about the set. *)
Definition fresh_patterns (l : list ext) : list pattern := pat_sort (pat_dedup (map x_pat l)).
Definition sorted_patterns (c : dctx) : list pattern * dctx :=
  match dc_sorted c with
  | Some l => (l, c)
  | None => let l := fresh_patterns (dc_exts c) in (l, set_sorted c (Some l))
  end.

(* by_pattern, dialplan.py:263-270 *)
Definition by_pattern (c : dctx) : list ext * dctx :=
  let (ps, c') := sorted_patterns c in
  (flat_map (fun p => filter (fun x => pat_eqb (x_pat x) p) (dc_exts c)) ps, c').

(* Context.update and DialplanContext.update: configobj.py:62-67,
   dialplan.py:256-261.  The new context is fresh: the assertions about its
   contents hold, the ones about comment and templates may not. *)
Definition ctx_update (c : dctx) (n : ctx) : res dctx :=
  if c_comment n then Exn AssertionError
  else match c_templates n with
       | [] => Ok (DCtx (dc_name c) (c_where n) (dc_exts c) (dc_includes c) None (dc_cache c) None)
       | _ => Exn AssertionError
       end.

(* has_label, dialplan.py:281-285; the dict has one entry per key, the newest *)
Definition is_some {A} (o : option A) : bool := match o with Some _ => true | None => false end.
Fixpoint cache_keys (l : list (str * pcache)) (seen : list str) : list pcache :=
  match l with
  | [] => []
  | (k, p) :: r => if smem k seen then cache_keys r seen else p :: cache_keys r (k :: seen)
  end.
Definition has_label (c : dctx) (label : str) : bool :=
  existsb (fun p => is_some (lookup label (pc_labels p))) (cache_keys (dc_cache c) []).

Section WithTables.
Variable U : uni.
Variable FT : ftable.
Variable AT : atable.

Definition last_ext (c : dctx) : option ext := last_opt (dc_exts c).
Definition same_pat (c : dctx) (p : pattern) : list ext :=
  filter (fun x => pat_eqb (x_pat x) p) (dc_exts c).

(* The checks of add, dialplan.py:343-396: the pattern and priority the
   extension gets, None if it is refused. *)
Definition add_check (g : glob) (c : dctx) (x : xline) : M (option (pattern * Z)) :=
  let w := i_where x in
  let badorder p a := memit W_DP_PRIO_BADORDER w [(L "pat", AStr (praw p)); (L "prio", a)] in
  do* op <- (match i_pat x with
             | Some p => mret (Some p)
             | None => match last_ext c with
                       | Some y => mret (Some (x_pat y))
                       | None => do* _ <- memit E_DP_PAT_MISSING w []; mret None
                       end
             end);
  match op with
  | None => mret None
  | Some p =>
    match i_prio x with
    | None =>
      match g_last g with
      | None | Some 0%Z =>
        do* _ <- memit E_DP_PRIO_MISSING w [(L "pat", AStr (praw p))]; mret None
      | Some n =>
        do* bad <- (match dc_last c with
                    | None | Some 0%Z => mret true
                    | Some _ => match last_ext c with
                                | Some y => mret (negb (pat_eqb (x_pat y) p))
                                | None => mexn IndexError
                                end
                    end);
        do* _ <- (if bad : bool then badorder p (AStr (L "<unset>")) else mret tt);
        mret (Some (p, (n + 1)%Z))
      end
    | Some q =>
      if (q <? 1)%Z then
        do* _ <- memit E_DP_PRIO_INVALID w [(L "prio", AInt q)]; mret None
      else if (q =? 1)%Z then mret (Some (p, q))
      else
        do* _ <- (match last_opt (same_pat c p) with
                  | None => badorder p (AInt q)
                  | Some y => if negb (x_prio y =? q - 1)%Z && negb (x_prio y =? q)%Z
                              then badorder p (AInt q) else mret tt
                  end);
        mret (Some (p, q))
    end
  end.

(* The pattern cache, dialplan.py:403-437.  None if the priority is a
   duplicate; otherwise the label that is kept, the entry, and the label for
   all_labels.  previous= gets the Extension; the model has its position. *)
Definition add_cache (c : dctx) (p : pattern) (q : Z) (x : xline)
  : M (option (option str * pcache * list str)) :=
  let w := i_where x in
  let self l := Ext p q l (i_raw x) w in
  match lookup (canonical (pv p)) (dc_cache c) with
  | None =>
    let e := self (i_label x) in
    mret (Some (i_label x,
                PCache (match lab (i_label x) with Some s => [(s, e)] | None => [] end) [(q, e)],
                match lab (i_label x) with Some s => [s] | None => [] end))
  | Some pc =>
    match zlookup q (pc_prios pc) with
    | Some old =>
      do* _ <- mw (emit E_DP_PRIO_DUPE w (Some (x_where old)) [(L "prio", AInt q)]);
      mret None
    | None =>
      match lab (i_label x) with
      | None => let e := self (i_label x) in
                mret (Some (i_label x, PCache (pc_labels pc) ((q, e) :: pc_prios pc), []))
      | Some s =>
        match lookup s (pc_labels pc) with
        | Some old =>
          do* _ <- mw (emit E_DP_LABEL_DUPE w (Some (x_where old)) [(L "label", AStr s)]);
          let e := self (Some []) in
          mret (Some (Some [], PCache (pc_labels pc) ((q, e) :: pc_prios pc), []))
        | None =>
          let e := self (i_label x) in
          mret (Some (i_label x, PCache ((s, e) :: pc_labels pc) ((q, e) :: pc_prios pc), [s]))
        end
      end
    end
  end.

(* One jump destination, dialplan.py:439-456 *)
Definition exten_env (s : str) (k : str) : option str :=
  if str_eqb k (L "EXTEN") then Some s else None.
Definition mk_jump (name : str) (p : pattern) (w : loc) (d : dest) : res jump :=
  let c := match d_ctx d with Some t => if truthy t then t else TS name | None => TS name end in
  let! e := match d_ext d with
            | Some t =>
              if truthy t then
                match t with
                | TS _ => Ok t
                | _ => let! ex := example (pv p) in
                       match tformat (exten_env ex) t with
                       | Ok s => Ok (TS s)
                       | Exn KeyError => Ok t
                       | Exn e => Exn e
                       | Hang => Hang
                       end
                end
              else let! ex := example (pv p) in Ok (TS ex)
            | None => let! ex := example (pv p) in Ok (TS ex)
            end in
  let! q := match d_prio d with
            | SlTok (TS s) => if sisdigit U s then let! z := int_of U s in Ok (JInt z) else Ok (JTok (TS s))
            | SlTok t => Ok (JTok t)
            | SlList l => Ok (JList l)
            end in
  Ok (Jump c e q w).
(* The jumps are appended one by one; the ones before a failing one stay, but
   then the exception ends the run. *)
Fixpoint mk_jumps (name : str) (p : pattern) (w : loc) (ds : list dest) : res (list jump) :=
  match ds with
  | [] => Ok []
  | d :: r => let! j := mk_jump name p w d in let! js := mk_jumps name p w r in Ok (j :: js)
  end.

(* DialplanContext.add: dialplan.py:343-458 *)
Definition ctx_add (g : glob) (c : dctx) (x : xline) : M (glob * dctx) :=
  let c0 := set_sorted c None in
  do* r <- add_check g c x;
  match r with
  | None => mret (g, c0)
  | Some (p, q) =>
    let g1 := Glob (Some q) (g_jumps g) (g_labels g) in
    let c1 := DCtx (dc_name c) (dc_where c) (dc_exts c) (dc_includes c) (Some q) (dc_cache c) None in
    do* o <- add_cache c p q x;
    match o with
    | None => mret (g1, c1)
    | Some (label, pc, labels) =>
      do* js <- mlift (mk_jumps (dc_name c) p (i_where x) (i_dests x));
      mret (Glob (Some q) (g_jumps g ++ js) (labels ++ g_labels g),
            DCtx (dc_name c) (dc_where c) (dc_exts c ++ [Ext p q label (i_raw x) (i_where x)])
                 (dc_includes c) (Some q) ((canonical (pv p), pc) :: dc_cache c) None)
    end
  end.

(* DialplanVarset.from_varset: dialplan.py:467-527, 634-636 *)
Inductive dvar := DExt (x : xline) | DInc (name : str) (w : loc).

(* dialplan.py:634-636; an arrow that was never set is an AttributeError *)
Definition expect_arrow (v : varset) : M unit :=
  match v_arrow v with
  | Some true => mret tt
  | Some false => memit H_CONF_NO_ARROW (v_where v) []
  | None => mexn AttributeError
  end.

(* s.split(c, 1): before and after the first c *)
Definition cut1 (c : N) (s : str) : option (str * str) :=
  match ssplit c (Some 1%nat) s with
  | [a; b] => Some (a, b)
  | _ => None
  end.

Definition from_varset (v : varset) : M (option dvar) :=
  let w := v_where v in
  let var := v_variable v in
  if str_eqb var (L "exten") || str_eqb var (L "same") then
    do* _ <- expect_arrow v;
    do* (pat, rest) <- (if str_eqb var (L "exten")
                        then match cut1 44 (v_value v) with
                             | Some (p, r) => mret (p, r)
                             | None => mexn ValueError
                             end
                        else mret ([], v_value v));
    let (prio0, app) := match cut1 44 rest with Some r => r | None => (rest, []) end in
    let (prio, label) := match cut1 40 prio0 with Some (a, b) => (a, Some b) | None => (prio0, None) end in
    do* prio' <- (if str_eqb prio (L "n") then mret (Some None)
                  else if sisdigit U prio then do* z <- mlift (int_of U prio); mret (Some (Some z))
                  else if str_eqb prio (L "hint") then
                    do* _ <- memit I_NOTIMPL_HINT w []; mret None
                  else do* _ <- memit E_DP_PRIO_INVALID w [(L "prio", AStr prio)]; mret None);
    match prio' with
    | None => mret None
    | Some q =>
      do* label' <- (match label with
                     | None => mret (Some None)
                     | Some s => if endswith [41] s then mret (Some (Some (drop_last s)))
                                 else do* _ <- memit E_DP_LABEL_INVALID w []; mret None
                     end);
      match label' with
      | None => mret None
      | Some lb =>
        do* p <- (match pat with
                  | [] => mret None
                  | _ => do* p <- mlift (mk_pattern pat); mret (Some p)
                  end);
        do* ds <- application U FT AT app w;
        mret (Some (DExt (XLine p q lb app ds w)))
      end
    end
  else if str_eqb var (L "include") then
    do* _ <- expect_arrow v; mret (Some (DInc (v_value v) w))
  else if str_eqb var (L "switch") then
    do* _ <- expect_arrow v; do* _ <- memit I_NOTIMPL_SWITCH w []; mret None
  else if str_eqb var (L "ignorepat") then
    do* _ <- expect_arrow v; do* _ <- memit I_NOTIMPL_IGNOREPAT w []; mret None
  else do* _ <- memit E_CONF_KEY_INVALID w [(L "key", AStr var)]; mret None.

(* _curcontext: a plain Context (general, globals) or the DialplanContext of
   that name; _prevcontexts, contexts and contexts_by_name all hold the same
   objects (dialplan.py:607-617). *)
Inductive cur := CurNone | CurPlain | CurCtx (name : str).

(* Dialplan and DialplanAggregator.  Of [general] and [globals] only the
   position is used; their varsets are never read. *)
Record dplan := DPlan { dp_general : option loc; dp_globals : option loc;
                        dp_ctxs : list dctx; dp_glob : glob; dp_cur : cur }.
(* on_begin, dialplan.py:575-578 *)
Definition dp_init : dplan := DPlan None None [] (Glob None [] []) CurNone.

Fixpoint find_ctx (name : str) (l : list dctx) : option dctx :=
  match l with
  | [] => None
  | c :: r => if str_eqb (dc_name c) name then Some c else find_ctx name r
  end.
Fixpoint set_ctx (c : dctx) (l : list dctx) : list dctx :=
  match l with
  | [] => []
  | x :: r => if str_eqb (dc_name x) (dc_name c) then c :: r else x :: set_ctx c r
  end.

(* add_general, add_globals: dialplan.py:118-136.  A Context has no extend. *)
Definition add_general (d : dplan) (w : loc) : M dplan :=
  match dp_general d with
  | Some old =>
    do* _ <- mw (emit W_CONF_CTX_DUPE w (Some old) []); mexn AttributeError
  | None =>
    do* _ <- (match dp_globals d, dp_ctxs d with
              | None, [] => mret tt
              | _, _ => memit H_DP_GENERAL_MISPLACED w []
              end);
    mret (DPlan (Some w) (dp_globals d) (dp_ctxs d) (dp_glob d) CurPlain)
  end.
Definition add_globals (d : dplan) (w : loc) : M dplan :=
  match dp_globals d with
  | Some old =>
    do* _ <- mw (emit E_DP_GLOBALS_DUPE w (Some old) []);
    mret (DPlan (dp_general d) (dp_globals d) (dp_ctxs d) (dp_glob d) CurPlain)
  | None =>
    do* _ <- (match dp_general d, dp_ctxs d with
              | Some _, [] => mret tt
              | _, _ => memit H_DP_GLOBALS_MISPLACED w []
              end);
    mret (DPlan (dp_general d) (Some w) (dp_ctxs d) (dp_glob d) CurPlain)
  end.

(* on_context, on_dialplancontext: dialplan.py:584-595, 607-617, configobj.py:38-60.  from_context
   constructs a second context object and repeats the template message. *)
Definition on_context (d : dplan) (c : ctx) : M dplan :=
  if str_eqb (c_name c) (L "general") then add_general d (c_where c)
  else if str_eqb (c_name c) (L "globals") then add_globals d (c_where c)
  else
    do* _ <- (match c_templates c with [] => mret tt | _ => memit I_NOTIMPL_TEMPLATES (c_where c) [] end);
    match find_ctx (c_name c) (dp_ctxs d) with
    | Some old =>
      do* new <- mlift (ctx_update old c);
      mret (DPlan (dp_general d) (dp_globals d) (set_ctx new (dp_ctxs d)) (dp_glob d) (CurCtx (c_name c)))
    | None =>
      mret (DPlan (dp_general d) (dp_globals d)
              (dp_ctxs d ++ [DCtx (c_name c) (c_where c) [] [] None [] None]) (dp_glob d)
              (CurCtx (c_name c)))
    end.

(* on_varset, on_dialplanvarset: dialplan.py:597-605, 619-631 *)
Definition on_varset (d : dplan) (v : varset) : M dplan :=
  match dp_cur d with
  | CurNone => do* _ <- memit E_CONF_CTX_MISSING (v_where v) []; mret d
  | CurPlain => mret d
  | CurCtx name =>
    do* o <- from_varset v;
    match o with
    | None => mret d
    | Some dv =>
      match find_ctx name (dp_ctxs d) with
      | None => mexn KeyError                     (* not reached *)
      | Some c =>
        match dv with
        | DExt x =>
          do* _ <- (match i_pat x with
                    | Some p => if is_canonical p then mret tt
                                else memit H_PAT_NON_CANONICAL (i_where x)
                                       [(L "pat", AStr (praw p)); (L "expected", AStr (canonical (pv p)))]
                    | None => mret tt
                    end);
          do* (g, c') <- ctx_add (dp_glob d) c x;
          mret (DPlan (dp_general d) (dp_globals d) (set_ctx c' (dp_ctxs d)) g (dp_cur d))
        | DInc n w =>
          mret (DPlan (dp_general d) (dp_globals d)
                  (set_ctx (DCtx (dc_name c) (dc_where c) (dc_exts c) (dc_includes c ++ [(n, w)])
                              (dc_last c) (dc_cache c) (dc_sorted c)) (dp_ctxs d)) (dp_glob d) (dp_cur d))
        end
      end
    end
  end.

(* The try block of ConfigAggregator.__iter__, config.py:187-199 *)
Definition on_element (d : dplan) (e : elem) : M dplan :=
  let m := match e with
           | ECtx c => on_context d c
           | EVar v => on_varset d v
           | EEmpty _ _ => mret d
           end in
  match m with
  | (l, Exn _) => (l, Exn ProgrammingError)
  | _ => m
  end.

Fixpoint dp_steps (d : dplan) (es : list elem) : M dplan :=
  match es with
  | [] => mret d
  | e :: r => do* d' <- on_element d e; dp_steps d' r
  end.

(* ConfigAggregator.__iter__ over the stream of the parser: messages and
   elements in the order they occur; an exception of the reader comes last. *)
Fixpoint dp_stream (d : dplan) (evs : list event) (o : res unit) : M dplan :=
  match evs with
  | [] => mlift (let! _ := o in Ok d)
  | EvLine _ _ _ :: r => dp_stream d r o
  | EvMsg m :: r => do* _ <- mlog (LMsg m); dp_stream d r o
  | EvElem e :: r => do* d' <- on_element d e; dp_stream d' r o
  end.

(* get_where, on_complete: dialplan.py:191-207 *)
Definition on_complete (d : dplan) : M unit :=
  match dp_general d, dp_globals d with
  | Some _, Some _ => mret tt
  | gen, globs =>
    match dp_ctxs d with
    | [] => mret tt
    | c :: _ =>
      let w := Where (w_file (dc_where c)) 0 [] in
      do* _ <- (if is_some gen then mret tt else memit H_DP_GENERAL_MISPLACED w []);
      if is_some globs then mret tt else memit H_DP_GLOBALS_MISPLACED w []
    end
  end.

(* next(iter(FileDialplanParser)) after include(name): dialplan-check.py:49-51 *)
Definition parse_dialplan (fuel : nat) (fs : fsys) (name : str) : M dplan :=
  let (evs, o) := vsw_stream (parse_file fuel fs name) in
  do* d <- dp_stream dp_init evs o;
  do* _ <- on_complete d;
  mret d.

(* ---- jump destinations ---- *)

(* exten.prio or exten.label against the priority, dialplan.py:296-306;
   str(None) is 'None' *)
Definition prio_hit (q : jprio) (x : ext) : res bool :=
  match q with
  | JInt z => Ok (x_prio x =? z)%Z
  | JTok (TS s) => Ok (match x_label x with Some l => str_eqb l s | None => false end)
  | JTok t => Ok (could_match t (zstr (x_prio x)) ||
                  could_match t (match x_label x with Some l => l | None => L "None" end))
  | JList _ => Exn AttributeError
  end.
Fixpoint first_hit (q : jprio) (l : list ext) : res (option ext) :=
  match l with
  | [] => Ok None
  | x :: r => let! b := prio_hit q x in if b : bool then Ok (Some x) else first_hit q r
  end.

(* the first loop of match_pattern, dialplan.py:291-306 *)
Fixpoint own_hit (c : dctx) (ps : list pattern) (e : str) (q : jprio) : res (option ext) :=
  match ps with
  | [] => Ok None
  | p :: r =>
    let! b := matches_extension (pv p) e in
    if b : bool then
      let! h := first_hit q (same_pat c p) in
      match h with Some x => Ok (Some x) | None => own_hit c r e q end
    else own_hit c r e q
  end.

(* match_pattern: dialplan.py:287-341.  [ctxs] is contexts_by_name.  The fuel
   bounds the depth of the recursion; Python raises RecursionError there. *)
Fixpoint match_pattern (fuel : nat) (ctxs : list dctx) (c : dctx) (e : str) (q : jprio) : res (option ext) :=
  match fuel with
  | O => Hang
  | S k =>
    let! h := own_hit c (fst (sorted_patterns c)) e q in
    match h with
    | Some x => Ok (Some x)
    | None =>
      let! h2 := (fix incs (l : list (str * loc)) : res (option ext) :=
                    match l with
                    | [] => Ok None
                    | (n, _) :: r =>
                      match find_ctx n ctxs with
                      | None => incs r
                      | Some c' =>
                        let! h := match_pattern k ctxs c' e q in
                        match h with Some x => Ok (Some x) | None => incs r end
                      end
                    end) (dc_includes c) in
      match h2 with
      | Some x => Ok (Some x)
      | None =>
        match q with
        | JInt _ => if str_eqb e (L "i") then Ok None
                    else match_pattern k ctxs c (L "i") (JInt 1)
        | _ => Ok None
        end
      end
    end
  end.

Definition jarg (q : jprio) : arg :=
  match q with JInt z => AInt z | JTok t => targ t | JList l => larg l end.

(* Dialplan.has_label, dialplan.py:138-139 *)
Definition all_label (d : dplan) (s : str) : bool := smem s (g_labels (dp_glob d)).

(* One round of walk_jump_destinations: dialplan.py:152-189 *)
Definition check_jump (fuel : nat) (d : dplan) (j : jump) : M unit :=
  let w := j_where j in
  let ce := [(L "context", targ (j_ctx j)); (L "exten", targ (j_ext j))] in
  match j_ctx j with
  | TS name =>
    match find_ctx name (dp_ctxs d) with
    | None => memit E_DP_GOTO_NOCONTEXT w (ce ++ [(L "prio", jarg (j_prio j))])
    | Some c =>
      match j_ext j with
      | TS e =>
        do* h <- mlift (match_pattern fuel (dp_ctxs d) c e (j_prio j));
        match h with
        | Some _ => mret tt
        | None => memit W_DP_GOTO_CONTEXT_NOEXTEN w (ce ++ [(L "prio", jarg (j_prio j))])
        end
      | _ =>
        match j_prio j with
        | JTok (TS s) =>
          if has_label c s then mret tt
          else memit E_DP_GOTO_CONTEXT_NOLABEL w (ce ++ [(L "label", AStr s)])
        | _ => mret tt
        end
      end
    end
  | _ =>
    match j_prio j with
    | JTok (TS s) => if all_label d s then mret tt
                     else memit E_DP_GOTO_NOLABEL w (ce ++ [(L "label", AStr s)])
    | _ => mret tt
    end
  end.
Fixpoint walk_jumps (fuel : nat) (d : dplan) (js : list jump) : M unit :=
  match js with
  | [] => mret tt
  | j :: r => do* _ <- check_jump fuel d j; walk_jumps fuel d r
  end.

(* Enough for every search that ends, see C12. *)
Definition jump_fuel (d : dplan) : nat := S (2 * length (dp_ctxs d)).
Definition walk_jump_destinations (d : dplan) : M unit :=
  walk_jumps (jump_fuel d) d (g_jumps (dp_glob d)).

End WithTables.

(* ---- dialplan show ---- *)

(* '%-14s' *)
Definition ljust (n : nat) (s : str) : str := s ++ repeat 32 (n - length s).

(* app_with_parens, dialplan.py:551-561 *)
Definition with_parens (raw : str) : str :=
  raw ++ (if memb 40 raw then [] else [40]) ++ (if memb 41 raw then [] else [41]).

Definition prio_app (x : ext) : str := zstr (x_prio x) ++ L ". " ++ with_parens (x_raw x).
Definition show_label (x : ext) : str :=
  match lab (x_label x) with Some s => L "[" ++ s ++ L "]" | None => [] end.
Definition tail_col (s : str) : str := L " " ++ ljust 45 s ++ L " [pbx_config]".

(* the loop of format_as_dialplan_show, dialplan.py:223-239 *)
Fixpoint show_exts (last : option pattern) (l : list ext) : list str :=
  match l with
  | [] => []
  | x :: r =>
    let same := match last with Some p => pat_eqb (x_pat x) p | None => false end in
    (if same then L "     " ++ ljust 14 (show_label x) ++ tail_col (prio_app x)
     else L "  " ++ ljust 17 (L "'" ++ praw (x_pat x) ++ L "' =>") ++ tail_col (prio_app x))
    :: show_exts (if same then last else Some (x_pat x)) r
  end.

(* One context; its name is formatted with repr(), which is a parameter. *)
Definition show_ctx (repr : str -> str) (c : dctx) : list str :=
  (L "[ Context " ++ repr (dc_name c) ++ L " created by 'pbx_config' ]")
  :: show_exts None (fst (by_pattern c))
  ++ map (fun i => L "  " ++ ljust 17 (L "Include =>") ++ tail_col (L "'" ++ fst i ++ L "'")) (dc_includes c)
  ++ [[]].

(* format_as_dialplan_show: dialplan.py:209-244 *)
Definition dialplan_show (repr : str -> str) (reverse : bool) (d : dplan) : str :=
  join [10] (flat_map (show_ctx repr) (if reverse then rev (dp_ctxs d) else dp_ctxs d)).
