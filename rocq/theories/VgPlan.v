(* The VoIPGRID aggregators, contrib/commands/vg.py:153-202: a context that comes
   again is meant to wipe the earlier one. *)
From Verif Require Import Base PyStr Defines FileRd Config VSpace Pattern Var VarFun AppM Aggregator Dialplan.

(* self._dialplan.contexts.remove(oldcontext), vg.py:184: contexts are compared
   by identity; the list has at most one of that name. *)
Fixpoint remove_ctx (n : str) (l : list dctx) : list dctx :=
  match l with
  | [] => []
  | c :: r => if str_eqb (dc_name c) n then r else c :: remove_ctx n r
  end.

(* VoipgridFileDialplanParser.on_context: vg.py:170-187.  _prevcontexts and
   contexts_by_name hold the contexts of the list (dialplan.py:607-617). *)
Definition vg_on_context (d : dplan) (c : ctx) : M dplan :=
  if str_eqb (c_name c) (L "general") && is_some (dp_general d) then mexn AssertionError
  else if str_eqb (c_name c) (L "globals") && is_some (dp_globals d) then mexn AssertionError
  else match find_ctx (c_name c) (dp_ctxs d) with
       | Some _ => on_context (DPlan (dp_general d) (dp_globals d) (remove_ctx (c_name c) (dp_ctxs d)) (dp_glob d) (dp_cur d)) c
       | None => on_context d c
       end.

Section WithTables.
Variable U : uni.
Variable FT : ftable.
Variable AT : atable.

(* The try block of ConfigAggregator.__iter__, config.py:187-199 *)
Definition vg_on_element (d : dplan) (e : elem) : M dplan :=
  let m := match e with
           | ECtx c => vg_on_context d c
           | EVar v => on_varset U FT AT d v
           | EEmpty _ _ => mret d
           end in
  match m with
  | (l, Exn _) => (l, Exn ProgrammingError)
  | _ => m
  end.

(* ConfigAggregator.__iter__ over the elements, config.py:184-199 *)
Fixpoint vg_steps (d : dplan) (es : list elem) : M dplan :=
  match es with
  | [] => mret d
  | e :: r => do* d' <- vg_on_element d e; vg_steps d' r
  end.
End WithTables.

(* VoipgridFileConfigParser.on_context, vg.py:156-163.  _contexts.remove looks
   for the new object itself (Context has no __eq__); every object has its own
   number, [k] is that of the next one.  The rest is that of Aggregator.v. *)
Notation nsec := (nat * ctx * list varset)%type (only parsing).
Fixpoint remove_id (k : nat) (l : list nsec) : list nsec :=
  match l with
  | [] => []
  | (k', c, vs) :: r => if Nat.eqb k k' then r else (k', c, vs) :: remove_id k r
  end.
Definition vg_ag_element (k : nat) (st : list nsec) (e : elem) : W (list nsec) :=
  match e with
  | ECtx c => wret ((k, c, []) :: remove_id k st)
  | EVar v =>
    match st with
    | [] => do! _ <- emit E_CONF_CTX_MISSING (v_where v) None []; wret st
    | (k', c, vs) :: r => wret ((k', c, vs ++ [v]) :: r)
    end
  | EEmpty _ _ => wret st
  end.
Fixpoint vg_ag_steps (k : nat) (st : list nsec) (es : list elem) : W (list nsec) :=
  match es with
  | [] => wret st
  | e :: r => do! st' <- vg_ag_element k st e; vg_ag_steps (S k) st' r
  end.
Definition vg_ag_run (es : list elem) : W (list (ctx * list varset)) :=
  do! st <- vg_ag_steps 0 [] es; wret (map (fun s => (snd (fst s), snd s)) (rev st)).
