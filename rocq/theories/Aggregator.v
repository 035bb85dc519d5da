(* The plain configuration parser: ConfigAggregator as it is used by
   FileConfigParser, config.py:183-225, __init__.py:22-23. *)
From Verif Require Import Base PyStr Defines FileRd Config VSpace.

(* _contexts, newest first: its head is _curcontext; Context.add appends
   (configobj.py:68-69) *)
Notation sec := (ctx * list varset)%type (only parsing).

(* on_context, on_varset, on_emptyline: config.py:211-225.  Nothing in the try
   block (config.py:188-197) raises. *)
Definition ag_element (st : list sec) (e : elem) : W (list sec) :=
  match e with
  | ECtx c => wret ((c, []) :: st)
  | EVar v =>
    match st with
    | [] => do! _ <- emit E_CONF_CTX_MISSING (v_where v) None []; wret st
    | (c, vs) :: r => wret ((c, vs ++ [v]) :: r)
    end
  | EEmpty _ _ => wret st
  end.

Fixpoint ag_steps (st : list sec) (es : list elem) : W (list sec) :=
  match es with
  | [] => wret st
  | e :: r => do! st' <- ag_element st e; ag_steps st' r
  end.

(* __iter__ over the stream of the parser: config.py:184-202 *)
Fixpoint ag_stream (st : list sec) (evs : list event) (o : res unit) : W (list sec) :=
  match evs with
  | [] => wlift (let! _ := o in Ok st)
  | EvLine _ _ _ :: r => ag_stream st r o
  | EvMsg m :: r => do! _ <- ([m], Ok tt); ag_stream st r o
  | EvElem e :: r => do! st' <- ag_element st e; ag_stream st' r o
  end.

(* on_begin, on_yield: config.py:204-209 *)
Definition ag_run (es : list elem) : W (list sec) := do! st <- ag_steps [] es; wret (rev st).
Definition parse_config (fuel : nat) (fs : fsys) (name : str) : W (list sec) :=
  let (evs, o) := vsw_stream (parse_file fuel fs name) in
  do! st <- ag_stream [] evs o; wret (rev st).
