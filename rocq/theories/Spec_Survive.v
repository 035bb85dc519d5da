(* Declarative side of C23: which lines, sections and files the linter
   survives. *)
From Verif Require Import Base PyStr Defines Config Pattern Var VarFun AppM Dialplan Spec_Pattern Spec_Var Spec_VarFun
  Spec_App Spec_Args Spec_Dialplan Spec_Search Spec_Crash.

Section Tables.
Variable U : uni.
Variable FT : ftable.
Variable AT : atable.

(* ---- lines ---- *)

(* In a pattern every '[' is closed, with something in between. *)
Definition PatternOk (pat : str) : Prop := forall p, pat = 95 :: p -> Closed p.
(* The priority is n or a number; anything else is reported. *)
Definition PrioOk (prio : str) : Prop := prio = L "n" \/ (prio <> [] /\ Forall (fun c => 48 <= c <= 57) prio).

(* pattern,body or just body *)
Inductive BodyOf (v : varset) (pat body : str) : Prop :=
| Bo_exten : v_variable v = L "exten" -> v_value v = pat ++ 44 :: body -> ~ In 44 pat -> BodyOf v pat body
| Bo_same : v_variable v = L "same" -> pat = [] -> body = v_value v -> BodyOf v pat body.
(* prio(label),app *)
Definition Fields (body prio lt app : str) : Prop :=
  ~ In 44 prio /\ ~ In 40 prio /\ ~ In 44 lt /\ (lt = [] \/ exists t, lt = 40 :: t) /\
  (body = prio ++ lt ++ 44 :: app \/ (body = prio ++ lt /\ app = [])).
Definition LineOf (v : varset) (pat prio lt app : str) : Prop :=
  exists body, BodyOf v pat body /\ Fields body prio lt app.

Definition keys : list str := [L "exten"; L "same"; L "include"; L "switch"; L "ignorepat"].

Inductive SafeLine (v : varset) : Prop :=
| Sl_unknown : ~ In (v_variable v) keys -> SafeLine v
| Sl_other : v_arrow v <> None -> In (v_variable v) [L "include"; L "switch"; L "ignorepat"] -> SafeLine v
| Sl_prio pat prio lt app : v_arrow v <> None -> LineOf v pat prio lt app -> ~ PrioOk prio -> SafeLine v
| Sl_line pat prio lt app lb : v_arrow v <> None -> LineOf v pat prio lt app -> PrioOk prio -> LabelText lt lb ->
    PatternOk pat -> SafeApp U FT AT app -> SafeLine v.
Inductive LineFails (v : varset) : Prop :=
| Lf_arrow : v_arrow v = None -> In (v_variable v) keys -> LineFails v
| Lf_comma : v_variable v = L "exten" -> ~ In 44 (v_value v) -> LineFails v
| Lf_label pat prio lt app : LineOf v pat prio lt app -> PrioOk prio -> (forall lb, ~ LabelText lt lb) -> LineFails v
| Lf_pattern pat prio lt app : LineOf v pat prio lt app -> PrioOk prio -> ~ PatternOk pat -> LineFails v
| Lf_app pat prio lt app : LineOf v pat prio lt app -> PrioOk prio -> AppFails U FT AT app -> LineFails v.
Definition OddLine (v : varset) : Prop :=
  exists pat prio lt app, LineOf v pat prio lt app /\ OddApp U FT AT app.

(* ---- sections ---- *)

Definition Plain (c : ctx) : Prop := c_name c = L "general" \/ c_name c = L "globals".
(* The section that the next line is in. *)
Definition Within (before : list Config.elem) (c : ctx) : Prop :=
  exists a b, before = a ++ ECtx c :: b /\ forall c', ~ In (ECtx c') b.
Definition Seen (before : list Config.elem) (n : str) : Prop := exists c, In (ECtx c) before /\ c_name c = n.

Inductive SafeElem (before : list Config.elem) : Config.elem -> Prop :=
| Se_empty b w : SafeElem before (EEmpty b w)
| Se_general c : c_name c = L "general" -> ~ Seen before (L "general") -> SafeElem before (ECtx c)
| Se_globals c : c_name c = L "globals" -> SafeElem before (ECtx c)
| Se_first c : ~ Plain c -> ~ Seen before (c_name c) -> SafeElem before (ECtx c)
| Se_again c : ~ Plain c -> c_comment c = false -> c_templates c = [] -> SafeElem before (ECtx c)
| Se_outside v : (forall c, ~ In (ECtx c) before) -> SafeElem before (EVar v)
| Se_plain v c : Within before c -> Plain c -> SafeElem before (EVar v)
| Se_line v c : Within before c -> ~ Plain c -> AsciiS (v_value v) -> SafeLine v -> SafeElem before (EVar v).
Inductive ElemFails (before : list Config.elem) : Config.elem -> Prop :=
| Ef_general c : c_name c = L "general" -> Seen before (L "general") -> ElemFails before (ECtx c)
| Ef_again c : ~ Plain c -> Seen before (c_name c) -> c_comment c = true \/ c_templates c <> [] ->
    ElemFails before (ECtx c)
| Ef_line v c : Within before c -> ~ Plain c -> AsciiS (v_value v) -> LineFails v -> ElemFails before (EVar v).
Definition OddElem (before : list Config.elem) (e : Config.elem) : Prop :=
  exists v c, e = EVar v /\ Within before c /\ ~ Plain c /\ (OddLine v \/ ~ AsciiS (v_value v)).

Definition Safe (es : list Config.elem) : Prop := forall a e b, es = a ++ e :: b -> SafeElem a e.
Definition Usual (es : list Config.elem) : Prop := forall a e b, es = a ++ e :: b -> ~ OddElem a e.
End Tables.

(* ---- jumps ---- *)

(* If the context and the extension of a destination are known, the search for
   it comes back. *)
Definition JumpReturns (ctxs : list dctx) (j : jump) : Prop :=
  forall c e, In c ctxs -> j_ctx j = TS (dc_name c) -> j_ext j = TS e -> Returns ctxs c e (j_prio j).
