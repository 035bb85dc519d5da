(* Independent specification of the VoIPGRID dialplan (C55): a section that comes
   again later is as good as a section with another name. *)
From Verif Require Import Base Defines Config Pattern Var VarFun AppM Dialplan Spec_Dialplan.

Definition heads (es : list elem) : list str :=
  flat_map (fun e => match e with ECtx c => [c_name c] | _ => [] end) es.
Definition Special (n : str) : Prop := n = L "general" \/ n = L "globals".

(* The ordinary sections, and each of them where it occurs for the last time. *)
Definition ordinary (l : list str) : list str :=
  filter (fun n => negb (str_eqb n (L "general") || str_eqb n (L "globals"))) l.
Fixpoint last_names (l : list str) : list str :=
  match l with
  | [] => []
  | n :: r => if smem n r then last_names r else n :: last_names r
  end.

(* [Aside es es' fr]: every section of es that comes again later has got another
   name in es'; fr has the new and the old names. *)
Inductive Aside : list elem -> list elem -> list (str * str) -> Prop :=
| As_nil : Aside [] [] []
| As_wiped c n es es' fr : ~ Special (c_name c) -> In (c_name c) (heads es) ->
    Aside es es' fr ->
    Aside (ECtx c :: es) (ECtx (Ctx n (c_templates c) (c_comment c) (c_where c)) :: es') ((n, c_name c) :: fr)
| As_kept c es es' fr : Special (c_name c) \/ ~ In (c_name c) (heads es) ->
    Aside es es' fr -> Aside (ECtx c :: es) (ECtx c :: es') fr
| As_other e es es' fr : (forall c, e <> ECtx c) ->
    Aside es es' fr -> Aside (e :: es) (e :: es') fr.
(* The new names are new. *)
Definition New (es : list elem) (fr : list (str * str)) : Prop :=
  NoDup (map fst fr) /\ forall n, In n (map fst fr) -> ~ Special n /\ ~ In n (heads es).

(* [general] and [globals] occur at most once. *)
Definition Once (es : list elem) : Prop :=
  forall n l1 l2, Special n -> heads es = l1 ++ n :: l2 -> ~ In n l2.

(* A jump without a context stays in the context of the old name. *)
Definition JumpBack (fr : list (str * str)) (j j' : jump) : Prop :=
  j = j' \/ exists n o, In (n, o) fr /\ j_ctx j' = TS n /\ j = Jump (TS o) (j_ext j') (j_prio j') (j_where j').

(* What the dialplan says about the history [h] of the lines with the new names. *)
Record VgDescribes (U : uni) (fr : list (str * str)) (h : list hev) (d : dplan) : Prop := {
  vd_names : map dc_name (dp_ctxs d) = filter (fun n => negb (smem n (map fst fr))) (opened h);
  vd_exts : forall c, In c (dp_ctxs d) -> dc_exts c = stored_of h (dc_name c);
  vd_incs : forall c, In c (dp_ctxs d) -> dc_includes c = includes_of h (dc_name c);
  vd_where : forall c, In c (dp_ctxs d) ->
    Latest (fun e => exists w, e = HOpen (dc_name c) w) h (HOpen (dc_name c) (dc_where c));
  vd_ctx_labels : forall c s, In c (dp_ctxs d) ->
    (has_label c s = true <-> s <> [] /\ exists y, In y (stored_of h (dc_name c)) /\ HasLabel y s);
  (* the labels and jumps of the wiped contexts stay *)
  vd_all_labels : forall s,
    all_label d s = true <-> s <> [] /\ exists n y, In y (stored_of h n) /\ HasLabel y s;
  vd_jumps : exists js, JumpsOf U h js /\ Forall2 (JumpBack fr) (g_jumps (dp_glob d)) js
}.
