(* Declarative side of C68: everything said in a run of vg dialplan-check.  Uses
   the rules of C59 for the same lines under headers that are all different, as
   in C55. *)
From Verif Require Import Base PyStr Defines FileRd Config VSpace Pattern Var VarFun AppM Dialplan Spec_Dialplan Spec_Log
  FuncOdbc Spec_FuncOdbc Check Spec_Check Spec_Run VgRead Spec_VgPlan.

(* [Renamed evs evs' fr]: what is read, where every section that comes again later
   has got another name; fr has the new and the old names. *)
Inductive Renamed : list event -> list event -> list (str * str) -> Prop :=
| Rn_nil : Renamed [] [] []
| Rn_wiped c n evs evs' fr : ~ Special (c_name c) -> In (c_name c) (heads (elems evs)) -> Renamed evs evs' fr ->
    Renamed (EvElem (ECtx c) :: evs) (EvElem (ECtx (Ctx n (c_templates c) (c_comment c) (c_where c))) :: evs') ((n, c_name c) :: fr)
| Rn_kept c evs evs' fr : Special (c_name c) \/ ~ In (c_name c) (heads (elems evs)) -> Renamed evs evs' fr ->
    Renamed (EvElem (ECtx c) :: evs) (EvElem (ECtx c) :: evs') fr
| Rn_other v evs evs' fr : (forall c, v <> EvElem (ECtx c)) -> Renamed evs evs' fr -> Renamed (v :: evs) (v :: evs') fr.

(* The sections that stay. *)
Definition stays (fr : list (str * str)) (n : str) : bool := negb (smem n (map fst fr)).
Definition kept_contexts (fr : list (str * str)) (h : list hev) : list dctx := filter (fun c => stays fr (dc_name c)) (contexts h).

(* The history under the old names: a jump without a context stays in the section
   as it is called. *)
Definition old (fr : list (str * str)) (n : str) : str := match lookup n fr with Some o => o | None => n end.
Definition old_names (fr : list (str * str)) (h : list hev) : list hev :=
  map (fun e => match e with
                | HOpen n w => HOpen (old fr n) w
                | HLine n x f => HLine (old fr n) x f
                | HInc n i w => HInc (old fr n) i w
                | _ => e
                end) h.

(* A missing [general] or [globals] is told at the first section that stays. *)
Inductive VgCompletion (fr : list (str * str)) (h : list hev) : list lev -> Prop :=
| Vc_empty : filter (stays fr) (opened h) = [] -> VgCompletion fr h []
| Vc_some n r w lg lb : filter (stays fr) (opened h) = n :: r ->
    Latest (fun e => exists w, e = HOpen n w) h (HOpen n w) ->
    misplaced H_DP_GENERAL_MISPLACED (Where (w_file w) 0 []) (exists w, In (HGen w) h) lg ->
    misplaced H_DP_GLOBALS_MISPLACED (Where (w_file w) 0 []) (exists w, In (HGlob w) h) lb ->
    VgCompletion fr h (lg ++ lb).

(* A jump to a context that is not known yet is held against the labels of all
   sections, those that are gone too; any other only against those that stay. *)
Definition VgJumpSays (fr : list (str * str)) (h : list hev) (j : jump) (l : list lev) : Prop :=
  is_str (j_ctx j) = false /\ JumpSays (contexts h) j l \/ is_str (j_ctx j) = true /\ JumpSays (kept_contexts fr h) j l.

Section Tables.
Variable U : uni.
Variable FT : ftable.
Variable AT : atable.
Definition VgPlanSays (evs : list event) (fr : list (str * str)) (h : list hev) (l : list lev) : Prop :=
  exists evs' l1 l2, Once (elems evs) /\ Renamed evs evs' fr /\ New (elems evs) fr /\ StreamSays U FT AT [] evs' h l1 /\
    (exists js, JumpsOf U h js) /\ VgCompletion fr h l2 /\ l = l1 ++ l2.
Definition VgWalkSays (fr : list (str * str)) (h : list hev) (l : list lev) : Prop :=
  exists js ls, JumpsOf U (old_names fr h) js /\ Forall2 (VgJumpSays fr h) js ls /\ l = List.concat ls.
End Tables.

Inductive VgOdbcSays (fuel : nat) (fs : fsys) : option str -> list finfo -> list msg -> Prop :=
| Vo_none : VgOdbcSays fuel fs None [] []
| Vo_file f evs os fns l l1 l2 : vsw_stream (vg_parse_file fuel fs f) = (evs, Ok tt) -> FileRule (elems evs) os l ->
    OdbcStream [] evs l1 -> Registers os fns l2 -> VgOdbcSays fuel fs (Some f) fns (l1 ++ l2).
Inductive VgCheckSays (U : uni) (FT : ftable) (AT : atable) (there : str -> bool) (fuel : nat) (fs : fsys)
    (arg : option str) (name : str) : list lev -> Prop :=
| Vk_intro f fns evs fr h l1 l2 l3 : OdbcFile there name arg f -> VgOdbcSays fuel fs f fns l1 ->
    vsw_stream (vg_parse_file fuel fs name) = (evs, Ok tt) -> VgPlanSays U (register_all U fns FT) AT evs fr h l2 -> VgWalkSays U fr h l3 ->
    VgCheckSays U FT AT there fuel fs arg name (map LMsg l1 ++ l2 ++ l3).
