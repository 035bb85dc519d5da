(* Declarative side of C50: the sections of a configuration file. *)
From Verif Require Import Base PyStr Defines FileRd Config Spec_FuncOdbc.

Definition ev_ctx (e : event) : Prop := exists c, e = EvElem (ECtx c).
Definition opens_section (evs : list event) : Prop := exists e r, evs = e :: r /\ ev_ctx e.

(* The messages that one event gives: the reader's own; before the first section
   header ([early]) a setting is a complaint. *)
Inductive Gives (early : Prop) : event -> list msg -> Prop :=
| Gv_line w d c : Gives early (EvLine w d c) []
| Gv_msg m : Gives early (EvMsg m) [m]
| Gv_lost v : early -> Gives early (EvElem (EVar v)) [msg0 E_CONF_CTX_MISSING (v_where v)]
| Gv_kept v : ~ early -> Gives early (EvElem (EVar v)) []
| Gv_ctx c : Gives early (EvElem (ECtx c)) []
| Gv_empty w c : Gives early (EvElem (EEmpty w c)) [].
Inductive GivesAll (early : Prop) : list event -> list msg -> Prop :=
| Ga_nil : GivesAll early [] []
| Ga_cons e evs l l' : Gives early e l -> GivesAll early evs l' -> GivesAll early (e :: evs) (l ++ l').
Definition Told (evs : list event) (l : list msg) : Prop := exists a b la lb, evs = a ++ b /\
  (forall e, In e a -> ~ ev_ctx e) /\ (b = [] \/ opens_section b) /\
  GivesAll True a la /\ GivesAll False b lb /\ l = la ++ lb.
