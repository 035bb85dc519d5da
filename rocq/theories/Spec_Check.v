(* Independent specification of modules-show and of the web service (C42, C43). *)
From Coq Require Import Permutation Sorted.
From Verif Require Import Base PyStr Defines VarFun AppM Spec_Commands Spec_App Check.

(* ---- C43 ---- *)
(* Order of a response: line, then name of the message class. *)
Definition MsgLe (a b : msg) : Prop :=
  w_line (m_where a) < w_line (m_where b) \/
  (w_line (m_where a) = w_line (m_where b) /\ StrLe (mname (m_cls a)) (mname (m_cls b))).
(* [is] reports exactly [ms], in that order and otherwise as raised. *)
Definition Reports (ms : list msg) (is : list issue) : Prop :=
  exists sorted, Permutation sorted ms /\ StronglySorted MsgLe sorted /\
    (forall n c, filter (fun m => (w_line (m_where m) =? n) && str_eqb (mname (m_cls m)) c) sorted =
                 filter (fun m => (w_line (m_where m) =? n) && str_eqb (mname (m_cls m)) c) ms) /\
    is = map (fun m => Issue (w_line (m_where m)) (mname (m_cls m)) (m_args m)) sorted.

(* A log without uses of Background, or without one that decides the spelling. *)
Definition NoBackground (l : list lev) : Prop := forall s w, ~ In (LBg s w) l.
Definition NoSpelling (l : list lev) : Prop := forall s w, In (LBg s w) l -> ~ Accepted s.

(* ---- C42 ---- *)
(* A used key that no module provides. *)
Definition Missing {A} (tab : list (str * A)) (k : str) : Prop := lookup k tab = None.
(* A used key whose entry is the stand-in for unknown ones. *)
Definition StandIn {A} (name : A -> str) (unknown : str) (tab : list (str * A)) (k : str) : Prop :=
  exists a, lookup k tab = Some a /\ name a = unknown.
(* The modules that provide the used keys. *)
Definition Provides {A} (module : A -> str) (tab : list (str * A)) (keys : list str) (m : str) : Prop :=
  exists k a, In k keys /\ lookup k tab = Some a /\ module a = m /\ m <> L "unknown".
