(* Final theorems about the dialplan: C07-C13 and C46. *)
From Verif Require Import Base PyStr Utf8 Defines FileRd Config VSpace Pattern Pattern_proofs Var VarFun AppM Tables
  Dialplan Spec_Dialplan Dialplan_proofs DialplanC_proofs DialplanJ_proofs DialplanK_proofs DialplanL_proofs Spec_Search Search_proofs.

(* The dialplan of the examples. *)
Definition unlines (l : list str) : bytes := flat_map (fun s => s ++ [10]) l.
Definition fs_dp : fsys := fs_of [(L "/e.conf", unlines
  [L "[general]"; L "[globals]";
   L "[a]"; L "exten => 1,1,NoOp(x)"; L "same => n(l),Goto(b,20,1)"; L "same => n(l),NoOp(z)";
   L "exten => 1,2,NoOp(y)";
   L "[b]"; L "include => a"; L "exten => _2X,n,Goto(nolabel)"; L "exten => _1X,1,Goto(c,1,1)";
   L "[a]"; L "exten => _3.,n,Goto(b,1,l)"])].
Definition dp_run : M dplan := Eval vm_compute in parse_dialplan uni_ascii funcs_v13 apps_v13 100 fs_dp (L "/e.conf").
Definition dp_of (m : M dplan) : dplan := match snd m with Ok d => d | _ => dp_init end.
Definition dp_d : dplan := Eval vm_compute in dp_of dp_run.
Lemma dp_parsed : parse_dialplan uni_ascii funcs_v13 apps_v13 100 fs_dp (L "/e.conf") = (fst dp_run, Ok dp_d).
Proof. vm_compute. reflexivity. Qed.
Lemma dp_ready : Ready uni_ascii funcs_v13 apps_v13 dp_d.
Proof. exact (parse_ready _ _ _ _ _ _ _ _ dp_parsed). Qed.
(* Class and line of the messages. *)
Definition brief (l : list lev) : list (mcls * N) :=
  flat_map (fun e => match e with LMsg m => [(m_cls m, w_line (m_where m))] | _ => [] end) l.
(* Pattern, priority, label and line of the extensions. *)
Definition brief_ext (x : ext) : str * Z * option str * N := (praw (x_pat x), x_prio x, x_label x, w_line (x_where x)).

(* ---- C07, C08, C09 ---- *)

(* Reading a file is described by the rules of Spec_Dialplan: the history and
   the messages follow the rules, the dialplan holds what the history says. *)
Theorem C07_run_follows_rules : forall U FT AT es l d, dp_steps U FT AT dp_init es = (l, Ok d) ->
  exists h, History U FT AT es h l /\ Describes U h d.
Proof. exact dialplan_history. Qed.
Print Assumptions C07_run_follows_rules.

(* The rules leave no choice ... *)
Theorem C07_rules_determine : forall U FT AT es h l h' l',
  History U FT AT es h l -> History U FT AT es h' l' -> h = h' /\ l = l'.
Proof. exact history_det. Qed.
Print Assumptions C07_rules_determine.

(* ... and whenever they apply to all elements, and the jumps can be resolved to
   texts, the run succeeds: nothing else makes it fail. *)
Theorem C07_rules_suffice : forall U FT AT es h l, History U FT AT es h l -> (exists js, JumpsOf U h js) ->
  exists d, dp_steps U FT AT dp_init es = (l, Ok d).
Proof. exact history_steps. Qed.
Print Assumptions C07_rules_suffice.

(* The same for a file, with the messages of the reader and the final hints. *)
Theorem C07_file_follows_rules : forall U FT AT fuel fs name l d, parse_dialplan U FT AT fuel fs name = (l, Ok d) ->
  exists evs h l1 l2 l3, vsw_stream (parse_file fuel fs name) = (evs, Ok tt) /\
    History U FT AT (elems evs) h l1 /\ Describes U h d /\
    Merge (ev_msgs evs) l1 l2 /\ Completion h l3 /\ l = l2 ++ l3.
Proof. exact parse_rule. Qed.
Print Assumptions C07_file_follows_rules.

Theorem C07_priority_once : forall U FT AT d c l1 y l2 z l3, Ready U FT AT d -> In c (dp_ctxs d) ->
  dc_exts c = l1 ++ y :: l2 ++ z :: l3 -> SameCanon (x_pat y) (x_pat z) -> x_prio y <> x_prio z.
Proof.
  intros U FT AT d c l1 y l2 z l3 (es & l & H) Hc E SC EP. apply dialplan_history in H as (h & Hh & D).
  pose proof (sa_prio _ (history_sane _ _ _ _ _ _ Hh) (dc_name c)) as N. rewrite <- (de_exts _ _ _ D c Hc), E in N.
  rewrite map_app in N. cbn [map] in N. apply NoDup_remove_2 in N. apply N. apply in_or_app. right. rewrite map_app. apply in_or_app.
  right. left. unfold canon. now rewrite SC, EP.
Qed.
Print Assumptions C07_priority_once.

Theorem C07_first_kept : forall U FT AT es1 es2 l1 d1 l2 d2 c,
  dp_steps U FT AT dp_init es1 = (l1, Ok d1) -> dp_steps U FT AT d1 es2 = (l2, Ok d2) -> In c (dp_ctxs d1) ->
  exists c' new new', In c' (dp_ctxs d2) /\ dc_name c' = dc_name c /\
    dc_exts c' = dc_exts c ++ new /\ dc_includes c' = dc_includes c ++ new'.
Proof. exact stored_kept. Qed.
Print Assumptions C07_first_kept.

Theorem C07_duplicate_dropped : forall U FT AT es h l n x p q y ms f ms', History U FT AT es h l ->
  EffPat h n x p -> EffPrio h n x p q ms -> In y (stored_of h n) -> SameCanon (x_pat y) p -> x_prio y = q ->
  LineRule h n x f ms' ->
  f = Dropped p q y /\ ms' = ms ++ [Msg E_DP_PRIO_DUPE (i_where x) (Some (x_where y)) [(L "prio", AInt q)]].
Proof.
  intros U FT AT es h l n x p q y ms f ms' H EP EQ Hy SC E LR.
  apply (linerule_det h n x f ms' _ _ (history_sane _ _ _ _ _ _ H) LR). now apply LR_duplicate.
Qed.
Print Assumptions C07_duplicate_dropped.

Theorem C08_label_once : forall U FT AT d c l1 y l2 z l3 s, Ready U FT AT d -> In c (dp_ctxs d) ->
  dc_exts c = l1 ++ y :: l2 ++ z :: l3 -> SameCanon (x_pat y) (x_pat z) -> HasLabel y s -> HasLabel z s -> s = [].
Proof.
  intros U FT AT d c l1 y l2 z l3 s (es & l & H) Hc E. apply dialplan_history in H as (h & Hh & D).
  rewrite (de_exts _ _ _ D c Hc) in E. apply (sa_label _ (history_sane _ _ _ _ _ _ Hh) (dc_name c) _ _ _ _ _ _ E).
Qed.
Print Assumptions C08_label_once.

Theorem C08_label_lookup : forall U FT AT d, Ready U FT AT d ->
  (forall s, all_label d s = true <-> all_labels (dp_ctxs d) s) /\
  (forall c s, In c (dp_ctxs d) -> (has_label c s = true <-> ctx_labels c s)).
Proof. intros U FT AT d R. destruct (ready_inv _ _ _ d R) as [h I]. exact (inv_labels U h d I). Qed.
Print Assumptions C08_label_lookup.

Theorem C08_duplicate_wiped : forall U FT AT es h l n x p q ms s y f ms', History U FT AT es h l ->
  EffPat h n x p -> EffPrio h n x p q ms ->
  (forall y, In y (stored_of h n) -> SameCanon (x_pat y) p -> x_prio y <> q) ->
  i_label x = Some s -> s <> [] -> In y (stored_of h n) -> SameCanon (x_pat y) p -> HasLabel y s ->
  LineRule h n x f ms' ->
  f = Stored (Ext p q (Some []) (i_raw x) (i_where x)) /\
  ms' = ms ++ [Msg E_DP_LABEL_DUPE (i_where x) (Some (x_where y)) [(L "label", AStr s)]].
Proof.
  intros U FT AT es h l n x p q ms s y f ms' H EP EQ NP EL NS Hy SC HL LR.
  apply (linerule_det h n x f ms' _ _ (history_sane _ _ _ _ _ _ H) LR). apply LR_stored; [easy|easy|easy|]. now apply EL_dup.
Qed.
Print Assumptions C08_duplicate_wiped.

Theorem C09_priority_positive : forall U FT AT d c x, Ready U FT AT d -> In c (dp_ctxs d) -> In x (dc_exts c) ->
  (1 <= x_prio x)%Z.
Proof.
  intros U FT AT d c x (es & l & H) Hc Hx. apply dialplan_history in H as (h & Hh & D).
  rewrite (de_exts _ _ _ D c Hc) in Hx. apply (sa_pos _ (history_sane _ _ _ _ _ _ Hh) _ _ Hx).
Qed.
Print Assumptions C09_priority_positive.

(* What happens to a line with priority n. *)
Theorem C09_next : forall U FT AT es h l n x p f ms, History U FT AT es h l -> EffPat h n x p -> i_prio x = None ->
  LineRule h n x f ms ->
  ((forall e, In e h -> ~ Accepted e) /\ f = Refused /\
   ms = [Msg E_DP_PRIO_MISSING (i_where x) None [(L "pat", AStr (praw p))]]) \/
  (exists e q rest warn, Latest Accepted h e /\ Accepts e q /\ ms = warn ++ rest /\
   (forall m, In m rest -> m_cls m = E_DP_PRIO_DUPE \/ m_cls m = E_DP_LABEL_DUPE) /\
   ((exists y, f = Dropped p (q + 1) y) \/ (exists y, f = Stored y /\ x_pat y = p /\ x_prio y = (q + 1)%Z)) /\
   ((Continues h n /\ (exists y, last_is (stored_of h n) y /\ SamePat (x_pat y) p) /\ warn = []) \/
    (~ (Continues h n /\ exists y, last_is (stored_of h n) y /\ SamePat (x_pat y) p) /\
     warn = [Msg W_DP_PRIO_BADORDER (i_where x) None [(L "pat", AStr (praw p)); (L "prio", AStr (L "<unset>"))]]))).
Proof.
  intros U FT AT es h l n x p f ms H EP NP LR.
  assert (forall q ms, EffPrio h n x p q ms -> exists e q0 , q = (q0 + 1)%Z /\ Latest Accepted h e /\ Accepts e q0 /\
    ((Continues h n /\ (exists y, last_is (stored_of h n) y /\ SamePat (x_pat y) p) /\ ms = []) \/
    (~ (Continues h n /\ exists y, last_is (stored_of h n) y /\ SamePat (x_pat y) p) /\
     ms = [Msg W_DP_PRIO_BADORDER (i_where x) None [(L "pat", AStr (praw p)); (L "prio", AStr (L "<unset>"))]]))) as K.
  { intros q ms0 [e q0 A1 A2 A3 A4 A5|e q0 A1 A2 A3 A4|A1|q0 l0 y0 r0 A1 A2 A3 A4 A5 A6|q0 A1 A2 A3]; try congruence.
    - exists e, q0. split; [easy|]. split; [easy|]. split; [easy|]. auto.
    - exists e, q0. split; [easy|]. split; [easy|]. split; [easy|]. auto. }
  destruct LR as [A1 A2|p' A1 A2 A3|p' q A1 A2 A3|p' q ms1 y A1 A2 A3 A4 A5|p' q ms1 lb ms2 A1 A2 A3 A4].
  - now destruct (effpat_nonempty _ _ _ _ EP A1).
  - left. rewrite (effpat_det _ _ _ _ _ EP A1). auto.
  - congruence.
  - right. rewrite <- (effpat_det _ _ _ _ _ EP A1) in *. destruct (K _ _ A2) as (e & q0 & -> & K1 & K2 & K3).
    exists e, q0, [pmsg E_DP_PRIO_DUPE x (Some (x_where y)) [(L "prio", AInt (q0 + 1))]], ms1.
    split; [easy|]. split; [easy|]. split; [easy|]. split; [intros m [<-|[]]; now left|]. split; [left; now exists y|easy].
  - right. rewrite <- (effpat_det _ _ _ _ _ EP A1) in *. destruct (K _ _ A2) as (e & q0 & -> & K1 & K2 & K3).
    exists e, q0, ms2, ms1. split; [easy|]. split; [easy|]. split; [easy|]. split.
    + intros m Hm. destruct A4; cbn in Hm; try easy. destruct Hm as [<-|[]]. now right.
    + split; [right; now eexists|easy].
Qed.
Print Assumptions C09_next.

(* Line 6 repeats a label, line 7 a priority; n in line 10 continues the
   counting of context a in context b, n in line 13 that of line 11. *)
Example C07_example : Ready uni_ascii funcs_v13 apps_v13 dp_d /\
  brief (fst dp_run) =
    [(E_DP_LABEL_DUPE, 6); (W_DP_PRIO_BADORDER, 7); (E_DP_PRIO_DUPE, 7); (H_WSV_CTX_BETWEEN, 8);
     (W_DP_PRIO_BADORDER, 10); (H_WSV_CTX_BETWEEN, 12); (W_DP_PRIO_BADORDER, 13)] /\
  map (fun c => (dc_name c, map brief_ext (dc_exts c))) (dp_ctxs dp_d) =
    [(L "a", [(L "1", 1%Z, None, 4); (L "1", 2%Z, Some (L "l"), 5); (L "1", 3%Z, Some [], 6); (L "_3.", 2%Z, None, 13)]);
     (L "b", [(L "_2X", 3%Z, None, 10); (L "_1X", 1%Z, None, 11)])].
Proof. split; [exact dp_ready|]. split; vm_compute; reflexivity. Qed.
Example C08_example : all_label dp_d (L "l") = true /\ all_label dp_d (L "nolabel") = false /\
  map (fun c => has_label c (L "l")) (dp_ctxs dp_d) = [true; false].
Proof. repeat split; vm_compute; reflexivity. Qed.
(* The rules apply to the example and its jumps can be resolved. *)
Definition dp_ctx (n : str) : dctx := match find_ctx n (dp_ctxs dp_d) with Some c => c | None => new_ctx [] (Where [] 0 []) end.
Lemma dp_ctx_in : In (dp_ctx (L "a")) (dp_ctxs dp_d) /\ In (dp_ctx (L "b")) (dp_ctxs dp_d).
Proof. vm_compute. auto. Qed.
Example C07_example_rules : exists es h l, History uni_ascii funcs_v13 apps_v13 es h l /\
  (exists js, JumpsOf uni_ascii h js) /\ length (stored_of h (L "a")) = 4%nat /\ length (stored_of h (L "b")) = 2%nat.
Proof.
  destruct dp_ready as (es & l & H). destruct (dialplan_history _ _ _ _ _ _ H) as (h & Hh & D). exists es, h, l.
  split; [exact Hh|]. split; [exists (g_jumps (dp_glob dp_d)); apply D|]. destruct dp_ctx_in as [A B].
  pose proof (de_exts _ _ _ D _ A) as EA. pose proof (de_exts _ _ _ D _ B) as EB.
  assert (dc_name (dp_ctx (L "a")) = L "a") as NA by (vm_compute; reflexivity).
  assert (dc_name (dp_ctx (L "b")) = L "b") as NB by (vm_compute; reflexivity).
  rewrite NA in EA. rewrite NB in EB. rewrite <- EA, <- EB. split; vm_compute; reflexivity.
Qed.

(* ---- C10 ---- *)

(* Whatever is done to a context between two listings. *)
Theorem C10_listing : forall U n w c, CSteps U (new_ctx n w) c -> Listing (dc_exts c) (fst (by_pattern c)).
Proof. exact csteps_listing. Qed.
Print Assumptions C10_listing.
Theorem C10_listing_determined : forall stored out out', Listing stored out -> Listing stored out' -> out = out'.
Proof. exact listing_det. Qed.
Print Assumptions C10_listing_determined.
(* The memoised list is never stale. *)
Theorem C10_memo_fresh : forall U n w c, CSteps U (new_ctx n w) c -> MemoOk c.
Proof. intros U n w c H. apply (csteps_memo U _ _ H). now left. Qed.
Print Assumptions C10_memo_fresh.
(* The text of dialplan show. *)
Theorem C10_show : forall U FT AT repr rv d, Ready U FT AT d -> exists blocks,
  Forall2 (ShowCtx repr) (if rv : bool then rev (dp_ctxs d) else dp_ctxs d) blocks /\
  dialplan_show repr rv d = join [10] (List.concat blocks).
Proof. intros U FT AT repr rv d R. destruct (ready_inv _ _ _ d R) as [h I]. apply show_text. now apply (inv_memos U h). Qed.
Print Assumptions C10_show.

(* List, then add to the front of the order, then list again. *)
Definition c10_line (pat : str) (q : Z) : xline :=
  XLine (match mk_pattern pat with Ok p => Some p | _ => None end) (Some q) None (L "NoOp") [] (Where (L "f") 1 []).
Definition c10_add (c : dctx) (pat : str) (q : Z) : dctx :=
  match snd (ctx_add uni_ascii (Glob None [] []) c (c10_line pat q)) with Ok (_, c') => c' | _ => c end.
Definition c10_c0 : dctx := new_ctx (L "x") (Where (L "f") 1 []).
Definition c10_c1 : dctx := Eval vm_compute in c10_add c10_c0 (L "_X!") 1.
Definition c10_c2 : dctx := Eval vm_compute in c10_add c10_c1 (L "_2X") 1.
Definition c10_c3 : dctx := Eval vm_compute in snd (by_pattern c10_c2).
Definition c10_c4 : dctx := Eval vm_compute in c10_add c10_c3 (L "11") 1.
Definition c10_c5 : dctx := Eval vm_compute in c10_add c10_c4 (L "_X!") 2.
Lemma c10_step c c' pat q : (exists l g, ctx_add uni_ascii (Glob None [] []) c (c10_line pat q) = (l, Ok (g, c'))) -> CStep uni_ascii c c'.
Proof. intros (l & g & H). exact (CS_add _ _ _ _ _ _ _ H). Qed.
Lemma c10_list c c' : snd (by_pattern c) = c' -> CStep uni_ascii c c'.
Proof. intros <-. apply CS_list. Qed.
Example C10_example : CSteps uni_ascii c10_c0 c10_c5 /\ dc_sorted c10_c3 <> None /\
  map brief_ext (dc_exts c10_c5) = [(L "_X!", 1%Z, None, 1); (L "_2X", 1%Z, None, 1); (L "11", 1%Z, None, 1); (L "_X!", 2%Z, None, 1)] /\
  map brief_ext (fst (by_pattern c10_c5)) =
    [(L "11", 1%Z, None, 1); (L "_2X", 1%Z, None, 1); (L "_X!", 1%Z, None, 1); (L "_X!", 2%Z, None, 1)].
Proof.
  split; [|split; [vm_compute; discriminate|split; vm_compute; reflexivity]].
  apply (CSs_cons _ _ c10_c1); [apply (c10_step _ _ (L "_X!") 1); vm_compute; eauto|].
  apply (CSs_cons _ _ c10_c2); [apply (c10_step _ _ (L "_2X") 1); vm_compute; eauto|].
  apply (CSs_cons _ _ c10_c3); [apply c10_list; vm_compute; reflexivity|].
  apply (CSs_cons _ _ c10_c4); [apply (c10_step _ _ (L "11") 1); vm_compute; eauto|].
  apply (CSs_cons _ _ c10_c5); [apply (c10_step _ _ (L "_X!") 2); vm_compute; eauto|].
  constructor.
Qed.
Example C10_example_show : dialplan_show (fun s => L "'" ++ s ++ L "'") true dp_d = join [10]
  [L "[ Context 'b' created by 'pbx_config' ]";
   L "  '_1X' =>          1. Goto(c,1,1)                                [pbx_config]";
   L "  '_2X' =>          3. Goto(nolabel)                              [pbx_config]";
   L "  Include =>        'a'                                           [pbx_config]";
   [];
   L "[ Context 'a' created by 'pbx_config' ]";
   L "  '1' =>            1. NoOp(x)                                    [pbx_config]";
   L "     [l]            2. Goto(b,20,1)                               [pbx_config]";
   L "                    3. NoOp(z)                                    [pbx_config]";
   L "  '_3.' =>          2. Goto(b,1,l)                                [pbx_config]";
   []].
Proof. vm_compute. reflexivity. Qed.

(* ---- C11 ---- *)

Theorem C11_found_is_target : forall U FT AT d c e q k x, Ready U FT AT d -> In c (dp_ctxs d) ->
  match_pattern k (dp_ctxs d) c e q = Ok (Some x) -> Target (dp_ctxs d) c e q x.
Proof. exact ready_search. Qed.
Print Assumptions C11_found_is_target.
Theorem C11_none_is_none : forall U FT AT d c e q k x, Ready U FT AT d -> In c (dp_ctxs d) ->
  match_pattern k (dp_ctxs d) c e q = Ok None -> ~ Target (dp_ctxs d) c e q x.
Proof. exact ready_search_none. Qed.
Print Assumptions C11_none_is_none.
(* For acyclic includes, text that can be encoded, and no list as priority. *)
Theorem C11_search_exact : forall U FT AT d c e q, Ready U FT AT d -> In c (dp_ctxs d) ->
  ~ Cyclic (dp_ctxs d) c -> latin1_str e -> usable q ->
  ((exists x, match_pattern (jump_fuel d) (dp_ctxs d) c e q = Ok (Some x)) <-> exists x, Target (dp_ctxs d) c e q x).
Proof.
  intros U FT AT d c e q R Hc A He Hq. split.
  - intros [x H]. exists x. now apply (ready_search U FT AT d c e q _ x R Hc H).
  - intros [x T]. destruct (ready_acyclic U FT AT d c e q R Hc He Hq A) as [[y|] H]; [now exists y|].
    now destruct (ready_search_none U FT AT d c e q _ x R Hc H).
Qed.
Print Assumptions C11_search_exact.
(* With include cycles too, whenever the search comes back (see C12). *)
Theorem C11_search_returns : forall U FT AT d c e q, Ready U FT AT d -> In c (dp_ctxs d) -> latin1_str e -> usable q ->
  Returns (dp_ctxs d) c e q ->
  ((exists x, match_pattern (jump_fuel d) (dp_ctxs d) c e q = Ok (Some x)) <-> exists x, Target (dp_ctxs d) c e q x).
Proof.
  intros U FT AT d c e q R Hc He Hq HR. split.
  - intros [x H]. exists x. now apply (ready_search U FT AT d c e q _ x R Hc H).
  - intros [x T]. destruct (proj2 (ready_returns U FT AT d c e q R Hc He) HR) as [[y|] H]; [now exists y|].
    now destruct (ready_search_none U FT AT d c e q _ x R Hc H).
Qed.
Print Assumptions C11_search_returns.
(* The context itself comes before its includes, the best pattern first. *)
Theorem C11_own_context_first : forall U FT AT d c e q k x y, Ready U FT AT d -> In c (dp_ctxs d) -> HitIn c e q y ->
  match_pattern k (dp_ctxs d) c e q = Ok (Some x) -> BestIn c e q x.
Proof. exact ready_search_first. Qed.
Print Assumptions C11_own_context_first.

Example C11_example : In (dp_ctx (L "b")) (dp_ctxs dp_d) /\
  (exists x, match_pattern (jump_fuel dp_d) (dp_ctxs dp_d) (dp_ctx (L "b")) (L "1") (JTok (TS (L "l"))) = Ok (Some x) /\ w_line (x_where x) = 5) /\
  match_pattern (jump_fuel dp_d) (dp_ctxs dp_d) (dp_ctx (L "b")) (L "20") (JInt 1) = Ok None.
Proof. split; [vm_compute; auto|]. split; [eexists; split; vm_compute; reflexivity|vm_compute; reflexivity]. Qed.

(* ---- C12 ---- *)

(* The search comes back exactly if no include cycle is below the context, or
   if there is something to find before the first include that leads to one. *)
Theorem C12_returns_exactly : forall U FT AT d c e q, Ready U FT AT d -> In c (dp_ctxs d) -> latin1_str e ->
  ((exists r, match_pattern (jump_fuel d) (dp_ctxs d) c e q = Ok r) <-> Returns (dp_ctxs d) c e q).
Proof. exact ready_returns. Qed.
Print Assumptions C12_returns_exactly.
Theorem C12_otherwise_never : forall U FT AT d c e q, Ready U FT AT d -> In c (dp_ctxs d) -> latin1_str e -> usable q ->
  ((forall k, match_pattern k (dp_ctxs d) c e q = Hang) <-> ~ Returns (dp_ctxs d) c e q).
Proof. exact ready_hangs. Qed.
Print Assumptions C12_otherwise_never.
(* With an include cycle and nothing to find the search never returns. *)
Theorem C12_cycle_never_returns : forall U FT AT d c e q, Ready U FT AT d -> In c (dp_ctxs d) ->
  latin1_str e -> usable q -> Cyclic (dp_ctxs d) c -> (forall x, ~ Target (dp_ctxs d) c e q x) ->
  forall k, match_pattern k (dp_ctxs d) c e q = Hang.
Proof. exact ready_cyclic. Qed.
Print Assumptions C12_cycle_never_returns.
(* The fuel of the model is no restriction. *)
Theorem C12_fuel_suffices : forall U FT AT d c e q, Ready U FT AT d -> In c (dp_ctxs d) ->
  match_pattern (jump_fuel d) (dp_ctxs d) c e q = Hang -> forall k, match_pattern k (dp_ctxs d) c e q = Hang.
Proof. exact ready_enough. Qed.
Print Assumptions C12_fuel_suffices.
Theorem C12_fuel_irrelevant : forall ctxs c e q k k', (k <= k')%nat ->
  match_pattern k ctxs c e q <> Hang -> match_pattern k' ctxs c e q = match_pattern k ctxs c e q.
Proof. intros ctxs c e q k k'. apply mp_mono. Qed.
Print Assumptions C12_fuel_irrelevant.

Definition fs_loop : fsys := fs_of [(L "/e.conf", unlines
  [L "[general]"; L "[globals]"; L "[a]"; L "include => b"; L "exten => 1,1,Goto(2,1)"; L "[b]"; L "include => a"])].
Definition loop_d : dplan := Eval vm_compute in dp_of (parse_dialplan uni_ascii funcs_v13 apps_v13 100 fs_loop (L "/e.conf")).
Theorem C12_always_returns_refuted : exists d c e q, Ready uni_ascii funcs_v13 apps_v13 d /\ In c (dp_ctxs d) /\
  latin1_str e /\ usable q /\ (forall k, match_pattern k (dp_ctxs d) c e q = Hang) /\
  snd (walk_jump_destinations d) = Hang.
Proof.
  assert (exists l, parse_dialplan uni_ascii funcs_v13 apps_v13 100 fs_loop (L "/e.conf") = (l, Ok loop_d)) as [l P]
    by (eexists; vm_compute; reflexivity).
  apply parse_ready in P. destruct (dp_ctxs loop_d) as [|c cs] eqn:E; [discriminate E|].
  exists loop_d, c, (L "2"), (JInt 1). split; [easy|]. rewrite E. split; [now left|]. split; [repeat constructor|]. split; [easy|].
  split; [|vm_compute; reflexivity]. rewrite <- E. apply (ready_enough _ _ _ _ _ _ _ P); [rewrite E; now left|].
  assert (c = hd c (dp_ctxs loop_d)) as -> by now rewrite E. vm_compute. reflexivity.
Qed.
Print Assumptions C12_always_returns_refuted.

(* There is a cycle, but the target comes before it. *)
Definition fs_late : fsys := fs_of [(L "/e.conf", unlines
  [L "[general]"; L "[globals]"; L "[a]"; L "include => c"; L "include => b"; L "include => a"; L "exten => 1,1,Goto(2,1)"; L "[b]"; L "exten => 2,1,NoOp(x)";
   L "[c]"; L "exten => 3,1,NoOp(x)"])].
Definition late_d : dplan := Eval vm_compute in dp_of (parse_dialplan uni_ascii funcs_v13 apps_v13 100 fs_late (L "/e.conf")).
Definition late_ctx (n : nat) : dctx := nth n (dp_ctxs late_d) (new_ctx [] (Where [] 0 [])).
Lemma late_incl n c : In c (dp_ctxs late_d) -> Incl (dp_ctxs late_d) (late_ctx (S n)) c -> False.
Proof. intros _ [_ [w Hw]]. destruct n as [|[|n]]; [exact Hw|exact Hw|]. now destruct n. Qed.
Lemma late_acyclic n : ~ Cyclic (dp_ctxs late_d) (late_ctx (S n)).
Proof.
  intros (c1 & c2 & R & I & _). inversion R as [|? c' ? I1 _]; subst; [now apply (late_incl n c2); [apply I|]|now apply (late_incl n c'); [apply I1|]].
Qed.
Example C12_example : Cyclic (dp_ctxs late_d) (late_ctx 0) /\ Returns (dp_ctxs late_d) (late_ctx 0) (L "2") (JInt 1) /\
  snd (walk_jump_destinations late_d) = Ok tt.
Proof.
  assert (In (late_ctx 0) (dp_ctxs late_d) /\ In (late_ctx 1) (dp_ctxs late_d) /\ In (late_ctx 2) (dp_ctxs late_d)) as (I0 & I1 & I2) by (repeat split; apply nth_In; vm_compute; lia).
  split; [|split; [|vm_compute; reflexivity]].
  - exists (late_ctx 0), (late_ctx 0). split; [constructor|]. split; [|constructor]. split; [easy|].
    exists (snd (nth 2 (dc_includes (late_ctx 0)) ([], Where [] 0 []))). vm_compute. auto.
  - right. apply (Fi_below _ _ _ _ [nth 0 (dc_includes (late_ctx 0)) ([], Where [] 0 [])] (snd (nth 1 (dc_includes (late_ctx 0)) ([], Where [] 0 [])))
      [nth 2 (dc_includes (late_ctx 0)) ([], Where [] 0 [])] (late_ctx 1) (nth 0 (dc_exts (late_ctx 1)) (Ext (mkpat [] (mkv 0 [])) 0 None [] (Where [] 0 [])))); [reflexivity|easy| |apply late_acyclic|].
    + intros n u c1 [[= <- <-]|[]] Hc1 En. assert (c1 = late_ctx 2) as ->.
      { destruct Hc1 as [<-|[<-|[<-|[]]]]; try (vm_compute in En; discriminate En). reflexivity. }
      split; [apply late_acyclic|]. intros y (c' & R & H). inversion R as [|? c2 ? I _]; subst; [|now apply (late_incl 1 c2); [apply I|]].
      destruct H as [([<-|[]] & M & _)|(_ & _ & [<-|[]] & M & _)]; vm_compute in M; discriminate M.
    + exists (late_ctx 1). split; [constructor|]. left. split; [now left|]. split; vm_compute; reflexivity.
Qed.

(* ---- C13 ---- *)

Theorem C13_report_exact : forall U FT AT d l, Ready U FT AT d -> walk_jump_destinations d = (l, Ok tt) ->
  exists ls, Forall2 (Report (dp_ctxs d)) (g_jumps (dp_glob d)) ls /\ l = List.concat ls.
Proof. exact ready_walk. Qed.
Print Assumptions C13_report_exact.
Theorem C13_report_determined : forall U FT AT d j l l', Ready U FT AT d ->
  Report (dp_ctxs d) j l -> Report (dp_ctxs d) j l' -> l = l'.
Proof. exact ready_report_det. Qed.
Print Assumptions C13_report_determined.
Theorem C13_report_ends : forall U FT AT d, Ready U FT AT d -> Forall (checkable (dp_ctxs d)) (g_jumps (dp_glob d)) ->
  exists l, walk_jump_destinations d = (l, Ok tt).
Proof. exact ready_walk_ends. Qed.
Print Assumptions C13_report_ends.
(* The destinations are those of the stored lines, in file order. *)
Theorem C13_destinations : forall U FT AT es l d, dp_steps U FT AT dp_init es = (l, Ok d) ->
  exists h, History U FT AT es h l /\ JumpsOf U h (g_jumps (dp_glob d)).
Proof. intros U FT AT es l d H. apply dialplan_history in H as (h & H & D). exists h. split; [easy|apply D]. Qed.
Print Assumptions C13_destinations.

Example C13_example : map (fun j => w_line (j_where j)) (g_jumps (dp_glob dp_d)) = [5; 10; 11; 13] /\
  snd (walk_jump_destinations dp_d) = Ok tt /\
  brief (fst (walk_jump_destinations dp_d)) =
    [(W_DP_GOTO_CONTEXT_NOEXTEN, 5); (W_DP_GOTO_CONTEXT_NOEXTEN, 10); (E_DP_GOTO_NOCONTEXT, 11)].
Proof. repeat split; vm_compute; reflexivity. Qed.
Example C13_example_acyclic : ~ Cyclic (dp_ctxs dp_d) (dp_ctx (L "b")).
Proof.
  assert (forall c c', Incl (dp_ctxs dp_d) c c' -> In c (dp_ctxs dp_d) -> dc_name c = L "b" /\ dc_name c' = L "a") as K.
  { intros c c' [Hc' [w Hw]] Hc. destruct Hc as [<-|[<-|[]]]; [now cbn in Hw|].
    destruct Hw as [Hw|[]]. assert (L "a" = dc_name c') as <- by (exact (f_equal fst Hw)). split; reflexivity. }
  intros (c1 & c2 & R1 & I & R2).
  assert (In c1 (dp_ctxs dp_d)) as H1 by (apply (reach_in _ _ _ R1); vm_compute; auto).
  destruct (K c1 c2 I H1) as [E1 E2]. assert (In c2 (dp_ctxs dp_d)) as H2 by apply I.
  inversion R2 as [|c3 c4 c5 I2 R3]; subst; [rewrite E1 in E2; discriminate E2|].
  destruct (K c2 c4 I2 H2) as [E3 _]. rewrite E2 in E3. discriminate E3.
Qed.

(* ---- C46 ---- *)

Theorem C46_line_text : forall U FT AT v l x, from_varset U FT AT v = (l, Ok (Some (DExt x))) <->
  exists pat la lb, LineText U v pat (i_prio x) (i_label x) (i_raw x) /\ i_where x = v_where v /\
    pat_of pat (i_pat x) /\ arrow_msgs v la /\ application U FT AT (i_raw x) (v_where v) = (lb, Ok (i_dests x)) /\ l = la ++ lb.
Proof. exact line_text. Qed.
Print Assumptions C46_line_text.

Example C46_example : let v := Varset (L "exten") (L "_1X,2(lb),Goto(a,(b)") (Some true) false (Where (L "f") 3 []) in
  exists l x, from_varset uni_ascii funcs_v13 apps_v13 v = (l, Ok (Some (DExt x))) /\
    i_prio x = Some 2%Z /\ i_label x = Some (L "lb") /\ i_raw x = L "Goto(a,(b)".
Proof. do 2 eexists. split; [vm_compute; reflexivity|]. repeat split. Qed.

Theorem C46_include_text : forall U FT AT v l i w, from_varset U FT AT v = (l, Ok (Some (DInc i w))) <->
  v_variable v = L "include" /\ arrow_msgs v l /\ i = v_value v /\ w = v_where v.
Proof. exact include_text. Qed.
Print Assumptions C46_include_text.

Theorem C46_no_line : forall U FT AT v l, from_varset U FT AT v = (l, Ok None) <-> NoLine U v l.
Proof. exact no_line. Qed.
Print Assumptions C46_no_line.

Example C46_example_include : from_varset uni_ascii funcs_v13 apps_v13 (Varset (L "include") (L "a|b") (Some false) false (Where (L "f") 3 [])) =
  ([LMsg (msg0 H_CONF_NO_ARROW (Where (L "f") 3 []))], Ok (Some (DInc (L "a|b") (Where (L "f") 3 [])))).
Proof. vm_compute. reflexivity. Qed.
Example C46_example_none : forall v val a, (v, val) = (L "exten", L "1,m(x),NoOp") \/ (v, val) = (L "same", L "hint(x") \/
    (v, val) = (L "switch", L "x") \/ (v, val) = (L "extern", L "1,1,NoOp") ->
  exists l, from_varset uni_ascii funcs_v13 apps_v13 (Varset v val (Some a) false (Where (L "f") 3 [])) = (l, Ok None).
Proof. intros v val a [E|[E|[E|E]]]; injection E as -> ->; destruct a; eexists; vm_compute; reflexivity. Qed.
