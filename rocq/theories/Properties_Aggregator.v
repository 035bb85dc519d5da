(* Final theorems about plain configuration files: C50. *)
From Verif Require Import Base PyStr Defines FileRd Config VSpace VarFun FuncOdbc Spec_FuncOdbc Spec_Dialplan
  FuncOdbc_proofs Aggregator Spec_Aggregator Aggregator_proofs Tables.

(* Every sequence of elements has sections, and they are returned as written. *)
Theorem C50_sections : forall es l r, ag_run es = (l, r) <->
  exists pre secs, Shape es pre secs /\ l = map (fun v => msg0 E_CONF_CTX_MISSING (v_where v)) pre /\ r = Ok secs.
Proof. exact run_iff_shape. Qed.
Print Assumptions C50_sections.

(* A whole file: messages in their order, and the outcome. *)
Theorem C50_file : forall fuel fs name l r, parse_config fuel fs name = (l, r) <->
  exists evs o pre secs, vsw_stream (parse_file fuel fs name) = (evs, o) /\ Shape (elems evs) pre secs /\ Told evs l /\
    r = (let! _ := o in Ok secs).
Proof. exact parse_rule. Qed.
Print Assumptions C50_file.

(* No setting is lost or invented: those behind the first header are the ones
   in the sections, in order; of equal headers each has its own section. *)
Theorem C50_settings : forall es l secs, ag_run es = (l, Ok secs) ->
  flat_map (fun e => match e with ECtx c => [c] | _ => [] end) es = map fst secs /\
  exists pre, map m_where l = map v_where pre /\
    flat_map (fun e => match e with EVar v => [v] | _ => [] end) es = pre ++ flat_map snd secs.
Proof. exact settings_kept. Qed.
Print Assumptions C50_settings.

(* ---- Example: a setting before the first header, a header given twice, an
   empty section, a repeated key, white space. ---- *)
Definition conf_lines : list str :=
  [L "; settings"; L "early=1"; L "[a]"; L "x=1"; L "x = 2"; L ""; L "[b]"; L ""; L "[a]"; L "y=>3"].
Definition conf_text : bytes := flat_map (fun s => s ++ [10]) conf_lines.
Definition conf_fs : fsys := fs_of [(L "f", conf_text)].
Example C50_example :
  let '(l, r) := parse_config 50 conf_fs (L "f") in
  map (fun m => (m_cls m, w_line (m_where m))) l = [(E_CONF_CTX_MISSING, 2); (W_WSH_VARSET, 5); (W_WSH_OBJSET, 10)] /\
  (exists secs, r = Ok secs /\
    map (fun s => (c_name (fst s), map (fun v => (v_variable v, v_value v)) (snd s))) secs =
      [(L "a", [(L "x", L "1"); (L "x", L "2")]); (L "b", []); (L "a", [(L "y", L "3")])]).
Proof. vm_compute. split; [reflexivity|]. eexists. split; reflexivity. Qed.
