(* Final theorems about func_odbc.conf: C37. *)
From Verif Require Import Base PyStr Defines FileRd Config VSpace VarFun FuncOdbc Spec_FuncOdbc Spec_Dialplan
  FuncOdbc_proofs Tables.

(* The messages and registrations are exactly those of the rules. *)
Theorem C37_run : forall es l fns, fo_run es = (l, Ok fns) <->
  exists os l1 l2, FileRule es os l1 /\ Registers os fns l2 /\ l = l1 ++ l2.
Proof. exact run_iff. Qed.
Print Assumptions C37_run.

Theorem C37_rules_determine : forall es os l os' l', FileRule es os l -> FileRule es os' l' -> os = os' /\ l = l'.
Proof. exact FileRule_fun. Qed.
Print Assumptions C37_rules_determine.

(* Stored keys are distinct, and are the first ones of the section. *)
Theorem C37_first_wins : forall es os l pre secs, FileRule es os l -> Shape es pre secs ->
  Forall2 (fun s o => NoDup (map v_variable (of_vars o)) /\
    forall v, In v (of_vars o) <->
      FirstWith (fun u => v_variable u = v_variable v) (snd s) v /\ In (v_variable v) documented) secs os.
Proof.
  intros es os l pre secs R SH. pose proof (FileRule_good _ _ _ R) as G.
  destruct R as (pre' & secs' & l1 & l2 & SH' & _ & S & _). destruct (Shape_fun _ _ _ _ _ SH SH') as [<- <-].
  clear - S G. induction S as [|c vs o m secs os l2 R S IH]; [constructor|]. inversion G as [|? ? G1 G2]; subst.
  constructor; [|now apply IH]. split; [apply G1|]. destruct R as [st l l1 l0 K I1 I2]. cbn [of_vars snd].
  exact (keys_first vs [] st l K (fun v (H : In v []) => match H with end)).
Qed.
Print Assumptions C37_first_wins.

(* If every element has an arrow flag, the checks never raise; only creating the
   function's class does, for a name with a NUL. *)
Theorem C37_ends : forall es, (forall v, In (EVar v) es -> v_arrow v <> None) -> exists os l, FileRule es os l /\
  ((exists fns, snd (fo_run es) = Ok fns /\ ~ NulName os) \/ (snd (fo_run es) = Exn ValueError /\ NulName os)).
Proof. exact run_ends. Qed.
Print Assumptions C37_ends.

(* Whole files: the reader's messages and those of the sections in order of
   their lines, then those about sections without a query. *)
Theorem C37_file : forall fuel fs name l fns, load_func_odbc fuel fs name = (l, Ok fns) -> exists evs os l1 l2 l3,
  vsw_stream (parse_file fuel fs name) = (evs, Ok tt) /\ FileRule (elems evs) os l1 /\ Registers os fns l2 /\
  Merge (rd_msgs evs) l1 l3 /\ l = l3 ++ l2.
Proof. exact load_rule. Qed.
Print Assumptions C37_file.

Theorem C37_file_ends : forall fuel fs name, let r := snd (load_func_odbc fuel fs name) in
  let (evs, o) := vsw_stream (parse_file fuel fs name) in
  (o <> Ok tt /\ (r = Hang <-> o = Hang) /\ (forall e, r = Exn e <-> o = Exn e)) \/
  (o = Ok tt /\ exists os l, FileRule (elems evs) os l /\
     ((exists fns, r = Ok fns /\ ~ NulName os) \/ (r = Exn ValueError /\ NulName os))).
Proof. exact load_ends. Qed.
Print Assumptions C37_file_ends.

(* A registered function is found by its name; the last one of a name wins and
   other functions are untouched. *)
Theorem C37_registered_found : forall U FT fns k,
  (exists fs1 f fs2, fns = fs1 ++ f :: fs2 /\ u_lower U (f_name f) = k /\
     (forall g, In g fs2 -> u_lower U (f_name g) <> k) /\ lookup k (register_all U fns FT) = Some f) \/
  ((forall g, In g fns -> u_lower U (f_name g) <> k) /\ lookup k (register_all U fns FT) = lookup k FT).
Proof. exact register_lookup. Qed.
Print Assumptions C37_registered_found.

(* The queries of a section; the legacy keys are used only if the new ones have
   no text. *)
Theorem C37_queries : forall es os l o r w i, FileRule es os l -> In o os ->
  queries o = (r, w, i) <->
  Chosen o (L "readsql") (L "read") r /\ Chosen o (L "writesql") (L "write") w /\ Chosen o (L "insertsql") (L "insertsql") i.
Proof.
  intros es os l o r w i R I. pose proof (proj1 (Forall_forall _ _) (FileRule_good _ _ _ R) o I) as G. cbv beta in G.
  assert (HI : or_str (get_variable (of_vars o) (L "insertsql")) None =
    or_str (or_str (get_variable (of_vars o) (L "insertsql")) (get_variable (of_vars o) (L "insertsql"))) None)
    by (destruct (get_variable (of_vars o) (L "insertsql")) as [[|]|]; easy).
  unfold queries. rewrite HI. split.
  - intros [= <- <- <-]. repeat split; now apply or_chosen.
  - intros (H1 & H2 & H3).
    rewrite (Chosen_fun _ _ _ _ _ G H1 (or_chosen o _ _ G)), (Chosen_fun _ _ _ _ _ G H2 (or_chosen o _ _ G)),
      (Chosen_fun _ _ _ _ _ G H3 (or_chosen o _ _ G)). easy.
Qed.
Print Assumptions C37_queries.

(* ---- Example: an invalid, a repeated and a late key, a legacy query ending in
   a semicolon; a section without a query; a section name with lower case. ---- *)
Definition odbc_lines : list str :=
  [L "dsn=x"; L "[FOO]"; L "dsn=db"; L "prefix=MY"; L "dsn=other"; L "colour=red"; L "readsql="; L "read=SELECT 1\;";
   L ""; L "[BAR]"; L "synopsis=nothing"; L ""; L "[baz]"; L "writesql=>UPDATE"].
Definition odbc_text : bytes := flat_map (fun s => s ++ [10]) odbc_lines.
Definition odbc_run : W (list finfo) := Eval vm_compute in load_func_odbc 50 (fs_of [(L "f", odbc_text)]) (L "f").
Definition odbc_es : list elem := Eval vm_compute in
  elems (fst (vsw_stream (parse_file 50 (fs_of [(L "f", odbc_text)]) (L "f")))).

Example C37_example :
  map (fun m => (m_cls m, w_line (m_where m), option_map w_line (m_prev m))) (fst odbc_run) =
    [(E_CONF_CTX_MISSING, 1, None); (W_CONF_KEY_LATE, 4, None); (E_CONF_KEY_DUPE, 5, Some 3);
     (E_CONF_KEY_INVALID, 6, None); (W_ODBC_LEGACY, 8, None); (W_ODBC_TAILSEMI, 8, None);
     (W_ODBC_BADTOKENS, 13, None); (W_WSH_OBJSET, 14, None); (H_CONF_HAS_ARROW, 14, None); (E_ODBC_NOSQL, 10, None)]
  /\ snd odbc_run = Ok [FInfo (L "MY_FOO") (L "func_odbc") FPlain; FInfo (L "ODBC_baz") (L "func_odbc") FPlain]
  /\ load_func_odbc 50 (fs_of [(L "f", odbc_text)]) (L "f") = odbc_run
  /\ (exists os l, FileRule odbc_es os l /\ length os = 3%nat /\
       exists o, In o os /\ queries o = (Some (L "SELECT 1;"), None, None) /\ length (of_vars o) = 4%nat)
  /\ lookup (L "my_foo") (register_all uni_ascii [FInfo (L "MY_FOO") (L "func_odbc") FPlain] funcs_v13) =
       Some (FInfo (L "MY_FOO") (L "func_odbc") FPlain).
Proof.
  split; [vm_compute; reflexivity|]. split; [vm_compute; reflexivity|]. split; [vm_compute; reflexivity|]. split.
  - destruct (steps_pre odbc_es) as (os & l & E & R & _).
    { intros v I. unfold odbc_es in I. cbn [In] in I.
      repeat (destruct I as [E|I]; [try discriminate E; injection E as <-; discriminate|]). destruct I. }
    exists os, l. split; [exact R|]. clear R. assert (X := f_equal snd E). cbn [snd] in X.
    assert (Y : exists st, snd (fo_steps [] odbc_es) = Ok st /\ length st = 3%nat /\
      exists o, In o st /\ queries o = (Some (L "SELECT 1;"), None, None) /\ length (of_vars o) = 4%nat).
    { eexists. split; [vm_compute; reflexivity|]. split; [reflexivity|]. eexists.
      split; [right; right; left; reflexivity|]. split; vm_compute; reflexivity. }
    destruct Y as (st & Y & LS & o & IO & H). rewrite Y in X. injection X as ->. rewrite rev_length in LS.
    split; [easy|]. exists o. split; [now apply in_rev|easy].
  - vm_compute; reflexivity.
Qed.

(* A NUL in a name is not caught. *)
Definition odbc_nul : bytes := L "[A" ++ [0] ++ L "]" ++ [10] ++ L "readsql=x" ++ [10].
Example C37_example_nul : snd (load_func_odbc 50 (fs_of [(L "f", odbc_nul)]) (L "f")) = Exn ValueError.
Proof. vm_compute; reflexivity. Qed.
