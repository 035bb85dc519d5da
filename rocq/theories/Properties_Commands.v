(* Final theorems about the front end: C38-C41. *)
From Verif Require Import Base PyStr Regex Defines VarFun Commands Spec_Commands Commands_proofs.
From Coq Require Import Permutation Sorted.

(* ---- C38 ---- *)
(* Every class, every history of calls, every constructor: an instance stays, and
   a call returns it or raises. *)
Theorem C38_singletons : forall (Arg Inst : Type) (init : str -> Arg -> option Inst) reinit calls st st' ans,
  single_run init reinit st calls = (st', ans) ->
  (forall c i, lookup c st = Some i -> lookup c st' = Some i) /\
  Forall2 (fun call a => a = None \/ a = lookup (fst call) st') calls ans.
Proof. intros Arg Inst init reinit calls. exact (single_keep init reinit calls). Qed.
Print Assumptions C38_singletons.

(* The calls of AsteriskVersion among calls of any other singletons. *)
Theorem C38_version : forall other calls st' ans, sys_run other [] calls = (st', ans) ->
  VersionAnswers (map snd (filter is_ver calls))
    (map snd (filter (fun x => is_ver (fst x)) (combine calls ans))).
Proof. exact ver_answers. Qed.
Print Assumptions C38_version.

Definition history := [(L "AppLoader", None); (ver_cls, Some (L "v11")); (ver_cls, None); (ver_cls, Some (L "v13"));
  (L "AppLoader", None); (ver_cls, Some []); (ver_cls, Some (L "v11"))].
Example C38_history :
  snd (sys_run (fun c => Some c) [] history) =
    [Some (L "AppLoader"); Some (L "v11"); Some (L "v11"); None; Some (L "AppLoader"); Some (L "v11"); Some (L "v11")].
Proof. vm_compute. reflexivity. Qed.
Example C38_default :
  snd (sys_run (fun c => None) [] [(ver_cls, None); (L "X", None); (ver_cls, Some (L "v11")); (ver_cls, Some (L "v13"))]) =
    [Some (L "v13"); None; None; Some (L "v13")].
Proof. vm_compute. reflexivity. Qed.

(* ---- C39 ---- *)
Theorem C39_wrap : forall text skip maxlen ws, Words text ws -> exists groups,
  List.concat groups = ws /\ Filled (maxlen - (skip + 1)) groups /\
  wrap text skip maxlen = join ([10] ++ repeat 32 skip) (map line_of groups) /\
  Words (wrap text skip maxlen) ws.
Proof. exact wrap_spec. Qed.
Print Assumptions C39_wrap.
(* Every text has words, and one list of them. *)
Theorem C39_words : forall text, exists ws, Words text ws /\ forall ws', Words text ws' -> ws' = ws.
Proof. intros text. exists (words text). split; [apply words_spec|]. intros ws' W. exact (words_fun _ _ W _ (words_spec text)). Qed.
Print Assumptions C39_words.
Example C39_example : wrap (L " Check dialplan  and func_odbc_for_issues now ") 4 20 =
  L "Check dialplan" ++ [10] ++ L "    and" ++ [10] ++ L "    func_odbc_for_issues" ++ [10] ++ L "    now".
Proof. vm_compute. reflexivity. Qed.

(* ---- C40 ---- *)
Theorem C40_names : forall s, command_re s = true <-> CommandName s.
Proof. exact command_iff. Qed.
Print Assumptions C40_names.
Theorem C40_no_path : forall s, command_re s = true ->
  ~ In 47 s /\ ~ In 46 s /\ ~ In 0 s /\ startswith (L "_") s = false /\ startswith (L "-") s = false.
Proof. intros s H. apply name_safe. now apply command_iff. Qed.
Print Assumptions C40_no_path.
(* The file that is loaded is called after the first argument without a dash, and
   is in the first command directory that has such a file: not above or below it.
   The other arguments are passed on. *)
Theorem C40_loaded : forall isfile dirs args path rest, main isfile dirs args = ChRun path rest ->
  (forall d, In d dirs -> exists d0 x, d = d0 ++ [x] /\ x <> 47) ->
  exists command a b d before after, args = a ++ command :: b /\ rest = a ++ b /\
    (forall y, In y a -> exists r, y = 45 :: r) /\ CommandName command /\
    dirs = before ++ d :: after /\ path = d ++ [47] ++ command ++ L ".py" /\ dirname path = d /\
    isfile path = true /\ (forall d', In d' before -> isfile (d' ++ [47] ++ command ++ L ".py") = false).
Proof.
  intros isfile dirs args path rest H D.
  destruct (main_run _ _ _ _ _ H) as (c & a & b & d & x & before & after & E1 & E2 & F & C & _ & ED & EP & EX & FP & NB).
  assert (NS : ~ In 47 x).
  { subst x. intros X. apply in_app_or in X as [X|X]; [exact (proj1 (name_safe c C) X)|]. cbn in X. intuition discriminate. }
  assert (J : forall d, In d dirs -> path_join d x = d ++ [47] ++ x).
  { intros d' HD. destruct (D d' HD) as (d0 & z & -> & NZ). unfold path_join.
    destruct (startswith (L "/") x) eqn:E.
    - apply startswith_app in E as [r E]. rewrite E in NS. exfalso. apply NS. now left.
    - rewrite last_opt_snoc. unfold is_slash. now destruct (N.eqb_spec z 47). }
  assert (ID : In d dirs) by (rewrite ED; apply in_elt).
  exists c, a, b, d, before, after. do 5 (split; [easy|]). split; [rewrite EP, (J d ID); now subst x|].
  split; [|split; [easy|]].
  - rewrite EP. destruct (D d ID) as (d0 & z & -> & NZ). apply dirname_join; [|easy]. unfold is_slash. now destruct (N.eqb_spec z 47).
  - intros d' HD. rewrite <- EX, <- J by (rewrite ED; apply in_or_app; now left). now apply NB.
Qed.
Print Assumptions C40_loaded.
Example C40_runs : main (fun p => str_eqb p (L "/usr/lib/al/commands/dialplan-check.py"))
    [L "/home/me/.asterisklint/commands"; L "/usr/lib/al/commands"] [L "-v"; L "dialplan-check"; L "x.conf"]
  = ChRun (L "/usr/lib/al/commands/dialplan-check.py") [L "-v"; L "x.conf"].
Proof. vm_compute. reflexivity. Qed.
Example C40_rejected : main (fun _ => true) [L "/c"] [L "../evil"] = ChStatus 1 /\
  main (fun _ => true) [L "/c"] [L "__init__"] = ChStatus 1 /\ main (fun _ => false) [L "/c"] [L "no-such"] = ChImportError.
Proof. vm_compute. auto. Qed.
(* $ also matches before a newline at the end: such a name is accepted *)
Example C40_newline : command_re (L "ls" ++ [10]) = true.
Proof. vm_compute. reflexivity. Qed.

(* ---- C41 ---- *)
(* [ids] in two orders, for identifiers that differ in more than case. *)
Theorem C41_same_output_partial : forall lower isupper islower isdigit dist ids ids', Permutation ids ids' ->
  (forall a b, In a ids -> In b ids -> lower a = lower b -> a = b) ->
  print_distance lower isupper islower isdigit dist ids = print_distance lower isupper islower isdigit dist ids'.
Proof. exact distance_same. Qed.
Print Assumptions C41_same_output_partial.
(* The exit status then is 1 if and only if two identifiers that are neighbours in
   either order are similar. *)
Theorem C41_status_partial : forall lower isupper islower isdigit dist ids,
  (forall a b, In a ids -> In b ids -> lower a = lower b -> a = b) ->
  (snd (print_distance lower isupper islower isdigit dist ids) = 1 <->
   exists l a x y b, Permutation l ids /\ (StronglySorted (ByName lower) l \/ StronglySorted (ByLen lower) l) /\
     l = a ++ x :: y :: b /\ x <> [] /\ Similar lower isupper islower isdigit dist x y).
Proof. exact status_spec. Qed.
Print Assumptions C41_status_partial.

(* str methods on ASCII *)
Definition up (c : N) : bool := (65 <=? c) && (c <=? 90).
Definition lo (c : N) : bool := (97 <=? c) && (c <=? 122).
Definition a_lower : str -> str := map (fun c => if up c then c + 32 else c).
Definition a_isupper (s : str) : bool := existsb up s && negb (existsb lo s).
Definition a_islower (s : str) : bool := existsb lo s && negb (existsb up s).
Definition a_isdigit (s : str) : bool := negb (str_eqb s []) && forallb (fun c => (48 <=? c) && (c <=? 57)) s.
Definition scan := print_distance a_lower a_isupper a_islower a_isdigit levenshtein.

(* The same set in two orders: another status. *)
Theorem C41_order_refuted : ~ (forall lower isupper islower isdigit dist ids ids', NoDup ids -> Permutation ids ids' ->
  snd (print_distance lower isupper islower isdigit dist ids) = snd (print_distance lower isupper islower isdigit dist ids')).
Proof.
  intros H. specialize (H a_lower a_isupper a_islower a_isdigit levenshtein [L "ARG1"; L "arg1"; L "ARG2"] [L "arg1"; L "ARG1"; L "ARG2"]).
  assert (X : (1 : N) = 0); [|discriminate].
  transitivity (snd (scan [L "ARG1"; L "arg1"; L "ARG2"])); [vm_compute; reflexivity|].
  transitivity (snd (scan [L "arg1"; L "ARG1"; L "ARG2"])); [|vm_compute; reflexivity].
  apply H; [|constructor]. repeat constructor; cbn; intuition discriminate.
Qed.
Print Assumptions C41_order_refuted.
Example C41_output : scan [L "count"; L "timeout"; L "counts"; L "ARG1"; L "ARG2"] =
  ([L "Identifiers with similar names include:";
    L "  count                             [similar to: counts]";
    L "  counts                            [similar to: count]"; []], 1).
Proof. vm_compute. reflexivity. Qed.
Example C41_output_any : forall ids, Permutation [L "count"; L "timeout"; L "counts"; L "ARG1"; L "ARG2"] ids ->
  snd (scan ids) = 1.
Proof.
  intros ids P. unfold scan. rewrite <- (C41_same_output_partial _ _ _ _ _ _ _ P); [vm_compute; reflexivity|].
  intros a b HA HB. cbn [In] in HA, HB. repeat destruct HA as [<-|HA]; try easy; repeat destruct HB as [<-|HB]; try easy.
Qed.
