(* Final theorems about ident-scan: C41, C54. *)
From Verif Require Import Base PyStr Defines Var VarFun AppM FileRd Config Tables Dialplan Commands Spec_Dialplan
  Spec_Commands Commands_proofs Properties_Commands Spec_CmdLs Spec_Annotate IdentScan Spec_Ident Ident_proofs IdentRun_proofs.
From Coq Require Import Permutation Sorted.

(* ---- C41 ---- *)
(* What is printed about every list of identifiers: one line for each that has a
   similar neighbour in one of the two orders, with all of these neighbours. *)
Theorem C41_lines : forall lower isupper islower isdigit dist ids ls st, NoDup ids ->
  (Distance lower isupper islower isdigit dist ids ls st <-> print_distance lower isupper islower isdigit dist ids = (ls, st)).
Proof. exact distance_iff. Qed.
Print Assumptions C41_lines.
(* Of the order of the set only that of names which differ only in case matters. *)
Theorem C41_ties : forall lower isupper islower isdigit dist ids ids', NoDup ids -> Permutation ids ids' ->
  (forall a b, lower a = lower b -> Before ids a b -> Before ids' a b) ->
  print_distance lower isupper islower isdigit dist ids = print_distance lower isupper islower isdigit dist ids'.
Proof. exact distance_ties. Qed.
Print Assumptions C41_ties.
(* The outcomes that there are for a set: those of the orders by name, with the
   names that differ only in case in any order. *)
Theorem C41_exact : forall lower isupper islower isdigit dist ids ls st, NoDup ids ->
  (exists ids', Permutation ids ids' /\ print_distance lower isupper islower isdigit dist ids' = (ls, st)) <->
  (exists l, Permutation ids l /\ StronglySorted (ByName lower) l /\ Distance lower isupper islower isdigit dist l ls st).
Proof. exact distance_possible. Qed.
Print Assumptions C41_exact.
(* The exit status can be 1 if and only if two identifiers are similar that can be
   neighbours. *)
Theorem C41_status : forall lower isupper islower isdigit dist ids,
  (exists ids', Permutation ids ids' /\ snd (print_distance lower isupper islower isdigit dist ids') = 1) <->
  (exists l a x y b, Permutation l ids /\ (StronglySorted (ByName lower) l \/ StronglySorted (ByLen lower) l) /\
     l = a ++ x :: y :: b /\ x <> [] /\ Similar lower isupper islower isdigit dist x y).
Proof. exact status_possible. Qed.
Print Assumptions C41_status.
(* ARG1 and arg1 in both orders: the two outcomes. *)
Example C41_example_orders : scan [L "ARG1"; L "arg1"; L "ARG2"] =
    ([L "Identifiers with similar names include:";
      L "  arg1                              [similar to: ARG2]";
      L "  ARG2                              [similar to: arg1]"; []], 1) /\
  scan [L "arg1"; L "ARG1"; L "ARG2"] = ([], 0).
Proof. split; vm_compute; reflexivity. Qed.
(* Lines of names that differ only in case are in the order in which they were
   found: AAAA has a neighbour by name, aaaa only one by length. *)
Example C41_example_rows : scan [L "aaaa"; L "AAAA"; L "AAAB"; L "aaa"; L "aaa55555"] =
  ([L "Identifiers with similar names include:";
    L "  aaa                               [similar to: aaaa]";
    L "  AAAA                              [similar to: AAAB]";
    L "  aaaa                              [similar to: aaa]";
    L "  AAAB                              [similar to: AAAA]"; []], 1).
Proof. vm_compute. reflexivity. Qed.
Example C41_example_ties : scan [L "arg1"; L "count"; L "ARG1"; L "ARG2"] = scan [L "ARG2"; L "arg1"; L "ARG1"; L "count"].
Proof.
  apply C41_ties; [repeat constructor; cbn; intuition discriminate| |].
  - change [L "ARG2"; L "arg1"; L "ARG1"; L "count"] with ([L "ARG2"] ++ [L "arg1"; L "ARG1"; L "count"]).
    apply (Permutation_trans (l' := [L "ARG2"; L "arg1"; L "count"; L "ARG1"])).
    + exact (Permutation_sym (Permutation_middle [L "arg1"; L "count"; L "ARG1"] [] (L "ARG2"))).
    + repeat constructor.
  - intros a b E H. apply before_in in H as HI. destruct HI as [HA HB]. cbn [In] in HA, HB.
    assert (N : NoDup [L "arg1"; L "count"; L "ARG1"; L "ARG2"]) by (repeat constructor; cbn; intuition discriminate).
    repeat destruct HA as [<-|HA]; try easy; repeat destruct HB as [<-|HB]; try easy; try (exfalso; exact (before_anti _ _ _ N H H)).
    + now exists [L "ARG2"], [], [L "count"].
    + exfalso. apply (before_anti _ _ _ N H). now exists [], [L "count"], [L "ARG2"].
Qed.
(* The order is decided by length in the second list only: aab is next to aabb by
   name and next to xab by length. *)
Example C41_lines_example : scan [L "aabb"; L "aab"; L "xab"; L "b"] =
  ([L "Identifiers with similar names include:";
    L "  aab                               [similar to: aabb, xab]";
    L "  aabb                              [similar to: aab]";
    L "  xab                               [similar to: aab]"; []], 1).
Proof. vm_compute. reflexivity. Qed.

(* ---- C54 ---- *)
(* The whole command, whatever order sets have. *)
Theorem C54_scan : forall U FT AT isupper islower dist labiter iditer,
  (forall l, NoDup (labiter l) /\ forall x, In x (labiter l) <-> In x l) ->
  (forall l, NoDup (iditer l) /\ forall x, In x (iditer l) <-> In x l) ->
  forall verbose installed fuel fs name ls st,
  ident_scan U FT AT isupper islower dist labiter iditer verbose installed fuel fs name = (ls, st) ->
  (exists log d, parse_dialplan U FT AT fuel fs name = (log, Ok d) /\ Scan U isupper islower dist verbose installed (dp_ctxs d) log ls st) \/
  (ls = [] /\ ((exists log e, parse_dialplan U FT AT fuel fs name = (log, Exn e) /\ st = Exn e) \/
               (exists log, parse_dialplan U FT AT fuel fs name = (log, Hang) /\ st = Hang))).
Proof. exact scan_spec. Qed.
Print Assumptions C54_scan.
(* The order of sets does not matter if names differ in more than case. *)
Theorem C54_order : forall U FT AT isupper islower dist labiter labiter' iditer iditer',
  (forall l, NoDup (labiter l) /\ forall x, In x (labiter l) <-> In x l) ->
  (forall l, NoDup (labiter' l) /\ forall x, In x (labiter' l) <-> In x l) ->
  (forall l, NoDup (iditer l) /\ forall x, In x (iditer l) <-> In x l) ->
  (forall l, NoDup (iditer' l) /\ forall x, In x (iditer' l) <-> In x l) ->
  forall verbose installed fuel fs name,
  (forall log d, parse_dialplan U FT AT fuel fs name = (log, Ok d) ->
     forall a b, Identifier (dp_ctxs d) log a -> Identifier (dp_ctxs d) log b -> u_lower U a = u_lower U b -> a = b) ->
  ident_scan U FT AT isupper islower dist labiter iditer verbose installed fuel fs name =
  ident_scan U FT AT isupper islower dist labiter' iditer' verbose installed fuel fs name.
Proof. exact scan_same. Qed.
Print Assumptions C54_order.

Definition id_fs : fsys := fs_of [(L "/e.conf", flat_map (fun s => s ++ [10])
  [L "[foo]"; L "exten => 1,1(start),Set(counter=${COUNTER})"; L " same => n,NoOp(${foo}${counter})"; L " same => n(stars),NoOp(${counters})";
   L "[Bar]"; L "exten => 1,1(start),NoOp()"; L "#include </f.conf>"]);
  (L "/f.conf", flat_map (fun s => s ++ [10]) [L "exten => 2,1,NoOp(${counter}${foo})"])].
Definition id_iter (l : list str) : list str := nodup str_eq_dec l.
Example C54_iter : forall l, NoDup (id_iter l) /\ forall x, In x (id_iter l) <-> In x l.
Proof. intros l. split; [apply NoDup_nodup|]. intros x. apply nodup_In. Qed.
Definition id_scan := ident_scan uni_ascii funcs_v13 apps_v13 a_isupper a_islower levenshtein.
Example C54_example : id_scan id_iter id_iter true true 200 id_fs (L "/e.conf") =
  ([L "Contexts encountered:";
    L "  Bar";
    L "  foo";
    [];
    L "Labels encountered:";
    L "  stars";
    L "  start";
    [];
    L "Variables encountered:";
    L "  COUNTER                           [1 times in 1 files]";
    L "  counter                           [2 times in 2 files]";
    L "  counters                          [1 times in 1 files]";
    L "  foo                               [2 times in 2 files]";
    [];
    L "Identifiers with similar names include:";
    L "  counter                           [similar to: counters]";
    L "  counters                          [similar to: counter]";
    L "  stars                             [similar to: start]";
    L "  start                             [similar to: stars]";
    []], Ok 1).
Proof. vm_compute. reflexivity. Qed.
Example C54_example_absent : id_scan id_iter id_iter false false 200 id_fs (L "/e.conf") = ([], Exn ImportError) /\
  snd (id_scan id_iter id_iter true false 200 id_fs (L "/e.conf")) = Ok 0.
Proof. split; vm_compute; reflexivity. Qed.
(* Names that differ in more than case: any order of sets gives this. *)
Definition id_fs2 : fsys := fs_of [(L "/e.conf", flat_map (fun s => s ++ [10])
  [L "[foo]"; L "exten => 1,1(start),NoOp(${counter}${counters})"])].
Example C54_example_order : forall labiter iditer, (forall l, NoDup (labiter l) /\ forall x, In x (labiter l) <-> In x l) ->
  (forall l, NoDup (iditer l) /\ forall x, In x (iditer l) <-> In x l) ->
  id_scan labiter iditer false true 200 id_fs2 (L "/e.conf") =
  ([L "Identifiers with similar names include:";
    L "  counter                           [similar to: counters]";
    L "  counters                          [similar to: counter]"; []], Ok 1).
Proof.
  intros labiter iditer LI SI. unfold id_scan. rewrite (C54_order _ _ _ _ _ _ _ _ _ _ LI C54_iter SI C54_iter); [vm_compute; reflexivity|].
  intros log d P a b.
  assert (E : d = match snd (parse_dialplan uni_ascii funcs_v13 apps_v13 200 id_fs2 (L "/e.conf")) with Ok d => d | _ => dp_init end) by now rewrite P.
  assert (E2 : log = fst (parse_dialplan uni_ascii funcs_v13 apps_v13 200 id_fs2 (L "/e.conf"))) by now rewrite P.
  assert (ID : forall x, Identifier (dp_ctxs d) log x -> In x [L "foo"; L "start"; L "counter"; L "counters"]).
  { clear P. vm_compute in E, E2. subst d log. intros x [[<-|[]]|[(c & [<-|[]] & NE & y & [<-|[]] & HL)|(w & HW)]].
    - now left.
    - unfold HasLabel in HL. cbn [x_label] in HL. injection HL as <-. right. now left.
    - unfold Mention in HW. cbn [In] in HW. repeat (destruct HW as [HW|HW]; [try discriminate HW; injection HW as <- <-; solve [right; right; now left | right; right; right; now left]|]). elim HW. }
  intros HA HB. apply ID in HA, HB. cbn [In] in HA, HB. repeat destruct HA as [<-|HA]; try easy; repeat destruct HB as [<-|HB]; try easy.
Qed.
