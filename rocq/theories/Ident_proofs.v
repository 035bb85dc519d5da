(* Proofs about ident-scan: C41, C54. *)
From Verif Require Import Base PyStr Defines Var VarFun AppM FileRd Config Dialplan Commands Spec_Dialplan
  Spec_Commands Commands_proofs Spec_CmdLs CmdLs_proofs Spec_Annotate Annotate_proofs IdentScan Spec_Ident
  Dialplan_proofs DialplanK_proofs.
From Coq Require Import Permutation Sorted.

(* ---- sorting keeps the order of equal items ---- *)
Section Stable.
Context {A : Type}.
Variable lt : A -> A -> bool.
Hypothesis asym : forall a b, lt a b = true -> le lt a b.
Hypothesis trans : forall a b c, le lt a b -> le lt b c -> le lt a c.
Variable P : A -> A -> Prop.
Definition LeP (a b : A) : Prop := le lt a b /\ (le lt b a -> P a b).
Lemma insert_stable x l : StronglySorted LeP l -> (forall y, In y l -> P x y) -> StronglySorted LeP (sort_insert lt x l).
Proof.
  induction 1 as [|y l S IH F]; intros HP; cbn [sort_insert]; [repeat constructor|].
  destruct (lt y x) eqn:E.
  - constructor; [apply IH; intros z HZ; apply HP; now right|]. apply Forall_forall. intros z HZ.
    apply (Permutation_in _ (insert_perm lt x l)) in HZ. rewrite Forall_forall in F. destruct HZ as [<-|HZ]; [|now apply F].
    split; [now apply asym|]. unfold le. congruence.
  - constructor; [now constructor|]. apply Forall_forall. intros z [<-|HZ].
    + split; [exact E|]. intros _. apply HP. now left.
    + rewrite Forall_forall in F. destruct (F z HZ) as [L1 _]. split; [now apply (trans x y z)|]. intros _. apply HP. now right.
Qed.
Lemma sort_stable l : StronglySorted P l -> StronglySorted LeP (sort_by lt l).
Proof.
  induction 1 as [|x l S IH F]; cbn [sort_by]; [constructor|]. apply insert_stable; [easy|].
  intros y HY. apply (Permutation_in _ (sort_perm lt l)) in HY. rewrite Forall_forall in F. now apply F.
Qed.
End Stable.
Lemma before_cons {A} (x : A) l a b : Before l a b -> Before (x :: l) a b.
Proof. intros (l1 & l2 & l3 & ->). now exists (x :: l1), l2, l3. Qed.
Lemma before_self {A} (l : list A) : StronglySorted (Before l) l.
Proof.
  induction l as [|x l IH]; [constructor|]. constructor.
  - apply (ss_impl (Before l)); [|easy]. intros a b. apply before_cons.
  - apply Forall_forall. intros y HY. apply in_split in HY as (l2 & l3 & ->). now exists [], l2, l3.
Qed.
Definition any (_ : str) : bool := true.
Definition by_len lower := le_len lower any any any (fun _ _ => 0%nat).
Lemma put_name lower l : PutInOrder (ByName lower) l (sort_by (lt_name lower) l).
Proof.
  split; [apply sort_perm|]. apply (ss_impl (LeP (lt_name lower) (Before l))).
  - intros a b [H1 H2]. split; [now apply le_name|]. intros H3. apply H2. now apply le_name.
  - apply sort_stable; [apply lt_name_asym|apply le_name_trans|apply before_self].
Qed.
Lemma put_len lower l : PutInOrder (ByLen lower) l (sort_by (lt_len lower) l).
Proof.
  split; [apply sort_perm|]. apply (ss_impl (LeP (lt_len lower) (Before l))).
  - intros a b [H1 H2]. split; [now apply by_len|]. intros H3. apply H2. now apply by_len.
  - apply sort_stable; [apply (lt_len_asym lower any any any (fun _ _ => 0%nat))|apply (le_len_trans lower any any any (fun _ _ => 0%nat))|apply before_self].
Qed.
Lemma ljust_padded s : Padded s (ljust32 s).
Proof.
  exists (32 - length s)%nat. split; [easy|]. unfold ljust32. rewrite app_length, repeat_length. lia.
Qed.
Lemma sorted_set_lt l : NoDup l -> StronglySorted StrLt (sort_by str_ltb l).
Proof.
  intros ND.
  assert (S : StronglySorted (le str_ltb) (sort_by str_ltb l)).
  { apply sort_sorted.
    - intros a b H. apply str_ltb_le. now apply str_ltb_asym.
    - unfold le. intros a b c. rewrite !str_ltb_le. intros. now apply strle_trans with b. }
  assert (N : NoDup (sort_by str_ltb l)) by (apply (Permutation_NoDup (Permutation_sym (sort_perm str_ltb l))); easy).
  induction S as [|x l' S IH F]; [constructor|]. inversion N as [|? ? NI N']; subst. constructor; [now apply IH|].
  apply Forall_forall. intros y HY. rewrite Forall_forall in F. specialize (F y HY). unfold le in F. apply str_ltb_le in F.
  split; [easy|]. intros ->. easy.
Qed.

Lemma nodup_fst {A} (s : list (str * A)) k a b : NoDup (map fst s) -> In (k, a) s -> In (k, b) s -> a = b.
Proof.
  induction s as [|[k' c] s IH]; [easy|]. cbn [map fst]. intros N. inversion N as [|? ? NI N']; subst.
  intros [E1|H1] [E2|H2]; [congruence| | |now apply IH]; exfalso; apply NI.
  - injection E1 as -> _. now apply (in_map fst) in H2.
  - injection E2 as -> _. now apply (in_map fst) in H1.
Qed.

(* ---- the dict of similar names ---- *)
Definition InSim (s : sim) (k v : str) : Prop := exists vs, In (k, vs) s /\ In v vs.
Definition SimOk (s : sim) : Prop := NoDup (map fst s) /\ forall k vs, In (k, vs) s -> NoDup vs /\ vs <> [].
Lemma sim_add_keys s k v x : In x (map fst (sim_add s k v)) <-> x = k \/ In x (map fst s).
Proof.
  induction s as [|[k' vs] s IH]; cbn [sim_add map fst In]; [intuition|].
  destruct (str_eqb_spec k k') as [->|NE]; cbn [map fst In]; [intuition|]. rewrite IH. intuition.
Qed.
Lemma sim_add_in s k v a b : InSim (sim_add s k v) a b <-> InSim s a b \/ (a = k /\ b = v).
Proof.
  unfold InSim. induction s as [|[k' vs] s IH]; cbn [sim_add].
  - split; [intros (ws & [[= <- <-]|[]] & [<-|[]]); now right|]. intros [(ws & [] & _)|[-> ->]]. exists [v]. split; now left.
  - destruct (str_eqb_spec k k') as [->|NE].
    + split.
      * intros (ws & [[= <- <-]|H] & HB).
        -- destruct (smem v vs); [left; exists vs; split; [now left|easy]|]. apply in_app_iff in HB.
           destruct HB as [HB|[<-|[]]]; [left; exists vs; split; [now left|easy]|now right].
        -- left. exists ws. split; [now right|easy].
      * intros [(ws & [[= <- <-]|H] & HB)|[-> ->]].
        -- exists (if smem v vs then vs else vs ++ [v]). split; [now left|]. destruct (smem v vs); [easy|]. apply in_or_app. now left.
        -- exists ws. split; [now right|easy].
        -- exists (if smem v vs then vs else vs ++ [v]). split; [now left|]. destruct (smem v vs) eqn:E; [now apply smem_In|].
           apply in_or_app. right. now left.
    + split.
      * intros (ws & [[= <- <-]|H] & HB); [left; exists vs; split; [now left|easy]|].
        destruct IH as [IH _]. destruct IH as [(ws' & H1 & H2)|H1]; [now exists ws| |now right].
        left. exists ws'. split; [now right|easy].
      * intros [(ws & [[= <- <-]|H] & HB)|H].
        -- exists vs. split; [now left|easy].
        -- destruct IH as [_ IH]. destruct IH as (ws' & H1 & H2); [left; now exists ws|]. exists ws'. split; [now right|easy].
        -- destruct IH as [_ IH]. destruct IH as (ws' & H1 & H2); [now right|]. exists ws'. split; [now right|easy].
Qed.
Lemma nodup_snoc {A} (v : A) l : NoDup l -> ~ In v l -> NoDup (l ++ [v]).
Proof.
  intros N NI. apply NoDup_rev in N. rewrite <- (rev_involutive (l ++ [v])). apply NoDup_rev. rewrite rev_app_distr. cbn.
  constructor; [|easy]. now rewrite <- in_rev.
Qed.
Lemma sim_add_ok s k v : SimOk s -> SimOk (sim_add s k v).
Proof.
  intros [N H]. split.
  - clear H. induction s as [|[k' vs] s IH]; cbn [sim_add]; [repeat constructor; easy|].
    cbn [map fst] in N. inversion N as [|? ? NI N']; subst.
    destruct (str_eqb_spec k k') as [->|NE]; cbn [map fst]; constructor; try easy; [|now apply IH].
    rewrite sim_add_keys. intros [->|X]; easy.
  - clear N. induction s as [|[k' vs] s IH]; cbn [sim_add].
    + intros a ws [[= <- <-]|[]]. split; [repeat constructor; easy|easy].
    + destruct (str_eqb_spec k k') as [->|NE].
      * intros a ws [[= <- <-]|X]; [|now apply (H a); right]. destruct (H k' vs (or_introl eq_refl)) as [H1 H2].
        destruct (smem v vs) eqn:E; [easy|]. split; [|destruct vs; easy]. apply nodup_snoc; [easy|]. intros X. apply smem_In in X. congruence.
      * intros a ws [[= <- <-]|X]; [now apply (H k'); left|]. apply (IH (fun a ws HA => H a ws (or_intror HA)) a ws X).
Qed.

Lemma ss_snoc {A} (R : A -> A -> Prop) l x : StronglySorted R l -> (forall y, In y l -> R y x) -> StronglySorted R (l ++ [x]).
Proof.
  induction 1 as [|y l S IH F]; intros H; cbn [app]; [repeat constructor|]. constructor.
  - apply IH. intros z HZ. apply H. now right.
  - apply Forall_app. split; [easy|]. repeat constructor. apply H. now left.
Qed.

(* ---- the order of the keys ---- *)
Definition add_key (ks : list str) (k : str) : list str := if smem k ks then ks else ks ++ [k].
Lemma sim_add_fst s k v : map fst (sim_add s k v) = add_key (map fst s) k.
Proof.
  unfold add_key. induction s as [|[k' vs] s IH]; cbn [sim_add map fst]; [easy|].
  destruct (str_eqb_spec k k') as [->|NE]; cbn [map fst].
  - destruct (smem k' (k' :: map fst s)) eqn:E; [easy|]. exfalso. assert (X : smem k' (k' :: map fst s) = true) by (apply smem_In; now left). congruence.
  - rewrite IH. destruct (smem k (map fst s)) eqn:E1, (smem k (k' :: map fst s)) eqn:E2; try easy; exfalso.
    + apply smem_In in E1. assert (X : smem k (k' :: map fst s) = true) by (apply smem_In; now right). congruence.
    + apply smem_In in E2 as [E2|E2]; [now apply NE|]. apply smem_In in E2. congruence.
Qed.
Lemma firsts_snoc a ks x : Firsts a ks -> Firsts (a ++ [x]) (add_key ks x).
Proof.
  intros (N & I & S).
  assert (S' : StronglySorted (fun y z => exists l1 l2, a ++ [x] = l1 ++ y :: l2 /\ ~ In z l1) ks).
  { eapply ss_impl; [|exact S]. intros y z (l1 & l2 & -> & H). exists l1, (l2 ++ [x]). split; [|easy]. now rewrite <- app_assoc. }
  unfold add_key. destruct (smem x ks) eqn:E.
  - apply smem_In in E. split; [easy|]. split; [|easy]. intros y. rewrite in_app_iff, I. cbn [In]. split; [now left|]. intros [H|[<-|[]]]; [easy|now apply I].
  - assert (NI : ~ In x ks) by (intros X; apply smem_In in X; congruence). split; [now apply nodup_snoc|]. split.
    + intros y. rewrite !in_app_iff, I. easy.
    + apply ss_snoc; [easy|]. intros y HY. apply I in HY. apply in_split in HY as (l1 & l2 & ->). exists l1, (l2 ++ [x]). rewrite <- app_assoc. split; [easy|].
      intros X. apply NI, I, in_or_app. now left.
Qed.
Lemma firsts_fold l : forall a ks, Firsts a ks -> Firsts (a ++ l) (fold_left add_key l ks).
Proof.
  induction l as [|x l IH]; intros a ks H; cbn [fold_left]; [now rewrite app_nil_r|].
  replace (a ++ x :: l) with ((a ++ [x]) ++ l) by now rewrite <- app_assoc. now apply IH, firsts_snoc.
Qed.
Lemma firsts_nil : Firsts [] [].
Proof. split; [constructor|]. split; [easy|constructor]. Qed.
Lemma insert_map {A B} (f : A -> B) (lt : B -> B -> bool) x l :
  map f (sort_insert (fun a b => lt (f a) (f b)) x l) = sort_insert lt (f x) (map f l).
Proof. induction l as [|y l IH]; cbn [sort_insert map]; [easy|]. destruct (lt (f y) (f x)); cbn [map]; [now rewrite IH|easy]. Qed.
Lemma sort_map {A B} (f : A -> B) (lt : B -> B -> bool) l : map f (sort_by (fun a b => lt (f a) (f b)) l) = sort_by lt (map f l).
Proof. induction l as [|x l IH]; cbn [sort_by map]; [easy|]. now rewrite insert_map, IH. Qed.

Section Scan.
Variable lower : str -> str.
Variables isupper islower isdigit : str -> bool.
Variable dist : str -> str -> nat.
Notation Similar := (Similar lower isupper islower isdigit dist).
Notation scan_list := (scan_list lower isupper islower isdigit dist).
Notation Pair := (Pair lower isupper islower isdigit dist).
Lemma scan_ok l : forall s prev, SimOk s -> SimOk (scan_list s prev l).
Proof.
  induction l as [|cur l IH]; intros s prev OK; cbn [Commands.scan_list]; [easy|]. apply IH. destruct prev as [|c p]; [easy|].
  destruct (is_similar _ _ _ _ _ _ _); [|easy]. now apply sim_add_ok, sim_add_ok.
Qed.
Lemma next_cons p l x y : Next (p :: l) x y <-> (p = x /\ x <> [] /\ exists b, l = y :: b) \/ Next l x y.
Proof.
  unfold Next. split.
  - intros (NE & a & b & E). destruct a as [|z a]; cbn [app] in E; injection E as E1 E2.
    + left. split; [easy|]. split; [easy|]. now exists b.
    + right. split; [easy|]. now exists a, b.
  - intros [(-> & NE & b & ->)|(NE & a & b & ->)]; (split; [easy|]); [now exists [], b|now exists (p :: a), b].
Qed.
Lemma scan_in l : forall s prev k v, InSim (scan_list s prev l) k v <->
  InSim s k v \/ (Next (prev :: l) k v /\ Similar k v) \/ (Next (prev :: l) v k /\ Similar v k).
Proof.
  induction l as [|cur l IH]; intros s prev k v; cbn [Commands.scan_list].
  - split; [now left|]. intros [H|[[H _]|[H _]]]; [easy| |]; apply next_cons in H as [(_ & _ & b & [=])|(_ & a & b & H)]; destruct a; discriminate.
  - rewrite IH, !(next_cons prev). clear IH.
    assert (X : InSim match prev with [] => s | _ :: _ => if is_similar lower isupper islower isdigit dist prev cur
          then sim_add (sim_add s prev cur) cur prev else s end k v <->
       InSim s k v \/ (prev <> [] /\ Similar prev cur /\ ((k = prev /\ v = cur) \/ (v = prev /\ k = cur)))).
    { destruct prev as [|c p]; [split; [now left|intros [H|[H _]]; easy]|].
      destruct (is_similar _ _ _ _ _ (c :: p) cur) eqn:E.
      - apply similar_iff in E. rewrite !sim_add_in. split.
        + intros [[H|[-> ->]]|[-> ->]]; [now left| |]; right; (split; [easy|]); (split; [easy|]); [now left|now right].
        + intros [H|(_ & _ & [[-> ->]|[-> ->]])]; [now left; left|left; now right|now right].
      - split; [now left|]. intros [H|(_ & H & _)]; [easy|]. apply similar_iff in H. congruence. }
    rewrite X. clear X. split.
    + intros [[H|(NE & S & [[-> ->]|[-> ->]])]|[[H S]|[H S]]]; [now left| | | |].
      * right. left. split; [|easy]. left. split; [easy|]. split; [easy|]. now exists l.
      * right. right. split; [|easy]. left. split; [easy|]. split; [easy|]. now exists l.
      * right. left. split; [now right|easy].
      * right. right. split; [now right|easy].
    + intros [H|[[[(-> & NE & b & [= <- <-])|H] S]|[[(-> & NE & b & [= <- <-])|H] S]]].
      * now left; left.
      * left. right. split; [easy|]. split; [easy|]. now left.
      * right. left. now split.
      * left. right. split; [easy|]. split; [easy|]. now right.
      * right. right. now split.
Qed.
Notation Found := (Found lower isupper islower isdigit dist).
Lemma scan_keys l : forall prev, exists ns, Found (prev :: l) ns /\ forall s, map fst (scan_list s prev l) = fold_left add_key ns (map fst s).
Proof.
  induction l as [|cur l IH]; intros prev; [exists []; split; [constructor|easy]|].
  destruct (IH cur) as (ns & F & E). cbn [Commands.scan_list]. destruct prev as [|c p].
  - exists ns. split; [now constructor; [left|]|easy].
  - destruct (is_similar lower isupper islower isdigit dist (c :: p) cur) eqn:X.
    + exists ((c :: p) :: cur :: ns). split; [constructor; [easy|now apply similar_iff|easy]|]. intros s. rewrite E, !sim_add_fst. reflexivity.
    + exists ns. split; [|easy]. constructor; [right|easy]. intros Y. apply similar_iff in Y. congruence.
Qed.
Lemma found_nil l ns : Found ([] :: l) ns -> Found l ns.
Proof. intros H. inversion H; subst; [constructor|easy|easy]. Qed.
Lemma insim_nil k v : ~ InSim [] k v.
Proof. now intros (vs & [] & _). Qed.
Lemma next_nil l x y : Next ([] :: l) x y <-> Next l x y.
Proof. rewrite next_cons. split; [|now right]. intros [(E & N & _)|H]; [congruence|easy]. Qed.

Theorem distance_spec ids ls st : print_distance lower isupper islower isdigit dist ids = (ls, st) ->
  Distance lower isupper islower isdigit dist ids ls st.
Proof.
  unfold print_distance. set (l1 := sort_by (lt_name lower) ids). set (l2 := sort_by (lt_len lower) ids).
  set (s := scan_list (scan_list [] [] l1) [] l2). intros H.
  assert (OK : SimOk s) by (apply scan_ok, scan_ok; split; [constructor|easy]).
  assert (IN : forall k v, InSim s k v <-> Pair l1 l2 k v).
  { intros k v. unfold s. rewrite !scan_in, !next_nil. unfold Spec_Ident.Pair. pose proof (insim_nil k v). tauto. }
  assert (FO : exists ns1 ns2, Found l1 ns1 /\ Found l2 ns2 /\ Firsts (ns1 ++ ns2) (map fst s)).
  { destruct (scan_keys l1 []) as (ns1 & F1 & E1), (scan_keys l2 []) as (ns2 & F2 & E2). exists ns1, ns2.
    split; [now apply found_nil|]. split; [now apply found_nil|]. unfold s. rewrite E2, E1.
    apply (firsts_fold ns2 ns1), (firsts_fold ns1 []), firsts_nil. }
  clearbody s. exists l1, l2. split; [apply put_name|]. split; [apply put_len|].
  destruct s as [|kv s'].
  - injection H as <- <-. left. split; [|easy]. intros x y X. apply IN in X. now apply insim_nil in X.
  - right. injection H as <- <-. set (s := kv :: s') in *. destruct OK as [ND OK].
    set (lt2 := fun a b : str * list str => lt_name lower (fst a) (fst b)).
    set (srt := sort_by lt2 s). assert (PM : Permutation srt s) by apply sort_perm.
    exists (map (fun kv => (fst kv, sort_by str_ltb (snd kv))) srt).
    exists (map (fun kv => L "  " ++ ljust32 (fst kv) ++ L "  [similar to: " ++ join (L ", ") (sort_by str_ltb (snd kv)) ++ L "]") srt).
    assert (EF : map fst (map (fun kv : str * list str => (fst kv, sort_by str_ltb (snd kv))) srt) = map fst srt) by now rewrite map_map.
    assert (KEYS : forall k, In k (map fst srt) <-> In k (map fst s)).
    { intros k. split; apply Permutation_in; [|symmetry]; now apply Permutation_map. }
    split; [|split; [|split; [|split; [|split]]]].
    + intros X. apply map_eq_nil in X. rewrite X in PM. apply Permutation_nil in PM. discriminate.
    + destruct FO as (ns1 & ns2 & F1 & F2 & F3). exists ns1, ns2, (map fst s). split; [easy|]. split; [easy|]. split; [easy|].
      rewrite EF. unfold srt, lt2. rewrite (sort_map fst (lt_name lower)). apply put_name.
    + intros k vs X. apply in_map_iff in X as ([k' vs'] & [= <- <-] & X). apply (Permutation_in _ PM) in X.
      destruct (OK _ _ X) as [N1 N2]. cbn [fst snd]. split; [now apply sorted_set_lt|]. split.
      * intros E. pose proof (sort_perm str_ltb vs') as Y. rewrite E in Y. apply Permutation_nil in Y. easy.
      * intros v. rewrite <- IN. split.
        -- intros Y. apply (Permutation_in _ (sort_perm str_ltb vs')) in Y. now exists vs'.
        -- intros (ws & Y1 & Y2). apply (Permutation_in _ (Permutation_sym (sort_perm str_ltb vs'))).
           now rewrite <- (nodup_fst _ _ _ _ ND Y1 X).
    + intros k v X. apply IN in X as (vs & X & _). rewrite EF, KEYS. now apply (in_map fst) in X.
    + clear. induction srt as [|[k vs] l IH]; cbn [map]; constructor; [|easy]. exists (ljust32 k). split; [apply ljust_padded|easy].
    + split; easy.
Qed.
End Scan.

(* ---- the variables ---- *)
Definition locs (v : str) (l : list lev) : list loc :=
  flat_map (fun e => match e with LVar v' w => if str_eqb v v' then [w] else [] | _ => [] end) l.
Lemma locs_in v l w : In w (locs v l) <-> Mention l v w.
Proof.
  unfold locs, Mention. rewrite in_flat_map. split.
  - intros (e & H & HW). destruct e as [m|v' w'|x|x|x w']; try easy. destruct (str_eqb_spec v v') as [<-|]; [|easy]. destruct HW as [<-|[]]. easy.
  - intros H. exists (LVar v w). split; [easy|]. cbv beta iota. rewrite str_eqb_refl. now left.
Qed.
Lemma locs_len v l : length (locs v l) = length (filter (is_mention v) l).
Proof.
  induction l as [|e l IH]; [easy|]. unfold locs in *. cbn [flat_map filter]. rewrite app_length, IH.
  destruct e as [m|v' w'|x|x|x w']; cbn [is_mention]; try easy. destruct (str_eqb v v'); easy.
Qed.
Lemma first_app log a b l : FirstOf log a b -> FirstOf (log ++ l) a b.
Proof. intros (l1 & w & l2 & -> & H). exists l1, w, (l2 ++ l). split; [now rewrite <- app_assoc|easy]. Qed.
Record VarsOk (log : list lev) (s : list (str * list loc)) : Prop := {
  vo_keys : NoDup (map fst s);
  vo_locs : forall v ws, In (v, ws) s -> ws = locs v log;
  vo_in : forall v, In v (map fst s) <-> exists w, Mention log v w;
  vo_first : StronglySorted (FirstOf log) (map fst s) }.
Lemma var_add_new s v w : ~ In v (map fst s) -> var_add s v w = s ++ [(v, [w])].
Proof.
  induction s as [|[v' ws] s IH]; cbn [var_add map fst In app]; [easy|]. intros H.
  destruct (str_eqb_spec v v') as [->|NE]; [elim H; now left|]. rewrite IH; [easy|]. intros X. apply H. now right.
Qed.
Lemma var_add_keys s v w : In v (map fst s) -> map fst (var_add s v w) = map fst s.
Proof.
  induction s as [|[v' ws] s IH]; cbn [var_add map fst In]; [easy|]. destruct (str_eqb_spec v v') as [->|NE]; [easy|].
  cbn [map fst]. intros [->|H]; [easy|]. now rewrite IH.
Qed.
Lemma var_add_in s v w a ws : NoDup (map fst s) -> In (a, ws) (var_add s v w) ->
  (a <> v /\ In (a, ws) s) \/ (a = v /\ (exists ws', In (v, ws') s /\ ws = ws' ++ [w]) \/ (a = v /\ ~ In v (map fst s) /\ ws = [w])).
Proof.
  induction s as [|[v' ws0] s IH]; cbn [var_add map fst]; intros N.
  - intros [[= <- <-]|[]]. right. right. split; [easy|]. now split.
  - inversion N as [|? ? NI N']; subst. destruct (str_eqb_spec v v') as [->|NE].
    + intros [[= <- <-]|H]; [right; left; split; [easy|]; exists ws0; split; [now left|easy]|].
      left. split; [|now right]. intros ->. apply NI. now apply (in_map fst) in H.
    + intros [[= <- <-]|H]; [left; split; [congruence|now left]|].
      destruct (IH N' H) as [[H1 H2]|[[H1 (ws' & H2 & H3)]|(H1 & H2 & H3)]].
      * left. split; [easy|now right].
      * right. left. split; [easy|]. exists ws'. split; [now right|easy].
      * right. right. split; [easy|]. split; [|easy]. cbn [In]. intros [X|X]; [congruence|easy].
Qed.
Lemma locs_app v a b : locs v (a ++ b) = locs v a ++ locs v b.
Proof. apply flat_map_app. Qed.
Lemma variables_ok log : VarsOk log (variables log).
Proof.
  induction log as [|e log IH] using rev_ind.
  - split; cbn; [constructor|easy| |constructor]. intros v. split; [easy|]. now intros (w & []).
  - unfold variables. rewrite fold_left_app. fold (variables log). cbn [fold_left].
    assert (OTHER : (forall v w, e <> LVar v w) -> VarsOk (log ++ [e]) (variables log)).
    { intros NE. destruct IH as [K LO I F].
      assert (X : forall v, locs v [e] = []) by (intros v; destruct e as [m|v' w'|x|x|x w']; try easy; now elim (NE v' w')).
      split; [easy| | |].
      - intros v ws H. rewrite locs_app, X, app_nil_r. now apply LO.
      - intros v. rewrite I. unfold Mention. split; intros (w & H); exists w.
        + apply in_or_app. now left.
        + apply in_app_iff in H as [H|[H|[]]]; [easy|]. now elim (NE v w).
      - apply (ss_impl (FirstOf log)); [|easy]. intros a b. apply first_app. }
    destruct e as [m|v w|x|x|x w]; cbn [var_step]; try (apply OTHER; easy). clear OTHER.
    destruct IH as [K LO I F].
    assert (SELF : locs v [LVar v w] = [w]) by (unfold locs; cbn [flat_map]; now rewrite str_eqb_refl).
    assert (OTH : forall a, a <> v -> locs a [LVar v w] = []).
    { intros a NE. unfold locs. cbn [flat_map]. destruct (str_eqb_spec a v); [easy|easy]. }
    assert (DEC : In v (map fst (variables log)) \/ ~ In v (map fst (variables log))) by (destruct (in_dec str_eq_dec v (map fst (variables log))); tauto).
    split.
    + destruct DEC as [H|H]; [now rewrite var_add_keys|]. rewrite var_add_new by easy. rewrite map_app. now apply nodup_snoc.
    + intros a ws H. rewrite locs_app. apply var_add_in in H; [|easy].
      destruct H as [[H1 H2]|[[H1 (ws' & H2 & H3)]|(H1 & H2 & H3)]].
      * rewrite OTH, app_nil_r by easy. now apply LO.
      * subst a ws. rewrite SELF. f_equal. now apply LO.
      * subst a ws. rewrite SELF. replace (locs v log) with (@nil loc); [easy|].
        destruct (locs v log) as [|w' r] eqn:E; [easy|]. exfalso. apply H2. apply I. exists w'. apply locs_in. rewrite E. now left.
    + intros a. transitivity (a = v \/ In a (map fst (variables log))).
      * destruct DEC as [H|H].
        -- rewrite var_add_keys by easy. split; [now right|]. intros [->|X]; easy.
        -- rewrite var_add_new by easy. rewrite map_app, in_app_iff. cbn [map fst In]. intuition.
      * rewrite I. unfold Mention. split.
        -- intros [->|(w' & H)]; [exists w; apply in_or_app; right; now left|]. exists w'. apply in_or_app. now left.
        -- intros (w' & H). apply in_app_iff in H as [H|[H|[]]]; [right; now exists w'|]. injection H as -> ->. now left.
    + destruct DEC as [H|H].
      * rewrite var_add_keys by easy. apply (ss_impl (FirstOf log)); [|easy]. intros a b. apply first_app.
      * rewrite var_add_new by easy. rewrite map_app. apply ss_snoc.
        -- apply (ss_impl (FirstOf log)); [|easy]. intros a b. apply first_app.
        -- intros a HA. cbn [fst]. apply I in HA as (wa & HA). apply in_split in HA as (l1 & l2 & E).
           exists l1, wa, (l2 ++ [LVar v w]). split; [now rewrite E, <- app_assoc|]. intros w' X. apply H. apply I. exists w'.
           unfold Mention. rewrite E. apply in_or_app. now left.
Qed.
Lemma var_line_spec log v : VarLine log v (var_line (v, locs v log)).
Proof.
  unfold var_line. cbn [fst snd]. eexists (ljust32 v), _, _, (nodup str_eq_dec (map w_file (locs v log))).
  split; [apply ljust_padded|]. split; [apply nstr_numeral|]. split; [apply NoDup_nodup|]. split; [|split; [apply nstr_numeral|]].
  - intros f. rewrite nodup_In, in_map_iff. split; intros (w & H1 & H2); exists w.
    + split; [now apply locs_in|easy].
    + split; [easy|now apply locs_in].
  - now rewrite locs_len.
Qed.

(* ---- the command ---- *)
Section Command.
Variable U : uni.
Variable FT : ftable.
Variable AT : atable.
Variables isupper islower : str -> bool.
Variable dist : str -> str -> nat.
Variables labiter iditer : list str -> list str.
Hypothesis LI : forall l, NoDup (labiter l) /\ forall x, In x (labiter l) <-> In x l.
Hypothesis SI : forall l, NoDup (iditer l) /\ forall x, In x (iditer l) <-> In x l.
Notation lower := (u_lower U).

Lemma digits_spec : Digits U (str_isdigit U).
Proof.
  intros [|c s]; cbn [str_isdigit].
  - split; [easy|]. now intros [H _].
  - rewrite forallb_forall, Forall_forall. split; [intros H; now split|]. now intros [_ H].
Qed.
Lemma labels_all d : Ready U FT AT d -> forall s, In s (g_labels (dp_glob d)) <-> all_labels (dp_ctxs d) s.
Proof.
  intros R. destruct (ready_inv U FT AT d R) as [h I]. destruct (inv_labels U h d I) as [H _]. intros s. rewrite <- H.
  unfold all_label. now rewrite smem_In.
Qed.
Lemma perm_in {A} (l l' : list A) : Permutation l l' -> forall x, In x l <-> In x l'.
Proof. intros P x. split; apply Permutation_in; [easy|now symmetry]. Qed.
Lemma listing_with d log labels :
  ListingWith lower (dp_ctxs d) log labels (print_names (L "Contexts encountered:") (sort_by (lt_name lower) (map dc_name (dp_ctxs d))) ++
    print_names (L "Labels encountered:") labels ++
    print_vars (sort_by (fun a b => lt_name lower (fst a) (fst b)) (variables log))).
Proof.
  destruct (variables_ok log) as [K LO I F].
  set (vs := sort_by _ (variables log)). assert (PV : Permutation vs (variables log)) by apply sort_perm.
  exists (sort_by (lt_name lower) (map dc_name (dp_ctxs d))), (map fst vs), (map var_line vs).
  split; [apply put_name|]. split; [|split; [|split; [|split]]].
  - apply (Permutation_NoDup (Permutation_map fst (Permutation_sym PV))). easy.
  - intros v. now rewrite (perm_in _ _ (Permutation_map fst PV)).
  - assert (S : StronglySorted (LeP (fun a b : str * list loc => lt_name lower (fst a) (fst b)) (fun a b => FirstOf log (fst a) (fst b))) vs).
    { apply sort_stable.
      - intros a b. apply (lt_name_asym lower (fst a) (fst b)).
      - intros a b c. apply (le_name_trans lower (fst a) (fst b) (fst c)).
      - clear -F. induction (variables log) as [|x l IH]; [constructor|]. cbn [map] in F. inversion F as [|? ? F1 F2]; subst. constructor; [now apply IH|].
        rewrite Forall_map in F2. easy. }
    clear -S. induction S as [|x l S IH F]; cbn [map]; constructor; [easy|]. apply Forall_map. eapply Forall_impl; [|exact F].
    intros y [H1 H2]. split; [now apply le_name|]. intros H3. apply H2. now apply (le_name lower (fst y) (fst x)).
  - assert (LV : forall x, In x vs -> snd x = locs (fst x) log) by (intros [v ws] HX; apply (Permutation_in _ PV) in HX; now apply LO).
    clear -LV. induction vs as [|[v ws] vs IH]; cbn [map]; constructor; [|apply IH; intros x HX; apply LV; now right].
    specialize (LV (v, ws) (or_introl eq_refl)). cbn [fst snd] in *. subst ws. apply var_line_spec.
  - unfold print_names, print_vars. cbn [app]. rewrite <- !app_assoc. reflexivity.
Qed.
Lemma listing_spec d log : Ready U FT AT d ->
  Listing lower (dp_ctxs d) log (print_names (L "Contexts encountered:") (sort_by (lt_name lower) (map dc_name (dp_ctxs d))) ++
    print_names (L "Labels encountered:") (sort_by (lt_name lower) (labiter (g_labels (dp_glob d)))) ++
    print_vars (sort_by (fun a b => lt_name lower (fst a) (fst b)) (variables log))).
Proof.
  intros R. set (ls := sort_by _ (labiter _)). assert (PL : Permutation ls (labiter (g_labels (dp_glob d)))) by apply sort_perm.
  destruct (LI (g_labels (dp_glob d))) as [SN SM].
  exists ls. split; [apply (Permutation_NoDup (Permutation_sym PL)); easy|]. split; [|split; [|apply listing_with]].
  - apply (ss_impl (le (lt_name lower))); [intros; now apply le_name|]. apply sort_sorted; [apply lt_name_asym|apply le_name_trans].
  - intros s. now rewrite (perm_in _ _ PL), SM, (labels_all d R).
Qed.
Theorem scan_spec verbose installed fuel fs name ls st :
  ident_scan U FT AT isupper islower dist labiter iditer verbose installed fuel fs name = (ls, st) ->
  (exists log d, parse_dialplan U FT AT fuel fs name = (log, Ok d) /\ Scan U isupper islower dist verbose installed (dp_ctxs d) log ls st) \/
  (ls = [] /\ ((exists log e, parse_dialplan U FT AT fuel fs name = (log, Exn e) /\ st = Exn e) \/
               (exists log, parse_dialplan U FT AT fuel fs name = (log, Hang) /\ st = Hang))).
Proof.
  unfold ident_scan. destruct (parse_dialplan U FT AT fuel fs name) as [log [d|e|]] eqn:P; intros H.
  - left. exists log, d. split; [easy|]. pose proof (parse_ready _ _ _ _ _ _ _ _ P) as R. clear P.
    set (vs := sort_by _ (variables log)) in *. assert (PV : Permutation vs (variables log)) by apply sort_perm.
    set (lbs := sort_by _ (labiter _)) in *. assert (PL : Permutation lbs (labiter (g_labels (dp_glob d)))) by apply sort_perm.
    set (cs := sort_by _ (map dc_name _)) in *. assert (PC : Permutation cs (map dc_name (dp_ctxs d))) by apply sort_perm.
    set (listing := print_names _ cs ++ _) in *.
    assert (LST : Listing lower (dp_ctxs d) log listing) by now apply listing_spec.
    exists (if verbose then listing else []), (if installed then fst (print_distance lower isupper islower (str_isdigit U) dist (iditer (cs ++ lbs ++ map fst vs))) else []).
    split; [|split; [now intros ->|split; [now intros ->|split]]].
    + destruct installed; [|destruct verbose; injection H as <- <-; now rewrite ?app_nil_r].
      destruct (print_distance _ _ _ _ _ _); now injection H as <- <-.
    + intros ->. destruct (print_distance lower isupper islower (str_isdigit U) dist (iditer (cs ++ lbs ++ map fst vs))) as [ls2 s2] eqn:E.
      injection H as <- <-. exists (iditer (cs ++ lbs ++ map fst vs)), s2, (str_isdigit U). split; [apply digits_spec|]. split; [apply SI|]. split; [|split; [|easy]].
      * intros x. destruct (SI (cs ++ lbs ++ map fst vs)) as [_ SM]. rewrite SM, !in_app_iff. unfold Identifier.
        rewrite (perm_in _ _ PC), (perm_in _ _ PL), (perm_in _ _ (Permutation_map fst PV)).
        destruct (LI (g_labels (dp_glob d))) as [_ SM2]. rewrite SM2, (labels_all d R), (vo_in _ _ (variables_ok log)). reflexivity.
      * now apply distance_spec.
    + intros ->. split; [easy|]. split; intros ->; now injection H as <- <-.
  - right. injection H as <- <-. split; [easy|]. left. now exists log, e.
  - right. injection H as <- <-. split; [easy|]. right. now exists log.
Qed.
End Command.

(* ---- the order of the sets ---- *)
Section Order.
Variable U : uni.
Variable FT : ftable.
Variable AT : atable.
Variables isupper islower : str -> bool.
Variable dist : str -> str -> nat.
Variables labiter labiter' iditer iditer' : list str -> list str.
Hypothesis LI : forall l, NoDup (labiter l) /\ forall x, In x (labiter l) <-> In x l.
Hypothesis LI' : forall l, NoDup (labiter' l) /\ forall x, In x (labiter' l) <-> In x l.
Hypothesis SI : forall l, NoDup (iditer l) /\ forall x, In x (iditer l) <-> In x l.
Hypothesis SI' : forall l, NoDup (iditer' l) /\ forall x, In x (iditer' l) <-> In x l.
Notation lower := (u_lower U).
Lemma iter_perm (f f' : list str -> list str) :
  (forall l, NoDup (f l) /\ forall x, In x (f l) <-> In x l) -> (forall l, NoDup (f' l) /\ forall x, In x (f' l) <-> In x l) ->
  forall l, Permutation (f l) (f' l).
Proof.
  intros F F' l. apply NoDup_Permutation; [apply F|apply F'|]. intros x. destruct (F l) as [_ S1], (F' l) as [_ S2]. now rewrite S1, S2.
Qed.
Theorem scan_same verbose installed fuel fs name :
  (forall log d, parse_dialplan U FT AT fuel fs name = (log, Ok d) ->
     forall a b, Identifier (dp_ctxs d) log a -> Identifier (dp_ctxs d) log b -> lower a = lower b -> a = b) ->
  ident_scan U FT AT isupper islower dist labiter iditer verbose installed fuel fs name =
  ident_scan U FT AT isupper islower dist labiter' iditer' verbose installed fuel fs name.
Proof.
  unfold ident_scan. destruct (parse_dialplan U FT AT fuel fs name) as [log [d|e|]] eqn:P; intros INJ; [|easy|easy].
  specialize (INJ log d eq_refl). pose proof (parse_ready _ _ _ _ _ _ _ _ P) as R. clear P.
  assert (EL : sort_by (lt_name lower) (labiter (g_labels (dp_glob d))) = sort_by (lt_name lower) (labiter' (g_labels (dp_glob d)))).
  { apply sort_name_same; [now apply iter_perm|]. destruct (LI (g_labels (dp_glob d))) as [_ S1]. intros a b HA HB.
    apply INJ; right; left; now apply (labels_all U FT AT d R), S1. }
  rewrite <- EL. set (vs := sort_by _ (variables log)). assert (PV : Permutation vs (variables log)) by apply sort_perm.
  set (lbs := sort_by _ (labiter _)) in *. assert (PL : Permutation lbs (labiter (g_labels (dp_glob d)))) by apply sort_perm.
  set (cs := sort_by _ (map dc_name _)) in *. assert (PC : Permutation cs (map dc_name (dp_ctxs d))) by apply sort_perm.
  assert (EQ : print_distance lower isupper islower (str_isdigit U) dist (iditer (cs ++ lbs ++ map fst vs)) =
               print_distance lower isupper islower (str_isdigit U) dist (iditer' (cs ++ lbs ++ map fst vs))).
  { apply distance_same; [now apply iter_perm|]. destruct (SI (cs ++ lbs ++ map fst vs)) as [_ SM].
    assert (ID : forall x, In x (iditer (cs ++ lbs ++ map fst vs)) -> Identifier (dp_ctxs d) log x).
    { intros x. rewrite SM, !in_app_iff. rewrite (perm_in _ _ PC), (perm_in _ _ PL), (perm_in _ _ (Permutation_map fst PV)).
      destruct (LI (g_labels (dp_glob d))) as [_ SM2]. now rewrite SM2, (labels_all U FT AT d R), (vo_in _ _ (variables_ok log)). }
    intros a b HA HB. apply INJ; now apply ID. }
  rewrite EQ. reflexivity.
Qed.
End Order.
