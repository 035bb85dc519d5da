(* Python str helpers used by the reading layers, and posix path functions.
   They model CPython's str methods (not code of /repo); the call sites are
   cited where they are used. *)
From Verif Require Import Base.

(* str.isspace() of one character; also what re's \s and str.strip() use for
   str patterns (CPython: Py_UNICODE_ISSPACE). *)
Definition isspace (c : N) : bool :=
  ((9 <=? c) && (c <=? 13)) || ((28 <=? c) && (c <=? 32)) || (c =? 0x85) || (c =? 0xa0)
  || (c =? 0x1680) || ((0x2000 <=? c) && (c <=? 0x200a)) || (c =? 0x2028) || (c =? 0x2029)
  || (c =? 0x202f) || (c =? 0x205f) || (c =? 0x3000).

(* Characters of ' \t'. *)
Definition isblank (c : N) : bool := (c =? 32) || (c =? 9).

(* s.lstrip(chars) / s.rstrip(chars) / s.strip(chars), chars given as a test *)
Fixpoint lstrip_p (p : N -> bool) (s : str) : str :=
  match s with
  | [] => []
  | c :: r => if p c then lstrip_p p r else s
  end.

Fixpoint rstrip_p (p : N -> bool) (s : str) : str :=
  match s with
  | [] => []
  | c :: r => match rstrip_p p r with
              | [] => if p c then [] else [c]
              | r' => c :: r'
              end
  end.

Definition strip_p (p : N -> bool) (s : str) : str := rstrip_p p (lstrip_p p s).

(* s[-1], if any *)
Fixpoint last_opt {A} (s : list A) : option A :=
  match s with
  | [] => None
  | [c] => Some c
  | _ :: r => last_opt r
  end.

(* s.startswith(p) *)
Fixpoint startswith (p s : str) : bool :=
  match p, s with
  | [], _ => true
  | a :: p', b :: s' => (a =? b) && startswith p' s'
  | _ :: _, [] => false
  end.

(* s.endswith(p) *)
Definition endswith (p s : str) : bool := startswith (rev p) (rev s).

(* s.index(c): None stands for ValueError *)
Fixpoint index_of (c : N) (s : str) : option nat :=
  match s with
  | [] => None
  | x :: r => if x =? c then Some O
              else match index_of c r with Some i => Some (S i) | None => None end
  end.

(* s.split(c) for a one character separator: always at least one part *)
Fixpoint split_on (c : N) (s : str) : list str :=
  match s with
  | [] => [[]]
  | x :: r =>
    if x =? c then [] :: split_on c r
    else match split_on c r with
         | p :: ps => (x :: p) :: ps
         | [] => [[x]]   (* not reached *)
         end
  end.

(* c.join(parts) *)
Fixpoint join (sep : str) (l : list str) : str :=
  match l with
  | [] => []
  | [x] => x
  | x :: r => x ++ sep ++ join sep r
  end.

(* posixpath.dirname *)
Definition is_slash (c : N) : bool := c =? 47.
Fixpoint upto_last_slash (p : str) : str :=
  match p with
  | [] => []
  | c :: r => match upto_last_slash r with
              | [] => if is_slash c then [c] else []
              | h => c :: h
              end
  end.
Definition dirname (p : str) : str :=
  let head := upto_last_slash p in
  if forallb is_slash head then head else rstrip_p is_slash head.

(* posixpath.join of two components *)
Definition path_join (a b : str) : str :=
  if startswith (L "/") b then b
  else match last_opt a with
       | None => b
       | Some c => if is_slash c then a ++ b else a ++ L "/" ++ b
       end.

(* ---- facts ---- *)

Lemma lstrip_p_split p s : exists l, s = l ++ lstrip_p p s /\ forallb p l = true
  /\ match lstrip_p p s with [] => True | c :: _ => p c = false end.
Proof.
  induction s as [|c s (l & E & F & H)]; cbn.
  - now exists [].
  - destruct (p c) eqn:Pc.
    + exists (c :: l). cbn. rewrite Pc, F. split; [now rewrite E at 1 | easy].
    + exists []. now cbn.
Qed.

Lemma rstrip_p_nil p s : rstrip_p p s = [] <-> forallb p s = true.
Proof.
  induction s as [|c s IH]; cbn; [easy|].
  destruct (rstrip_p p s) eqn:E.
  - destruct (p c); cbn; [tauto | easy].
  - split; [easy|]. intros H. apply andb_prop in H as [_ H]. apply IH in H. easy.
Qed.

Lemma rstrip_p_split p s : exists t, s = rstrip_p p s ++ t /\ forallb p t = true.
Proof.
  induction s as [|c s (t & E & F)]; cbn.
  - now exists [].
  - destruct (rstrip_p p s) eqn:R.
    + cbn in E; subst t. destruct (p c) eqn:Pc.
      * exists (c :: s). cbn. now rewrite Pc, F.
      * exists s. now cbn.
    + exists t. split; [cbn; now rewrite E at 1 | easy].
Qed.

Lemma last_opt_app {A} (a : list A) x : last_opt (a ++ [x]) = Some x.
Proof. induction a as [|y a IH]; cbn; [easy|]. destruct (a ++ [x]) eqn:E; [now destruct a | easy]. Qed.

Lemma last_opt_some {A} (s : list A) x : last_opt s = Some x <-> exists a, s = a ++ [x].
Proof.
  split.
  - destruct s as [|y s] using rev_ind; [easy|]. rewrite last_opt_app. intros [= ->]. now exists s.
  - intros [a ->]. apply last_opt_app.
Qed.

Lemma last_opt_none {A} (s : list A) : last_opt s = None <-> s = [].
Proof.
  split; [|now intros ->]. destruct s as [|y s] using rev_ind; [easy|]. now rewrite last_opt_app.
Qed.

Lemma rstrip_p_last p s : match last_opt (rstrip_p p s) with
                          | None => True | Some c => p c = false end.
Proof.
  induction s as [|c s IH]; cbn; [easy|].
  destruct (rstrip_p p s) as [|d r] eqn:R.
  - destruct (p c) eqn:Pc; cbn; easy.
  - cbn. exact IH.
Qed.

Lemma rstrip_p_unique p s a t : s = a ++ t -> forallb p t = true ->
  match last_opt a with None => True | Some c => p c = false end -> rstrip_p p s = a.
Proof.
  intros -> Ft. induction a as [|c a IH]; intros Ha.
  - cbn. now apply rstrip_p_nil.
  - cbn. destruct a as [|d a].
    + cbn in Ha. cbn. assert (rstrip_p p t = []) as -> by now apply rstrip_p_nil. now rewrite Ha.
    + rewrite IH by exact Ha. easy.
Qed.

Lemma startswith_app p s : startswith p s = true <-> exists r, s = p ++ r.
Proof.
  revert s; induction p as [|a p IH]; intros s; cbn.
  - split; [now exists s | easy].
  - destruct s as [|b s]; [split; [easy | now intros [r [=]]]|].
    rewrite Bool.andb_true_iff, N.eqb_eq, IH. split.
    + intros [-> [r ->]]. now exists r.
    + intros [r [= -> ->]]. split; [easy | now exists r].
Qed.

Lemma endswith_app p s : endswith p s = true <-> exists r, s = r ++ p.
Proof.
  unfold endswith; rewrite startswith_app. split; intros [r E].
  - exists (rev r). rewrite <- (rev_involutive s), E, rev_app_distr. now rewrite rev_involutive.
  - exists (rev r). now rewrite E, rev_app_distr.
Qed.

Lemma index_of_some c s i : index_of c s = Some i ->
  s = firstn i s ++ c :: skipn (S i) s /\ ~ In c (firstn i s).
Proof.
  revert i; induction s as [|x s IH]; cbn; intros i H; [easy|].
  destruct (N.eqb_spec x c) as [->|Hne].
  - injection H as <-. cbn. tauto.
  - destruct (index_of c s) as [j|] eqn:E; [|easy]. injection H as <-.
    destruct (IH j eq_refl) as [E1 E2]. cbn. split; [f_equal; exact E1|].
    intros [H|H]; [congruence | tauto].
Qed.

Lemma index_of_none c s : index_of c s = None <-> ~ In c s.
Proof.
  induction s as [|x s IH]; cbn; [tauto|].
  destruct (N.eqb_spec x c) as [->|Hne]; [split; [easy|tauto]|].
  destruct (index_of c s) as [i|]; split; try easy.
  - intros H. exfalso. apply H. right. destruct (in_dec N.eq_dec c s); [easy|].
    exfalso. destruct IH as [_ IH]. specialize (IH n). easy.
  - intros _ [H|H]; [congruence|]. now apply IH.
Qed.

Lemma index_of_app c a b : ~ In c a -> index_of c (a ++ c :: b) = Some (length a).
Proof.
  induction a as [|x a IH]; cbn; intros H.
  - now rewrite N.eqb_refl.
  - destruct (N.eqb_spec x c); [tauto|]. rewrite IH by tauto. easy.
Qed.

Lemma split_on_nonempty c s : split_on c s <> [].
Proof. induction s as [|x s IH]; cbn; [easy|]. destruct (x =? c); [easy|]. now destruct (split_on c s). Qed.

Lemma join_split_on c s : join [c] (split_on c s) = s.
Proof.
  induction s as [|x s IH]; cbn; [easy|].
  pose proof (split_on_nonempty c s) as NE.
  destruct (N.eqb_spec x c) as [->|Hne].
  - destruct (split_on c s); [easy|]. cbn in *. now rewrite IH.
  - destruct (split_on c s) as [|p ps] eqn:E; [easy|]. destruct ps; cbn in *; now rewrite IH.
Qed.

Lemma split_on_free c s : Forall (fun p => ~ In c p) (split_on c s).
Proof.
  induction s as [|x s IH]; cbn; [now constructor|].
  destruct (N.eqb_spec x c) as [->|Hne]; [now constructor|].
  destruct (split_on c s) as [|p ps]; [constructor; [|constructor]; cbn; tauto|].
  inversion IH; subst. constructor; [cbn; tauto | easy].
Qed.

Lemma split_on_unique c l : l <> [] -> Forall (fun p => ~ In c p) l -> split_on c (join [c] l) = l.
Proof.
  intros NE F. induction F as [|p l Hp F IH]; [easy|].
  destruct l as [|q l].
  - cbn. clear IH NE F. induction p as [|x p IHp]; cbn in *; [easy|].
    destruct (N.eqb_spec x c); [tauto|]. rewrite IHp by tauto. easy.
  - specialize (IH ltac:(easy)). change (join [c] (p :: q :: l)) with (p ++ [c] ++ join [c] (q :: l)).
    revert IH. generalize (join [c] (q :: l)) as s. intros s IH. clear - Hp IH.
    induction p as [|x p IHp]; cbn in *; [rewrite N.eqb_refl; now rewrite IH|].
    destruct (N.eqb_spec x c); [tauto|]. rewrite IHp by tauto. easy.
Qed.

Lemma index_of_split c s i : index_of c s = Some i ->
  exists a b, s = a ++ c :: b /\ ~ In c a /\ i = length a
    /\ firstn i s = a /\ skipn i s = c :: b /\ skipn (S i) s = b.
Proof.
  revert i; induction s as [|x s IH]; cbn; intros i H; [easy|].
  destruct (N.eqb_spec x c) as [->|Hne].
  - injection H as <-. exists [], s. cbn. repeat split; tauto.
  - destruct (index_of c s) as [j|] eqn:E; [|easy]. injection H as <-.
    destruct (IH j eq_refl) as (a & b & -> & Ha & -> & E1 & E2 & E3).
    exists (x :: a), b. cbn [length app firstn skipn In]. rewrite E1, E2. repeat split; try easy.
    intros [H|H]; [congruence|tauto].
Qed.
