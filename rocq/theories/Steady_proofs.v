(* Once a run has an outcome, more fuel does not change it: also for runs that
   end in an exception. *)
From Verif Require Import Base PyStr Defines FileRd Config VSpace VarFun AppM Dialplan FuncOdbc Check Include_proofs.

Definition Extends (s s' : list event * res unit) : Prop := s' = s \/ snd s = Hang /\ exists rest, fst s' = fst s ++ rest.
Lemma ext_pre pre s s' : Extends s s' -> Extends (let (l, o) := s in (pre ++ l, o)) (let (l, o) := s' in (pre ++ l, o)).
Proof.
  destruct s as [l o], s' as [l' o']. intros [[= -> ->]|[E [rest R]]]; [now left|]. right. cbn in *. split; [easy|]. exists rest. now rewrite R, app_assoc.
Qed.
Lemma ext_elem pre e s s' : Extends s s' -> Extends (let (l, o) := s in (pre ++ EvElem e :: l, o)) (let (l, o) := s' in (pre ++ EvElem e :: l, o)).
Proof.
  intros H. apply (ext_pre [EvElem e]) in H. apply (ext_pre pre) in H. now destruct s, s'.
Qed.
Lemma read_extends fs : forall n m stk ff, Extends (read n fs stk ff) (read (n + m) fs stk ff).
Proof.
  induction n as [|n IH]; intros m stk ff; [right; split; [easy|]; now exists (fst (read m fs stk ff))|]. cbn [plus].
  destruct stk as [|[name no [|b bs]] stk]; [now left|cbn [read]; now apply IH|].
  cbn [read]. destruct (read_line ff _ b) as [ms [[[ff' d] k]| |]]; [|now left|now left].
  destruct (parse_line _ d k) as [ms2 [e|[|t must]]].
  - apply ext_elem, IH.
  - apply ext_pre, IH.
  - destruct (do_include fs _ t must) as [ms3 [[f|]| |]]; [| |now left|now left].
    + match goal with |- Extends (let (_, _) := ?x in _) (let (_, _) := ?y in _) => specialize (IH m (f :: Frame name (no + 1) bs :: stk) ff'); apply (ext_pre (map EvMsg ms3)), (ext_pre (map EvMsg ms ++ EvLine (Where name (no + 1) b) d k :: map EvMsg ms2)) in IH; destruct x, y end. exact IH.
    + match goal with |- Extends (let (_, _) := ?x in _) (let (_, _) := ?y in _) => specialize (IH m (Frame name (no + 1) bs :: stk) ff'); apply (ext_pre (map EvMsg ms3)), (ext_pre (map EvMsg ms ++ EvLine (Where name (no + 1) b) d k :: map EvMsg ms2)) in IH; destruct x, y end. exact IH.
Qed.
Lemma parse_extends fs n m name : Extends (parse_file n fs name) (parse_file (n + m) fs name).
Proof. unfold parse_file. destruct (open_frame fs name); [apply read_extends|now left|now left]. Qed.
Lemma vsw_app a b : forall l, vsw l (a ++ b) = (fst (vsw l a) ++ fst (vsw (snd (vsw l a)) b), snd (vsw (snd (vsw l a)) b)).
Proof.
  induction a as [|ev a IH]; intros l; cbn [List.app vsw fst snd]; [apply surjective_pairing|].
  destruct ev as [w d k|m|e]; [| |destruct (vstack_handle l e) as [out l']];
    [rewrite IH; destruct (vsw l a) as [o1 l1]|rewrite IH; destruct (vsw l a) as [o1 l1]|rewrite IH; destruct (vsw l' a) as [o1 l1]]; cbn [fst snd]; try easy.
  now rewrite app_assoc.
Qed.
Lemma vsw_extends s s' : Extends s s' -> Extends (vsw_stream s) (vsw_stream s').
Proof.
  intros [->|[E [rest R]]]; [now left|]. right. unfold vsw_stream. rewrite R, E, (vsw_app (fst s) rest []). destruct (vsw [] (fst s)) as [o1 l1].
  cbn [fst snd]. split; [easy|]. destruct (snd s') as [[]| |]; cbn [fst]; [rewrite <- app_assoc|..]; eexists; reflexivity.
Qed.

(* the consumers: an exception before the stream stops is there with more of it *)
Definition Steady {A} (m m' : list lev * res A) : Prop := snd m <> Hang -> m' = m.
Lemma steady_refl {A} (m : M A) : Steady m m.
Proof. easy. Qed.
Lemma steady_bind {A B} (m m' : M A) (f g : A -> M B) : Steady m m' -> (forall a, Steady (f a) (g a)) -> Steady (mbind m f) (mbind m' g).
Proof.
  intros H K N. unfold mbind in *. destruct m as [l [a|e|]] eqn:E; cbn [snd] in *.
  - rewrite (H ltac:(discriminate)). specialize (K a). unfold Steady in K. destruct (f a) as [l' r]. cbn [fst snd] in *. now rewrite (K N).
  - now rewrite (H ltac:(discriminate)).
  - now destruct N.
Qed.
Lemma dp_extends U FT AT evs rest o : forall d, Steady (dp_stream U FT AT d evs Hang) (dp_stream U FT AT d (evs ++ rest) o).
Proof.
  induction evs as [|ev evs IH]; intros d; [intros N; now destruct N|]. destruct ev as [w x k|m|e]; cbn [List.app dp_stream]; [apply IH|..];
    apply steady_bind; try apply steady_refl; intros; apply IH.
Qed.
Lemma plan_steady U FT AT fs n m name : Steady (parse_dialplan U FT AT n fs name) (parse_dialplan U FT AT (n + m) fs name).
Proof.
  unfold parse_dialplan. pose proof (vsw_extends _ _ (parse_extends fs n m name)) as X.
  destruct (vsw_stream (parse_file n fs name)) as [evs o], (vsw_stream (parse_file (n + m) fs name)) as [evs' o'].
  destruct X as [[= -> ->]|[E [rest R]]]; [apply steady_refl|]. cbn in E, R. subst o evs'. apply steady_bind; [apply dp_extends|]. intros; apply steady_refl.
Qed.
Definition WSteady {A} (m m' : list msg * res A) : Prop := snd m <> Hang -> m' = m.
Lemma wsteady_bind {A B} (m m' : W A) (f g : A -> W B) : WSteady m m' -> (forall a, WSteady (f a) (g a)) -> WSteady (wbind m f) (wbind m' g).
Proof.
  intros H K N. unfold wbind in *. destruct m as [l [a|e|]] eqn:E; cbn [snd] in *.
  - rewrite (H ltac:(discriminate)). specialize (K a). unfold WSteady in K. destruct (f a) as [l' r]. cbn [fst snd] in *. now rewrite (K N).
  - now rewrite (H ltac:(discriminate)).
  - now destruct N.
Qed.
Lemma fo_extends evs rest o : forall st, WSteady (fo_stream st evs Hang) (fo_stream st (evs ++ rest) o).
Proof.
  induction evs as [|ev evs IH]; intros st; [intros N; now destruct N|]. destruct ev as [w x k|m|e]; cbn [List.app fo_stream]; [apply IH|..];
    apply wsteady_bind; try easy; intros; apply IH.
Qed.
Lemma odbc_steady fs n m name : WSteady (load_func_odbc n fs name) (load_func_odbc (n + m) fs name).
Proof.
  unfold load_func_odbc. pose proof (vsw_extends _ _ (parse_extends fs n m name)) as X.
  destruct (vsw_stream (parse_file n fs name)) as [evs o], (vsw_stream (parse_file (n + m) fs name)) as [evs' o'].
  destruct X as [[= -> ->]|[E [rest R]]]; [easy|]. cbn in E, R. subst o evs'. apply wsteady_bind; [apply fo_extends|]. now intros.
Qed.
Lemma mw_steady {A} (m m' : W A) : WSteady m m' -> Steady (mw m) (mw m').
Proof. unfold WSteady, Steady, mw. destruct m as [l r]. cbn [fst snd]. intros H N. now rewrite (H N). Qed.
Theorem check_steady U FT AT there fs n m arg name : Steady (check_run U FT AT there n fs arg name) (check_run U FT AT there (n + m) fs arg name).
Proof.
  unfold check_run, show_run. apply steady_bind; [|intros; apply steady_refl]. apply steady_bind; [|intros; apply plan_steady].
  unfold load_odbc. destruct arg as [[|c a]|]; [apply steady_refl|apply mw_steady, odbc_steady|]. destruct (there _); [apply mw_steady, odbc_steady|apply steady_refl].
Qed.
Lemma steady_same {A} (f : nat -> M A) : (forall n m, Steady (f n) (f (n + m)%nat)) ->
  forall n m, snd (f n) <> Hang -> snd (f m) <> Hang -> f n = f m.
Proof.
  intros H n m N M. rewrite <- (H n m N), <- (H m n M). now rewrite Nat.add_comm.
Qed.
Lemma web_steady U FT AT n m data : Steady (web_run U FT AT n data) (web_run U FT AT (n + m) data).
Proof. unfold web_run. apply steady_bind; [apply plan_steady|intros; apply steady_refl]. Qed.
