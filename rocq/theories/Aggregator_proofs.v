(* Proofs about the plain configuration parser. *)
From Verif Require Import Base PyStr Defines FileRd Config VSpace VarFun FuncOdbc Spec_FuncOdbc Spec_Dialplan
  FuncOdbc_proofs Aggregator Spec_Aggregator.

Lemma steps_vars vs : forall c vs0 st, ag_steps ((c, vs0) :: st) (map EVar vs) = ([], Ok ((c, vs0 ++ vs) :: st)).
Proof.
  induction vs as [|v vs IH]; intros c vs0 st; cbn [map ag_steps].
  - now rewrite app_nil_r.
  - cbn [ag_element wbind wret fst snd]. rewrite IH, <- app_assoc. reflexivity.
Qed.
Lemma ag_steps_app a : forall st b, ag_steps st (a ++ b) = do! st' <- ag_steps st a; ag_steps st' b.
Proof.
  induction a as [|e a IH]; intros st b; cbn [app ag_steps].
  - cbn. now destruct (ag_steps st b) as [l [x|x|]].
  - destruct (ag_element st e) as [l [st1|x|]]; cbn [fst snd wbind]; try easy. rewrite IH.
    destruct (ag_steps st1 a) as [l1 [st2|x|]]; cbn [fst snd wbind]; try easy.
    destruct (ag_steps st2 b) as [l2 [y|y|]]; cbn [fst snd wbind]; now rewrite ?app_assoc.
Qed.
Lemma steps_secs secs : forall st,
  ag_steps st (flat_map (fun s => ECtx (fst s) :: map EVar (snd s)) secs) = ([], Ok (rev secs ++ st)).
Proof.
  induction secs as [|[c vs] secs IH]; intros st; [easy|]. cbn [flat_map fst snd app ag_steps ag_element wbind wret fst snd].
  rewrite ag_steps_app, steps_vars. cbn [fst snd wbind app]. rewrite IH. cbn [rev app]. now rewrite <- app_assoc.
Qed.
Lemma emit_lost w : emit E_CONF_CTX_MISSING w None [] = ([msg0 E_CONF_CTX_MISSING w], Ok tt).
Proof. reflexivity. Qed.
Lemma steps_lost pre : ag_steps [] (map EVar pre) = (map (fun v => msg0 E_CONF_CTX_MISSING (v_where v)) pre, Ok []).
Proof. induction pre as [|v pre IH]; [easy|]. cbn [map ag_steps ag_element]. rewrite emit_lost. cbn [fst snd wbind wret]. rewrite IH. reflexivity. Qed.
Lemma steps_blank es : forall st, ag_steps st es = ag_steps st (filter not_blank es).
Proof.
  induction es as [|e es IH]; intros st; [easy|]. destruct e as [w k|c|v]; cbn [filter not_blank ag_steps].
  - cbn [ag_element wbind wret fst snd]. rewrite IH. now destruct (ag_steps st (filter not_blank es)) as [l [y|y|]].
  - cbn [ag_element wbind wret fst snd]. now rewrite IH.
  - destruct (ag_element st (EVar v)) as [l [st1|x|]]; cbn [fst snd wbind]; try easy. now rewrite IH.
Qed.
Lemma run_shape es pre secs : Shape es pre secs ->
  ag_run es = (map (fun v => msg0 E_CONF_CTX_MISSING (v_where v)) pre, Ok secs).
Proof.
  intros S. unfold ag_run. rewrite steps_blank, S, ag_steps_app, steps_lost. cbn [fst snd wbind].
  rewrite steps_secs. cbn [fst snd wbind wret fst snd]. now rewrite !app_nil_r, rev_involutive.
Qed.

Lemma shape_ex es : exists pre secs, Shape es pre secs.
Proof.
  unfold Shape. induction es as [|e es (pre & secs & IH)]; [now exists [], []|]. destruct e as [w k|c|v]; cbn [filter not_blank].
  - now exists pre, secs.
  - exists [], ((c, pre) :: secs). now rewrite IH.
  - exists (v :: pre), secs. now rewrite IH.
Qed.
Lemma run_iff_shape es l r : ag_run es = (l, r) <->
  exists pre secs, Shape es pre secs /\ l = map (fun v => msg0 E_CONF_CTX_MISSING (v_where v)) pre /\ r = Ok secs.
Proof.
  split.
  - intros E. destruct (shape_ex es) as (pre & secs & S). exists pre, secs. rewrite (run_shape _ _ _ S) in E. now injection E as <- <-.
  - intros (pre & secs & S & -> & ->). now apply run_shape.
Qed.

(* The file: messages in order, then the outcome. *)
Lemma stream_late evs o : forall s st, exists l st', GivesAll False evs l /\ (ag_steps (s :: st) (elems evs) = ([], Ok st')) /\
  ag_stream (s :: st) evs o = (l, (let! _ := o in Ok st')).
Proof.
  induction evs as [|ev evs IH]; intros s st.
  - exists [], (s :: st). split; [constructor|]. now split; [|destruct o as [[]|x|]].
  - destruct ev as [w d k|m|e]; cbn [ag_stream].
    + destruct (IH s st) as (l & st' & G & E & H). exists l, st'. split; [|easy]. apply (Ga_cons _ _ _ []); [constructor|easy].
    + destruct (IH s st) as (l & st' & G & E & H). exists (m :: l), st'. rewrite H.
      split; [apply (Ga_cons _ _ _ [m]); [constructor|easy]|]. split; [easy|]. now destruct o as [[]|x|].
    + change (elems (EvElem e :: evs)) with (e :: elems evs). cbn [ag_steps]. destruct e as [w k|c|v]; cbn [ag_element wbind wret fst snd].
      * destruct (IH s st) as (l & st' & G & E & H). exists l, st'. rewrite H, E.
        split; [apply (Ga_cons _ _ _ []); [constructor|easy]|]. split; [easy|]. now destruct o as [[]|x|].
      * destruct (IH (c, []) (s :: st)) as (l & st' & G & E & H). exists l, st'. rewrite H, E.
        split; [apply (Ga_cons _ _ _ []); [constructor|easy]|]. split; [easy|]. now destruct o as [[]|x|].
      * destruct s as [c vs]. cbn [fst snd wbind wret fst snd].
        destruct (IH (c, vs ++ [v]) st) as (l & st' & G & E & H). exists l, st'. rewrite H, E.
        split; [apply (Ga_cons _ _ _ []); [now constructor|easy]|]. split; [easy|]. now destruct o as [[]|x|].
Qed.
Lemma stream_told evs o : exists l st l', Told evs l /\ ag_steps [] (elems evs) = (l', Ok st) /\
  ag_stream [] evs o = (l, (let! _ := o in Ok st)).
Proof.
  induction evs as [|ev evs (l & st & l' & (a & b & la & lb & -> & NA & HB & GA & GB & ->) & E & H)].
  - exists [], [], []. split; [|now split; [|destruct o as [[]|x|]]]. exists [], [], [], [].
    split; [easy|]. split; [easy|]. split; [now left|]. split; [constructor|]. split; [constructor|easy].
  - assert (T : forall l1, ~ ev_ctx ev -> Gives True ev l1 -> Told (ev :: a ++ b) (l1 ++ la ++ lb)).
    { intros l1 N G. exists (ev :: a), b, (l1 ++ la), lb. split; [easy|]. split; [intros x [<-|I]; auto|]. split; [easy|].
      split; [now constructor|]. split; [easy|]. now rewrite app_assoc. }
    destruct ev as [w d k|m|e]; cbn [ag_stream].
    + exists (la ++ lb), st, l'. split; [|easy]. apply (T []); [now intros (? & [=])|constructor].
    + exists (m :: la ++ lb), st, l'. rewrite H. split; [apply (T [m]); [now intros (? & [=])|constructor]|].
      split; [easy|]. now destruct o as [[]|x|].
    + change (elems (EvElem e :: a ++ b)) with (e :: elems (a ++ b)). cbn [ag_steps]. destruct e as [w k|c|v]; cbn [ag_element wbind wret fst snd].
      * exists (la ++ lb), st, l'. rewrite H, E. split; [apply (T []); [now intros (? & [=])|constructor]|].
        split; [easy|]. now destruct o as [[]|x|].
      * destruct (stream_late (a ++ b) o (c, []) []) as (l2 & st2 & G2 & E2 & H2). exists l2, st2, []. rewrite H2, E2.
        split; [|split; [easy|now destruct o as [[]|x|]]]. exists [], (EvElem (ECtx c) :: a ++ b), [], l2.
        split; [easy|]. split; [easy|]. split; [right; eexists _, _; split; [easy|now exists c]|]. split; [constructor|].
        split; [|easy]. apply (Ga_cons _ _ _ []); [constructor|easy].
      * rewrite emit_lost. cbn [fst snd wbind wret]. rewrite H, E. exists (msg0 E_CONF_CTX_MISSING (v_where v) :: la ++ lb), st, (msg0 E_CONF_CTX_MISSING (v_where v) :: l').
        split; [apply (T [_]); [now intros (? & [=])|now constructor]|]. split; [easy|]. now destruct o as [[]|x|].
Qed.
Lemma gives_fun P e l l' : Gives P e l -> Gives P e l' -> l = l'.
Proof. intros H H'. destruct H; inversion H'; try easy; now destruct (H H1) || now destruct (H0 H). Qed.
Lemma givesall_fun P evs l l' : GivesAll P evs l -> GivesAll P evs l' -> l = l'.
Proof.
  intros H. revert l'. induction H as [|e evs l1 l2 G GA IH]; intros l' H'; inversion H'; subst; [easy|].
  f_equal; [now apply (gives_fun P e)|auto].
Qed.
Lemma cut_fun (a : list event) : forall b a' b', a ++ b = a' ++ b' -> (forall e, In e a -> ~ ev_ctx e) -> (forall e, In e a' -> ~ ev_ctx e) ->
  (b = [] \/ opens_section b) -> (b' = [] \/ opens_section b') -> a = a' /\ b = b'.
Proof.
  induction a as [|x a IH]; intros b [|x' a'] b' E N N' O O'; cbn [app] in E.
  - easy.
  - subst b. destruct O as [|(y & r & [= <- <-] & K)]; [easy|]. exfalso. apply (N' x'); [now left|easy].
  - subst b'. destruct O' as [|(y & r & [= <- <-] & K)]; [easy|]. exfalso. apply (N x); [now left|easy].
  - injection E as <- E. destruct (IH b a' b' E) as [-> ->]; try easy; intros e I; [apply N|apply N']; now right.
Qed.
Lemma told_fun evs l l' : Told evs l -> Told evs l' -> l = l'.
Proof.
  intros (a & b & la & lb & -> & N & O & GA & GB & ->) (a' & b' & la' & lb' & E & N' & O' & GA' & GB' & ->).
  destruct (cut_fun _ _ _ _ E N N' O O') as [-> ->]. f_equal; [now apply (givesall_fun True a')|now apply (givesall_fun False b')].
Qed.
Theorem parse_rule fuel fs name l r : parse_config fuel fs name = (l, r) <->
  exists evs o pre secs, vsw_stream (parse_file fuel fs name) = (evs, o) /\ Shape (elems evs) pre secs /\ Told evs l /\
    r = let! _ := o in Ok secs.
Proof.
  unfold parse_config. destruct (vsw_stream (parse_file fuel fs name)) as [evs o].
  destruct (stream_told evs o) as (l0 & st & l' & T & E & H). rewrite H.
  destruct (shape_ex (elems evs)) as (pre & secs & S). pose proof (run_shape _ _ _ S) as R. unfold ag_run in R. rewrite E in R.
  cbn [fst snd wbind wret fst snd] in R. injection R as _ R. split.
  - intros K. exists evs, o, pre, secs. split; [easy|]. split; [easy|].
    destruct o as [[]|x|]; cbn [fst snd wbind bind wret] in K; injection K as <- <-; rewrite ?app_nil_r; cbn [bind]; split; congruence || easy.
  - intros (evs' & o' & pre' & secs' & [= <- <-] & S' & T' & ->). destruct (Shape_fun _ _ _ _ _ S S') as [-> ->].
    rewrite (told_fun _ _ _ T' T). destruct o as [[]|x|]; cbn [fst snd wbind bind wret]; rewrite ?app_nil_r; congruence.
Qed.

Lemma flat_filter {B} (f : elem -> list B) es : (forall k w, f (EEmpty k w) = []) -> flat_map f es = flat_map f (filter not_blank es).
Proof.
  intros H. induction es as [|e es IH]; [easy|]. destruct e as [k w|c|v]; cbn [filter not_blank flat_map]; rewrite IH; [now rewrite H|easy|easy].
Qed.
Lemma settings_kept es l secs : ag_run es = (l, Ok secs) ->
  flat_map (fun e => match e with ECtx c => [c] | _ => [] end) es = map fst secs /\
  exists pre, map m_where l = map v_where pre /\
    flat_map (fun e => match e with EVar v => [v] | _ => [] end) es = pre ++ flat_map snd secs.
Proof.
  intros H. apply run_iff_shape in H as (pre & secs' & S & -> & [= <-]). unfold Shape in S.
  assert (V : forall vs, flat_map (fun e => match e with ECtx c => [c] | _ => [] end) (map EVar vs) = @nil ctx)
    by (intros vs; induction vs as [|v vs IH]; easy).
  assert (W : forall vs, flat_map (fun e => match e with EVar v => [v] | _ => [] end) (map EVar vs) = vs)
    by (intros vs; induction vs as [|v vs IH]; [easy|cbn; now rewrite IH]).
  split.
  - rewrite flat_filter, S by easy. rewrite flat_map_app, V. cbn [app]. clear S.
    induction secs as [|[c vs] secs IH]; [easy|]. cbn [flat_map fst snd app map]. now rewrite flat_map_app, V, IH.
  - exists pre. split; [rewrite map_map; now apply map_ext|]. rewrite flat_filter, S by easy. rewrite flat_map_app, W. f_equal. clear S.
    induction secs as [|[c vs] secs IH]; [easy|]. cbn [flat_map fst snd app]. now rewrite flat_map_app, W, IH.
Qed.
