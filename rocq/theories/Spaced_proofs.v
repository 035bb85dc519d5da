(* C60: the rules for vertical white space against configws.py. *)
From Verif Require Import Base PyStr Defines FileRd Config VSpace Spec_VSpace Spec_Reader VSpace_proofs VSpaceMsg_proofs.

Lemma blanks_map bs : blanks bs = map ev_blank bs.
Proof. unfold blanks, empties. now rewrite map_map. Qed.
Lemma run_between cls max g : run_events cls max g = between_events cls max g.
Proof.
  destruct g as [c bs]. unfold run_events, between_events. cbn [long_msgs flat_map snd]. rewrite app_nil_r, blanks_map.
  destruct c; cbn [negb andb]; [easy|]. destruct bs as [|b bs]; [now destruct (_ <? _)%nat|].
  destruct (_ <? _)%nat; [|easy]. now rewrite last_last_opt.
Qed.
Lemma runs_between cls max gs : flat_map (run_events cls max) gs = flat_map (between_events cls max) gs.
Proof. apply flat_map_ext. apply run_between. Qed.
Lemma runs_iff bs gs : Runs bs gs <-> gs = group_blanks bs.
Proof. split; [intros H; apply (Runs_fun bs); [easy|apply Runs_group]|intros ->; apply Runs_group]. Qed.

Lemma gap_fun bof cls max bs g g' : GapGives bof cls max bs g -> GapGives bof cls max bs g' -> g = g'.
Proof.
  intros [b x gs B R|gs R N] [b' x' gs' B' R'|gs' R' N']; try apply runs_iff in R as R0; try apply runs_iff in R' as R0'.
  - rewrite <- R0' in R0. now injection R0 as <- <- <-.
  - exfalso. rewrite <- R0' in R0. now apply (N' B _ _ (eq_sym R0)).
  - exfalso. rewrite <- R0' in R0. now apply (N B' _ _ R0).
  - congruence.
Qed.
Lemma flush_gives v w cls min max : (length (vc_blanks v) <? min)%nat = false ->
  GapGives (vc_bof v) cls max (vc_blanks v) (flush_blanks v w cls min max).
Proof.
  intros H. unfold flush_blanks. rewrite H. pose proof (Runs_group (vc_blanks v)) as R.
  destruct (vc_blanks v) as [|b bs].
  { change [] with (flat_map (run_events cls max) []) at 2. apply Gg_mid; [constructor | easy]. }
  set (gs := group_blanks (b :: bs)) in *. clearbody gs. pose proof (Runs_ne _ _ R) as NE.
  destruct (vc_bof v).
  - destruct gs as [|[c [|x g]] gs].
    + apply Runs_nil_iff in R. easy.
    + inversion NE; subst. easy.
    + destruct c.
      * cbn [app]. rewrite <- runs_between. apply Gg_mid; [easy|]. intros _ ? ? E. easy.
      * rewrite <- runs_between, <- blanks_map. now apply Gg_bof.
  - cbn [app]. rewrite <- runs_between. apply Gg_mid; easy.
Qed.
Lemma tail_fun rep bs g g' : TailGives rep bs g -> TailGives rep bs g' -> g = g'.
Proof.
  intros [gs b x R|gs R N] [gs' b' x' R'|gs' R' N']; try apply runs_iff in R as R0; try apply runs_iff in R' as R0'.
  - rewrite <- R0' in R0. apply app_inj_tail in R0 as [<- E]. now injection E as <- <-.
  - exfalso. rewrite <- R0' in R0. now apply (N' _ _ (eq_sym R0)).
  - exfalso. rewrite <- R0' in R0. now apply (N _ _ R0).
  - congruence.
Qed.
Lemma eof_gives v rep : TailGives rep (vc_blanks v) (vctx_eof v rep).
Proof.
  unfold vctx_eof. pose proof (Runs_group (vc_blanks v)) as R.
  destruct (vc_blanks v) as [|b bs].
  { apply (Tg_comment rep [] []); [constructor|]. intros gs' g E. now destruct gs'. }
  pose proof (Runs_ne _ _ R) as NE.
  destruct (last_opt (group_blanks (b :: bs))) as [[[] g]|] eqn:E.
  - rewrite app_nil_r, <- runs_between. apply Tg_comment; [easy|].
    intros gs' g' E'. rewrite E', last_opt_app in E. easy.
  - pose proof (last_removelast _ _ E) as EG. rewrite EG in R, NE.
    destruct g as [|x g].
    { apply Forall_app in NE as [_ NE]. inversion NE; subst. easy. }
    rewrite <- runs_between. pose proof (Tg_blank rep (b :: bs) _ x g R) as T.
    destruct rep; [|exact T]. rewrite <- blanks_map, last_last_opt.
    replace (last bs b) with (last g x); [exact T|].
    (* the last blank of all is the last of the last run *)
    pose proof (ungroup_group (b :: bs)) as U. unfold ungroup in U. rewrite EG, flat_map_app in U. cbn in U.
    rewrite app_nil_r in U.
    assert (last_opt (b :: bs) = Some (last g x)) as L2.
    { rewrite <- U. destruct g as [|y g _] using rev_ind.
      - apply last_opt_app.
      - rewrite last_last. change (x :: g ++ [y]) with ((x :: g) ++ [y]). rewrite app_assoc. apply last_opt_app. }
    rewrite last_last_opt in L2. congruence.
  - exfalso. apply last_opt_none in E. rewrite E in R. now apply Runs_nil_iff in R.
Qed.

(* ---- what precedes an element ---- *)
Lemma empties_blank bs : Forall (fun e => is_blank e = true) (empties bs).
Proof. induction bs; constructor; easy. Qed.
Lemma empties_inj bs bs' : empties bs = empties bs' -> bs = bs'.
Proof.
  revert bs'. induction bs as [|[c w] bs IH]; intros [|[c' w'] bs'] E; try discriminate E; [easy|].
  cbn in E. injection E as <- <- E. now rewrite (IH bs' E).
Qed.
Definition Stop (bof : bool) (a : list elem) : Prop := bof = true /\ a = [] \/ bof = false /\ exists a' e, a = a' ++ [e] /\ is_blank e = false.
Lemma stop_fun bof a bof' a' : Stop bof a -> Stop bof' a' -> forall bs bs', a ++ empties bs = a' ++ empties bs' -> bof = bof' /\ bs = bs'.
Proof.
  intros S S' bs. induction bs as [|b bs IH] using rev_ind; intros bs' E.
  - destruct bs' as [|b' bs' _] using rev_ind.
    + cbn in E. rewrite !app_nil_r in E. subst a'. split; [|easy].
      destruct S as [[-> ->]|[-> (x & e & -> & _)]], S' as [[-> H]|[-> (x' & e' & H & _)]]; try easy; [now destruct x'|now destruct x].
    + exfalso. rewrite empties_app, app_assoc in E. cbn in E. rewrite app_nil_r in E.
      destruct S as [[_ ->]|[_ (x & e & -> & B)]]; [now destruct (a' ++ empties bs')|]. apply app_inj_tail in E as [_ ->]. discriminate B.
  - destruct bs' as [|b' bs' _] using rev_ind.
    + exfalso. rewrite empties_app, app_assoc in E. cbn in E. rewrite app_nil_r in E.
      destruct S' as [[_ ->]|[_ (x & e & -> & B)]]; [now destruct (a ++ empties bs)|]. apply app_inj_tail in E as [_ <-]. discriminate B.
    + rewrite !empties_app, !app_assoc in E. cbn in E. apply app_inj_tail in E as [E1 E2].
      destruct (IH bs' E1) as [-> ->]. split; [easy|]. destruct b, b'. cbn in E2. now injection E2 as -> ->.
Qed.
Lemma ctx_cut a b a' b' : a ++ b = a' ++ b' -> (a = [] \/ exists x c, a = x ++ [ECtx c]) -> existsb is_ctx b = false ->
  (a' = [] \/ exists x c, a' = x ++ [ECtx c]) -> existsb is_ctx b' = false -> b = b'.
Proof.
  intros E A B A' B'. apply app_eq_app in E as (l & [[-> ->]|[-> ->]]).
  - destruct A as [A|(x & c & A)]; [destruct a', l; try discriminate A; easy|]. destruct l as [|y l _] using rev_ind; [easy|].
    rewrite app_assoc in A. apply app_inj_tail in A as [_ ->]. rewrite existsb_app in B'. apply orb_false_iff in B' as [B' _].
    rewrite existsb_app in B'. cbn in B'. now rewrite orb_true_r in B'.
  - destruct A' as [A'|(x & c & A')]; [destruct a, l; try discriminate A'; easy|]. destruct l as [|y l _] using rev_ind; [easy|].
    rewrite app_assoc in A'. apply app_inj_tail in A' as [_ ->]. rewrite existsb_app in B. apply orb_false_iff in B as [B _].
    rewrite existsb_app in B. cbn in B. now rewrite orb_true_r in B.
Qed.
Lemma before_fun h bof n bs bof' n' bs' : Before h bof n bs -> Before h bof' n' bs' -> bof = bof' /\ n = n' /\ bs = bs'.
Proof.
  intros [(a & E & S) (x & y & E1 & A & B & ->)] [(a' & E' & S') (x' & y' & E1' & A' & B' & ->)].
  destruct (stop_fun bof a bof' a' S S' bs bs') as [-> ->]; [congruence|].
  rewrite (ctx_cut x y x' y') by congruence. easy.
Qed.
Lemma before_nil : Before [] true 0 [].
Proof. split; [exists []; split; [easy|now left]|]. exists [], []. repeat split. now left. Qed.
Lemma before_blank h bof n bs c w : Before h bof n bs -> Before (h ++ [EEmpty c w]) bof n (bs ++ [(c, w)]).
Proof.
  intros [(a & E & S) (x & y & E1 & A & B & ->)]. split.
  - exists a. split; [|easy]. rewrite E, empties_app, app_assoc. easy.
  - exists x, (y ++ [EEmpty c w]). rewrite E1, app_assoc. split; [easy|]. split; [easy|]. rewrite existsb_app, B, filter_app. cbn. now rewrite app_nil_r.
Qed.
Lemma before_ctx h c : Before (h ++ [ECtx c]) false 0 [].
Proof.
  split.
  - exists (h ++ [ECtx c]). split; [now rewrite app_nil_r|]. right. split; [easy|]. now exists h, (ECtx c).
  - exists (h ++ [ECtx c]), []. rewrite app_nil_r. repeat split. right. now exists h, c.
Qed.
Lemma before_var h bof n bs v : Before h bof n bs -> Before (h ++ [EVar v]) false (n + 1) [].
Proof.
  intros [_ (x & y & E1 & A & B & ->)]. split.
  - exists (h ++ [EVar v]). split; [now rewrite app_nil_r|]. right. split; [easy|]. now exists h, (EVar v).
  - exists x, (y ++ [EVar v]). rewrite E1, app_assoc. split; [easy|]. split; [easy|]. rewrite existsb_app, B, filter_app. split; [easy|].
    rewrite app_length. cbn. lia.
Qed.

(* ---- contexts of the code ---- *)
Definition View (x : str * list elem) (v : vctx) : Prop := fst x = vc_file v /\ Before (snd x) (vc_bof v) (vc_varsets v) (vc_blanks v).
Lemma elem_gives f h v e : View (f, h) v -> View (f, h ++ [e]) (fst (vctx_handle v e)) /\ forall g, ElemGives h e g <-> g = snd (vctx_handle v e).
Proof.
  intros [EF B]. cbn [fst snd] in *.
  assert (D : forall bof n bs, Before h bof n bs -> bof = vc_bof v /\ n = vc_varsets v /\ bs = vc_blanks v).
  { intros bof n bs B'. destruct (before_fun _ _ _ _ _ _ _ B' B) as (-> & -> & ->). easy. }
  destruct e as [c w|c|x]; cbn [vctx_handle fst snd].
  - split; [split; [easy|now apply before_blank]|]. intros g. split; [intros H; now inversion H|intros ->; constructor].
  - split; [split; [easy|apply before_ctx]|]. intros g. split.
    + intros H. inversion H as [|? bof n B1 Hn|? bof n bs g' B1 Hn G|]; subst; destruct (D _ _ _ B1) as (-> & -> & E).
      * destruct (vc_varsets v <=? 2) eqn:E2; [lia|]. unfold flush_blanks. rewrite <- E. easy.
      * subst bs. f_equal. apply (gap_fun _ _ _ _ _ _ G). apply flush_gives.
        destruct (vc_varsets v <=? 2) eqn:E2; [easy|]. destruct Hn as [Hn|Hn]; [lia|]. now destruct (vc_blanks v).
    + intros ->. destruct (vc_varsets v <=? 2) eqn:E2.
      * apply (Eg_ctx h c _ _ _ _ B); [left; lia|]. now apply flush_gives.
      * destruct (vc_blanks v) as [|b bs] eqn:EB.
        -- unfold flush_blanks. rewrite EB. cbn. apply (Eg_crowded h c _ _ B). lia.
        -- rewrite <- EB in B. apply (Eg_ctx h c _ _ _ _ B); [right; now rewrite EB|]. apply flush_gives. now rewrite EB.
  - split; [split; [easy|now apply (before_var h (vc_bof v) _ (vc_blanks v))]|]. intros g. split.
    + intros H. inversion H as [| | |? bof n bs g' B1 G]; subst. destruct (D _ _ _ B1) as (-> & -> & ->). f_equal. apply (gap_fun _ _ _ _ _ _ G). now apply flush_gives.
    + intros ->. apply (Eg_var h x _ _ _ _ B). now apply flush_gives.
Qed.
Lemma end_gives x v rep g : View x v -> EndGives rep (snd x) g <-> g = vctx_eof v rep.
Proof.
  intros [EF B]. split.
  - intros (bof & n & bs & B' & T). destruct (before_fun _ _ _ _ _ _ _ B' B) as (-> & -> & ->). apply (tail_fun _ _ _ _ T). apply eof_gives.
  - intros ->. exists (vc_bof v), (vc_varsets v), (vc_blanks v). split; [easy|]. apply eof_gives.
Qed.
Lemma ends_give rep st l gs : Forall2 View st l -> Forall2 (fun x y => EndGives rep (snd x) y) st gs <-> gs = map (fun v => vctx_eof v rep) l.
Proof.
  intros F. revert gs. induction F as [|x v st l V F IH]; intros gs; cbn [map].
  - split; [intros H; now inversion H|intros ->; constructor].
  - split.
    + intros H. inversion H as [|? g ? gs' E H']; subst. f_equal; [now apply (end_gives x)|now apply IH].
    + intros ->. constructor; [now apply (end_gives x v)|now apply IH].
Qed.
Lemma view_files st l : Forall2 View st l -> map fst st = map vc_file l.
Proof. induction 1 as [|x v st l [E _] _ IH]; [easy|]. cbn. now rewrite E, IH. Qed.

Lemma on_stack l f : existsb (fun v => str_eqb (vc_file v) f) l = true <-> In f (map vc_file l).
Proof.
  rewrite existsb_exists, in_map_iff. split; intros (v & A & B); exists v.
  - apply str_eqb_eq in B. easy.
  - subst. now rewrite str_eqb_refl.
Qed.
Lemma pop_split above f v below : vc_file v = f -> ~ In f (map vc_file above) ->
  vstack_pop (above ++ v :: below) f = (List.concat (map (fun v => vctx_eof v true) above), v :: below).
Proof.
  intros Ev. induction above as [|x above IH]; intros N; cbn [List.app vstack_pop map List.concat].
  - now rewrite Ev, str_eqb_refl.
  - destruct (str_eqb_spec (vc_file x) f) as [E|E]; [destruct N; now left|]. rewrite IH; [easy|]. intros I. apply N. now right.
Qed.
Lemma cut_unique {A} (f : str) (a a' : list (str * A)) h h' b b' : a ++ (f, h) :: b = a' ++ (f, h') :: b' ->
  ~ In f (map fst a) -> ~ In f (map fst a') -> a = a' /\ h = h' /\ b = b'.
Proof.
  revert a'. induction a as [|x a IH]; intros [|x' a'] E N N'; cbn in E.
  - now injection E as <- <-.
  - exfalso. injection E as <- _. apply N'. now left.
  - exfalso. injection E as -> _. apply N. now left.
  - injection E as <- E. destruct (IH a' E) as (-> & -> & ->); [intros X; apply N; now right|intros X; apply N'; now right|easy].
Qed.
Lemma spaced_iff st l e : Forall2 View st l ->
  exists st', Forall2 View st' (snd (vstack_handle l e)) /\
    forall g st2, Spaced st e g st2 <-> g = fst (vstack_handle l e) /\ st2 = st'.
Proof.
  intros F. pose proof (view_files _ _ F) as EF. set (f := w_file (e_where e)).
  assert (V0 : View (f, []) (vctx_new (e_where e))) by (split; [easy|apply before_nil]).
  destruct (in_dec (list_eq_dec N.eq_dec) f (map vc_file l)) as [I|I].
  - assert (X : exists above v below, l = above ++ v :: below /\ vc_file v = f /\ ~ In f (map vc_file above)).
    { clear - I. induction l as [|x l IH]; [destruct I|]. destruct (list_eq_dec N.eq_dec (vc_file x) f) as [E|E]; [now exists [], x, l|].
      destruct I as [I|I]; [easy|]. destruct (IH I) as (a & v & b & -> & A & B). exists (x :: a), v, b. split; [easy|]. split; [easy|]. intros [X|X]; easy. }
    destruct X as (above & v & below & -> & Ev & Na).
    apply Forall2_app_inv_r in F as (sa & sb & Fa & Fb & ->). inversion Fb as [|[fx h] ? sb' ? V Fb']; subst.
    assert (fx = f) as -> by (destruct V as [E _]; cbn in E; congruence).
    unfold vstack_handle. fold f. rewrite (proj2 (on_stack _ f) I), (pop_split above f v below Ev Na).
    destruct (elem_gives f h v e V) as [V' G]. destruct (vctx_handle v e) as [v' evs'] eqn:EV. cbn [fst snd] in *.
    exists ((f, h ++ [e]) :: sb'). split; [now constructor|]. intros g st2.
    pose proof (view_files _ _ Fa) as EFa. split.
    + intros H. inversion H as [st0 e0 g0 N|ab f0 h0 be e0 gs g0 Ef N Ge Gg E1]; try subst st0; try subst e0; try subst st2; try subst g.
      * destruct N. rewrite EF. exact I.
      * subst f0. fold f in N, E1. destruct (cut_unique f ab sa h0 h be sb' E1 N) as (-> & -> & ->); [now rewrite EFa|].
        apply (ends_give true sa above gs Fa) in Ge. apply G in Gg. now subst.
    + intros [-> ->]. apply Sp_back; [easy|now rewrite EFa|now apply (ends_give true sa above)|now apply G].
  - unfold vstack_handle. fold f. destruct (existsb _ l) eqn:EX; [now apply on_stack in EX|].
    destruct (elem_gives f [] (vctx_new (e_where e)) e V0) as [V' G]. destruct (vctx_handle (vctx_new (e_where e)) e) as [v' evs'] eqn:EV. cbn [fst snd List.app] in *.
    exists ((f, [e]) :: st). split; [now constructor|]. intros g st2. split.
    + intros H. inversion H as [st0 e0 g0 N Gg|ab f0 h0 be e0 gs g0 Ef N Ge Gg E1]; try subst st0; try subst e0; try subst st2; try subst g.
      * apply G in Gg. now subst.
      * destruct I. rewrite <- EF, <- E1, map_app, in_app_iff. right. left. cbn. now rewrite Ef.
    + intros [-> ->]. apply Sp_new; [fold f; now rewrite EF|now apply G].
Qed.

Lemma spaced_all evs : forall st l, Forall2 View st l ->
  exists st', Forall2 View st' (snd (vsw l evs)) /\ forall out st2, SpacedAll st evs out st2 <-> out = fst (vsw l evs) /\ st2 = st'.
Proof.
  induction evs as [|ev evs IH]; intros st l F.
  - exists st. split; [easy|]. intros out st2. cbn. split; [intros H; now inversion H|intros [-> ->]; constructor].
  - assert (OTHER : (forall e, ev <> EvElem e) -> vsw l (ev :: evs) = (ev :: fst (vsw l evs), snd (vsw l evs)) ->
      exists st', Forall2 View st' (snd (vsw l (ev :: evs))) /\ forall out st2, SpacedAll st (ev :: evs) out st2 <-> out = fst (vsw l (ev :: evs)) /\ st2 = st').
    { intros NE E. destruct (IH st l F) as (st' & F' & I'). rewrite E. cbn [fst snd]. exists st'. split; [easy|]. intros out st2. split.
      - intros H. inversion H as [|? e ? g s1 o s2 S1 S2|? ? ? o s2 N S2]; subst; [now destruct (NE e)|]. apply I' in S2 as [-> ->]. easy.
      - intros [-> ->]. apply Sa_other; [easy|]. now apply I'. }
    destruct ev as [w d k|m|e].
    + apply OTHER; [discriminate|]. cbn. now destruct (vsw l evs).
    + apply OTHER; [discriminate|]. cbn. now destruct (vsw l evs).
    + clear OTHER. cbn [vsw]. destruct (spaced_iff st l e F) as (st1 & F1 & I1). destruct (vstack_handle l e) as [o1 l1]. cbn [fst snd] in *.
      destruct (IH st1 l1 F1) as (st' & F' & I'). destruct (vsw l1 evs) as [o2 l2]. cbn [fst snd] in *. exists st'. split; [easy|]. intros out st2. split.
      * intros H. inversion H as [|? ? ? g s1 o s2 S1 S2|? ? ? o s2 N S2]; subst; [|now destruct (N e)]. apply I1 in S1 as [-> ->]. apply I' in S2 as [-> ->]. easy.
      * intros [-> ->]. apply (Sa_elem _ _ _ _ st1); [now apply I1|now apply I'].
Qed.
Lemma eof_false l : vstack_eof l false = List.concat (map (fun v => vctx_eof v false) l).
Proof. induction l as [|v l IH]; [easy|]. cbn. now rewrite IH. Qed.
Lemma all_end st l g : Forall2 View st l -> AllEnd st g <-> g = vstack_eof l true.
Proof.
  intros F. destruct F as [|x v st l V F]; cbn [vstack_eof].
  - split; [intros H; now inversion H|intros ->; constructor].
  - rewrite eof_false. split.
    + intros H. inversion H as [|? ? g' gs E E']; subst. apply (end_gives x v) in E; [|easy]. apply (ends_give false st l gs F) in E'. now subst.
    + intros ->. constructor; [now apply (end_gives x v)|now apply (ends_give false st l)].
Qed.
Theorem vsw_ok evs out : vsw_stream (evs, Ok tt) = (out, Ok tt) <-> exists o st g, SpacedAll [] evs o st /\ AllEnd st g /\ out = o ++ g.
Proof.
  destruct (spaced_all evs [] [] ltac:(constructor)) as (st' & F & I'). unfold vsw_stream. cbn [fst snd].
  destruct (vsw [] evs) as [o l]. cbn [fst snd] in *. split.
  - intros H. injection H as <-. exists o, st', (vstack_eof l true). split; [now apply I'|]. split; [now apply (all_end st' l)|easy].
  - intros (o' & st & g & S1 & A & ->). apply I' in S1 as [-> ->]. apply (all_end st' l) in A; [|easy]. now subst.
Qed.
Theorem vsw_fails evs e out : vsw_stream (evs, Exn e) = (out, Exn e) <-> exists st, SpacedAll [] evs out st.
Proof.
  destruct (spaced_all evs [] [] ltac:(constructor)) as (st' & F & I'). unfold vsw_stream. cbn [fst snd].
  destruct (vsw [] evs) as [o l]. cbn [fst snd] in *. split.
  - intros H. injection H as <-. exists st'. now apply I'.
  - intros (st & S1). apply I' in S1 as [-> ->]. easy.
Qed.
