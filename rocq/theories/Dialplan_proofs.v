(* The model of dialplan.py follows the rules of Spec_Dialplan.v. *)
From Verif Require Import Base PyStr Regex Defines FileRd Config Pattern Pattern_proofs Var VarFun VarFun_proofs AppM
  Dialplan Spec_Dialplan.

(* ---- Lists ---- *)
Lemma last_opt_snoc {A} (l : list A) a : last_opt (l ++ [a]) = Some a.
Proof. induction l as [|x l IH]; [easy|]. cbn. destruct (l ++ [a]) eqn:E; [now destruct l|]. exact IH. Qed.
Lemma last_opt_some {A} (l : list A) a : last_opt l = Some a <-> last_is l a.
Proof.
  split.
  - destruct l as [|x l _] using rev_ind; [easy|]. rewrite last_opt_snoc. intros [= ->]. now exists l.
  - intros [r ->]. apply last_opt_snoc.
Qed.
Lemma last_opt_none {A} (l : list A) : last_opt l = None <-> l = [].
Proof.
  split; [|now intros ->]. destruct l as [|x l _] using rev_ind; [easy|]. now rewrite last_opt_snoc.
Qed.
Lemma last_is_eq {A} (l : list A) a b : last_is l a -> last_is l b -> a = b.
Proof. intros Ha Hb. apply last_opt_some in Ha, Hb. congruence. Qed.

Lemma last_filter {A} (f : A -> bool) (l : list A) y : last_opt (filter f l) = Some y ->
  exists l1 l2, l = l1 ++ y :: l2 /\ f y = true /\ Forall (fun z => f z = false) l2.
Proof.
  induction l as [|x l IH] using rev_ind; [easy|].
  rewrite filter_app. cbn. destruct (f x) eqn:E.
  - rewrite last_opt_snoc. intros [= ->]. exists l, []. auto.
  - rewrite app_nil_r. intros H. destruct (IH H) as (l1 & l2 & -> & Hy & F).
    exists l1, (l2 ++ [x]). split; [now rewrite <- app_assoc|]. split; [easy|].
    apply Forall_app. auto.
Qed.
Lemma last_filter_uniq {A} (f : A -> bool) (l1 l2 : list A) y :
  f y = true -> Forall (fun z => f z = false) l2 -> last_opt (filter f (l1 ++ y :: l2)) = Some y.
Proof.
  intros Hy F. rewrite filter_app. cbn. rewrite Hy.
  assert (filter f l2 = []) as ->; [|apply last_opt_snoc].
  induction F as [|z l Hz F IH]; [easy|]. cbn. now rewrite Hz.
Qed.

(* ---- Latest ---- *)
Lemma latest_snoc P h e x : Latest P (h ++ [e]) x <-> (P e /\ x = e) \/ (~ P e /\ Latest P h x).
Proof.
  split.
  - intros (h1 & h2 & E & Hx & F). destruct h2 as [|z h2 _] using rev_ind.
    + apply app_inj_tail in E as [-> ->]. auto.
    + rewrite app_comm_cons, app_assoc in E. apply app_inj_tail in E as [-> ->].
      apply Forall_app in F as [F1 F2]. inversion_clear F2. right. split; [easy|].
      now exists h1, h2.
  - intros [[H ->]|[H (h1 & h2 & -> & Hx & F)]].
    + now exists h, [].
    + exists h1, (h2 ++ [e]). rewrite <- app_assoc. split; [easy|]. split; [easy|].
      apply Forall_app. auto.
Qed.
Lemma latest_in P h x : Latest P h x -> In x h /\ P x.
Proof. intros (h1 & h2 & -> & H & _). split; [|easy]. apply in_or_app. cbn. auto. Qed.
Lemma latest_uniq P h x y : Latest P h x -> Latest P h y -> x = y.
Proof.
  induction h as [|e h IH] using rev_ind.
  - intros (h1 & h2 & E & _). now destruct h1.
  - rewrite !latest_snoc. intros [[H ->]|[H Hx]] [[H' ->]|[H' Hy]]; tauto || auto.
Qed.

Definition opens (n : str) (e : hev) : Prop := exists w, e = HOpen n w.
Definition accline (n : str) (e : hev) : Prop := Accepted e /\ exists x f, e = HLine n x f.

Lemma continues_open h n w : ~ Continues (h ++ [HOpen n w]) n.
Proof.
  intros (m & x & f & H). apply latest_snoc in H as [[_ [=]]|[H _]].
  apply H. left. now exists w.
Qed.
Lemma continues_line h n x f : Accepted (HLine n x f) -> Continues (h ++ [HLine n x f]) n.
Proof. intros H. exists n, x, f. apply latest_snoc. left. split; [|easy]. right. split; [easy|]. now exists x, f. Qed.
Lemma continues_other h n e : ~ opens n e -> ~ accline n e -> (Continues (h ++ [e]) n <-> Continues h n).
Proof.
  intros H1 H2. unfold Continues. split; intros (m & x & f & H); exists m, x, f.
  - apply latest_snoc in H as [[[H|H] _]|[_ H]]; [now destruct H1|now destruct H2|easy].
  - apply latest_snoc. right. split; [|easy]. intros [K|K]; [now apply H1|now apply H2].
Qed.

(* ---- Reading off histories ---- *)
Lemma stored_app h h' n : stored_of (h ++ h') n = stored_of h n ++ stored_of h' n.
Proof. apply flat_map_app. Qed.
Lemma includes_app h h' n : includes_of (h ++ h') n = includes_of h n ++ includes_of h' n.
Proof. apply flat_map_app. Qed.
Lemma jumping_app h h' : jumping (h ++ h') = jumping h ++ jumping h'.
Proof. apply flat_map_app. Qed.
Lemma stored_in h n y : In y (stored_of h n) <-> exists x, In (HLine n x (Stored y)) h.
Proof.
  unfold stored_of. rewrite in_flat_map. split.
  - intros (e & He & H). destruct e as [| | |m x [| |z]|]; try easy.
    destruct (str_eqb_spec m n) as [->|]; [|easy]. destruct H as [->|[]]. now exists x.
  - intros [x H]. exists (HLine n x (Stored y)). split; [easy|]. rewrite str_eqb_refl. cbn. auto.
Qed.

Lemma opened_after_app h h' : forall seen,
  opened_after seen (h ++ h') = opened_after seen h ++ opened_after (rev (opened_after seen h) ++ seen) h'.
Proof.
  induction h as [|e h IH]; intros seen; [easy|]. cbn [app opened_after].
  destruct e as [| |n w| |]; try apply IH.
  destruct (smem n seen); [apply IH|]. cbn [app rev]. rewrite IH. now rewrite <- app_assoc.
Qed.
Lemma opened_after_in h n : forall seen,
  In n (opened_after seen h) <-> ~ In n seen /\ exists w, In (HOpen n w) h.
Proof.
  induction h as [|e h IH]; intros seen; [cbn; firstorder|].
  destruct e as [| |m w| |]; cbn [opened_after];
    try (rewrite IH; cbn; split; intros [H [w' H']]; (split; [easy|]); exists w'; intuition congruence).
  destruct (smem m seen) eqn:E.
  - apply smem_In in E. rewrite IH. cbn. split; intros [H [w' H']]; (split; [easy|]); exists w'; intuition congruence.
  - apply smem_not_In in E. cbn. rewrite IH. cbn. split.
    + intros [->|[H [w' H']]]; [split; [easy|]; exists w; auto|]. split; [tauto|]. exists w'. auto.
    + intros [H [w' [[= -> ->]|H']]]; [auto|]. destruct (str_eq_dec m n); [auto|]. right.
      split; [tauto|]. now exists w'.
Qed.
Lemma opened_in h n : In n (opened h) <-> exists w, In (HOpen n w) h.
Proof. unfold opened. rewrite opened_after_in. cbn. tauto. Qed.
Lemma opened_nodup_after h : forall seen, NoDup (opened_after seen h).
Proof.
  induction h as [|e h IH]; intros seen; [constructor|].
  destruct e as [| |m w| |]; cbn [opened_after]; auto.
  destruct (smem m seen); [auto|]. constructor; [|auto].
  rewrite opened_after_in. cbn. tauto.
Qed.
Lemma opened_nodup h : NoDup (opened h).
Proof. apply opened_nodup_after. Qed.
Lemma opened_snoc h e : opened (h ++ [e]) =
  opened h ++ match e with HOpen n _ => if smem n (opened h) then [] else [n] | _ => [] end.
Proof.
  unfold opened. rewrite opened_after_app, app_nil_r. destruct e; try easy. cbn.
  assert (smem n (rev (opened_after [] h)) = smem n (opened_after [] h)) as ->; [|now destruct smem].
  destruct (smem n (opened_after [] h)) eqn:E.
  - apply smem_In in E. apply smem_In. now apply in_rev in E.
  - apply smem_not_In in E. apply smem_not_In. now rewrite <- in_rev.
Qed.

(* ---- The list of contexts ---- *)
Lemma find_ctx_in n l c : find_ctx n l = Some c -> In c l /\ dc_name c = n.
Proof.
  induction l as [|x l IH]; [easy|]. cbn. destruct (str_eqb_spec (dc_name x) n) as [E|E].
  - intros [= ->]. auto.
  - intros H. destruct (IH H). auto.
Qed.
Lemma find_ctx_none n l : find_ctx n l = None <-> forall c, In c l -> dc_name c <> n.
Proof.
  induction l as [|x l IH]; [cbn; firstorder|]. cbn. destruct (str_eqb_spec (dc_name x) n) as [E|E].
  - split; [easy|]. intros H. now destruct (H x (or_introl eq_refl)).
  - rewrite IH. split; [intros H c [->|Hc]; auto|auto].
Qed.
Lemma find_ctx_some l c : NoDup (map dc_name l) -> In c l -> find_ctx (dc_name c) l = Some c.
Proof.
  induction l as [|x l IH]; [easy|]. cbn. intros H Hin. inversion_clear H as [|? ? Hn Hd].
  destruct (str_eqb_spec (dc_name x) (dc_name c)) as [E|E].
  - destruct Hin as [->|Hin]; [easy|]. destruct Hn. rewrite E. now apply in_map.
  - destruct Hin as [->|Hin]; [easy|]. now apply IH.
Qed.
Lemma set_ctx_names c l : map dc_name (set_ctx c l) = map dc_name l.
Proof.
  induction l as [|x l IH]; [easy|]. cbn. destruct (str_eqb_spec (dc_name x) (dc_name c)) as [E|E]; cbn; congruence.
Qed.
Lemma set_ctx_in c l x : NoDup (map dc_name l) -> In x (set_ctx c l) ->
  x = c \/ (In x l /\ dc_name x <> dc_name c).
Proof.
  induction l as [|y l IH]; [easy|]. cbn. intros H Hin. inversion_clear H as [|? ? Hn Hd].
  destruct (str_eqb_spec (dc_name y) (dc_name c)) as [E|E].
  - destruct Hin as [->|Hin]; [auto|]. right. split; [auto|]. intros K. apply Hn. rewrite E, <- K. now apply in_map.
  - destruct Hin as [->|Hin]; [auto|]. destruct (IH Hd Hin) as [->|[? ?]]; auto.
Qed.

(* ---- Invariant ---- *)
Definition canon (y : ext) : str := canonical (pv (x_pat y)).

Record EntryOk (exts : list ext) (k : str) (pc : pcache) : Prop := {
  eo_prio : forall q y, zlookup q (pc_prios pc) = Some y -> In y exts /\ canon y = k /\ x_prio y = q;
  eo_prio' : forall y, In y exts -> canon y = k -> zlookup (x_prio y) (pc_prios pc) <> None;
  eo_lab : forall s y, lookup s (pc_labels pc) = Some y -> In y exts /\ canon y = k /\ x_label y = Some s /\ s <> [];
  eo_lab' : forall y s, In y exts -> canon y = k -> x_label y = Some s -> s <> [] -> lookup s (pc_labels pc) <> None
}.
Record CacheOk (exts : list ext) (cache : list (str * pcache)) : Prop := {
  co_none : forall k, lookup k cache = None -> forall y, In y exts -> canon y <> k;
  co_some : forall k pc, lookup k cache = Some pc -> EntryOk exts k pc
}.

Record CInv (h : list hev) (c : dctx) : Prop := {
  ci_exts : dc_exts c = stored_of h (dc_name c);
  ci_incs : dc_includes c = includes_of h (dc_name c);
  ci_where : Latest (opens (dc_name c)) h (HOpen (dc_name c) (dc_where c));
  ci_last : match dc_last c with
            | Some q => (1 <= q)%Z /\ Continues h (dc_name c) /\ dc_exts c <> []
            | None => ~ Continues h (dc_name c)
            end;
  ci_cache : CacheOk (dc_exts c) (dc_cache c);
  ci_sorted : dc_sorted c = None
}.

Record GInv (U : uni) (h : list hev) (g : glob) : Prop := {
  gi_last : match g_last g with
            | Some q => (1 <= q)%Z /\ exists e, Latest Accepted h e /\ Accepts e q
            | None => forall e, In e h -> ~ Accepted e
            end;
  gi_labels : forall s, smem s (g_labels g) = true <-> s <> [] /\ exists n y, In y (stored_of h n) /\ HasLabel y s;
  gi_jumps : JumpsOf U h (g_jumps g)
}.

Definition touches (n : str) (e : hev) : bool :=
  match e with HOpen m _ | HLine m _ _ | HInc m _ _ => str_eqb m n | _ => false end.

Record Inv (U : uni) (h : list hev) (d : dplan) : Prop := {
  in_gen : match dp_general d with
           | Some w => In (HGen w) h
           | None => forall w, ~ In (HGen w) h
           end;
  in_globs : match dp_globals d with
             | Some w => exists h1 h2, h = h1 ++ HGlob w :: h2 /\ forall w', ~ In (HGlob w') h1
             | None => forall w, ~ In (HGlob w) h
             end;
  in_names : map dc_name (dp_ctxs d) = opened h;
  in_ctxs : forall c, In c (dp_ctxs d) -> CInv h c;
  in_glob : GInv U h (dp_glob d);
  in_cur : match dp_cur d with
           | CurNone => forall e, In e h -> ~ Header e
           | CurPlain => exists e, Latest Header h e /\ forall n w, e <> HOpen n w
           | CurCtx n => exists w, Latest Header h (HOpen n w)
           end;
  in_lines : forall e n, In e h -> touches n e = true -> In n (opened h)
}.

(* ---- The checks of add ---- *)
Lemma same_pat_iff p q : pat_eqb p q = true <-> SamePat p q.
Proof. apply pat_eqb_eq. Qed.
Lemma same_pat_false p q : pat_eqb p q = false <-> ~ SamePat p q.
Proof. rewrite <- same_pat_iff. destruct pat_eqb; split; congruence. Qed.

Section Steps.
Variable U : uni.
Variable FT : ftable.
Variable AT : atable.

Ltac okb := match goal with H : mbind _ _ = (_, Ok _) |- _ => apply mbind_ok in H; destruct H as (?l & ?a & ?l' & ?H & ?H & ->) end.

Lemma add_check_rule h g c x l r : CInv h c -> GInv U h g -> add_check g c x = (l, r) ->
  exists ms, l = map LMsg ms /\
    ((r = Ok None /\ LineRule h (dc_name c) x Refused ms) \/
     exists p q, r = Ok (Some (p, q)) /\ EffPat h (dc_name c) x p /\ EffPrio h (dc_name c) x p q ms /\ (1 <= q)%Z).
Proof.
  intros C G. unfold add_check.
  assert (forall p, EffPat h (dc_name c) x p ->
    (match i_prio x with
    | None =>
      match g_last g with
      | None | Some 0%Z =>
        do* _ <- memit E_DP_PRIO_MISSING (i_where x) [(L "pat", AStr (praw p))]; mret None
      | Some n =>
        do* bad <- (match dc_last c with
                    | None | Some 0%Z => mret true
                    | Some _ => match last_ext c with
                                | Some y => mret (negb (pat_eqb (x_pat y) p))
                                | None => mexn IndexError
                                end
                    end);
        do* _ <- (if bad : bool then memit W_DP_PRIO_BADORDER (i_where x)
          [(L "pat", AStr (praw p)); (L "prio", AStr (L "<unset>"))] else mret tt);
        mret (Some (p, (n + 1)%Z))
      end
    | Some q =>
      if (q <? 1)%Z then
        do* _ <- memit E_DP_PRIO_INVALID (i_where x) [(L "prio", AInt q)]; mret None
      else if (q =? 1)%Z then mret (Some (p, q))
      else
        do* _ <- (match last_opt (same_pat c p) with
                  | None => memit W_DP_PRIO_BADORDER (i_where x) [(L "pat", AStr (praw p)); (L "prio", AInt q)]
                  | Some y => if negb (x_prio y =? q - 1)%Z && negb (x_prio y =? q)%Z
                              then memit W_DP_PRIO_BADORDER (i_where x)
                                [(L "pat", AStr (praw p)); (L "prio", AInt q)] else mret tt
                  end);
        mret (Some (p, q))
    end) = (l, r) ->
    exists ms, l = map LMsg ms /\
    ((r = Ok None /\ LineRule h (dc_name c) x Refused ms) \/
     exists p q, r = Ok (Some (p, q)) /\ EffPat h (dc_name c) x p /\ EffPrio h (dc_name c) x p q ms /\ (1 <= q)%Z)) as main.
  { intros p EP. destruct (i_prio x) as [q|] eqn:EQ.
    - destruct (Z.ltb_spec q 1) as [H|H].
      { intros [= <- <-]. eexists [_]. split; [reflexivity|]. left. split; [easy|].
        now apply (LR_bad_priority _ _ _ p q). }
      destruct (Z.eqb_spec q 1) as [->|H1].
      { intros [= <- <-]. exists []. split; [easy|]. right. exists p, 1%Z. repeat split; try easy.
        now apply EP_one. }
      assert (2 <= q)%Z as Q2 by lia.
      destruct (last_opt (same_pat c p)) as [y|] eqn:EL.
      + apply last_filter in EL as (l1 & l2 & E & Hy & F). rewrite (ci_exts _ _ C) in E.
        apply same_pat_iff in Hy.
        assert (Forall (fun z => ~ SamePat (x_pat z) p) l2) as F'
          by (eapply Forall_impl; [|exact F]; intros z Hz; now apply same_pat_false).
        destruct (Z.eqb_spec (x_prio y) (q - 1)) as [E1|E1];
          [|destruct (Z.eqb_spec (x_prio y) q) as [E2|E2]]; cbn [negb andb].
        * intros [= <- <-]. exists []. split; [easy|]. right. exists p, q. repeat split; try easy.
          eapply EP_num_ok; eauto.
        * intros [= <- <-]. exists []. split; [easy|]. right. exists p, q. repeat split; try easy.
          eapply EP_num_ok; eauto.
        * intros [= <- <-]. eexists [_]. split; [reflexivity|]. right. exists p, q. repeat split; try easy.
          apply EP_num_bad; [easy|easy|]. intros l3 z r3 E3 Hz F3.
          assert (Some z = Some y) as [= ->]; [|auto].
          rewrite <- (last_filter_uniq (fun x => pat_eqb (x_pat x) p) l3 r3 z), <- E3, E.
          -- apply last_filter_uniq; [now apply same_pat_iff|]. eapply Forall_impl; [|exact F'].
             intros; now apply same_pat_false.
          -- now apply same_pat_iff.
          -- eapply Forall_impl; [|exact F3]. intros; now apply same_pat_false.
      + apply last_opt_none in EL. intros [= <- <-]. eexists [_]. split; [reflexivity|]. right. exists p, q.
        repeat split; try easy. apply EP_num_bad; [easy|easy|]. intros l3 z r3 E3 Hz F3.
        unfold same_pat in EL. rewrite (ci_exts _ _ C), E3, filter_app in EL. cbn in EL.
        apply same_pat_iff in Hz. rewrite Hz in EL. now apply app_eq_nil in EL.
    - pose proof (gi_last _ _ _ G) as GL. destruct (g_last g) as [q|].
      2:{ intros [= <- <-]. eexists [_]. split; [reflexivity|]. left. split; [easy|].
          now apply LR_no_priority. }
      destruct GL as (Q1 & e & HL & HA). destruct q as [|q|q]; [lia| |lia].
      pose proof (ci_last _ _ C) as CL. destruct (dc_last c) as [k|].
      + destruct CL as (K1 & K2 & K3). destruct k as [|k|k]; [lia| |lia].
        unfold last_ext. destruct (last_opt (dc_exts c)) as [y|] eqn:EL; [|now apply last_opt_none in EL].
        apply last_opt_some in EL. rewrite (ci_exts _ _ C) in EL. cbn [mbind mret fst snd app].
        destruct (pat_eqb (x_pat y) p) eqn:E; cbn [negb].
        * apply same_pat_iff in E. intros [= <- <-]. exists []. split; [easy|]. right. exists p, (Z.pos q + 1)%Z.
          repeat split; try easy; [|lia]. eapply EP_next_ok; eauto.
        * apply same_pat_false in E. intros [= <- <-]. eexists [_]. split; [reflexivity|]. right.
          exists p, (Z.pos q + 1)%Z. repeat split; try easy; [|lia]. eapply EP_next_bad; eauto.
          intros (_ & z & Hz & Hs). now rewrite (last_is_eq _ _ _ Hz EL) in Hs.
      + cbn [mbind mret fst snd app].
        intros [= <- <-]. eexists [_]. split; [reflexivity|]. right.
        exists p, (Z.pos q + 1)%Z. repeat split; try easy; [|lia]. eapply EP_next_bad; eauto. tauto. }
  destruct (i_pat x) as [p|] eqn:EI.
  - cbn [mbind mret fst snd app]. intros H. apply (main p); [now left|]. rewrite <- H. apply surjective_pairing.
  - destruct (last_ext c) as [y|] eqn:EL.
    + cbn [mbind mret fst snd app]. intros H. apply (main (x_pat y)).
      * right. split; [easy|]. exists y. split; [|easy]. apply last_opt_some in EL. now rewrite <- (ci_exts _ _ C).
      * rewrite <- H. apply surjective_pairing.
    + intros [= <- <-]. eexists [_]. split; [reflexivity|]. left. split; [easy|].
      apply LR_no_pattern; [easy|]. rewrite <- (ci_exts _ _ C). now apply last_opt_none.
Qed.

(* ---- The pattern cache ---- *)
Lemma lab_none l : lab l = None <-> l = None \/ l = Some [].
Proof. destruct l as [[|c s]|]; cbn; intuition congruence. Qed.
Lemma lab_some l s : lab l = Some s <-> l = Some s /\ s <> [].
Proof. destruct l as [[|c t]|]; cbn; intuition congruence. Qed.

Lemma lookup_hd {A} k (v : A) l k' : lookup k' ((k, v) :: l) = if str_eqb k' k then Some v else lookup k' l.
Proof. reflexivity. Qed.
Lemma zlookup_hd {A} k (v : A) l k' : zlookup k' ((k, v) :: l) = if (k' =? k)%Z then Some v else zlookup k' l.
Proof. reflexivity. Qed.

Lemma add_cache_rule h c p q x l r : CInv h c -> add_cache c p q x = (l, Ok r) ->
  exists ms, l = map LMsg ms /\
    match r with
    | None => exists y, In y (stored_of h (dc_name c)) /\ SameCanon (x_pat y) p /\ x_prio y = q /\
                ms = [pmsg E_DP_PRIO_DUPE x (Some (x_where y)) [(L "prio", AInt q)]]
    | Some (label, pc, labels) =>
      (forall y, In y (stored_of h (dc_name c)) -> SameCanon (x_pat y) p -> x_prio y <> q) /\
      EffLabel h (dc_name c) x p label ms /\
      CacheOk (dc_exts c ++ [Ext p q label (i_raw x) (i_where x)]) ((canonical (pv p), pc) :: dc_cache c) /\
      labels = match lab label with Some s => [s] | None => [] end
    end.
Proof.
  intros C. pose proof (ci_cache _ _ C) as K. unfold add_cache.
  rewrite <- (ci_exts _ _ C).
  assert (forall label pc,
    EntryOk (dc_exts c ++ [Ext p q label (i_raw x) (i_where x)]) (canonical (pv p)) pc ->
    CacheOk (dc_exts c ++ [Ext p q label (i_raw x) (i_where x)]) ((canonical (pv p), pc) :: dc_cache c)) as cache.
  { intros label pc E. constructor.
    - intros k. rewrite lookup_hd. destruct (str_eqb_spec k (canonical (pv p))) as [->|N]; [easy|].
      intros H y Hy. apply in_app_or in Hy as [Hy|[<-|[]]]; [now apply (co_none _ _ K)|unfold canon; cbn; congruence].
    - intros k pc'. rewrite lookup_hd. destruct (str_eqb_spec k (canonical (pv p))) as [->|N].
      + now intros [= <-].
      + intros H. pose proof (co_some _ _ K k pc' H) as [E1 E2 E3 E4]. constructor.
        * intros q' y Hy. destruct (E1 q' y Hy) as (? & ? & ?). split; [apply in_or_app; auto|easy].
        * intros y Hy Hk. apply in_app_or in Hy as [Hy|[<-|[]]]; [now apply E2|unfold canon in Hk; cbn in Hk; congruence].
        * intros s y Hy. destruct (E3 s y Hy) as (? & ?). split; [apply in_or_app; auto|easy].
        * intros y s Hy Hk. apply in_app_or in Hy as [Hy|[<-|[]]]; [now apply E4|]. unfold canon in Hk. cbn in Hk. congruence. }
  destruct (lookup (canonical (pv p)) (dc_cache c)) as [pc|] eqn:EC.
  - pose proof (co_some _ _ K _ _ EC) as [E1 E2 E3 E4].
    destruct (zlookup q (pc_prios pc)) as [old|] eqn:EZ.
    + intros [= <- <-]. eexists [_]. split; [reflexivity|]. destruct (E1 _ _ EZ) as (I & Ik & Iq).
      exists old. repeat split; easy.
    + assert (forall y, In y (dc_exts c) -> SameCanon (x_pat y) p -> x_prio y <> q) as ND.
      { intros y Hy Hc <-. now apply (E2 y Hy Hc). }
      destruct (lab (i_label x)) as [s|] eqn:EL.
      * apply lab_some in EL as [EL Es]. destruct (lookup s (pc_labels pc)) as [old|] eqn:EO.
        -- intros [= <- <-]. eexists [_]. split; [reflexivity|]. cbn beta iota.
           destruct (E3 _ _ EO) as (I & Ik & Il & _). split; [easy|]. split; [|split; [|easy]].
           { eapply EL_dup; eauto. now rewrite <- (ci_exts _ _ C). }
           apply cache. constructor; cbn [pc_prios pc_labels].
           ++ intros q' y. rewrite zlookup_hd. destruct (Z.eqb_spec q' q) as [->|].
              ** intros [= <-]. repeat split. apply in_or_app. cbn. auto.
              ** intros Hy. destruct (E1 _ _ Hy) as (? & ?). split; [apply in_or_app; auto|easy].
           ++ intros y Hy Hk. rewrite zlookup_hd. destruct (Z.eqb_spec (x_prio y) q); [easy|].
              apply in_app_or in Hy as [Hy|[<-|[]]]; [now apply E2|now cbn in *].
           ++ intros s' y Hy. destruct (E3 _ _ Hy) as (? & ?). split; [apply in_or_app; auto|easy].
           ++ intros y s' Hy Hk Hl Hs. apply in_app_or in Hy as [Hy|[<-|[]]]; [now apply (E4 y)|]. cbn in Hl. congruence.
        -- intros [= <- <-]. exists []. split; [easy|]. split; [easy|].
           assert (lab (i_label x) = Some s) as EL' by now apply lab_some.
           rewrite EL'. split; [|split; [|easy]].
           { rewrite EL. apply EL_new; [easy|easy|]. rewrite <- (ci_exts _ _ C). intros y Hy Hc Hl.
             now apply (E4 y s Hy Hc Hl Es). }
           apply cache. constructor; cbn [pc_prios pc_labels].
           ++ intros q' y. rewrite zlookup_hd. destruct (Z.eqb_spec q' q) as [->|].
              ** intros [= <-]. repeat split. apply in_or_app. cbn. auto.
              ** intros Hy. destruct (E1 _ _ Hy) as (? & ?). split; [apply in_or_app; auto|easy].
           ++ intros y Hy Hk. rewrite zlookup_hd. destruct (Z.eqb_spec (x_prio y) q); [easy|].
              apply in_app_or in Hy as [Hy|[<-|[]]]; [now apply E2|now cbn in *].
           ++ intros s' y. rewrite lookup_hd. destruct (str_eqb_spec s' s) as [->|].
              ** intros [= <-]. repeat split; [apply in_or_app; cbn; auto|easy|easy].
              ** intros Hy. destruct (E3 _ _ Hy) as (? & ?). split; [apply in_or_app; auto|easy].
           ++ intros y s' Hy Hk Hl Hs. rewrite lookup_hd. destruct (str_eqb_spec s' s); [easy|].
              apply in_app_or in Hy as [Hy|[<-|[]]]; [now apply (E4 y)|]. cbn in Hl. congruence.
      * intros [= <- <-]. exists []. split; [easy|]. split; [easy|]. rewrite EL. apply lab_none in EL.
        split; [now apply EL_none|]. split; [|easy].
        apply cache. constructor; cbn [pc_prios pc_labels].
        ++ intros q' y. rewrite zlookup_hd. destruct (Z.eqb_spec q' q) as [->|].
           ** intros [= <-]. repeat split. apply in_or_app. cbn. auto.
           ** intros Hy. destruct (E1 _ _ Hy) as (? & ?). split; [apply in_or_app; auto|easy].
        ++ intros y Hy Hk. rewrite zlookup_hd. destruct (Z.eqb_spec (x_prio y) q); [easy|].
           apply in_app_or in Hy as [Hy|[<-|[]]]; [now apply E2|now cbn in *].
        ++ intros s' y Hy. destruct (E3 _ _ Hy) as (? & ?). split; [apply in_or_app; auto|easy].
        ++ intros y s' Hy Hk Hl Hs. apply in_app_or in Hy as [Hy|[<-|[]]]; [now apply (E4 y)|].
           cbn in Hl. intuition congruence.
  - intros [= <- <-]. exists []. split; [easy|].
    pose proof (co_none _ _ K _ EC) as NK.
    split; [intros y Hy Hc; now destruct (NK y Hy)|].
    split; [|split; [|easy]].
    { destruct (lab (i_label x)) as [s|] eqn:EL.
      - apply lab_some in EL as [EL Es]. rewrite EL. apply EL_new; [easy|easy|].
        rewrite <- (ci_exts _ _ C). intros y Hy Hc. now destruct (NK y Hy).
      - apply lab_none in EL. now apply EL_none. }
    apply cache. constructor; cbn [pc_prios pc_labels].
    + intros q' y. rewrite zlookup_hd. destruct (Z.eqb_spec q' q) as [->|]; [|easy].
      intros [= <-]. repeat split. apply in_or_app. cbn. auto.
    + intros y Hy Hk. rewrite zlookup_hd. destruct (Z.eqb_spec (x_prio y) q); [easy|].
      apply in_app_or in Hy as [Hy|[<-|[]]]; [now destruct (NK y Hy)|now cbn in *].
    + intros s' y. destruct (lab (i_label x)) as [s|] eqn:EL; [|easy]. apply lab_some in EL as [EL Es].
      rewrite lookup_hd. destruct (str_eqb_spec s' s) as [->|]; [|easy].
      intros [= <-]. repeat split; [apply in_or_app; cbn; auto|easy|easy].
    + intros y s' Hy Hk Hl Hs. apply in_app_or in Hy as [Hy|[<-|[]]]; [now destruct (NK y Hy)|].
      cbn in Hl. rewrite Hl. replace (lab (Some s')) with (Some s') by (now destruct s').
      rewrite lookup_hd. now rewrite str_eqb_refl.
Qed.

(* ---- Jumps ---- *)
Lemma bind_ok {A B} (r : res A) (f : A -> res B) b : bind r f = Ok b -> exists a, r = Ok a /\ f a = Ok b.
Proof. destruct r; cbn; try easy. eauto. Qed.

Lemma mk_jump_rule n p w d j : mk_jump U n p w d = Ok j -> JumpOf U n p w d j.
Proof.
  unfold mk_jump. intros H. apply bind_ok in H as (e & He & H). apply bind_ok in H as (q & Hq & H).
  injection H as <-. unfold JumpOf. cbn. split; [|split; [|split; [|easy]]].
  - destruct (d_ctx d) as [t|]; [|left; split; [easy|easy]].
    destruct (truthy t) eqn:E; [right; auto|left]. split; [|easy]. intros t' [= <-]. easy.
  - destruct (d_ext d) as [t|].
    + destruct (truthy t) eqn:E.
      * destruct t as [s| | | | | | |].
        { injection He as <-. apply JE_text. intros ->. now cbn in E. }
        all: apply bind_ok in He as (ex & Hex & He);
          destruct tformat as [s|[]|] eqn:EF in He; try easy; injection He as <-;
          [now apply (JE_var p _ ex)|now apply (JE_open p _ ex)].
      * apply bind_ok in He as (ex & Hex & He). injection He as <-. apply JE_default; [|easy].
        intros t' [= <-]. easy.
    + apply bind_ok in He as (ex & Hex & He). injection He as <-. now apply JE_default.
  - unfold JumpPrio. destruct (d_prio d) as [[s| | | | | | |]|]; try (now injection Hq as <-).
    destruct (sisdigit U s).
    + apply bind_ok in Hq as (z & Hz & Hq). injection Hq as <-. left. split; [easy|]. now exists z.
    + injection Hq as <-. auto.
Qed.
Lemma mk_jumps_rule n p w ds : forall js, mk_jumps U n p w ds = Ok js -> Forall2 (JumpOf U n p w) ds js.
Proof.
  induction ds as [|d ds IH]; intros js H; cbn in H; [now injection H as <-|].
  apply bind_ok in H as (j & Hj & H). apply bind_ok in H as (js' & Hjs & H). injection H as <-.
  constructor; [now apply mk_jump_rule|auto].
Qed.

(* ---- Frame: what other events do to a context ---- *)
Lemma cinv_frame h c e : CInv h c -> touches (dc_name c) e = false -> CInv (h ++ [e]) c.
Proof.
  intros [C1 C2 C3 C4 C5 C6] T.
  assert (~ opens (dc_name c) e) as NO.
  { intros [w ->]. cbn in T. now rewrite str_eqb_refl in T. }
  assert (~ accline (dc_name c) e) as NA.
  { intros [_ (x & f & ->)]. cbn in T. now rewrite str_eqb_refl in T. }
  constructor; [| | | |easy|easy].
  - rewrite stored_app, <- C1. destruct e as [| | |m x [| |y]|]; cbn in *; rewrite ?T; now rewrite app_nil_r.
  - rewrite includes_app, <- C2. destruct e; cbn in *; rewrite ?T; now rewrite app_nil_r.
  - apply latest_snoc. auto.
  - destruct (dc_last c); rewrite (continues_other _ _ e); auto.
Qed.

Lemma jumps_frame h e js : jumping [e] = [] -> JumpsOf U h js -> JumpsOf U (h ++ [e]) js.
Proof. intros E (jss & F & ->). exists jss. rewrite jumping_app, E, app_nil_r. auto. Qed.

Lemma ginv_frame h g e : GInv U h g -> ~ Accepted e -> GInv U (h ++ [e]) g.
Proof.
  intros [G1 G2 G3] NA.
  assert (forall n, stored_of [e] n = []) as S0.
  { intros n. destruct e as [| | |m x [| |y]|]; try easy. destruct NA. now exists (x_prio y). }
  constructor.
  - destruct (g_last g) as [q|].
    + destruct G1 as (? & e' & ? & ?). split; [easy|]. exists e'. split; [|easy]. apply latest_snoc. auto.
    + intros e' He. apply in_app_or in He as [He|[<-|[]]]; auto.
  - intros s. rewrite G2. split; intros (? & n & y & Hy & ?); (split; [easy|]); exists n, y; (split; [|easy]);
      rewrite stored_app, S0, app_nil_r in *; easy.
  - apply jumps_frame; [|easy]. destruct e as [| | |m x [| |y]|]; try easy. destruct NA. now exists (x_prio y).
Qed.

(* ---- add ---- *)
Lemma ctx_add_rule h g c x l g' c' : CInv h c -> GInv U h g -> ctx_add U g c x = (l, Ok (g', c')) ->
  exists f ms, l = map LMsg ms /\ LineRule h (dc_name c) x f ms /\
    dc_name c' = dc_name c /\
    CInv (h ++ [HLine (dc_name c) x f]) c' /\ GInv U (h ++ [HLine (dc_name c) x f]) g'.
Proof.
  intros C G. unfold ctx_add. destruct (add_check g c x) as [l1 r] eqn:EC.
  destruct (add_check_rule _ _ _ _ _ _ C G EC) as (ms & -> & [[-> LR]|(p & q & -> & EP & EQ & Q1)]).
  - cbn. rewrite app_nil_r. intros [= <- <- <-]. exists Refused, ms.
    assert (~ Accepted (HLine (dc_name c) x Refused)) as NA by now intros [? ?].
    split; [easy|]. split; [easy|]. split; [easy|]. split; [|now apply ginv_frame].
    destruct C as [C1 C2 C3 C4 C5 C6]. constructor; unfold set_sorted; cbn [dc_exts dc_includes dc_name dc_where dc_last dc_cache dc_sorted].
    + now rewrite stored_app, app_nil_r.
    + now rewrite includes_app, app_nil_r.
    + apply latest_snoc. right. split; [|easy]. now intros [w [=]].
    + assert (~ opens (dc_name c) (HLine (dc_name c) x Refused)) as NO by now intros [w [=]].
      destruct (dc_last c); rewrite continues_other; auto; now intros [? _].
    + easy.
    + easy.
  - cbn [mbind]. destruct (add_cache c p q x) as [l2 [o|e|]] eqn:EA; try easy.
    destruct (add_cache_rule _ _ _ _ _ _ _ C EA) as (ms2 & -> & R). destruct o as [[[label pc] labels]|].
    + destruct R as (ND & EL & CO & ->). cbn [mbind fst snd].
      destruct (mk_jumps U (dc_name c) p (i_where x) (i_dests x)) as [js|e|] eqn:EJ; try easy.
      cbn. intros [= <- <- <-]. rewrite app_nil_r.
      set (y := Ext p q label (i_raw x) (i_where x)).
      assert (Accepted (HLine (dc_name c) x (Stored y))) as AC by now exists q.
      exists (Stored y), (ms ++ ms2). split; [now rewrite map_app|].
      split; [eapply LR_stored; eauto|]. split; [easy|]. split.
      * constructor; cbn.
        -- rewrite stored_app, <- (ci_exts _ _ C). cbn. now rewrite str_eqb_refl.
        -- rewrite includes_app, <- (ci_incs _ _ C). cbn. now rewrite app_nil_r.
        -- apply latest_snoc. right. split; [now intros [w [=]]|]. apply (ci_where _ _ C).
        -- split; [easy|]. split; [now apply continues_line|]. now destruct (dc_exts c).
        -- easy.
        -- easy.
      * constructor; cbn.
        -- split; [easy|]. exists (HLine (dc_name c) x (Stored y)). split; [|easy]. apply latest_snoc. auto.
        -- intros s. pose proof (gi_labels _ _ _ G s) as GL. fold (smem s (match lab label with Some s0 => [s0] | None => [] end ++ g_labels g)).
           rewrite smem_In in *.
           rewrite in_app_iff, GL. split.
           ++ intros [H|(Hs & n & z & Hz & Hl)].
              ** destruct (lab label) as [s0|] eqn:E0; [|easy]. destruct H as [->|[]].
                 apply lab_some in E0 as [-> E0]. split; [easy|]. exists (dc_name c), y. split; [|easy].
                 rewrite stored_app. apply in_or_app. cbn. rewrite str_eqb_refl. cbn. auto.
              ** split; [easy|]. exists n, z. split; [|easy]. rewrite stored_app. apply in_or_app. auto.
           ++ intros (Hs & n & z & Hz & Hl). rewrite stored_app in Hz. apply in_app_or in Hz as [Hz|Hz].
              ** right. split; [easy|]. now exists n, z.
              ** left. cbn in Hz. destruct str_eqb; [|easy]. destruct Hz as [<-|[]]. unfold HasLabel in Hl. cbn in Hl.
                 subst label. destruct s; [easy|]. cbn. auto.
        -- destruct (gi_jumps _ _ _ G) as (jss & F & ->). exists (jss ++ [js]). split.
           ++ rewrite jumping_app. apply Forall2_app; [easy|]. cbn. constructor; [|easy].
              now apply mk_jumps_rule.
           ++ rewrite concat_app. cbn. now rewrite app_nil_r.
    + destruct R as (y & Hy & Hc & Hq & ->). cbn. intros [= <- <- <-].
      assert (Accepted (HLine (dc_name c) x (Dropped p q y))) as AC by now exists q.
      exists (Dropped p q y), (ms ++ [pmsg E_DP_PRIO_DUPE x (Some (x_where y)) [(L "prio", AInt q)]]).
      split; [now rewrite map_app|]. split; [eapply LR_duplicate; eauto|]. split; [easy|].
      rewrite <- (ci_exts _ _ C) in Hy. split.
      * constructor; cbn.
        -- rewrite stored_app, <- (ci_exts _ _ C). cbn. now rewrite app_nil_r.
        -- rewrite includes_app, <- (ci_incs _ _ C). cbn. now rewrite app_nil_r.
        -- apply latest_snoc. right. split; [now intros [w [=]]|]. apply (ci_where _ _ C).
        -- split; [easy|]. split; [now apply continues_line|]. intros E. now rewrite E in Hy.
        -- apply (ci_cache _ _ C).
        -- easy.
      * constructor; cbn.
        -- split; [easy|]. exists (HLine (dc_name c) x (Dropped p q y)). split; [|easy]. apply latest_snoc. auto.
        -- intros s. fold (smem s (g_labels g)). rewrite (gi_labels _ _ _ G). split; intros (? & n & z & Hz & ?); (split; [easy|]); exists n, z;
             (split; [|easy]); rewrite stored_app, app_nil_r in *; easy.
        -- apply jumps_frame; [easy|]. apply (gi_jumps _ _ _ G).
Qed.

(* ---- One element ---- *)
Lemma inv_nodup h d : Inv U h d -> NoDup (map dc_name (dp_ctxs d)).
Proof. intros I. rewrite (in_names _ _ _ I). apply opened_nodup. Qed.

Lemma header_frame h e cur0 : ~ Header e ->
  match cur0 with
  | CurNone => forall e, In e h -> ~ Header e
  | CurPlain => exists e, Latest Header h e /\ forall n w, e <> HOpen n w
  | CurCtx n => exists w, Latest Header h (HOpen n w)
  end ->
  match cur0 with
  | CurNone => forall e', In e' (h ++ [e]) -> ~ Header e'
  | CurPlain => exists e', Latest Header (h ++ [e]) e' /\ forall n w, e' <> HOpen n w
  | CurCtx n => exists w, Latest Header (h ++ [e]) (HOpen n w)
  end.
Proof.
  intros NH. destruct cur0.
  - intros H e' He. apply in_app_or in He as [He|[<-|[]]]; auto.
  - intros (e' & H & N). exists e'. split; [|easy]. apply latest_snoc. auto.
  - intros (w & H). exists w. apply latest_snoc. auto.
Qed.

Lemma in_snoc {A} (l : list A) a x : In x (l ++ [a]) <-> In x l \/ x = a.
Proof. rewrite in_app_iff. cbn. intuition. Qed.

Lemma gen_frame h e g : (forall w, e <> HGen w) ->
  match g with Some w => In (HGen w) h | None => forall w, ~ In (HGen w) h end ->
  match g with Some w => In (HGen w) (h ++ [e]) | None => forall w, ~ In (HGen w) (h ++ [e]) end.
Proof.
  intros N. destruct g as [w|]; intros H; [apply in_snoc; auto|].
  intros w Hw. apply in_snoc in Hw as [Hw|Hw]; [now apply (H w)|now apply (N w)].
Qed.
Definition glob_at (g : option loc) (h : list hev) : Prop :=
  match g with
  | Some w => exists h1 h2, h = h1 ++ HGlob w :: h2 /\ forall w', ~ In (HGlob w') h1
  | None => forall w, ~ In (HGlob w) h
  end.
Lemma glob_frame h e g : (g = None -> forall w, e <> HGlob w) -> glob_at g h -> glob_at g (h ++ [e]).
Proof.
  intros N. destruct g as [w|]; intros H.
  - destruct H as (h1 & h2 & -> & H). exists h1, (h2 ++ [e]). now rewrite <- app_assoc.
  - intros w Hw. apply in_snoc in Hw as [Hw|Hw]; [now apply (H w)|now apply (N eq_refl w)].
Qed.

Definition lines_at (h : list hev) : Prop := forall e n, In e h -> touches n e = true -> In n (opened h).
Lemma lines_frame h e : lines_at h -> (forall n, touches n e = true -> In n (opened (h ++ [e]))) -> lines_at (h ++ [e]).
Proof.
  intros Hl He e' n Hin T. apply in_snoc in Hin as [Hin| ->]; [|now apply He].
  rewrite opened_snoc. apply in_or_app. left. now apply (Hl e').
Qed.
Lemma untouched h n : (forall e, In e h -> touches n e = false) ->
  stored_of h n = [] /\ includes_of h n = [] /\ ~ Continues h n.
Proof.
  induction h as [|e h IH] using rev_ind; intros H.
  - repeat split. intros (m & x & f & (h1 & h2 & E & _)). now destruct h1.
  - destruct IH as (I1 & I2 & I3); [intros e' He; apply H, in_snoc; auto|].
    assert (touches n e = false) as T by (apply H, in_snoc; auto).
    rewrite stored_app, includes_app, I1, I2. split; [|split].
    + destruct e as [| | |m x [| |y]|]; cbn in *; rewrite ?T; easy.
    + destruct e; cbn in *; rewrite ?T; easy.
    + rewrite continues_other; [easy| |].
      * intros [w ->]. cbn in T. now rewrite str_eqb_refl in T.
      * intros [_ (x & f & ->)]. cbn in T. now rewrite str_eqb_refl in T.
Qed.

Lemma no_ctxs h d : Inv U h d -> (dp_ctxs d = [] <-> forall n w, ~ In (HOpen n w) h).
Proof.
  intros I. pose proof (in_names _ _ _ I) as E. split.
  - intros H n w Hw. rewrite H in E. cbn in E. assert (In n (opened h)) as K by (apply opened_in; eauto).
    now rewrite <- E in K.
  - intros H. destruct (dp_ctxs d) as [|c l] eqn:EL; [easy|]. cbn in E.
    assert (In (dc_name c) (opened h)) as K by (rewrite <- E; cbn; auto).
    apply opened_in in K as [w K]. now destruct (H _ _ K).
Qed.

Lemma inv_init : Inv U [] dp_init.
Proof.
  constructor; cbn; try easy. constructor; cbn; try easy.
  - intros s. split; [easy|]. now intros (_ & n & y & [] & _).
  - exists []. split; [constructor|easy].
Qed.

Lemma on_context_rule h d c l d' : Inv U h d -> on_context d c = (l, Ok d') ->
  exists h', ElemRule U FT AT h (ECtx c) h' l /\ Inv U (h ++ h') d'.
Proof.
  intros I. unfold on_context.
  destruct (str_eqb_spec (c_name c) (L "general")) as [EG|NG].
  { unfold add_general. pose proof (in_gen _ _ _ I) as IG. destruct (dp_general d) as [old|]; [easy|].
    intros H. apply mbind_ok in H as (l1 & [] & l2 & H1 & H2 & ->). injection H2 as <- <-. rewrite app_nil_r.
    exists [HGen (c_where c)]. pose proof (no_ctxs h d I) as NC. split.
    - apply ER_general; [easy|easy|]. pose proof (in_globs _ _ _ I) as IB.
      destruct (dp_globals d) as [w|].
      + injection H1 as <-. right. split; [|easy]. intros [K _]. destruct IB as (h1 & h2 & -> & _).
        apply (K w), in_or_app. cbn. auto.
      + destruct (dp_ctxs d) as [|c0 cs].
        * injection H1 as <-. left. split; [|easy]. split; [easy|]. now apply NC.
        * injection H1 as <-. right. split; [|easy]. intros [_ K]. now apply NC in K.
    - constructor; cbn.
      + apply in_snoc. auto.
      + fold (glob_at (dp_globals d) (h ++ [HGen (c_where c)])). apply glob_frame; [easy|]. apply (in_globs _ _ _ I).
      + rewrite opened_snoc, app_nil_r. apply (in_names _ _ _ I).
      + intros c0 H0. apply cinv_frame; [|easy]. now apply (in_ctxs _ _ _ I).
      + apply ginv_frame; [apply (in_glob _ _ _ I)|now intros [? ?]].
      + exists (HGen (c_where c)). split; [|easy]. apply latest_snoc. left. now split.
      + fold (lines_at (h ++ [HGen (c_where c)])). apply lines_frame; [exact (in_lines _ _ _ I)|easy]. }
  destruct (str_eqb_spec (c_name c) (L "globals")) as [EG|NB].
  { unfold add_globals. pose proof (in_globs _ _ _ I) as IB. pose proof (no_ctxs h d I) as NC.
    intros H. exists [HGlob (c_where c)].
    assert (forall g, (dp_globals d = None -> g = Some (c_where c)) -> (dp_globals d <> None -> g = dp_globals d) ->
      Inv U (h ++ [HGlob (c_where c)]) (DPlan (dp_general d) g (dp_ctxs d) (dp_glob d) CurPlain)) as Hinv.
    { intros g G1 G2. constructor; cbn.
      + apply gen_frame; [easy|]. apply (in_gen _ _ _ I).
      + fold (glob_at g (h ++ [HGlob (c_where c)])). destruct (dp_globals d) as [w|].
        * rewrite (G2 ltac:(easy)). now apply glob_frame.
        * rewrite (G1 eq_refl). exists h, []. now split.
      + rewrite opened_snoc, app_nil_r. apply (in_names _ _ _ I).
      + intros c0 H0. apply cinv_frame; [|easy]. now apply (in_ctxs _ _ _ I).
      + apply ginv_frame; [apply (in_glob _ _ _ I)|now intros [? ?]].
      + exists (HGlob (c_where c)). split; [|easy]. apply latest_snoc. left. now split.
      + fold (lines_at (h ++ [HGlob (c_where c)])). apply lines_frame; [exact (in_lines _ _ _ I)|easy]. }
    destruct (dp_globals d) as [w|] eqn:ED.
    - injection H as <- <-. split.
      + destruct IB as (h1 & h2 & -> & IB). eapply ER_globals_again; eauto.
      + now apply Hinv.
    - apply mbind_ok in H as (l1 & [] & l2 & H1 & H2 & ->). injection H2 as <- <-. rewrite app_nil_r. split.
      + apply ER_globals; [easy|easy|]. pose proof (in_gen _ _ _ I) as IG.
        destruct (dp_general d) as [w|].
        * destruct (dp_ctxs d) as [|c0 cs].
          -- injection H1 as <-. left. split; [|easy]. split; [now exists w|]. now apply NC.
          -- injection H1 as <-. right. split; [|easy]. intros [_ K]. now apply NC in K.
        * injection H1 as <-. right. split; [|easy]. intros [[w K] _]. now apply (IG w).
      + now apply Hinv. }
  intros H. apply mbind_ok in H as (l1 & [] & l2 & H1 & H2 & ->).
  exists [HOpen (c_name c) (c_where c)].
  assert (l1 = match c_templates c with [] => [] | _ => [LMsg (Msg I_NOTIMPL_TEMPLATES (c_where c) None [])] end) as ->.
  { destruct (c_templates c); now injection H1 as <-. }
  assert (forall c0, In c0 (dp_ctxs d) -> dc_name c0 <> c_name c -> CInv (h ++ [HOpen (c_name c) (c_where c)]) c0) as FR.
  { intros c0 H0 N. apply cinv_frame; [now apply (in_ctxs _ _ _ I)|]. cbn. apply str_eqb_neq. congruence. }
  destruct (find_ctx (c_name c) (dp_ctxs d)) as [old|] eqn:EF.
  - destruct (find_ctx_in _ _ _ EF) as [IO EN].
    assert (In (c_name c) (opened h)) as OP by (rewrite <- (in_names _ _ _ I), <- EN; now apply in_map).
    unfold ctx_update in H2. destruct (c_comment c) eqn:CC; [easy|]. destruct (c_templates c) as [|t0 ts] eqn:CT; [|easy].
    injection H2 as <- <-. cbn. split.
    + apply opened_in in OP as [w OP]. eapply ER_reopen; eauto.
    + constructor; cbn.
      * apply gen_frame; [easy|]. apply (in_gen _ _ _ I).
      * fold (glob_at (dp_globals d) (h ++ [HOpen (c_name c) (c_where c)])). apply glob_frame; [easy|]. apply (in_globs _ _ _ I).
      * rewrite set_ctx_names, opened_snoc. apply smem_In in OP. rewrite OP, app_nil_r. apply (in_names _ _ _ I).
      * intros c0 H0. apply set_ctx_in in H0; [|apply (inv_nodup _ _ I)]. cbn in H0.
        destruct H0 as [->|[H0 N]]; [|apply FR; congruence].
        destruct (in_ctxs _ _ _ I old IO) as [C1 C2 C3 C4 C5 C6]. constructor; cbn; try easy.
        -- now rewrite stored_app, app_nil_r.
        -- now rewrite includes_app, app_nil_r.
        -- rewrite EN. apply latest_snoc. left. split; [|easy]. now eexists.
        -- rewrite EN. apply continues_open.
      * apply ginv_frame; [apply (in_glob _ _ _ I)|now intros [? ?]].
      * exists (c_where c). apply latest_snoc. left. now split.
      * fold (lines_at (h ++ [HOpen (c_name c) (c_where c)])). apply lines_frame; [exact (in_lines _ _ _ I)|].
        intros n T. cbn in T. apply str_eqb_eq in T as <-. apply opened_in. exists (c_where c). apply in_snoc. auto.
  - injection H2 as <- <-. rewrite app_nil_r. rewrite find_ctx_none in EF.
    assert (~ In (c_name c) (opened h)) as OP.
    { rewrite <- (in_names _ _ _ I). intros K. apply in_map_iff in K as (c0 & E0 & K). now apply (EF c0). }
    assert (forall w, ~ In (HOpen (c_name c) w) h) as OP'.
    { intros w K. apply OP, opened_in. eauto. }
    split; [now apply ER_open|].
    constructor; cbn.
    + apply gen_frame; [easy|]. apply (in_gen _ _ _ I).
    + fold (glob_at (dp_globals d) (h ++ [HOpen (c_name c) (c_where c)])). apply glob_frame; [easy|]. apply (in_globs _ _ _ I).
    + rewrite map_app, opened_snoc, (in_names _ _ _ I). apply smem_not_In in OP. now rewrite OP.
    + intros c0 H0. apply in_snoc in H0 as [H0| ->]; [apply FR; auto|].
      destruct (untouched h (c_name c)) as (U1 & U2 & U3).
      { intros e He. destruct (touches (c_name c) e) eqn:T; [|easy]. destruct OP. now apply (in_lines _ _ _ I e). }
      constructor; cbn.
      * now rewrite stored_app, U1.
      * now rewrite includes_app, U2.
      * apply latest_snoc. left. split; [|easy]. now eexists.
      * apply continues_open.
      * now constructor.
      * easy.
    + apply ginv_frame; [apply (in_glob _ _ _ I)|now intros [? ?]].
    + exists (c_where c). apply latest_snoc. left. now split.
    + fold (lines_at (h ++ [HOpen (c_name c) (c_where c)])). apply lines_frame; [exact (in_lines _ _ _ I)|].
      intros n T. cbn in T. apply str_eqb_eq in T as <-. apply opened_in. exists (c_where c). apply in_snoc. auto.
Qed.

Lemma on_varset_rule h d v l d' : Inv U h d -> on_varset U FT AT d v = (l, Ok d') ->
  exists h', ElemRule U FT AT h (EVar v) h' l /\ Inv U (h ++ h') d'.
Proof.
  intros I. unfold on_varset. pose proof (in_cur _ _ _ I) as IC. destruct (dp_cur d) as [| |n] eqn:ED.
  - intros [= <- <-]. exists []. rewrite app_nil_r. split; [now apply ER_outside|easy].
  - intros [= <- <-]. exists []. rewrite app_nil_r. split; [|easy].
    destruct IC as (e & He & N). now apply (ER_plain _ _ _ _ _ e).
  - destruct IC as (w & HL). intros H. apply mbind_ok in H as (l1 & o & l2 & H1 & H2 & ->).
    destruct o as [dv|].
    2:{ injection H2 as <- <-. exists []. rewrite !app_nil_r. split; [|easy]. eapply ER_nothing; eauto. }
    destruct (find_ctx n (dp_ctxs d)) as [c|] eqn:EF; [|easy].
    destruct (find_ctx_in _ _ _ EF) as [IO EN].
    assert (In n (opened h)) as OP by (rewrite <- (in_names _ _ _ I), <- EN; now apply in_map).
    pose proof (in_ctxs _ _ _ I c IO) as C.
    assert (forall e c0, touches (dc_name c0) e = false -> In c0 (dp_ctxs d) -> CInv (h ++ [e]) c0) as FR.
    { intros e c0 T H0. apply cinv_frame; [now apply (in_ctxs _ _ _ I)|easy]. }
    destruct dv as [x|i w'].
    + apply mbind_ok in H2 as (l3 & [] & l4 & H3 & H4 & ->).
      apply mbind_ok in H4 as (l5 & [g' c'] & l6 & H5 & H6 & ->). injection H6 as <- <-. rewrite app_nil_r.
      destruct (ctx_add_rule _ _ _ _ _ _ _ C (in_glob _ _ _ I) H5) as (f & ms & -> & LR & EN' & C' & G').
      exists [HLine n x f]. rewrite EN in *. split.
      * set (hint := match i_pat x with
           | Some p => if is_canonical p then []
                       else [pmsg H_PAT_NON_CANONICAL x None
                               [(L "pat", AStr (praw p)); (L "expected", AStr (canonical (pv p)))]]
           | None => []
           end).
        replace l3 with (map LMsg hint).
        -- rewrite <- map_app. eapply ER_line; eauto.
        -- subst hint. destruct (i_pat x) as [p|]; [|now injection H3 as <-].
           destruct (is_canonical p); now injection H3 as <-.
      * constructor; cbn.
        -- apply gen_frame; [easy|]. apply (in_gen _ _ _ I).
        -- fold (glob_at (dp_globals d) (h ++ [HLine n x f])). apply glob_frame; [easy|]. apply (in_globs _ _ _ I).
        -- rewrite set_ctx_names, opened_snoc, app_nil_r. apply (in_names _ _ _ I).
        -- intros c0 H0. apply set_ctx_in in H0; [|apply (inv_nodup _ _ I)].
           destruct H0 as [->|[H0 N]]; [easy|]. apply FR; [|easy]. cbn. apply str_eqb_neq. congruence.
        -- easy.
        -- exists w. apply latest_snoc. right. now split.
        -- fold (lines_at (h ++ [HLine n x f])). apply lines_frame; [exact (in_lines _ _ _ I)|].
           intros m T. cbn in T. apply str_eqb_eq in T as <-. rewrite opened_snoc, app_nil_r. easy.
    + injection H2 as <- <-. exists [HInc n i w']. rewrite app_nil_r. split; [eapply ER_include; eauto|].
      constructor; cbn.
      * apply gen_frame; [easy|]. apply (in_gen _ _ _ I).
      * fold (glob_at (dp_globals d) (h ++ [HInc n i w'])). apply glob_frame; [easy|]. apply (in_globs _ _ _ I).
      * rewrite set_ctx_names, opened_snoc, app_nil_r. apply (in_names _ _ _ I).
      * intros c0 H0. apply set_ctx_in in H0; [|apply (inv_nodup _ _ I)]. cbn in H0.
        destruct H0 as [->|[H0 N]]; [|apply FR; [|easy]; cbn; apply str_eqb_neq; congruence].
        destruct C as [C1 C2 C3 C4 C5 C6]. constructor; cbn; try easy.
        -- now rewrite stored_app, app_nil_r.
        -- rewrite includes_app, C2. cbn. rewrite EN, str_eqb_refl. easy.
        -- apply latest_snoc. right. split; [now intros [? [=]]|easy].
        -- assert (~ opens (dc_name c) (HInc n i w')) as NO by now intros [? [=]].
           assert (~ accline (dc_name c) (HInc n i w')) as NA by now intros [[? ?] _].
           destruct (dc_last c); rewrite continues_other; auto.
      * apply ginv_frame; [apply (in_glob _ _ _ I)|now intros [? ?]].
      * exists w. apply latest_snoc. right. now split.
      * fold (lines_at (h ++ [HInc n i w'])). apply lines_frame; [exact (in_lines _ _ _ I)|].
        intros m T. cbn in T. apply str_eqb_eq in T as <-. rewrite opened_snoc, app_nil_r. easy.
Qed.

Lemma on_element_rule h d e l d' : Inv U h d -> on_element U FT AT d e = (l, Ok d') ->
  exists h', ElemRule U FT AT h e h' l /\ Inv U (h ++ h') d'.
Proof.
  intros I H.
  assert (match e with
           | ECtx c => on_context d c
           | EVar v => on_varset U FT AT d v
           | EEmpty _ _ => mret d
           end = (l, Ok d')) as H'.
  { unfold on_element in H. destruct e as [b w|c|v].
    - easy.
    - now destruct (on_context d c) as [? [?|?|]].
    - now destruct (on_varset U FT AT d v) as [? [?|?|]]. }
  destruct e as [b w|c|v].
  - injection H' as <- <-. exists []. rewrite app_nil_r. split; [constructor|easy].
  - now apply (on_context_rule _ d).
  - now apply (on_varset_rule _ d).
Qed.

Lemma steps_snoc es e : forall d l d', dp_steps U FT AT d (es ++ [e]) = (l, Ok d') ->
  exists l1 d1 l2, dp_steps U FT AT d es = (l1, Ok d1) /\ on_element U FT AT d1 e = (l2, Ok d') /\ l = l1 ++ l2.
Proof.
  induction es as [|x es IH]; intros d l d' H.
  - cbn in H. apply mbind_ok in H as (l1 & d1 & l2 & H1 & H2 & ->). injection H2 as <- <-.
    exists [], d, l1. rewrite app_nil_r. auto.
  - cbn [app dp_steps] in H. apply mbind_ok in H as (l1 & d1 & l2 & H1 & H2 & ->).
    apply IH in H2 as (l3 & d2 & l4 & H3 & H4 & ->). exists (l1 ++ l3), d2, l4. split; [|split; [easy|apply app_assoc]].
    cbn [dp_steps]. rewrite H1. cbn [mbind]. now rewrite H3.
Qed.

Lemma steps_history es : forall l d, dp_steps U FT AT dp_init es = (l, Ok d) ->
  exists h, History U FT AT es h l /\ Inv U h d.
Proof.
  induction es as [|e es IH] using rev_ind; intros l d H.
  - injection H as <- <-. exists []. split; [constructor|apply inv_init].
  - apply steps_snoc in H as (l1 & d1 & l2 & H1 & H2 & ->).
    destruct (IH _ _ H1) as (h & Hh & I). destruct (on_element_rule _ _ _ _ _ I H2) as (h' & R & I').
    exists (h ++ h'). split; [now constructor|easy].
Qed.

(* ---- The label index ---- *)
Lemma cache_keys_in l : forall seen p, In p (cache_keys l seen) <-> exists k, ~ In k seen /\ lookup k l = Some p.
Proof.
  induction l as [|[k q] l IH]; intros seen p; [cbn; split; [easy|now intros (k & _ & [=])]|].
  cbn [cache_keys lookup]. destruct (smem k seen) eqn:E.
  - apply smem_In in E. rewrite IH. split; intros (k' & N & H); exists k'; (split; [easy|]).
    + destruct (str_eqb_spec k' k); [congruence|easy].
    + destruct (str_eqb_spec k' k); [congruence|easy].
  - apply smem_not_In in E. cbn [In]. rewrite IH. split.
    + intros [->|(k' & N & H)].
      * exists k. rewrite str_eqb_refl. auto.
      * cbn in N. exists k'. split; [tauto|]. destruct (str_eqb_spec k' k) as [->|]; [|easy]. tauto.
    + intros (k' & N & H). destruct (str_eqb_spec k' k) as [->|].
      * injection H as ->. auto.
      * right. exists k'. split; [|easy]. cbn. intuition.
Qed.
Lemma has_label_iff h c s : CInv h c ->
  (has_label c s = true <-> s <> [] /\ exists y, In y (stored_of h (dc_name c)) /\ HasLabel y s).
Proof.
  intros C. pose proof (ci_cache _ _ C) as K. rewrite <- (ci_exts _ _ C). unfold has_label. rewrite existsb_exists. split.
  - intros (p & Hp & H). apply cache_keys_in in Hp as (k & _ & Hk). destruct (lookup s (pc_labels p)) as [y|] eqn:EL; [|easy].
    destruct (eo_lab _ _ _ (co_some _ _ K _ _ Hk) _ _ EL) as (I & _ & Hl & Hs). split; [easy|]. now exists y.
  - intros (Hs & y & Hy & Hl). destruct (lookup (canon y) (dc_cache c)) as [p|] eqn:EK.
    + exists p. split; [apply cache_keys_in; exists (canon y); auto|].
      pose proof (eo_lab' _ _ _ (co_some _ _ K _ _ EK) y s Hy eq_refl Hl Hs) as N.
      destruct (lookup s (pc_labels p)); [easy|congruence].
    + exfalso. now apply (co_none _ _ K _ EK y Hy).
Qed.

Lemma inv_describes h d : Inv U h d -> Describes U h d.
Proof.
  intros I. constructor.
  - apply (in_names _ _ _ I).
  - intros c Hc. apply (ci_exts _ _ (in_ctxs _ _ _ I c Hc)).
  - intros c Hc. apply (ci_incs _ _ (in_ctxs _ _ _ I c Hc)).
  - intros c Hc. apply (ci_where _ _ (in_ctxs _ _ _ I c Hc)).
  - intros c s Hc. apply has_label_iff. now apply (in_ctxs _ _ _ I).
  - intros s. apply (gi_labels _ _ _ (in_glob _ _ _ I)).
  - apply (gi_jumps _ _ _ (in_glob _ _ _ I)).
Qed.

Lemma dialplan_history es l d : dp_steps U FT AT dp_init es = (l, Ok d) ->
  exists h, History U FT AT es h l /\ Describes U h d.
Proof. intros H. apply steps_history in H as (h & H & I). exists h. split; [easy|now apply inv_describes]. Qed.
End Steps.
