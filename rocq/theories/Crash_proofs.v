(* Proofs about what the linter survives: C23. *)
From Verif Require Import Base PyStr Defines Var VarFun AppM Spec_Var Spec_App Spec_Args Spec_Crash Var_proofs VarFun_proofs
  Balance_proofs Round_proofs App_proofs Tok_proofs AppT_proofs Loader_proofs Args_proofs.

(* ---- computations that end well ---- *)
Definition fine {A} (m : M A) : Prop := exists l a, m = (l, Ok a).
Lemma fine_ret {A} (a : A) : fine (mret a). Proof. now exists [], a. Qed.
Lemma fine_lift {A} (r : res A) a : r = Ok a -> fine (mlift r). Proof. intros ->. now exists [], a. Qed.
Lemma fine_log e : fine (mlog e). Proof. now exists [e], tt. Qed.
Lemma fine_bind {A B} (m : M A) (f : A -> M B) : fine m -> (forall l a, m = (l, Ok a) -> fine (f a)) -> fine (mbind m f).
Proof.
  intros (l & a & ->) H. destruct (H l a eq_refl) as (l' & b & E). exists (l ++ l'), b. cbn. now rewrite E.
Qed.
Lemma fine_bind_inv {A B} (m : M A) (f : A -> M B) : fine (mbind m f) -> exists l a, m = (l, Ok a) /\ fine (f a).
Proof. intros (l & b & H). apply mbind_ok in H as (l1 & a & l2 & H1 & H2 & _). exists l1, a. split; [easy|]. now exists l2, b. Qed.
Lemma fine_snd {A} (m : M A) : fine m <-> exists a, snd m = Ok a.
Proof. destruct m as [l r]. cbn. split; [intros (l' & a & [= _ ->]); eauto|intros [a ->]; now exists l, a]. Qed.
Lemma fine_dec {A} (m : M A) : fine m \/ forall a, snd m <> Ok a.
Proof. destruct m as [l [a|e|]]; cbn; [left; now exists l, a|now right|now right]. Qed.

Definition garg (a : arg) : Prop := forall b, arg_ok b a = Ok tt.
Lemma fine_emit c w args : mdupe c = false -> forallb (fun f => smem (fst f) (map fst args)) (mfields c) = true ->
  Forall (fun p => garg (snd p)) args -> fine (memit c w args).
Proof.
  intros Hd Hk Hg. unfold memit, mw, emit. rewrite Hd. cbn [fst snd map].
  assert (E : format_ok (mfields c) args = Ok tt).
  { clear Hd. induction (mfields c) as [|[f b] fs IH]; [easy|]. cbn [forallb fst] in Hk. apply Bool.andb_true_iff in Hk as [H1 H2].
    cbn [format_ok]. assert (exists a, lookup f args = Some a /\ garg a) as (a & -> & Ha).
    { clear - H1 Hg. induction Hg as [|[k a] args Ha Hg IH]; [easy|]. cbn [lookup]. cbn [map fst] in H1.
      destruct (str_eqb f k) eqn:E; [now exists a|]. apply IH. cbn [smem] in H1. unfold smem in *. cbn [existsb] in H1. now rewrite E in H1. }
    rewrite Ha. cbn [bind]. now apply IH. }
  rewrite E. now exists [LMsg (Msg c w None args)], tt.
Qed.

(* ---- tame data ---- *)
Lemma tame_str t : TameData (elems t) -> exists s, str_of t = Ok s.
Proof.
  intros H. rewrite str_of_elems. induction (elems t) as [|[c|v] l IH]; [now exists []| |].
  - destruct IH as [s E]; [intros v Hv; apply H; now right|]. exists (c :: s). cbn. now rewrite E.
  - destruct IH as [s E]; [intros u Hv; apply H; now right|]. destruct (H v ltac:(now left)) as [[x Ex] _].
    exists (x ++ s). cbn. now rewrite Ex, E.
Qed.
Lemma tame_garg t : TameData (elems t) -> garg (targ t).
Proof. intros H b. destruct (tame_str t H) as [s E]. destruct t; try easy; cbn [targ arg_ok]; rewrite E; now destruct b. Qed.
Lemma tame_sub l m : (forall v, In (Va v) m -> In (Va v) l) -> TameData l -> TameData m.
Proof. intros H HT v Hv. apply HT, H, Hv. Qed.
Lemma tame_app l m : TameData (l ++ m) <-> TameData l /\ TameData m.
Proof.
  unfold TameData. split.
  - intros H. split; intros v Hv; apply H, in_app_iff; auto.
  - intros [H1 H2] v Hv. apply in_app_iff in Hv as [Hv|Hv]; auto.
Qed.

Lemma tame_name v : Named v -> Tame v -> exists n, name_of v = Some n /\ truthy n = true.
Proof.
  intros Hn [_ H]. assert (F : forall n, NameIs v n -> truthy n = true).
  { intros n Hi. destruct (truthy n) eqn:E; [easy|]. exfalso. apply falsy_elems in E. apply (H n Hi). rewrite <- E. apply Flat_elems. }
  destruct Hn; cbn [name_of]; eexists; (split; [reflexivity|]); try (apply F; constructor; fail);
    (apply truthy_elems; rewrite vjoin_elems; cbn [flat_map]; rewrite !elems_str; intros E; apply (f_equal (fun l => In (Ch 40) l)) in E;
     assert (In (Ch 40) []) as []; rewrite <- E; rewrite !in_app_iff; right; left; cbn; auto).
Qed.

Ltac fem := apply fine_emit; [reflexivity|vm_compute; reflexivity|repeat constructor; try (now intros []); try (now apply tame_garg)].

Section Reports.
Variable name : str.
Variable w : loc.

Lemma fine_minmax mn mx args : fine (minmax name mn mx args w).
Proof. unfold minmax. destruct mn as [m|]; [destruct (_ || _)|]; try fem; (destruct mx as [k|]; [destruct (Nat.ltb k _)|]; try fem; apply fine_ret). Qed.
Lemma fine_nopipe data args : TameData (elems data) -> fine (nopipe name data args w).
Proof. intros H. unfold nopipe. destruct args as [|a [|? ?]]; try apply fine_ret. destruct (tin 124 a); [fem|apply fine_ret]. Qed.
Lemma fine_validate_arg n k t : TameData (elems t) -> fine (validate_arg name n k t w).
Proof.
  intros H. unfold validate_arg. destruct k; [apply fine_ret| |].
  - apply fine_bind; [|intros _ _ _].
    + match goal with |- fine (match ?l with _ => _ end) => destruct l end; [apply fine_ret|fem].
    + destruct (has_dup _); [fem|apply fine_ret].
  - destruct (_ || _); [apply fine_ret|fem].
Qed.
Lemma fine_validate ks : forall n args, Forall (fun t => TameData (elems t)) args -> fine (validate name n ks args w).
Proof.
  induction ks as [|k ks IH]; intros n args H; cbn [validate]; [apply fine_ret|]. destruct args as [|a args]; [apply fine_ret|].
  inversion H; subst. apply fine_bind; [now apply fine_validate_arg|]. intros _ _ _. now apply IH.
Qed.

(* arguments have no variables of their own *)
Lemma unquoted_va d l m : Unquoted d l m -> forall v, In (Va v) m -> In (Va v) l.
Proof.
  induction 1 as [|t l m H IH|l m Hd H IH|c l m H1 H2 H IH|vs c l m Hv H IH|vs Hv]; intros v Hi; cbn in *; auto.
  - destruct Hi as [Hi|Hi]; auto.
  - destruct Hi as [Hi|Hi]; [discriminate|auto].
  - right. apply in_app_iff in Hi as [Hi|[Hi|Hi]]; [apply in_app_iff; auto|discriminate|]. apply in_app_iff. right. right. auto.
Qed.
Lemma glue_va d ls : forall a (v : tok), In a ls -> In (Va v) a -> In (Va v) (glue d ls).
Proof.
  induction ls as [|x [|y r] IH]; intros a v Ha Hv; [easy| |].
  - cbn. destruct Ha as [->|[]]. easy.
  - rewrite glue_cons by easy. destruct Ha as [->|Ha]; apply in_app_iff; [now left|right; right]. eapply IH; eauto.
Qed.
Lemma sep_va d rm t a : DelimOk d -> In a (separate_args (SlTok t) d rm) -> forall v, In (Va v) (elems a) -> In (Va v) (elems t).
Proof.
  intros Hd Ha v Hv. destruct rm.
  - pose proof (separate_unquoted t d) as H. rewrite <- (separate_glue t d).
    assert (exists r, In r (map elems (separate_args (SlTok t) d false)) /\ Unquoted d r (elems a)) as (r & Hr & Hu).
    { clear - H Ha. apply (in_map elems) in Ha. induction H as [|x y l m Hx Hl IH]; [easy|]. destruct Ha as [<-|Ha].
      - exists x. split; [now left|easy].
      - destruct (IH Ha) as (r & Hr & Hu). exists r. split; [now right|easy]. }
    eapply glue_va; [exact Hr|]. eapply unquoted_va; eauto.
  - rewrite <- (separate_glue t d). eapply glue_va; [|exact Hv]. now apply in_map.
Qed.
Lemma sep_tame d rm t : DelimOk d -> TameData (elems t) -> Forall (fun a => TameData (elems a)) (separate_args (SlTok t) d rm).
Proof. intros Hd H. apply Forall_forall. intros a Ha. eapply tame_sub; [|exact H]. intros v Hv. eapply sep_va; eauto. Qed.

Lemma fine_vstrip t l : Canon t l -> TameData l -> exists t', vstrip t = Ok t'.
Proof.
  intros HC HT. pose proof (Canon_elems _ _ HC) as El. destruct HC as (m & HP & ->). destruct m as [|x [|y r]].
  - now eexists.
  - destruct HP as (HP & _). inversion HP as [|? ? [Hn|(c & s & ->)] _]; subst; [|now eexists].
    destruct (tame_name x Hn) as (n & En & Et); [apply HT; rewrite elems_named by easy; now left|].
    destruct Hn; cbn [vstrip] in *; rewrite En; rewrite Et; now eexists.
  - cbn [vstrip]. destruct (Nat.eqb _ _); [now eexists|]. destruct (strip_last _) as [|z [|? ?]]; now eexists.
Qed.

Lemma canon_self t l : Canon t l -> Canon t (elems t).
Proof. intros H. now rewrite (Canon_elems _ _ H). Qed.
Lemma sep_canon_in d rm t a : In a (separate_args (SlTok t) d rm) -> Canon a (elems a).
Proof.
  intros Ha. pose proof (separate_canon t d rm) as H. rewrite Forall2_map_r, Forall2_diag, Forall_forall in H. now apply H.
Qed.

Lemma fine_if data : TameData (elems data) -> fine (if_args name data w).
Proof.
  intros HT. unfold if_args. apply fine_bind.
  - assert (K : fine (match separate_args (SlTok data) 44 false with
              | c :: more =>
                do* _ <- (match more with
                          | [] => memit E_APP_ARG_FEW w [(L "app", AStr name); (L "data", targ data); (L "min_args", zn 2)]
                          | _ => memit E_APP_ARG_IFSTYLE w
                                   [(L "app", AStr name); (L "data", targ data); (L "cond", targ c); (L "args", larg more)]
                          end);
                mret (c, SlList more, @None tok)
              | [] => mexn IndexError
              end)).
    { pose proof (separate_ne (SlTok data) 44 false) as Hn. pose proof (sep_tame 44 false data (delim_ok 44 ltac:(cbn; auto)) HT) as Hs.
      destruct (separate_args (SlTok data) 44 false) as [|c more]; [easy|]. inversion Hs; subst.
      apply fine_bind; [destruct more; fem|intros _ _ _; apply fine_ret]. }
    destruct (separate_args (SlTok data) 63 true) as [|c [|act more]]; [exact K|exact K|]. clear K.
    apply fine_bind; [destruct more; [apply fine_ret|fem]|intros _ _ _].
    pose proof (separate_ne (SlTok act) 58 false) as Hn.
    destruct (separate_args (SlTok act) 58 false) as [|t [|f ?]]; [easy|apply fine_ret|apply fine_ret].
  - intros l [[c t] f] E.
    assert (exists d rm, DelimOk d /\ In c (separate_args (SlTok data) d rm)) as (d & rm & Hd & Hc).
    { assert (K : forall l', (match separate_args (SlTok data) 44 false with
              | c :: more =>
                do* _ <- (match more with
                          | [] => memit E_APP_ARG_FEW w [(L "app", AStr name); (L "data", targ data); (L "min_args", zn 2)]
                          | _ => memit E_APP_ARG_IFSTYLE w
                                   [(L "app", AStr name); (L "data", targ data); (L "cond", targ c); (L "args", larg more)]
                          end);
                mret (c, SlList more, @None tok)
              | [] => mexn IndexError
              end) = (l', Ok (c, t, f)) -> In c (separate_args (SlTok data) 44 false)).
      { intros l' H. destruct (separate_args (SlTok data) 44 false) as [|c' more]; [easy|].
        apply mbind_ok in H as (? & ? & ? & _ & H & _). unfold mret in H. injection H as _ <- _ _. now left. }
      destruct (separate_args (SlTok data) 63 true) as [|c' [|act more]] eqn:E63.
      - apply K in E. exists 44, false. split; [apply delim_ok; cbn; auto|easy].
      - apply K in E. exists 44, false. split; [apply delim_ok; cbn; auto|easy].
      - exists 63, true. split; [apply delim_ok; cbn; auto|]. rewrite E63.
        apply mbind_ok in E as (? & ? & ? & _ & H & _). destruct (separate_args (SlTok act) 58 false) as [|t' [|f' ?]]; [easy| |];
          unfold mret in H; injection H as _ <- _ _; now left. }
    assert (HTc : TameData (elems c)) by (eapply tame_sub; [|exact HT]; intros v Hv; eapply sep_va; eauto).
    destruct (fine_vstrip c (elems c) (sep_canon_in _ _ _ _ Hc) HTc) as (c' & Ec).
    apply fine_bind; [now apply (fine_lift _ c')|]. intros _ c'' _. apply fine_bind; [|intros _ _ _; apply fine_ret].
    destruct (tok_is c'' []); [fem|apply fine_ret].
Qed.
End Reports.

(* ---- joining and splitting give canonical values ---- *)
Lemma norm_noadj m : Norm m -> noadj m.
Proof. induction 1 as [|t Ht|t u l Ht Hs Hn IH]; cbn [noadj]; auto. Qed.
Lemma norm_part m : Norm m -> Forall Flatish m -> Forall Part m.
Proof.
  induction 1 as [|t Ht|t u l Ht Hs Hn IH]; intros HF; inversion HF as [|? ? Hf HF']; subst; constructor; auto;
    (destruct Hf as [[s ->]|Hf]; [|now left]); (destruct s as [|c s]; [discriminate Ht|right; eauto]).
Qed.
Lemma canon_vjoin m : Forall Flatish m -> Canon (vjoin m) (flat_map elems m).
Proof.
  intros Hm. rewrite <- (vjoin_elems m). unfold vjoin.
  assert (G : forall l c, Forall Flatish l -> Forall Flatish c -> Forall Flatish (fold_left push l c)).
  { clear. induction l as [|x l IH]; intros c Hl Hc; [easy|]. cbn [fold_left]. inversion Hl; subst.
    apply IH; [easy|]. now apply push_flatish. }
  specialize (G m [] Hm (Forall_nil _)). apply Forall_rev in G.
  pose proof (norm_rev _ (fold_push_norm m [] No_nil)) as HN. set (r := rev (fold_left push m [])) in *.
  assert (K : forall r, match r with [] => TS [] | [t] => t | t :: t0 :: l1 => TList (t :: t0 :: l1) end = tok_of r) by (now intros [|x [|y l]]).
  rewrite (K r). apply Canon_iff. exists r. split; [|easy]. apply Parts_iff.
  split; [now apply norm_part|]. split; [now apply norm_noadj|]. now rewrite tok_of_elems.
Qed.
Lemma canon_close cur : Forall Part cur -> Canon (close_group cur) (flat_map elems (rev cur)).
Proof.
  intros H. unfold close_group. apply Forall_rev in H. destruct (rev cur) as [|x [|y r]].
  - apply Canon_TS.
  - cbn [flat_map]. rewrite app_nil_r. inversion H as [|? ? [Hn|(c & s & ->)] _]; subst.
    + rewrite elems_named by easy. now apply Canon_named.
    + rewrite elems_str. apply Canon_TS.
  - apply canon_vjoin. eapply Forall_impl; [|exact H]. intros t [Ht|(c & s & ->)]; [now right|left; eauto].
Qed.
Definition canonical_ (t : tok) : Prop := Canon t (elems t).
Lemma canon_canonical t l : Canon t l -> canonical_ t.
Proof. intros H. unfold canonical_. now rewrite (Canon_elems _ _ H). Qed.
Lemma opt_cons_part s cur : Forall Part cur -> Forall Part (opt_cons s cur).
Proof. intros H. destruct s; [easy|]. constructor; [right; eauto|easy]. Qed.
Lemma add_parts_canon ps : forall cur gs cur', Forall Part cur -> add_parts cur ps = (gs, cur') ->
  Forall canonical_ gs /\ Forall Part cur'.
Proof.
  induction ps as [|p ps IH]; intros cur gs cur' Hc E.
  - cbn in E. injection E as <- <-. now split.
  - cbn [add_parts] in E. destruct ps as [|q ps].
    + injection E as <- <-. split; [constructor|now apply opt_cons_part].
    + destruct (add_parts [] (q :: ps)) as [gs0 cur0] eqn:E0. injection E as <- <-.
      apply IH in E0 as [H1 H2]; [|constructor]. split; [|easy]. constructor; [|easy].
      eapply canon_canonical, canon_close. now apply opt_cons_part.
Qed.
Lemma split_items_canon c max src : forall done cur, Forall Part src -> Forall Part cur ->
  Forall canonical_ (split_items c max done cur src).
Proof.
  induction src as [|t src IH]; intros done cur Hs Hc; cbn [split_items].
  - constructor; [eapply canon_canonical, canon_close; easy|constructor].
  - inversion Hs as [|? ? Ht Hs']; subst.
    assert (G : forall d, Forall canonical_ (split_items c max d (t :: cur) src)) by (intros d; apply IH; [easy|now constructor]).
    destruct t; try apply G. destruct (_ || _); [apply G|].
    destruct (add_parts cur _) as [gs cur'] eqn:E. apply add_parts_canon in E as [H1 H2]; [|easy].
    apply Forall_app. split; [easy|]. now apply IH.
Qed.
Lemma vsplit_canon c max t l parts : Canon t l -> ~ Named t -> vsplit c max t = Ok parts -> Forall canonical_ parts.
Proof.
  intros (m & HP & ->) Hn E. apply Parts_iff in HP as (HF & _).
  assert (T : forall s, Forall canonical_ (map TS (ssplit c max s))).
  { intros s. apply Forall_forall. intros x Hx. apply in_map_iff in Hx as (y & <- & _). eapply canon_canonical, Canon_TS. }
  destruct m as [|x [|y r]].
  - injection E as <-. apply (T []).
  - inversion HF as [|? ? [Hx|(ch & s & ->)] _]; subst; [easy|]. injection E as <-. apply (T (ch :: s)).
  - unfold vsplit in E. injection E as <-. apply (split_items_canon c max (x :: y :: r) 0 []); [easy|constructor].
Qed.

(* one split: the parts *)
Lemma vsplit_two c t l : Canon t l -> ~ Named t ->
  (~ In (Ch c) l /\ exists p, vsplit c (Some 1%nat) t = Ok [p]) \/
  (exists a b la lb, vsplit c (Some 1%nat) t = Ok [a; b] /\ Canon a la /\ Canon b lb /\ l = la ++ Ch c :: lb /\ ~ In (Ch c) la).
Proof.
  intros HC Hn. pose proof (Canon_shallow _ _ HC) as Hs. destruct (vsplit_Split c (Some 1%nat) t Hs Hn) as (ps & E & _).
  pose proof (vsplit_canon _ _ _ _ _ HC Hn E) as HF. rewrite <- (Canon_elems _ _ HC).
  destruct (vsplit_one _ _ _ Hs Hn E) as [(H1 & p & ->)|(a & b & -> & _ & H1 & H2)].
  - left. split; [easy|]. now exists p.
  - right. inversion HF as [|? ? Ha HF']; subst. inversion HF' as [|? ? Hb _]; subst. now exists a, b, (elems a), (elems b).
Qed.
Lemma canon_text t l s : Canon t l -> l = map Ch s -> t = TS s.
Proof. intros H ->. eapply Canon_fun; [exact H|apply Canon_TS]. Qed.
Lemma all_chars (l : list elem) : (exists s, l = map Ch s) \/ (exists v, In (Va v) l).
Proof.
  induction l as [|[c|v] l IH]; [left; now exists []| |right; exists v; now left].
  destruct IH as [[s ->]|[v Hv]]; [left; now exists (c :: s)|right; exists v; now right].
Qed.
Lemma chars_no_va s (v : tok) : ~ In (Va v) (map Ch s).
Proof. intros H. apply in_map_iff in H as (? & ? & _). discriminate. Qed.
Lemma canon_var_str t l v : Canon t l -> In (Va v) l -> is_str t = false.
Proof.
  intros H Hv. destruct (is_str t) eqn:E; [|easy]. exfalso. apply (proj1 (Canon_str _ _ H)) with (v := v) in E. easy.
Qed.

(* ---- conditions ---- *)
Section Conditions.
Variable name : str.
Variable w : loc.

Lemma trimmed_va l l' : Trimmed l l' -> forall v, In (Va v) l' -> In (Va v) l.
Proof.
  intros [a s b Ha Hb _ _|a mid b a' b' v r v' r' _ _ _ _] u Hu.
  - now apply chars_no_va in Hu.
  - rewrite !in_app_iff in *. destruct Hu as [Hu|[Hu|Hu]]; [now apply chars_no_va in Hu|auto|now apply chars_no_va in Hu].
Qed.
Lemma args_va d l args a : Args d l args -> In a args -> forall v, In (Va v) a -> In (Va v) l.
Proof.
  intros (raws & (_ & <- & _) & HF) Ha v Hv.
  assert (exists r, In r raws /\ Unquoted d r a) as (r & Hr & Hu).
  { clear - HF Ha. induction HF as [|x y l m Hx Hl IH]; [easy|]. destruct Ha as [<-|Ha].
    - exists x. split; [now left|easy].
    - destruct (IH Ha) as (r & Hr & Hu). exists r. split; [now right|easy]. }
  eapply glue_va; [exact Hr|]. eapply unquoted_va; eauto.
Qed.
Lemma separated_va d l args a : Separated d l args -> In a args -> forall v, In (Va v) a -> In (Va v) l.
Proof. intros (_ & <- & _) Ha v Hv. eapply glue_va; eauto. Qed.

Lemma cond_va data dl c l : IfReport name w data dl c l -> forall v, In (Va v) c -> In (Va v) dl.
Proof.
  intros [c0 l1 l2 Hs Ht _] v Hv. apply (trimmed_va _ _ Ht) in Hv. destruct Hs.
  - eapply args_va; [exact H|now left|easy].
  - eapply args_va; [exact H|now left|easy].
  - eapply separated_va; [exact H0|now left|easy].
  - eapply separated_va; [exact H0|now left|easy].
Qed.

Lemma fine_varcond data : TameData (elems data) -> fine (varcond_args name data w).
Proof.
  intros HT. unfold varcond_args. apply fine_bind; [now apply fine_if|]. intros l [[c t] f] E.
  apply fine_bind; [|intros _ _ _; apply fine_ret].
  destruct (_ && _); [|apply fine_ret]. apply if_report in E as (cl & HC & HI).
  assert (TameData (elems c)).
  { rewrite (Canon_elems _ _ HC). eapply tame_sub; [|exact HT]. eapply cond_va. exact HI. }
  fem.
Qed.

(* ---- Gosub ---- *)
Lemma fine_prio p : TameData (elems p) -> fine (gosub_prio p w).
Proof.
  intros HT. unfold gosub_prio. destruct (cut_first 40 (items p)) as [[pre post]|] eqn:E; [|apply fine_ret].
  apply fine_bind; [|intros _ _ _; apply fine_ret]. destruct (last_opt (items p)) as [c|] eqn:El.
  - destruct (tok_isc c 41); [apply fine_ret|fem].
  - exfalso. destruct (items p) as [|y its _] using rev_ind; [easy|]. now rewrite last_opt_app in El.
Qed.
Lemma fine_gosub warned args : args <> [] -> Forall (fun t => TameData (elems t)) args -> fine (gosub_dest name warned args w).
Proof.
  intros Hn HT. unfold gosub_dest. apply fine_bind.
  - destruct (Nat.ltb 3 (length args)); [|apply fine_ret]. apply fine_bind; [|intros _ _ _; apply fine_ret].
    destruct warned; [apply fine_ret|fem].
  - intros l jd E.
    assert (jd <> [] /\ (length jd <= 3)%nat /\ Forall (fun t => TameData (elems t)) jd) as (H1 & H2 & H3).
    { destruct (Nat.ltb_spec 3 (length args)) as [Hl|Hl].
      - apply mbind_ok in E as (l1 & u & l2 & _ & E & _). unfold mret in E. injection E as _ <-.
        destruct args as [|c [|e [|x [|y r]]]]; try (cbn in Hl; lia). cbn [firstn skipn app]. split; [easy|]. split; [cbn; lia|].
        inversion HT as [|? ? Tc HT1]; subst. inversion HT1 as [|? ? Te HT2]; subst. constructor; [easy|constructor; [easy|constructor; [|constructor]]].
        rewrite vjoin_elems, glue_excess. rewrite Forall_forall in HT2. intros v Hv.
        assert (exists t, In t (x :: y :: r) /\ In (Va v) (elems t)) as (t & Ht & Htv).
        { clear - Hv. revert Hv. generalize (x :: y :: r). intros ls. induction ls as [|z [|z' ls] IH]; intros Hv; [easy| |].
          - exists z. split; [now left|exact Hv].
          - cbn [map] in Hv. rewrite glue_cons in Hv by easy. apply in_app_iff in Hv as [Hv|[Hv|Hv]]; [exists z; split; [now left|easy]|discriminate|].
            destruct (IH Hv) as (t & Ht & Htv). exists t. split; [now right|easy]. }
        eapply HT2; eauto.
      - unfold mret in E. injection E as _ <-. auto. }
    destruct jd as [|x [|y [|z [|? ?]]]]; [easy| | | |cbn in H2; lia]; cbn [pad3 map length Nat.sub repeat app];
      (apply fine_bind; [apply fine_prio|intros; apply fine_ret]);
      repeat match goal with H : Forall _ (_ :: _) |- _ => inversion H; subst; clear H end; easy.
Qed.
End Conditions.

(* ---- Set ---- *)
Section Tables.
Variable U : uni.
Variable FT : ftable.
Hypothesis HUF : lookup (L "unknown") FT <> None.

Lemma fine_abase data w : TameData (elems data) -> fine (abase_call data w).
Proof.
  intros HT. unfold abase_call. rewrite check_brun. destruct (brun_outcome (elems data) []) as [-> | ->]; [apply fine_ret|].
  cbn [is_value_error]. destruct (tame_str data HT) as [s E]. apply fine_bind; [now apply (fine_lift _ s)|].
  intros _ s' _. apply fine_emit; [reflexivity|reflexivity|repeat constructor; now intros []].
Qed.
Lemma fine_func_check f w : fine (func_check U FT f w).
Proof.
  unfold func_check. apply fine_bind.
  - unfold func_get. destruct (lookup (u_lower U f) FT) as [g|].
    + apply fine_bind; [apply fine_log|intros _ _ _; apply fine_ret].
    + destruct (lookup (L "unknown") FT) as [g|]; [|easy]. apply fine_bind; [apply fine_log|intros _ _ _; apply fine_ret].
  - intros _ fi _. apply fine_bind; [|intros _ _ _; apply fine_ret].
    destruct (str_eqb _ _); [apply fine_ret|]. destruct (str_eqb _ _); (apply fine_emit; [reflexivity|vm_compute; reflexivity|repeat constructor; now intros []]).
Qed.

(* the argument of a function: a str or Var, or a list *)
Inductive ArgOf (args : list elem) : sliced -> Prop :=
| Ao_tok t : Canon t args -> Flatish t -> ArgOf args (SlTok t)
| Ao_list m : Parts m args -> (2 <= length m)%nat -> ArgOf args (SlList m).
Lemma argof_items args sl : ArgOf args sl -> flat_map elems (sl_items sl) = args.
Proof.
  intros [t H _|m H _]; cbn [sl_items].
  - rewrite flat_items. now apply Canon_elems.
  - apply Parts_iff in H. apply H.
Qed.
Lemma balance_any m : check_balance m = Ok tt \/ check_balance m = Exn ValueError.
Proof.
  unfold check_balance. generalize (@nil str) as st. induction m as [|x m IH]; intros st; cbn [balance_from]; [destruct st; auto|].
  assert (G : (exists st', balance_step st x = Ok st') \/ balance_step st x = Exn ValueError).
  { unfold balance_step. destruct x; eauto. repeat match goal with |- context [if ?b then _ else _] => destruct b end; eauto. }
  destruct G as [[st' ->]| ->]; cbn [bind]; auto.
Qed.
Lemma fine_base args sl w : ArgOf args sl -> TameData args -> fine (base_call sl w).
Proof.
  intros HA HT. unfold base_call. destruct (balance_any (sl_items sl)) as [-> | ->]; [apply fine_ret|]. cbn [is_value_error].
  assert (E : sl_str sl = Ok tt).
  { destruct HA as [t H _|m _ _]; [|easy]. cbn [sl_str]. destruct (tame_str t) as [s ->]; [|easy]. now rewrite (Canon_elems _ _ H). }
  apply fine_bind; [now apply (fine_lift _ tt)|]. intros _ [] _. apply fine_emit; [reflexivity|reflexivity|].
  repeat constructor. destruct sl as [t|m]; cbn [sl_arg]; [destruct (str_of t); now intros []|now intros []].
Qed.

Lemma canon_not_named t l : Canon t l -> (forall v, l <> [Va v]) -> ~ Named t.
Proof. intros H Hl Hn. rewrite <- (Canon_elems _ _ H), elems_named in Hl by easy. now apply (Hl t). Qed.
Lemma canon_named_inv t v : Canon t [Va v] -> t = v /\ Named t.
Proof.
  intros H. pose proof (Canon_elems _ _ H) as E. destruct H as (m & HP & ->). apply Parts_iff in HP as (HF & Hj & HE).
  destruct m as [|x [|y r]]; [discriminate| |].
  - inversion HF as [|? ? [Hx|(c & s & ->)] _]; subst; [|rewrite elems_str in E; discriminate]. split; [|easy].
    rewrite elems_named in E by easy. now injection E.
  - exfalso. cbn [flat_map] in HE. assert (P : forall t, Part t -> elems t <> []).
    { intros t [Ht|(c & s & ->)]; [now rewrite elems_named|now rewrite elems_str]. }
    inversion HF as [|? ? Hx HF']; subst. inversion HF' as [|? ? Hy _]; subst. apply P in Hx, Hy.
    destruct (elems x) as [|e1 [|? ?]], (elems y); try easy; discriminate.
Qed.

(* what calling a function on the argument of an assignment does *)
Definition NoCall (fi : finfo) (args : list elem) : Prop :=
  exists v, In (Va v) args /\ (f_kind fi = FCount \/ f_kind fi = FSet /\ args <> [Va v]).
Lemma parts_va m (l : list elem) : Parts m l -> (2 <= length m)%nat -> exists v, In (Va v) l /\ l <> [Va v].
Proof.
  intros HP Hl. apply Parts_iff in HP as (HF & Hj & <-). destruct m as [|x [|y r]]; [cbn in Hl; lia|cbn in Hl; lia|].
  inversion HF as [|? ? Hx HF']; subst. inversion HF' as [|? ? Hy _]; subst. cbn [noadj] in Hj. destruct Hj as [Hj _].
  assert (P : forall t, Part t -> elems t <> []).
  { intros t [Ht|(c & s & ->)]; [now rewrite elems_named|now rewrite elems_str]. }
  pose proof (P _ Hx) as Nx. pose proof (P _ Hy) as Ny. cbn [flat_map].
  assert (exists v, In (Va v) (elems x ++ elems y)) as (v & Hv).
  { destruct Hx as [Hx|(c & s & ->)]; [exists x; rewrite (elems_named x) by easy; now left|].
    destruct Hy as [Hy|(c' & s' & ->)]; [|now destruct Hj]. exists y. apply in_app_iff. right. rewrite elems_named by easy. now left. }
  exists v. split; [rewrite app_assoc; apply in_app_iff; now left|]. intros E.
  destruct (elems x) as [|e1 [|? ?]], (elems y); try easy; discriminate.
Qed.
Lemma call_exact k fi sl args w : ArgOf args sl -> TameData args -> ~ In (Ch 61) args ->
  (f_kind fi = FSet -> forall v, args <> [Va v]) ->
  (fine (func_call U FT (S k) fi sl w) /\ ~ NoCall fi args) \/ (~ fine (func_call U FT (S k) fi sl w) /\ NoCall fi args).
Proof.
  intros HA HT Hne Hone. cbn [func_call]. pose proof (fine_base args sl w HA HT) as HB.
  destruct (f_kind fi) eqn:Ek.
  - left. split; [exact HB|]. intros (v & _ & [H|[H _]]); congruence.
  - destruct HA as [t HC HFl|m HP Hl].
    + pose proof (canon_not_named t args HC (Hone eq_refl)) as Hn. destruct HFl as [[s ->]|HFl]; [|easy].
      left. split; [|intros (v & Hv & _); rewrite <- (Canon_elems _ _ HC), elems_str in Hv; now apply chars_no_va in Hv].
      apply fine_bind; [|intros _ _ _; exact HB]. unfold parse_assignment. cbn [sl_truthy].
      destruct (truthy (TS s)) eqn:Et; cbn [negb]; [|apply fine_emit; [reflexivity|reflexivity|constructor]].
      destruct (vsplit_two 61 (TS s) args HC Hn) as [(_ & p & Ep)|(a & b & la & lb & _ & _ & _ & E & _)].
      * rewrite Ep. unfold mlift. cbn [mbind].
        assert (fine (memit E_ASSIGN_NO_EQUALS w [(L "data", targ (TS s))])) as (l & [] & ->)
          by (apply fine_emit; [reflexivity|reflexivity|repeat constructor; now intros []]).
        now eexists _, tt.
      * exfalso. apply Hne. rewrite E. apply in_app_iff. right. now left.
    + right. split.
      * intros H. apply fine_bind_inv in H as (l & x & H & _). unfold parse_assignment in H. cbn [sl_truthy] in H.
        destruct m as [|? ?]; [cbn in Hl; lia|]. discriminate H.
      * destruct (parts_va _ _ HP Hl) as (v & Hv & Hn). exists v. auto.
  - destruct (all_chars args) as [[s ->]|[v Hv]].
    + left. split; [|intros (v & Hv & _); now apply chars_no_va in Hv]. apply fine_bind; [exact HB|]. intros _ _ _.
      destruct HA as [t HC _|m HP Hl]; [|destruct (parts_va _ _ HP Hl) as (v & Hv & _); now apply chars_no_va in Hv].
      rewrite (canon_text _ _ s HC eq_refl). unfold count_var. apply fine_bind; [|intros _ _ _; apply fine_log].
      destruct (forallb _ _); [apply fine_ret|]. apply fine_emit; [reflexivity|reflexivity|repeat constructor; now intros []].
    + right. split; [|exists v; auto]. intros H. apply fine_bind_inv in H as (l & x & _ & (l' & y & H)).
      destruct HA as [t HC _|m HP Hl]; [|discriminate H]. apply (canon_var_str _ _ _ HC) in Hv. now destruct t.
  - left. split; [|intros (v & _ & [H|[H _]]); congruence]. apply fine_bind; [|intros _ _ _; exact HB].
    destruct sl as [[s| | | | | | |]|]; try apply fine_ret. destruct (smem _ _); [apply fine_ret|].
    apply fine_emit; [reflexivity|reflexivity|repeat constructor; now intros []].
Qed.

Lemma split_unique {A} (a b a' b' : list A) (x : A) : a ++ x :: b = a' ++ x :: b' -> ~ In x a -> ~ In x a' -> a = a' /\ b = b'.
Proof.
  revert a'. induction a as [|y a IH]; intros [|y' a'] E H1 H2; cbn in E.
  - now injection E.
  - injection E as <- _. exfalso. apply H2. now left.
  - injection E as <- _. exfalso. apply H1. now left.
  - injection E as <- E. apply IH in E as [-> ->]; [easy| |]; intros H; [apply H1|apply H2]; now right.
Qed.
Lemma funcof_fun f fi fi' : FuncOf U FT f fi -> FuncOf U FT f fi' -> fi = fi'.
Proof. unfold FuncOf. intros [H|[H1 H]] [H'|[H1' H']]; congruence. Qed.
Lemma map_Ch_inj s s' : map Ch s = map Ch s' -> s = s'.
Proof. revert s'. induction s as [|c s IH]; intros [|c' s']; cbn; try easy. intros [= -> H]. f_equal. now apply IH. Qed.
Lemma in_map_Ch c s : In (Ch c) (map Ch s) <-> In c s.
Proof. split; [intros H; apply in_map_iff in H as (? & [= ->] & H); easy|apply in_map]. Qed.

(* the name before '=' in the cases of SetFails *)
Definition NameFails (name : list elem) : Prop := exists value, SetFails U FT (name ++ Ch 61 :: value).
Lemma set_name dl : SetFails U FT dl -> exists r value, dl = (r ++ [Ch 41]) ++ Ch 61 :: value /\ ~ In (Ch 61) r /\
  (~ In (Ch 40) r \/ exists pre args, r = pre ++ Ch 40 :: args /\ ~ In (Ch 40) pre /\
     ((exists v, In (Va v) pre) \/ exists f fi, pre = map Ch f /\ FuncOf U FT f fi /\ NoCall fi args)).
Proof.
  assert (K : forall pre args value, ~ In (Ch 61) (pre ++ args) -> dl = pre ++ Ch 40 :: args ++ Ch 41 :: Ch 61 :: value ->
     dl = ((pre ++ Ch 40 :: args) ++ [Ch 41]) ++ Ch 61 :: value /\ ~ In (Ch 61) (pre ++ Ch 40 :: args)).
  { intros pre args value Hn ->. split; [now rewrite <- !app_assoc; cbn [app]; rewrite <- ?app_assoc|].
    rewrite in_app_iff in *. cbn [In]. intros [H|[H|H]]; [|discriminate|]; apply Hn; auto. }
  intros [r value E H1 H2|pre v args value E H1 H2 H3|f fi v args value E H1 H2 H3 H4 H5|f fi v args value E H1 H2 H3 H4 H5 H6].
  - exists r, value. split; [now rewrite <- app_assoc|]. auto.
  - destruct (K _ _ _ H1 E) as [E' Hn]. exists (pre ++ Ch 40 :: args), value. split; [easy|]. split; [easy|]. right. exists pre, args. eauto.
  - destruct (K _ _ _ H1 E) as [E' Hn]. exists (map Ch f ++ Ch 40 :: args), value. split; [easy|]. split; [easy|]. right. exists (map Ch f), args.
    split; [easy|]. split; [now rewrite in_map_Ch|]. right. exists f, fi. split; [easy|]. split; [easy|]. exists v. auto.
  - destruct (K _ _ _ H1 E) as [E' Hn]. exists (map Ch f ++ Ch 40 :: args), value. split; [easy|]. split; [easy|]. right. exists (map Ch f), args.
    split; [easy|]. split; [now rewrite in_map_Ch|]. right. exists f, fi. split; [easy|]. split; [easy|]. exists v. auto.
Qed.

Lemma slice_argof t its l : (forall x, In x its -> In x (items t)) -> map el its = l -> Canon t (elems t) ->
  ((exists s, t = TS s) \/ exists v, In (Va v) l) -> ArgOf l (slice_of t its).
Proof.
  intros Hin El HC Hor. assert (Hi : Forall Item its).
  { apply Forall_forall. intros x Hx. pose proof (items_Item t) as HI. rewrite Forall_forall in HI. apply HI. now apply Hin. }
  assert (HP : Parts (strjoin its) l).
  { rewrite <- El, <- (items_flat its Hi). apply strjoin_parts. eapply Forall_impl; [|exact Hi]. apply Item_part. }
  assert (HS : match strjoin its with [] => exists s, t = TS s | _ => True end).
  { destruct Hor as [Hs|[v Hv]]; [now destruct (strjoin its)|]. destruct (strjoin its); [|easy]. apply Parts_iff in HP as (_ & _ & E). cbn in E. now rewrite <- E in Hv. }
  unfold slice_of. destruct t as [s| | | | | | |];
    try (destruct (strjoin its) as [|x [|y r]]; [now destruct HS| |apply Ao_list; [exact HP|cbn; lia]];
         apply Ao_tok; [apply Canon_iff; exists [x]; split; [exact HP|easy]|]; apply Parts_iff in HP as (HP & _); inversion HP as [|? ? [Hx|(c & s & ->)] _]; subst; [now right|left; eauto]).
  apply Ao_tok; [|left; eauto]. rewrite <- El.
  replace (map el its) with (map Ch (flat_map (fun i => match i with TS s => s | _ => [] end) its)); [apply Canon_TS|].
  clear - Hin. induction its as [|x its IH]; [easy|]. cbn [flat_map map]. rewrite map_app, IH by (intros; apply Hin; now right).
  specialize (Hin x (or_introl eq_refl)). cbn [items] in Hin. unfold chars in Hin. apply in_map_iff in Hin as (c & <- & _). easy.
Qed.

Lemma removelast_in {A} (l : list A) x : In x (removelast l) -> In x l.
Proof. destruct l as [|y l _] using rev_ind; [easy|]. rewrite removelast_last. intros H. apply in_app_iff. now left. Qed.

Section Assign.
Variable call : finfo -> sliced -> loc -> M unit.
Hypothesis Hcall : forall fi sl w, exists k, call fi sl w = func_call U FT (S k) fi sl w.
Lemma write_exact dest r w : Canon dest (r ++ [Ch 41]) -> ~ In (Ch 61) r -> TameData r ->
  (forall f v, r <> map Ch f ++ [Ch 40; Va v]) ->
  let P := ~ In (Ch 40) r \/ exists pre args, r = pre ++ Ch 40 :: args /\ ~ In (Ch 40) pre /\
     ((exists v, In (Va v) pre) \/ exists f fi, pre = map Ch f /\ FuncOf U FT f fi /\ NoCall fi args) in
  (fine (process_write U FT call dest w) /\ ~ P) \/ (~ fine (process_write U FT call dest w) /\ P).
Proof.
  intros HC Hne HT Hone P. pose proof (Canon_elems _ _ HC) as El. unfold process_write. destruct (tin 40 dest) eqn:E40.
  2:{ right. split; [now intros (? & ? & ?)|]. left. intros Hi. assert (tin 40 dest = true); [|congruence].
      apply tin_In. rewrite El. apply in_app_iff. now left. }
  apply tin_In in E40. rewrite El in E40.
  assert (Hn : ~ Named dest). { eapply canon_not_named; [exact HC|]. intros v E. destruct r as [|? [|? ?]]; discriminate. }
  destruct (vsplit_two 40 dest _ HC Hn) as [(Hno & _)|(fa & b & la & lb & Ev & HCa & HCb & Er & Hna)]; [easy|].
  rewrite Ev. unfold mlift at 1 2. cbn [mbind].
  assert (exists args, lb = args ++ [Ch 41] /\ r = la ++ Ch 40 :: args) as (args & -> & Er').
  { destruct lb as [|x lb _] using rev_ind; [apply app_inj_tail in Er as [_ Er]; discriminate|].
    rewrite app_comm_cons, app_assoc in Er. apply app_inj_tail in Er as [-> <-]. now exists lb. }
  pose proof (Canon_elems _ _ HCb) as Eb.
  destruct (last_opt (items b)) as [c|] eqn:El2.
  2:{ apply last_items_none in El2. rewrite El2 in Eb. now destruct args. }
  apply last_items in El2 as [Hi Ec]. rewrite Eb in Ec. apply app_inj_tail in Ec as [Eargs Ec].
  assert (tok_isc c 41 = true) as -> by (apply tok_isc_el; easy).
  assert (Hpre : forall pre args', r = pre ++ Ch 40 :: args' -> ~ In (Ch 40) pre -> pre = la /\ args' = args).
  { intros pre args' E1 E2. rewrite Er' in E1. apply split_unique in E1 as [-> ->]; easy. }
  destruct (all_chars la) as [[f ->]|[v Hv]].
  - rewrite (canon_text _ _ f HCa eq_refl). destruct (fine_func_check f w) as (l & fi & Efc). rewrite Efc. cbn [mbind].
    apply func_check_report in Efc as (l2 & HF & _).
    assert (HA : ArgOf args (slice_of b (removelast (items b)))).
    { apply slice_argof; [intros x; apply removelast_in|easy|now rewrite Eb|]. destruct (all_chars args) as [[s ->]|Hv]; [left|now right].
      exists (s ++ [41]). eapply canon_text; [exact HCb|]. now rewrite map_app. }
    assert (HTa : TameData args) by (eapply tame_sub; [|exact HT]; intros v Hv; rewrite Er'; apply in_app_iff; right; now right).
    assert (Hnea : ~ In (Ch 61) args) by (intros H; apply Hne; rewrite Er'; apply in_app_iff; right; now right).
    destruct (Hcall fi (slice_of b (removelast (items b))) w) as [k Ek]. rewrite Ek.
    destruct (call_exact k fi _ args w HA HTa Hnea) as [[H1 H2]|[H1 H2]].
    + intros _ v ->. now apply (Hone f v).
    + left. split.
      * destruct H1 as (l' & x & ->). now eexists _, x.
      * intros [H|(pre & args' & E1 & E2 & [[v Hv]|(f' & fi' & E3 & E4 & E5)])].
        -- apply H. rewrite Er'. apply in_app_iff. right. now left.
        -- destruct (Hpre _ _ E1 E2) as [-> ->]. now apply chars_no_va in Hv.
        -- destruct (Hpre _ _ E1 E2) as [-> ->]. apply map_Ch_inj in E3. subst f'. rewrite (funcof_fun _ _ _ E4 HF) in E5. easy.
    + right. split.
      * intros (l' & x & H). apply H1. destruct (func_call U FT (S k) fi (slice_of b (removelast (items b))) w) as [l3 r3]. cbn in H.
        injection H as _ ->. now exists l3, x.
      * right. exists (map Ch f), args. split; [easy|]. split; [easy|]. right. now exists f, fi.
  - right. split.
    + intros (l' & x & H). apply (canon_var_str _ _ _ HCa) in Hv. now destruct fa.
    + right. exists la, args. split; [easy|]. split; [easy|]. left. now exists v.
Qed.

Lemma assign_exact data dl w : Canon data dl -> TameData dl -> ~ ByName dl ->
  (fine (parse_assignment U FT call (SlTok data) w) /\ ~ SetFails U FT dl) \/ (~ fine (parse_assignment U FT call (SlTok data) w) /\ SetFails U FT dl).
Proof.
  intros HC HT HB. pose proof (Canon_elems _ _ HC) as El. unfold parse_assignment. cbn [sl_truthy].
  assert (G61 : SetFails U FT dl -> In (Ch 61) dl).
  { intros H. apply set_name in H as (r & value & -> & _). apply in_app_iff. right. now left. }
  destruct (truthy data) eqn:Et; cbn [negb].
  2:{ apply falsy_elems in Et. left. split; [apply fine_emit; [reflexivity|reflexivity|constructor]|].
      intros H. apply G61 in H. rewrite <- El, Et in H. easy. }
  assert (Hn : ~ Named data). { eapply canon_not_named; [exact HC|]. intros v E. apply HB. left. now exists v. }
  destruct (vsplit_two 61 data dl HC Hn) as [(Hno & p & ->)|(a & b & la & lb & -> & HCa & HCb & Ed & Hna)]; unfold mlift; cbn [mbind].
  - left. split; [|intros H; now apply G61 in H].
    assert (fine (memit E_ASSIGN_NO_EQUALS w [(L "data", targ data)])) as (l & [] & ->); [|now eexists _, tt].
    apply fine_emit; [reflexivity|reflexivity|repeat constructor]. apply tame_garg. now rewrite El.
  - assert (HTa : TameData la) by (eapply tame_sub; [|exact HT]; intros v Hv; rewrite Ed; apply in_app_iff; now left).
    assert (fine (if tin 32 a then memit W_ASSIGN_SPACES w [(L "name", targ a)] else mret tt)) as (l & [] & ->).
    { destruct (tin 32 a); [|apply fine_ret]. apply fine_emit; [reflexivity|reflexivity|repeat constructor]. apply tame_garg.
      now rewrite (Canon_elems _ _ HCa). }
    cbn [mbind].
    assert (Hu : forall r value, dl = (r ++ [Ch 41]) ++ Ch 61 :: value -> ~ In (Ch 61) r -> la = r ++ [Ch 41]).
    { intros r value E Hr. rewrite Ed in E. apply split_unique in E as [-> _]; [easy|easy|]. rewrite in_app_iff. intros [H|[H|[]]]; [easy|discriminate]. }
    assert (Hyes : forall c, last_opt (items a) = Some c -> tok_isc c 41 = true -> exists r, la = r ++ [Ch 41]).
    { intros c Hc Ht. apply last_items in Hc as [Hi Hc]. apply tok_isc_el in Ht; [|easy]. rewrite (Canon_elems _ _ HCa), Ht in Hc. eauto. }
    assert (Hno : forall r, la = r ++ [Ch 41] -> exists c, last_opt (items a) = Some c /\ tok_isc c 41 = true).
    { intros r Er. destruct (last_opt (items a)) as [c|] eqn:Ec.
      - exists c. split; [easy|]. apply last_items in Ec as [Hi Ec]. rewrite (Canon_elems _ _ HCa), Er in Ec.
        apply app_inj_tail in Ec as [_ Ec]. now apply tok_isc_el.
      - apply last_items_none in Ec. rewrite (Canon_elems _ _ HCa), Er in Ec. now destruct r. }
    destruct (last_opt (items a)) as [c|] eqn:Ec; [destruct (tok_isc c 41) eqn:E41|].
    + destruct (Hyes c eq_refl E41) as (r & ->). 
      destruct (write_exact a r w HCa) as [[H1 H2]|[H1 H2]].
      * intros H. apply Hna, in_app_iff. now left.
      * now apply tame_app in HTa.
      * intros f v ->. apply HB. right. exists f, v, lb. rewrite Ed, <- !app_assoc. easy.
      * left. split; [destruct H1 as (l' & x & ->); now eexists _, x|]. intros H. apply H2.
        apply set_name in H as (r' & value & E & E1 & E2). apply (Hu _ _ E) in E1. apply app_inj_tail in E1 as [<- _]. exact E2.
      * right. split.
        -- intros (l' & x & H). apply H1. destruct (process_write U FT call a w) as [l3 r3]. cbn in H. injection H as _ ->. now exists l3, x.
        -- assert (Hr : ~ In (Ch 61) r) by (intros H; apply Hna, in_app_iff; now left).
           destruct H2 as [H2|(pre & args & -> & Hp & H2)].
           ++ eapply Sf_noparen; [rewrite Ed, <- app_assoc; reflexivity|easy|easy].
           ++ assert (E : dl = pre ++ Ch 40 :: args ++ Ch 41 :: Ch 61 :: lb) by (rewrite Ed; repeat (rewrite <- app_assoc; cbn [app]); reflexivity).
              assert (Hpa : ~ In (Ch 61) (pre ++ args)).
              { intros H. apply Hr. apply in_app_iff in H as [H|H]; apply in_app_iff; [now left|right; now right]. }
              destruct H2 as [[v Hv]|(f & fi & -> & HF & v & Hv & [Hk|[Hk Hnv]])].
              ** eapply Sf_dynamic; eauto.
              ** eapply Sf_count; eauto. now rewrite <- in_map_Ch.
              ** eapply Sf_set; eauto. now rewrite <- in_map_Ch.
    + left. split; [rewrite app_nil_r; now eexists l, tt|]. intros H. apply set_name in H as (r' & value & E & E1 & _).
      apply (Hu _ _ E) in E1. apply Hno in E1 as (c' & [= <-] & E1). congruence.
    + left. split; [rewrite app_nil_r; now eexists l, tt|]. intros H. apply set_name in H as (r' & value & E & E1 & _).
      apply (Hu _ _ E) in E1. apply Hno in E1 as (c' & [=] & _).
Qed.
End Assign.

Lemma call_func_S fi sl w : exists k, call_func U FT fi sl w = func_call U FT (S k) fi sl w.
Proof. now eexists. Qed.

(* ---- all applications ---- *)
Lemma branches_canon name data w l c t f : varcond_args name data w = (l, Ok (c, t, f)) ->
  forall y, In (SlTok y) (branches t f) -> Canon y (elems y) /\ forall v, In (Va v) (elems y) -> In (Va v) (elems data).
Proof.
  unfold varcond_args, if_args. intros H y Hy. apply mbind_ok in H as (l1 & [[c1 t1] f1] & l2 & H1 & H & _).
  apply mbind_ok in H as (? & ? & ? & _ & H & _). unfold mret in H. injection H as _ _ -> ->.
  apply mbind_ok in H1 as (l3 & [[c2 t2] f2] & l4 & H1 & H & _).
  apply mbind_ok in H as (? & ? & ? & _ & H & _). apply mbind_ok in H as (? & ? & ? & _ & H & _).
  unfold mret in H. injection H as _ _ -> ->. unfold branches in Hy. apply filter_In in Hy as [Hy _].
  destruct (separate_args (SlTok data) 63 true) as [|q0 [|act more]] eqn:E63.
  - destruct (separate_args (SlTok data) 44 false); [easy|]. apply mbind_ok in H1 as (? & ? & ? & _ & H & _).
    unfold mret in H. injection H as _ _ <- <-. now destruct Hy as [Hy|[]].
  - destruct (separate_args (SlTok data) 44 false); [easy|]. apply mbind_ok in H1 as (? & ? & ? & _ & H & _).
    unfold mret in H. injection H as _ _ <- <-. now destruct Hy as [Hy|[]].
  - apply mbind_ok in H1 as (? & ? & ? & _ & H & _).
    assert (Hin : In y (separate_args (SlTok act) 58 false)).
    { destruct (separate_args (SlTok act) 58 false) as [|t' [|f' ?]]; [easy| |]; unfold mret in H; injection H as _ _ <- <-.
      - destruct Hy as [[= <-]|[]]. now left.
      - destruct Hy as [[= <-]|[[= <-]|[]]]; [now left|right; now left]. }
    split; [eapply sep_canon_in; exact Hin|]. intros v Hv.
    apply (sep_va 63 true data act); [apply delim_ok; cbn; auto|rewrite E63; right; now left|].
    eapply (sep_va 58 false act y); [apply delim_ok; cbn; auto|easy|easy].
Qed.

Lemma sep_list_incl l0 d rm l : forall b p q sk cur pend,
  Forall (fun out => forall x, In x out -> In x (cur ++ pend ++ l)) (sep (SlList l0) d rm b p q sk cur pend l).
Proof.
  induction l as [|x l IH]; intros b p q sk cur pend; cbn [sep seq_slice].
  - constructor; [|constructor]. intros x. rewrite !in_app_iff, <- in_rev. cbn [In]. tauto.
  - assert (K : forall b p q sk, Forall (fun out => forall y, In y out -> In y (cur ++ pend ++ x :: l)) (sep (SlList l0) d rm b p q sk cur (x :: pend) l)).
    { intros b' p' q' sk'. eapply Forall_impl; [|apply IH]. intros out H y Hy. apply H in Hy. rewrite !in_app_iff in *. cbn [In] in *. tauto. }
    assert (K2 : forall b p q sk, Forall (fun out => forall y, In y out -> In y (cur ++ pend ++ x :: l)) (sep (SlList l0) d rm b p q sk (cur ++ rev pend) [] l)).
    { intros b' p' q' sk'. eapply Forall_impl; [|apply IH]. intros out H y Hy. apply H in Hy. rewrite !in_app_iff, <- in_rev in *. cbn [In] in *. tauto. }
    assert (K3 : forall b p q sk, Forall (fun out => forall y, In y out -> In y (cur ++ pend ++ x :: l)) (sep (SlList l0) d rm b p q sk [] [] l)).
    { intros b' p' q' sk'. eapply Forall_impl; [|apply IH]. intros out H y Hy. apply H in Hy. rewrite !in_app_iff. cbn [In app] in *. tauto. }
    repeat match goal with |- context [if ?c then _ else _] => destruct c end; try apply K; try apply K2.
    constructor; [|apply K3]. intros y. rewrite !in_app_iff, <- in_rev. tauto.
Qed.
Lemma sep_list_tame m d rm : Forall (fun t => TameData (elems t)) m -> Forall (fun t => TameData (elems t)) (separate_args (SlList m) d rm).
Proof.
  intros H. unfold separate_args. rewrite Forall_map. eapply Forall_impl; [|apply sep_list_incl]. intros out Ho.
  rewrite squash_elems. intros v Hv. apply in_flat_map in Hv as (x & Hx & Hv). apply Ho in Hx. cbn [app sl_items] in Hx.
  rewrite Forall_forall in H. now apply (H x).
Qed.

Lemma fine_mmap {A B} (f : A -> M B) l : (forall x, In x l -> fine (f x)) -> fine (mmap f l).
Proof.
  induction l as [|x l IH]; intros H; cbn [mmap]; [apply fine_ret|]. apply fine_bind; [apply H; now left|]. intros _ y _.
  apply fine_bind; [apply IH; intros; apply H; now right|]. intros _ ys _. apply fine_ret.
Qed.
Lemma fine_mmap_inv {A B} (f : A -> M B) l : fine (mmap f l) -> forall x, In x l -> fine (f x).
Proof.
  induction l as [|x l IH]; intros H y Hy; [easy|]. cbn [mmap] in H. apply fine_bind_inv in H as (l1 & a & H1 & H).
  destruct Hy as [->|Hy]; [now exists l1, a|]. apply fine_bind_inv in H as (l2 & ys & H2 & _). apply IH; [now exists l2, ys|easy].
Qed.
Lemma forall2_in_l {A B} (R : A -> B -> Prop) l m x : Forall2 R l m -> In x l -> exists y, In y m /\ R x y.
Proof. induction 1 as [|a b l m Hab _ IH]; [easy|]. intros [->|H]; [exists b; split; [now left|easy]|]. destruct (IH H) as (y & Hy & Hr). exists y. split; [now right|easy]. Qed.
Lemma forall2_in_r {A B} (R : A -> B -> Prop) l m y : Forall2 R l m -> In y m -> exists x, In x l /\ R x y.
Proof. induction 1 as [|a b l m Hab _ IH]; [easy|]. intros [->|H]; [exists a; split; [now left|easy]|]. destruct (IH H) as (x & Hx & Hr). exists x. split; [now right|easy]. Qed.

Section Call.
Variable nested : sliced -> M unit.
Variable NF : list elem -> Prop.
Hypothesis HN : forall t b, Canon t b -> (fine (nested (SlTok t)) /\ ~ NF b) \/ (~ fine (nested (SlTok t)) /\ NF b).
Hypothesis HL : forall l, ~ fine (nested (SlList l)).

Lemma find_bad (l : list sliced) : (forall sl, In sl l -> exists t, sl = SlTok t /\ Canon t (elems t)) ->
  (forall sl, In sl l -> fine (nested sl)) \/ exists t, In (SlTok t) l /\ Canon t (elems t) /\ NF (elems t).
Proof.
  induction l as [|sl l IH]; intros H; [left; now intros ? []|]. destruct IH as [IH|(t & Ht & HC & Hb)].
  - intros; apply H; now right.
  - destruct (H sl (or_introl eq_refl)) as (t & -> & HC). destruct (HN t _ HC) as [[H1 _]|[_ H1]].
    + left. intros sl [<-|Hs]; [easy|]. now apply IH.
    + right. exists t. split; [now left|easy].
  - right. exists t. split; [now right|easy].
Qed.
Lemma find_long (l : list sliced) : (forall sl, In sl l -> exists t, sl = SlTok t /\ Canon t (elems t)) ->
  (forall sl, In sl l -> exists d, goto_dest (separate_args sl 44 true) = Ok d) \/
  exists t args, In (SlTok t) l /\ Args 44 (elems t) args /\ (3 < length args)%nat.
Proof.
  induction l as [|sl l IH]; intros H; [left; now intros ? []|]. destruct IH as [IH|(t & args & Ht & HA & Hb)].
  - intros; apply H; now right.
  - destruct (H sl (or_introl eq_refl)) as (t & -> & HC).
    pose proof (args_of t 44 (delim_ok 44 ltac:(cbn; auto))) as HA.
    destruct (Nat.le_gt_cases (length (separate_args (SlTok t) 44 true)) 3) as [Hle|Hgt].
    + left. intros sl [<-|Hs]; [|now apply IH].
      destruct (goto_dest_padded _ (separate_canon t 44 true) (separate_ne _ _ _) Hle) as (d & E & _). now exists d.
    + right. eexists t, _. split; [now left|]. split; [exact HA|]. now rewrite map_length.
  - right. exists t, args. split; [now right|easy].
Qed.

Lemma branches_old data : branches (SlList (tl (separate_args (SlTok data) 44 false))) None = [] \/
  branches (SlList (tl (separate_args (SlTok data) 44 false))) None = [SlList (tl (separate_args (SlTok data) 44 false))] /\
  tl (separate_args (SlTok data) 44 false) <> [].
Proof.
  unfold branches. cbn [filter sl_truthy]. destruct (tl (separate_args (SlTok data) 44 false)) as [|x r]; [now left|]. right. now split.
Qed.
Lemma no_branches data : (forall bs, ~ Branches (elems data) bs) -> exists x, Args 63 (elems data) [x].
Proof.
  intros H. pose proof (args_of data 63 (delim_ok 63 ltac:(cbn; auto))) as HA.
  pose proof (separate_ne (SlTok data) 63 true) as Hn.
  destruct (separate_args (SlTok data) 63 true) as [|x [|act more]]; [easy|exists (elems x); exact HA|].
  exfalso. eapply H. eapply Br_intro; [exact HA|]. apply (separate_Separated act 58), delim_ok. cbn. auto.
Qed.
Lemma one_branch data bs x : Branches (elems data) bs -> ~ Args 63 (elems data) [x].
Proof. intros [c act more bs' H _] H'. pose proof (Args_fun _ _ _ _ H H') as E. discriminate E. Qed.

Lemma app_call_exact a data dl w : Canon data dl -> TameData dl -> (a_kind a = ASet -> ~ ByName dl) ->
  (fine (app_call U FT nested a data w) /\ ~ CallFails U FT NF dl (a_kind a)) \/
  (~ fine (app_call U FT nested a data w) /\ CallFails U FT NF dl (a_kind a)).
Proof.
  intros HC HT HB. pose proof (Canon_elems _ _ HC) as El. subst dl. unfold app_call. 
  pose proof (fine_varcond (a_name a) w data HT) as HV.
  assert (HS : Separated 44 (elems data) (map elems (separate_args (SlTok data) 44 false))) by (apply (separate_Separated data 44), delim_ok; cbn; auto).
  assert (HTs : Forall (fun t => TameData (elems t)) (separate_args (SlTok data) 44 false)) by (apply sep_tame; [apply delim_ok; cbn; auto|easy]).
  destruct (a_kind a) eqn:Ek.
  - left. split; [|intros H; inversion H]. apply fine_bind; [now apply fine_abase|intros; apply fine_ret].
  - left. split; [|intros H; inversion H]. apply fine_bind; [now apply fine_abase|intros; apply fine_ret].
  - set (args := separate_args (SlTok data) 44 false) in *.
    destruct (Nat.le_gt_cases (length args) 3) as [Hle|Hgt].
    + left. split.
      * apply fine_bind; [apply fine_bind; [apply fine_minmax|intros; apply fine_ret]|]. intros ? args' E.
        apply mbind_ok in E as (? & ? & ? & _ & E & _). unfold mret in E. injection E as _ <-.
        apply fine_bind; [now apply fine_nopipe|]. intros _ _ _.
        destruct (goto_dest_padded args (separate_canon _ _ _) (separate_ne _ _ _) Hle) as (d & E & _).
        apply fine_bind; [now apply (fine_lift _ d)|intros; apply fine_ret].
      * intros H. inversion H as [args' H1 H2| | | |]. rewrite (Separated_fun _ _ _ _ H1 HS), map_length in H2. lia.
    + right. split.
      * intros H. apply fine_bind_inv in H as (l & args' & E & H).
        apply mbind_ok in E as (? & ? & ? & _ & E & _). unfold mret in E. injection E as _ <-.
        apply fine_bind_inv in H as (_ & _ & _ & H). apply fine_bind_inv in H as (l' & d & E & _).
        apply goto_dest_hang in Hgt. unfold mlift in E. congruence.
      * eapply Cf_goto; [exact HS|]. now rewrite map_length.
  - destruct HV as (l & [[c t] f] & E). rewrite E.
    pose proof (branches_canon _ _ _ _ _ _ _ E) as HBc. apply varcond_ok in E as [(bs & HBr & HF)|(HNo & -> & ->)].
    + destruct (find_long (branches t f)) as [H|(y & args & Hy & HA & Hl)].
      * intros sl Hsl. destruct (forall2_in_l _ _ _ _ HF Hsl) as (b & _ & y & -> & _). exists y. split; [easy|now apply HBc].
      * left. split.
        -- apply fine_bind; [now eexists _, _|]. intros ? ? [= <- <-]. apply fine_mmap. intros sl Hsl. destruct (H sl Hsl) as (d & Ed). now apply (fine_lift _ d).
        -- intros HC'. inversion HC' as [|bs' b args H1 H2 H3 H4| | |]. rewrite (Branches_fun _ _ _ H1 HBr) in H2.
           destruct (forall2_in_r _ _ _ _ HF H2) as (sl & Hsl & y & -> & <-). destruct (H _ Hsl) as (d & Ed).
           destruct (goto_branch y) as [[_ G] _]. rewrite G in Ed by eauto. discriminate Ed.
      * right. split.
        -- intros H. apply fine_bind_inv in H as (? & ? & [= <- <-] & H).
           apply (fine_mmap_inv _ _ H) in Hy as (l2 & d & Ed). destruct (goto_branch y) as [[_ G] _]. unfold mlift in Ed. rewrite G in Ed by eauto. discriminate Ed.
        -- destruct (forall2_in_l _ _ _ _ HF Hy) as (b & Hb & y' & [= <-] & <-). eapply Cf_gotoif; eassumption.
    + left. split.
      * apply fine_bind; [now eexists _, _|]. intros ? ? [= <- <-]. apply fine_mmap. intros sl Hsl.
        destruct (branches_old data) as [Eb|[Eb _]]; rewrite Eb in Hsl; [easy|]. destruct Hsl as [<-|[]].
        pose proof (old_one data true) as H1. destruct (goto_dest (separate_args (SlList (tl (separate_args (SlTok data) 44 false))) 44 true)) as [d|e|] eqn:Ed.
        -- now apply (fine_lift _ d).
        -- exfalso. revert Ed. destruct (separate_args (SlList (tl (separate_args (SlTok data) 44 false))) 44 true) as [|x [|? ?]]; [easy| |easy]. discriminate.
        -- apply goto_dest_hang in Ed. lia.
      * intros HC'. inversion HC' as [|bs' b args H1| | |]. now apply (HNo _ H1).
  - left. split; [|intros H; inversion H]. apply fine_bind; [now apply fine_if|intros; apply fine_ret].
  - destruct (assign_exact _ call_func_S data (elems data) w HC HT (HB eq_refl)) as [[H1 H2]|[H1 H2]].
    + left. split; [|intros H; inversion H; now apply H2].
      apply fine_bind; [easy|]. intros _ _ _. apply fine_bind; [now apply fine_abase|intros; apply fine_ret].
    + right. split; [|now constructor]. intros H. apply fine_bind_inv in H as (l & u & E & _). apply H1. now exists l, u.
  - destruct HV as (l & [[c t] f] & E). rewrite E.
    pose proof (branches_canon _ _ _ _ _ _ _ E) as HBc. apply varcond_ok in E as [(bs & HBr & HF)|(HNo & -> & ->)].
    + destruct (find_bad (branches t f)) as [H|(y & Hy & HA & Hl)].
      * intros sl Hsl. destruct (forall2_in_l _ _ _ _ HF Hsl) as (b & _ & y & -> & _). exists y. split; [easy|now apply HBc].
      * left. split.
        -- apply fine_bind; [now eexists _, _|]. intros ? ? [= <- <-]. apply fine_bind; [now apply fine_mmap|]. intros; apply fine_ret.
        -- intros HC'. inversion HC' as [| | |bs' b H1 H2 H3|x c' y' more H1 H2]; [|now apply (one_branch _ _ _ HBr H1)].
           rewrite (Branches_fun _ _ _ H1 HBr) in H2.
           destruct (forall2_in_r _ _ _ _ HF H2) as (sl & Hsl & y & -> & <-). specialize (H _ Hsl).
           destruct (HN y _ (proj1 (HBc y Hsl))); tauto.
      * right. split.
        -- intros H. apply fine_bind_inv in H as (? & ? & [= <- <-] & H). apply fine_bind_inv in H as (l2 & u & H & _).
           assert (H' : fine (mmap nested (branches t f))) by now exists l2, u.
           apply (fine_mmap_inv _ _ H') in Hy. destruct (HN y _ HA); tauto.
        -- destruct (forall2_in_l _ _ _ _ HF Hy) as (b & Hb & y' & [= <-] & <-). eapply Cf_execif; eassumption.
    + destruct (no_branches _ HNo) as [x Hx]. destruct (branches_old data) as [Eb|[Eb Hn]].
      * left. split.
        -- apply fine_bind; [now eexists _, _|]. intros ? ? [= <- <-]. rewrite Eb. apply fine_bind; [apply fine_ret|]. intros; apply fine_ret.
        -- intros HC'. inversion HC' as [| | |bs' b H1|x' c' y' more H1 H2]; [now apply (HNo _ H1)|].
           unfold branches in Eb. cbn [filter sl_truthy] in Eb.
           pose proof (Separated_fun _ _ _ _ H2 HS) as E2.
           destruct (separate_args (SlTok data) 44 false) as [|? [|? ?]]; discriminate.
      * right. split.
        -- intros H. apply fine_bind_inv in H as (? & ? & [= <- <-] & H). apply fine_bind_inv in H as (l2 & u & H & _).
           rewrite Eb in H. assert (H' : fine (mmap nested [SlList (tl (separate_args (SlTok data) 44 false))])) by now exists l2, u.
           now apply (HL _ (fine_mmap_inv _ _ H' _ (or_introl eq_refl))).
        -- destruct (separate_args (SlTok data) 44 false) as [|c' [|y' more]]; [easy|easy|]. eapply Cf_execif_old; [exact Hx|exact HS].
  - left. split; [|intros H; inversion H].
    apply fine_bind; [apply fine_bind; [apply fine_minmax|intros; apply fine_ret]|]. intros ? args' E.
    apply mbind_ok in E as (? & ? & ? & _ & E & _). unfold mret in E. injection E as _ <-.
    apply fine_bind; [now apply fine_nopipe|]. intros _ _ _.
    apply fine_bind; [apply fine_gosub; [apply separate_ne|easy]|]. intros; apply fine_ret.
  - left. split; [|intros H; inversion H]. apply fine_bind; [easy|]. intros l [[c t] f] E.
    pose proof (branches_canon _ _ _ _ _ _ _ E) as HBc. apply varcond_ok in E as [(bs & HBr & HF)|(HNo & -> & ->)].
    + apply fine_mmap. intros sl Hsl. destruct (forall2_in_l _ _ _ _ HF Hsl) as (b & _ & y & -> & _).
      apply fine_gosub; [apply separate_ne|]. apply sep_tame; [apply delim_ok; cbn; auto|]. eapply tame_sub; [|exact HT]. now apply HBc.
    + apply fine_mmap. intros sl Hsl. destruct (branches_old data) as [Eb|[Eb _]]; rewrite Eb in Hsl; [easy|]. destruct Hsl as [<-|[]].
      apply fine_gosub; [apply separate_ne|]. apply sep_list_tame. destruct (separate_args (SlTok data) 44 false); [constructor|now inversion HTs].
  - left. split; [|intros H; inversion H].
    apply fine_bind; [apply fine_bind; [apply fine_minmax|intros; apply fine_ret]|]. intros ? args' E.
    apply mbind_ok in E as (? & ? & ? & _ & E & _). unfold mret in E. injection E as _ <-.
    apply fine_bind; [now apply fine_validate|]. intros _ _ _. apply fine_bind; [now apply fine_nopipe|]. intros; apply fine_ret.
Qed.
End Call.
End Tables.
