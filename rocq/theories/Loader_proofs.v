(* Proofs of C33 and C34. *)
From Coq Require Import Permutation.
From Verif Require Import Base PyStr Defines Var VarFun AppM Loader Spec_Var Spec_App VarFun_proofs.

Section L.
Context {A : Type}.
Notation unk := (L "unknown").

Lemma lookup_cons (k k' : str) (a : A) l : lookup k ((k', a) :: l) = if str_eqb k k' then Some a else lookup k l.
Proof. reflexivity. Qed.

(* What the table means: registered entries, and aliases that equal unknown. *)
Definition Inv (ops : list (ld_op A)) (s : loader A) : Prop :=
  (forall k a, LastReg ops k a -> lookup k (ld_tab s) = Some a) /\
  (forall k a, NeverReg ops k -> lookup k (ld_tab s) = Some a -> LastReg ops unk a).

Lemma reg_dec (ops : list (ld_op A)) k : (exists a, LastReg ops k a) \/ NeverReg ops k.
Proof.
  induction ops as [|o ops IH]; [right; intros a []|]. destruct IH as [(a & o1 & o2 & -> & H)|IH].
  - left. exists a, (o :: o1), o2. auto.
  - destruct o as [k' a|k'].
    + destruct (list_eq_dec N.eq_dec k' k) as [->|Hne].
      * left. exists a, [], ops. auto.
      * right. intros b [E|Hb]; [congruence|now apply IH in Hb].
    + right. intros b [E|Hb]; [congruence|now apply IH in Hb].
Qed.

Lemma LastReg_fun (ops : list (ld_op A)) k a b : LastReg ops k a -> LastReg ops k b -> a = b.
Proof.
  intros (o1 & o2 & -> & H) (p1 & p2 & E & H').
  assert (G : forall o1 p1, o1 ++ LReg k a :: o2 = p1 ++ LReg k b :: p2 -> a = b).
  { clear E o1 p1. induction o1 as [|x o1 IH]; intros [|y p1] E; cbn in E.
    - congruence.
    - injection E as _ E. exfalso. apply (H b). rewrite E. apply in_app_iff. right. now left.
    - injection E as _ E. exfalso. apply (H' a). rewrite <- E. apply in_app_iff. right. now left.
    - injection E as _ E. now apply (IH p1). }
  now apply (G o1 p1).
Qed.

Lemma LastReg_snoc (ops : list (ld_op A)) o k a : LastReg (ops ++ [o]) k a <->
  o = LReg k a \/ (LastReg ops k a /\ forall b, o <> LReg k b).
Proof.
  split.
  - intros (o1 & o2 & E & H). destruct o2 as [|x o2 _] using rev_ind.
    + apply app_inj_tail in E as [_ ->]. now left.
    + rewrite app_comm_cons, app_assoc in E. apply app_inj_tail in E as [-> ->]. right. split.
      * exists o1, o2. split; [easy|]. intros b Hb. apply (H b), in_app_iff. now left.
      * intros b ->. apply (H b), in_app_iff. right. now left.
  - intros [->|[(o1 & o2 & -> & H) Hn]].
    + exists ops, []. auto.
    + exists o1, (o2 ++ [o]). rewrite <- app_assoc. split; [easy|]. intros b Hb.
      apply in_app_iff in Hb as [Hb|[Hb|[]]]; [now apply H in Hb|now apply Hn in Hb].
Qed.
Lemma NeverReg_snoc (ops : list (ld_op A)) o k : NeverReg (ops ++ [o]) k <-> NeverReg ops k /\ forall b, o <> LReg k b.
Proof.
  unfold NeverReg. split.
  - intros H. split; [intros a Ha; apply (H a), in_app_iff; now left|].
    intros b ->. apply (H b), in_app_iff. right. now left.
  - intros [H1 H2] a Ha. apply in_app_iff in Ha as [Ha|[Ha|[]]]; [now apply H1 in Ha|now apply H2 in Ha].
Qed.

Fixpoint ld_final (s : loader A) (ops : list (ld_op A)) : loader A :=
  match ops with
  | [] => s
  | LReg k a :: r => ld_final (ld_register s k a) r
  | LGet k :: r => ld_final (fst (ld_get s k)) r
  end.
Lemma ld_run_fst ops : forall s, fst (ld_run s ops) = ld_final s ops.
Proof.
  induction ops as [|[k a|k] r IH]; intros s; cbn; [easy|apply IH|].
  specialize (IH (fst (ld_get s k))). destruct (ld_get s k) as [s1 x]. cbn in *.
  destruct (ld_run s1 r). easy.
Qed.
Lemma ld_final_app ops ops' : forall s, ld_final s (ops ++ ops') = ld_final (ld_final s ops) ops'.
Proof. induction ops as [|[k a|k] r IH]; intros s; cbn; easy. Qed.

Lemma inv_step (ops : list (ld_op A)) : UnkFirst ops -> Inv ops (ld_final ld_empty ops).
Proof.
  induction ops as [|o ops IH] using rev_ind; intros Hu.
  - split.
    + intros k a (o1 & o2 & E & _). now destruct o1.
    + intros k a _ H. discriminate.
  - assert (Hu' : UnkFirst ops).
    { intros o1 a o2 -> k. apply (Hu o1 a (o2 ++ [o])). now rewrite <- app_assoc. }
    destruct (IH Hu') as [I1 I2]. rewrite ld_final_app. set (s := ld_final ld_empty ops) in *.
    destruct o as [k a|k]; cbn [ld_final].
    + split.
      * intros k' a' H. apply LastReg_snoc in H as [E|[H Hn]].
        -- injection E as <- <-. cbn. now rewrite (proj2 (str_eqb_eq k k) eq_refl).
        -- cbn [ld_register ld_tab]. rewrite lookup_cons. destruct (str_eqb k' k) eqn:E; [|now apply I1].
           apply str_eqb_eq in E. subst. exfalso. now apply (Hn a).
      * intros k' a' Hn H. apply NeverReg_snoc in Hn as [Hn Hn']. cbn [ld_register ld_tab] in H. rewrite lookup_cons in H.
        destruct (str_eqb k' k) eqn:E; [apply str_eqb_eq in E; subst; exfalso; now apply (Hn' a)|].
        apply LastReg_snoc. destruct (list_eq_dec N.eq_dec k unk) as [->|Hne].
        -- exfalso. assert (G : LastReg ops unk a') by now apply (I2 k').
           (* an alias exists although nothing was looked up *)
           assert (Hget : forall ops s0, (forall k, ~ In (LGet k) ops) ->
                     forall k a, lookup k (ld_tab (ld_final s0 ops)) = Some a ->
                     lookup k (ld_tab s0) = Some a \/ exists b, In (LReg k b) ops).
           { clear. induction ops as [|[k a|k] r IH]; intros s0 Hg k' a' H; cbn in *; [now left| |].
             - assert (Hg' : forall k0, ~ In (LGet k0) r) by (intros k0 G; apply (Hg k0); now right).
               destruct (IH _ Hg' _ _ H) as [E|(b & Hb)]; [|right; exists b; now right].
               cbn in E. destruct (str_eqb k' k) eqn:Ek; [|now left]. apply str_eqb_eq in Ek. subst. right. exists a. now left.
             - exfalso. apply (Hg k). now left. }
           assert (Hg : forall k, ~ In (LGet k) ops) by (apply (Hu ops a []); easy).
           destruct (Hget ops ld_empty Hg k' a' H) as [Hx|(b & Hb)]; [discriminate|now apply Hn in Hb].
        -- right. split; [now apply (I2 k')|]. intros b. congruence.
    + unfold ld_get. destruct (lookup k (ld_tab s)) as [a|] eqn:E; cbn [fst].
      * split; cbn [ld_tab].
        -- intros k' a' H. apply LastReg_snoc in H as [H|[H _]]; [discriminate|now apply I1].
        -- intros k' a' Hn H. apply NeverReg_snoc in Hn as [Hn _]. apply LastReg_snoc. right. split; [now apply (I2 k')|easy].
      * destruct (lookup unk (ld_tab s)) as [a|] eqn:Eu; cbn [fst].
        -- assert (Ga : LastReg ops unk a).
           { destruct (reg_dec ops unk) as [(b & Hb)|Hn]; [|now apply (I2 unk)].
             pose proof (I1 _ _ Hb) as Hb'. rewrite Eu in Hb'. injection Hb' as ->. easy. }
           split; cbn [ld_tab].
           ++ intros k' a' H. apply LastReg_snoc in H as [H|[H _]]; [discriminate|]. rewrite lookup_cons.
              destruct (str_eqb k' k) eqn:Ek; [|now apply I1]. apply str_eqb_eq in Ek. subst.
              rewrite (I1 _ _ H) in E. discriminate.
           ++ intros k' a' Hn H. apply NeverReg_snoc in Hn as [Hn _]. apply LastReg_snoc. right. split; [|easy].
              rewrite lookup_cons in H. destruct (str_eqb k' k); [now injection H as <-|now apply (I2 k')].
        -- split.
           ++ intros k' a' H. apply LastReg_snoc in H as [H|[H _]]; [discriminate|now apply I1].
           ++ intros k' a' Hn H. apply NeverReg_snoc in Hn as [Hn _]. apply LastReg_snoc. right. split; [now apply (I2 k')|easy].
Qed.

Lemma get_exact (ops : list (ld_op A)) k : UnkFirst ops ->
  snd (ld_get (fst (ld_run ld_empty ops)) k) =
  match lookup k (ld_tab (ld_final ld_empty ops)) with Some a => Ok a | None => 
    match lookup unk (ld_tab (ld_final ld_empty ops)) with Some a => Ok a | None => Exn NotImplementedError end end.
Proof.
  intros _. rewrite ld_run_fst. unfold ld_get. destruct (lookup k _); [easy|]. now destruct (lookup unk _).
Qed.

Lemma get_known (ops : list (ld_op A)) k a : UnkFirst ops -> LastReg ops k a -> snd (ld_get (fst (ld_run ld_empty ops)) k) = Ok a.
Proof. intros Hu H. rewrite get_exact by easy. now rewrite (proj1 (inv_step ops Hu) k a H). Qed.
Lemma get_unknown (ops : list (ld_op A)) k u : UnkFirst ops -> NeverReg ops k -> LastReg ops unk u ->
  snd (ld_get (fst (ld_run ld_empty ops)) k) = Ok u.
Proof.
  intros Hu Hn H. rewrite get_exact by easy. destruct (inv_step ops Hu) as [I1 I2].
  destruct (lookup k _) as [a|] eqn:E.
  - f_equal. apply (LastReg_fun ops unk); [now apply (I2 k)|easy].
  - now rewrite (I1 _ _ H).
Qed.
Lemma get_no_unknown (ops : list (ld_op A)) k : UnkFirst ops -> NeverReg ops k -> NeverReg ops unk ->
  snd (ld_get (fst (ld_run ld_empty ops)) k) = Exn NotImplementedError.
Proof.
  intros Hu Hn H. rewrite get_exact by easy. destruct (inv_step ops Hu) as [I1 I2].
  destruct (lookup k _) as [a|] eqn:E; [|destruct (lookup unk _) as [a|] eqn:E'; [|easy]].
  - exfalso. apply (I2 k) in E as (o1 & o2 & -> & _); [|easy]. apply (H a), in_app_iff. right. now left.
  - exfalso. apply (I2 unk) in E' as (o1 & o2 & -> & _); [|easy]. apply (H a), in_app_iff. right. now left.
Qed.

(* registration order *)
Lemma LastReg_nodup (regs : list (str * A)) k a : NoDup (map fst regs) ->
  (LastReg (map (fun p => LReg (fst p) (snd p)) regs) k a <-> In (k, a) regs).
Proof.
  induction regs as [|[k' a'] r IH]; intros Hn; cbn [map fst snd].
  - split; [|easy]. intros (o1 & o2 & E & _). now destruct o1.
  - inversion Hn as [|? ? Hni Hn']; subst. specialize (IH Hn'). split.
    + intros (o1 & o2 & E & H). destruct o1 as [|x o1]; cbn in E.
      * injection E as -> -> _. now left.
      * injection E as _ E. right. apply IH. now exists o1, o2.
    + intros [E|Hi].
      * injection E as -> ->. exists [], (map (fun p => LReg (fst p) (snd p)) r). split; [easy|].
        intros b Hb. apply in_map_iff in Hb as ([k2 a2] & E & Hb). cbn in E. injection E as -> ->.
        apply Hni. apply in_map_iff. now exists (k, b).
      * apply IH in Hi as (o1 & o2 & E & H). exists (LReg k' a' :: o1), o2. now rewrite E.
Qed.
End L.

(* ---- Background ---- *)
Lemma accepted_iff s : smem s bg_spellings = true <-> Accepted s.
Proof.
  unfold Accepted, bg_spellings. cbn [smem existsb]. rewrite !Bool.orb_true_iff, !str_eqb_eq. split.
  - intros [H|[H|H]]; [auto|auto|discriminate].
  - intros [->| ->]; auto.
Qed.

Definition ref_of (chosen : option str) (l : list lev) (ref : str) : Prop :=
  match chosen with Some s => ref = s | None => Reference l ref end.

Lemma Reference_cons e l ref : (forall s w, e = LBg s w -> ~ Accepted s) -> Reference (e :: l) ref -> Reference l ref.
Proof.
  intros He H. inversion H as [l1 s w l2 E Ha Hn|Hn]; subst.
  - destruct l1 as [|x l1]; cbn in E; injection E as -> E.
    + exfalso. now apply (He ref w).
    + apply (Rf_first _ l1 ref w l2); auto. intros s' w' Hin. apply (Hn s' w'). now right.
  - apply Rf_none. intros s' w' Hin. apply (Hn s' w'). now right.
Qed.
Lemma Reference_head s w l ref : Accepted s -> Reference (LBg s w :: l) ref -> ref = s.
Proof.
  intros Ha H. inversion H as [l1 s' w' l2 E Ha' Hn|Hn]; subst.
  - destruct l1 as [|x l1]; cbn in E.
    + now injection E as -> _ _.
    + injection E as <- E. exfalso. apply (Hn s w); [now left|easy].
  - exfalso. apply (Hn s w); [now left|easy].
Qed.
Lemma Reference_accepted l ref : Reference l ref -> Accepted ref.
Proof. intros [? ? ? ? _ H _|_]; [easy|]. now left. Qed.

Lemma resolve_exact l : forall chosen ref, (forall s, chosen = Some s -> Accepted s) ->
  ref_of chosen l ref -> Resolved ref l (snd (resolve_bg chosen l)).
Proof.
  induction l as [|e l IH]; intros chosen ref Hc Hr; [constructor|].
  assert (Hother : (forall s w, e <> LBg s w) -> Resolved ref (e :: l) (e :: snd (resolve_bg chosen l))).
  { intros He. constructor; [easy|]. apply IH; [easy|]. destruct chosen; [easy|]. cbn in *.
    eapply Reference_cons; [|exact Hr]. intros s w E. now apply He in E. }
  destruct e as [m|v w|f|a|s w]; try (cbn [resolve_bg]; destruct (resolve_bg chosen l); now apply Hother).
  cbn [resolve_bg]. unfold bg_use. destruct chosen as [c|].
  - cbn in Hr. subst c. specialize (IH (Some ref) ref Hc eq_refl).
    destruct (resolve_bg (Some ref) l) as [c' r'] eqn:E. cbn [snd] in *.
    destruct (str_eqb ref s) eqn:Es.
    + apply str_eqb_eq in Es. subst s. cbn. now constructor.
    + cbn. constructor; auto; intros ->; rewrite (proj2 (str_eqb_eq _ _) eq_refl) in Es; discriminate.
  - cbn in Hr. destruct (smem s bg_spellings) eqn:Ea.
    + apply accepted_iff in Ea. pose proof (Reference_head _ _ _ _ Ea Hr) as ->.
      specialize (IH (Some s) s). rewrite (proj2 (str_eqb_eq s s) eq_refl). cbn [map app].
      destruct (resolve_bg (Some s) l) as [c' r'] eqn:E. cbn [snd map app] in *. constructor. apply IH; [|easy].
      now intros ? [= <-].
    + assert (Hna : ~ Accepted s) by (rewrite <- accepted_iff; congruence).
      pose proof (Reference_accepted _ _ Hr) as Hra.
      assert (Hl : Reference l ref). { eapply Reference_cons; [|exact Hr]. now intros ? ? [= <- <-]. }
      specialize (IH None ref ltac:(easy) Hl). destruct (resolve_bg None l) as [c' r'] eqn:E. cbn [snd] in *.
      destruct (str_eqb (L "Background") s) eqn:Es.
      * apply str_eqb_eq in Es. subst s. exfalso. apply Hna. now left.
      * cbn [map app]. constructor; [now intros ->|now left| |easy]. intros <-. apply Hna. now left.
Qed.

Lemma Reference_ex l : exists ref, Reference l ref /\ forall r, Reference l r -> r = ref.
Proof.
  induction l as [|e l (ref & IH & IHu)].
  - exists (L "Background"). split; [now constructor|]. intros r H. inversion H as [l1 ? ? ? E|]; [now destruct l1|easy].
  - assert (Hd : (exists s w, e = LBg s w /\ Accepted s) \/ (forall s w, e = LBg s w -> ~ Accepted s)).
    { destruct e; try (right; congruence). destruct (smem name bg_spellings) eqn:E.
      - left. exists name, w. split; [easy|]. now apply accepted_iff.
      - right. intros s w' [= <- <-]. rewrite <- accepted_iff. congruence. }
    destruct Hd as [(s & w & -> & Ha)|Hd].
    + exists s. split; [now apply (Rf_first _ [] s w l)|]. intros r Hr. eapply Reference_head; eassumption.
    + exists ref. split; [|intros r Hr; apply IHu; eapply Reference_cons; eassumption].
      inversion IH as [l1 s w l2 E Ha Hn|Hn]; subst.
      * apply (Rf_first _ (e :: l1) ref w l2); auto. intros s' w' [E|Hin]; [now apply (Hd s' w')|now apply (Hn s' w')].
      * apply Rf_none. intros s' w' [E|Hin]; [now apply (Hd s' w')|now apply (Hn s' w')].
Qed.

(* ---- unknown names at every use ---- *)
Lemma mbind_cons {A B} e l (r : res A) (f : A -> M B) : fst (mbind (e :: l, r) f) = e :: fst (mbind (l, r) f).
Proof. destruct r; reflexivity. Qed.
Lemma ssplit_zero c b : ssplit c (Some 0%nat) b = [b].
Proof. induction b as [|x b IH]; [easy|]. cbn. now rewrite Bool.andb_false_r, IH. Qed.
Lemma ssplit_first c a b : ~ In c a -> ssplit c (Some 1%nat) (a ++ c :: b) = [a; b].
Proof.
  induction a as [|x a IH]; intros Hn; cbn [app ssplit].
  - rewrite N.eqb_refl. cbn. now rewrite ssplit_zero.
  - destruct (x =? c) eqn:E; [apply N.eqb_eq in E; exfalso; apply Hn; now left|].
    cbn. rewrite IH; [reflexivity|]. intros H. apply Hn. now right.
Qed.

Lemma strip_both s : strip_p isspace s = s -> lstrip_p isspace s = s /\ rstrip_p isspace s = s.
Proof.
  intros H. unfold strip_p in H. destruct (lstrip_p_split isspace s) as (l & E & _ & _).
  destruct (rstrip_p_split isspace (lstrip_p isspace s)) as (t & E' & _). rewrite H in E'.
  assert (Hl : length (lstrip_p isspace s) = (length s + length t)%nat) by (rewrite E' at 1; apply app_length).
  assert (Hs : length s = (length l + length (lstrip_p isspace s))%nat) by (rewrite E at 1; apply app_length).
  assert (El : lstrip_p isspace s = s). { destruct t; [|cbn in Hl; lia]. now rewrite app_nil_r in E'. }
  split; [easy|]. now rewrite El in H.
Qed.

Section Unknown.
Variable U : uni.
Variable FT : ftable.
Variable AT : atable.

Lemma unknown_app a name data w : name <> [] -> ~ In 40 name -> strip_p isspace name = name ->
  lookup (u_lower U name) AT = None -> lookup (L "unknown") AT = Some a ->
  a_name a = L "Unknown" -> a_kind a = APlain -> name <> L "Unknown" ->
  exists l, fst (application U FT AT (name ++ 40 :: data) w) =
    LApp (u_lower U name) :: LMsg (Msg E_APP_MISSING w None [(L "app", AStr name)]) :: l.
Proof.
  intros Hne H40 Hs Hl Hu Hn Hk Hd.
  destruct (strip_both _ Hs) as [Hsl Hsr].
  unfold application, app_fuel. cbn [app_new].
  assert (Es : split_app U (TS (name ++ 40 :: data)) w = ([], Ok (Some (name, unparen (40 :: data))))).
  { unfold split_app. cbn [vsplit mlift]. rewrite ssplit_first by easy. cbn [map].
    unfold mret, mlift. cbn [mbind str_of fst snd app]. rewrite Hsr, (proj2 (str_eqb_eq name name) eq_refl).
    cbn [negb]. rewrite Hsl, (proj2 (str_eqb_eq name name) eq_refl). destruct name; [easy|]. reflexivity. }
  rewrite Es. cbn [mbind fst snd app]. unfold app_get. rewrite Hl, Hu.
  unfold mlog, mret. cbn [mbind fst snd app].
  unfold check_availability. rewrite Hk, Hn.
  destruct (str_eqb (L "Unknown") name) eqn:E1; [apply str_eqb_eq in E1; congruence|].
  rewrite (proj2 (str_eqb_eq (L "Unknown") (L "Unknown")) eq_refl).
  assert (Em : memit E_APP_MISSING w [(L "app", AStr name)] =
    ([LMsg (Msg E_APP_MISSING w None [(L "app", AStr name)])], Ok tt)) by reflexivity.
  rewrite Em. cbn [mbind fst snd app]. eexists. reflexivity.
Qed.

Lemma unknown_func f name w : lookup (u_lower U name) FT = None -> lookup (L "unknown") FT = Some f ->
  f_name f = L "UNKNOWN" -> name <> L "UNKNOWN" ->
  func_check U FT name w =
    ([LFunc (u_lower U name); LMsg (Msg E_FUNC_MISSING w None [(L "func", AStr name)])], Ok f).
Proof.
  intros Hl Hu Hn Hd. unfold func_check, func_get. rewrite Hl, Hu. unfold mlog, mret. cbn [mbind fst snd app].
  rewrite Hn. destruct (str_eqb (L "UNKNOWN") name) eqn:E1; [apply str_eqb_eq in E1; congruence|].
  rewrite (proj2 (str_eqb_eq (L "UNKNOWN") (L "UNKNOWN")) eq_refl). reflexivity.
Qed.
End Unknown.

(* The pure lookups of the model answer as the loader does. *)
Lemma lookup_in {A} (k : str) (t : list (str * A)) : NoDup (map fst t) -> forall a, lookup k t = Some a <-> In (k, a) t.
Proof.
  induction t as [|[k' b] r IH]; intros Hn a; [split; [discriminate|easy]|].
  inversion Hn as [|? ? Hni Hn']; subst. rewrite lookup_cons. destruct (str_eqb k k') eqn:E.
  - apply str_eqb_eq in E. subst. split; [intros [= ->]; now left|]. intros [[= ->]|H]; [easy|].
    exfalso. apply Hni, in_map_iff. now exists (k', a).
  - rewrite IH by easy. split; [now right|]. intros [[= -> ->]|H]; [|easy].
    rewrite (proj2 (str_eqb_eq k k) eq_refl) in E. discriminate.
Qed.

Definition regs_of {A} (t : list (str * A)) : list (ld_op A) := map (fun p => LReg (fst p) (snd p)) t.

Lemma nth_run {A} (gets : list str) : forall (s : loader A) i k, nth_error gets i = Some k ->
  nth_error (snd (ld_run s (map LGet gets))) i =
  Some (snd (ld_get (fst (ld_run s (map LGet (firstn i gets)))) k)).
Proof.
  induction gets as [|g r IH]; intros s i k H; [now destruct i|].
  destruct i as [|i]; cbn [nth_error map] in *.
  - injection H as ->. cbn. destruct (ld_get s k), (ld_run l (map LGet r)). reflexivity.
  - cbn [ld_run firstn]. cbn [map ld_run]. destruct (ld_get s g) as [s1 x]. specialize (IH s1 i k H).
    destruct (ld_run s1 (map LGet r)). destruct (ld_run s1 (map LGet (firstn i r))). cbn in *. exact IH.
Qed.

Lemma run_app {A} (o1 o2 : list (ld_op A)) : forall s, fst (ld_run s (o1 ++ o2)) = fst (ld_run (fst (ld_run s o1)) o2).
Proof. intros s. rewrite !ld_run_fst. apply ld_final_app. Qed.

(* Lookups after registering a table: the answers are those of the table. *)
Lemma table_exact {A} (t : list (str * A)) u gets i k : NoDup (map fst t) -> lookup (L "unknown") t = Some u ->
  nth_error gets i = Some k ->
  nth_error (snd (ld_run (fst (ld_run ld_empty (regs_of t))) (map LGet gets))) i =
  Some (Ok (match lookup k t with Some a => a | None => u end)).
Proof.
  intros Hn Hu Hk. rewrite (nth_run _ _ _ _ Hk). f_equal.
  set (ops := regs_of t ++ map LGet (firstn i gets)). rewrite <- run_app. fold ops.
  assert (HinR : forall k a, In (LReg k a) ops -> In (k, a) t).
  { intros k' a H. apply in_app_iff in H as [H|H].
    - apply in_map_iff in H as ([k2 a2] & [= <- <-] & H). exact H.
    - apply in_map_iff in H as (? & [=] & _). }
  assert (HL : forall k a, In (k, a) t -> LastReg ops k a).
  { intros k' a H. apply (LastReg_nodup t k' a Hn) in H as (o1 & o2 & E & H). exists o1, (o2 ++ map LGet (firstn i gets)).
    split. { unfold ops, regs_of. rewrite E, <- app_assoc. reflexivity. }
    intros b Hb. apply in_app_iff in Hb as [Hb|Hb]; [now apply H in Hb|]. apply in_map_iff in Hb as (? & [=] & _). }
  assert (HU : UnkFirst ops).
  { intros o1 a o2 E k' Hg. unfold ops in E.
    assert (G : forall rs gs o1 o2, Forall (fun o => exists k a, o = @LReg A k a) rs -> Forall (fun o => exists k, o = @LGet A k) gs ->
       rs ++ gs = o1 ++ LReg (L "unknown") a :: o2 -> ~ In (LGet k') o1).
    { clear. induction rs as [|r rs IH]; intros gs o1 o2 Hr Hg E Hin; cbn in E.
      - rewrite E in Hg. rewrite Forall_app in Hg. destruct Hg as [_ Hg].
        inversion Hg as [|? ? (k & Hx) ?]. discriminate.
      - inversion Hr as [|? ? (k & b & ->) Hr']; subst. destruct o1 as [|x o1]; [easy|]. cbn in E. injection E as <- E.
        destruct Hin as [Hin|Hin]; [discriminate|]. now apply (IH _ _ _ Hr' Hg E). }
    eapply (G (regs_of t) (map LGet (firstn i gets))); [| |exact E|exact Hg].
    - apply Forall_forall. intros x Hx. apply in_map_iff in Hx as ([k2 a2] & <- & _). cbn. eauto.
    - apply Forall_forall. intros x Hx. apply in_map_iff in Hx as (k2 & <- & _). eauto. }
  destruct (lookup k t) as [a|] eqn:E.
  - apply lookup_in in E; [|easy]. apply get_known; auto.
  - apply get_unknown; auto.
    + intros a Ha. apply HinR in Ha. apply lookup_in in Ha; [|easy]. congruence.
    + apply HL. now apply lookup_in.
Qed.

Lemma perm_lookup {A} (t t' : list (str * A)) k : NoDup (map fst t) -> Permutation t t' -> lookup k t = lookup k t'.
Proof.
  intros Hn Hp. assert (Hn' : NoDup (map fst t')) by (eapply Permutation_NoDup; [apply Permutation_map; exact Hp|exact Hn]).
  destruct (lookup k t) as [a|] eqn:E.
  - symmetry. apply lookup_in; [easy|]. apply (Permutation_in _ Hp). now apply lookup_in.
  - destruct (lookup k t') as [a|] eqn:E'; [|easy]. apply lookup_in in E'; [|easy].
    apply (Permutation_in _ (Permutation_sym Hp)) in E'. apply lookup_in in E'; [|easy]. congruence.
Qed.

Lemma nth_error_ext_list {A} (l l' : list A) : (forall i, nth_error l i = nth_error l' i) -> l = l'.
Proof.
  revert l'. induction l as [|x l IH]; intros [|y l'] H; [easy|specialize (H O); discriminate|specialize (H O); discriminate|].
  pose proof (H O) as H0. injection H0 as ->. f_equal. apply IH. intros i. apply (H (S i)).
Qed.
Lemma NoDup_by_tails (l : list str) : (forall i, (i < length l)%nat -> ~ In (nth i l []) (skipn (S i) l)) -> NoDup l.
Proof.
  induction l as [|x l IH]; intros H; constructor.
  - apply (H O). cbn. lia.
  - apply IH. intros i Hi. apply (H (S i)). cbn. lia.
Qed.
