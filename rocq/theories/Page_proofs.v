(* Proofs about the page of modules-show (C42). *)
From Coq Require Import Sorted ZifyBool ZifyN ZifyNat.
From Verif Require Import Base Utf8 PyStr Defines FileRd Config VarFun AppM Dialplan FuncOdbc Loader Commands Check
  Spec_Commands Spec_Check Spec_Page Loader_proofs Modules_proofs.
From Verif Require Config_proofs Commands_proofs.

Lemma Row_fun g s : Row g s -> forall s', Row g s' -> s = s'.
Proof. induction 1 as [|n|n m r s H IH]; intros s' H'; inversion H'; subst; try easy. f_equal. f_equal. auto. Qed.
Lemma row_ex g : Row g (join (L ", ") (map (fun n => n ++ L "()") g)).
Proof.
  induction g as [|n [|m r] IH]; [constructor|constructor|]. cbn [map join]. cbn [map] in IH.
  rewrite <- app_assoc. change (L "()" ++ L ", " ++ ?x) with (L "(), " ++ x). now apply Rw_more.
Qed.
Lemma row_empty g s : Row g s -> s = [] <-> g = [].
Proof. intros [|n|n m r s' _]; split; try easy; destruct n; easy. Qed.
Lemma row_snoc g s n : Row g s -> g <> [] -> Row (g ++ [n]) (s ++ L ", " ++ n ++ L "()").
Proof.
  induction 1 as [|m|m k r s H IH]; intros Hg; [easy| |].
  - cbn [app]. rewrite <- app_assoc. change (L "()" ++ L ", " ++ ?x) with (L "(), " ++ x). apply Rw_more. constructor.
  - cbn [app]. rewrite <- !app_assoc. apply Rw_more. now apply IH.
Qed.
Lemma Width_fun g n x x' : Width g n x -> Width g n x' -> x = x'.
Proof. intros [n'|m r s n' R] H'; inversion H' as [|? ? ? ? R']; subst; [easy|]. now rewrite (Row_fun _ _ R _ R'). Qed.

Definition sofar (g : list str) : str := match g with [] => [] | _ => join (L ", ") (map (fun n => n ++ L "()") g) ++ L ", " end.
Lemma width_ex g n : Width g n (length (sofar g) + length (n ++ L "()")).
Proof.
  destruct g as [|m r]; unfold sofar.
  - rewrite app_length. constructor.
  - replace (_ + _)%nat with (length (join (L ", ") (map (fun n => n ++ L "()") (m :: r))) + 2 + length n + 2)%nat; [constructor; apply row_ex|].
    rewrite !app_length. cbn [length]. change (length (L ", ")) with 2%nat. change (length (L "()")) with 2%nat. lia.
Qed.

Inductive Filling : list str -> list str -> list (list str) -> Prop :=
| Fg_end g : Filling g [] [g]
| Fg_fits g n r gs x : Width g n x -> (x <= 52)%nat -> Filling (g ++ [n]) r gs -> Filling g (n :: r) gs
| Fg_break g n r gs x : Width g n x -> (52 < x)%nat -> Filling [n] r gs -> Filling g (n :: r) (g :: gs).

Definition last_text (g : list str) : str := join (L ", ") (map (fun n => n ++ L "()") g).
Fixpoint texts (gs : list (list str)) : list str :=
  match gs with
  | [] => []
  | [g] => [last_text g]
  | g :: r => sofar g :: texts r
  end.
Lemma filling_ne g names gs : Filling g names gs -> exists y r, gs = (g ++ y) :: r.
Proof.
  induction 1 as [g|g n r gs x _ _ _ (y & q & ->)|g n r gs x _ _ _ _].
  - exists [], []. now rewrite app_nil_r.
  - exists (n :: y), q. now rewrite <- app_assoc.
  - exists [], gs. now rewrite app_nil_r.
Qed.
Lemma lines_filling names : forall g ls, exists gs, Filling g names gs /\ item_lines (last_text g :: ls) names = rev ls ++ texts gs.
Proof.
  induction names as [|n r IH]; intros g ls.
  - exists [g]. split; [constructor|]. reflexivity.
  - cbn [item_lines]. replace (match last_text g with [] => [] | _ :: _ => last_text g ++ L ", " end) with (sofar g).
    2:{ unfold sofar, last_text. pose proof (row_empty _ _ (row_ex g)) as He. destruct g; [easy|].
        destruct (join _ _); [destruct He as [He _]; now specialize (He eq_refl)|easy]. }
    pose proof (width_ex g n) as W. destruct (Nat.ltb_spec 52 (length (sofar g) + length (n ++ L "()"))) as [H|H].
    + destruct (IH [n] (sofar g :: ls)) as (gs & F & E). exists (g :: gs). split; [eapply Fg_break; eauto|].
      etransitivity; [exact E|]. cbn [rev]. rewrite <- app_assoc. cbn [app]. f_equal.
      destruct (filling_ne _ _ _ F) as (y & q & ->). reflexivity.
    + destruct (IH (g ++ [n]) ls) as (gs & F & E). exists gs. split; [eapply Fg_fits; eauto|]. rewrite <- E. do 2 f_equal.
      destruct g as [|m g]; [reflexivity|]. pose proof (row_snoc _ _ n (row_ex (m :: g)) ltac:(easy)) as R.
      unfold sofar, last_text. rewrite <- app_assoc. exact (Row_fun _ _ R _ (row_ex _)).
Qed.
Lemma filling_concat g names gs : Filling g names gs -> List.concat gs = g ++ names.
Proof.
  induction 1 as [g|g n r gs x _ _ _ IH|g n r gs x _ _ _ IH]; cbn [List.concat]; [easy| |].
  - rewrite IH, <- app_assoc. reflexivity.
  - now rewrite IH.
Qed.
Lemma filling_fits g names gs : Filling g names gs -> forall (first : Prop),
  (forall a n b x, g = a ++ n :: b -> a <> [] \/ first -> Width a n x -> (x <= 52)%nat) ->
  forall p q a n b x, gs = p ++ (a ++ n :: b) :: q -> a <> [] \/ p = [] /\ first -> Width a n x -> (x <= 52)%nat.
Proof.
  induction 1 as [g|g n r gs x W Hx F IH|g n r gs x W Hx F IH]; intros first OK p q a m b y E Hp Hy.
  - destruct p as [|? [|]]; [|discriminate|discriminate]. injection E as E _. eapply OK; [exact E|tauto|exact Hy].
  - eapply (IH first); [|exact E|exact Hp|exact Hy]. clear E Hp Hy. intros a' m' b' y' E Hp Hy.
    destruct b' as [|z b' _] using rev_ind.
    + apply app_inj_tail in E as [<- <-]. now rewrite (Width_fun _ _ _ _ Hy W).
    + change (a' ++ m' :: b' ++ [z]) with (a' ++ (m' :: b') ++ [z]) in E. rewrite app_assoc in E. apply app_inj_tail in E as [-> _].
      eapply OK; [reflexivity|exact Hp|exact Hy].
  - destruct p as [|g0 p].
    + injection E as E _. eapply OK; [exact E|tauto|exact Hy].
    + injection E as _ E. eapply (IH False); [|exact E| |exact Hy].
      * intros a' m' b' y' E' Hp' _. destruct a' as [|? [|]]; [tauto|discriminate|discriminate].
      * left. destruct Hp as [Hp|[Hp _]]; [easy|discriminate].
Qed.
Lemma filling_breaks g names gs : Filling g names gs -> forall p q u h, gs = p ++ u :: h :: q -> exists n b x, h = n :: b /\ Width u n x /\ (52 < x)%nat.
Proof.
  induction 1 as [g|g n r gs x W Hx F IH|g n r gs x W Hx F IH]; intros p q u h E.
  - destruct p as [|? [|]]; discriminate.
  - eauto.
  - destruct p as [|g0 p].
    + injection E as <- E. destruct (filling_ne _ _ _ F) as (y & q' & E'). rewrite E in E'. injection E' as -> _. exists n, y, x. auto.
    + injection E as _ E. eauto.
Qed.
Lemma filling_rows names gs : Filling [] names gs -> Rows names gs.
Proof.
  intros F. split; [now apply filling_concat in F|]. split; [|split; [eapply filling_breaks; eauto|]].
  - intros p q a n b x E Hp. eapply (filling_fits _ _ _ F True); [|exact E|tauto]. intros [|] ? ? ? K; discriminate.
  - destruct (filling_ne _ _ _ F) as (y & q & ->). discriminate.
Qed.

Lemma bare_strip s : Bare s (strip_p isspace s).
Proof.
  unfold strip_p. destruct (lstrip_p_split isspace s) as (a & E & Ha & Hs). destruct (rstrip_p_split isspace (lstrip_p isspace s)) as (b & Eb & Hb).
  pose proof (rstrip_p_last isspace (lstrip_p isspace s)) as Hl.
  exists a, b. rewrite <- Eb. split; [easy|]. split; [easy|]. split; [easy|]. split.
  - intros c r K. rewrite K in Eb. cbn in Eb. rewrite Eb in Hs. exact Hs.
  - intros c r K. rewrite K in Hl. now rewrite last_opt_app in Hl.
Qed.
Lemma bare_sofar g : g <> [] -> Bare (last_text g ++ L ",") (strip_p isspace (sofar g)).
Proof.
  intros Hg. assert (E : sofar g = (last_text g ++ L ",") ++ [32]). { unfold sofar, last_text. destruct g; [easy|]. rewrite <- app_assoc. reflexivity. }
  destruct (bare_strip (sofar g)) as (a & b & Es & Ha & Hb & H1 & H2). set (t := strip_p isspace (sofar g)) in *. clearbody t. destruct b as [|c b _] using rev_ind.
  - exfalso. rewrite app_nil_r in Es. rewrite E in Es. destruct t as [|c t _] using rev_ind.
    + rewrite app_nil_r in Es. rewrite <- Es, !forallb_app in Ha. apply andb_prop in Ha as [Ha _]. apply andb_prop in Ha as [_ Ha]. discriminate.
    + rewrite app_assoc in Es. apply app_inj_tail in Es as [_ <-]. specialize (H2 32 t eq_refl). discriminate.
  - rewrite E in Es. rewrite !app_assoc in Es. apply app_inj_tail in Es as [Es _]. exists a, b. rewrite <- app_assoc in Es. split; [easy|]. split; [easy|].
    rewrite forallb_app in Hb. apply andb_prop in Hb as [Hb _]. split; [easy|]. now split.
Qed.
Lemma column m : Column m (ljust20 m).
Proof.
  unfold Column, ljust20. exists (20 - length m)%nat. split; [easy|]. rewrite app_length, repeat_length. lia.
Qed.
Lemma listed gs : gs <> [] -> forall m, Listed m gs (match texts gs with [] => [] | l :: r => (L ";   " ++ ljust20 m ++ L "  " ++ strip_p isspace l)
                   :: map (fun l => L ";   " ++ ljust20 [] ++ L "  " ++ strip_p isspace l) r end).
Proof.
  induction gs as [|g gs IH]; [easy|]. intros _ m. destruct gs as [|h gs].
  - cbn [texts map]. eapply Ls_last; [apply column|apply row_ex|apply bare_strip].
  - specialize (IH ltac:(easy) []). change (texts (g :: h :: gs)) with (sofar g :: texts (h :: gs)). cbv iota.
    set (tl := map (fun l => L ";   " ++ ljust20 [] ++ L "  " ++ strip_p isspace l) (texts (h :: gs))).
    assert (HT : Listed [] (h :: gs) tl). { unfold tl. destruct (texts (h :: gs)); exact IH. }
    destruct g as [|n g].
    + eapply Ls_empty; [apply column|easy|easy|exact HT].
    + eapply Ls_more; [apply column|easy|apply row_ex|now apply bare_sofar|exact HT].
Qed.
Lemma module_lines m names : exists rows, Rows names rows /\ Listed m rows (match item_lines [[]] names with [] => [] | l :: r => (L ";   " ++ ljust20 m ++ L "  " ++ strip_p isspace l)
                   :: map (fun l => L ";   " ++ ljust20 [] ++ L "  " ++ strip_p isspace l) r end).
Proof.
  destruct (lines_filling names [] []) as (gs & F & E). assert (E' : item_lines [[]] names = texts gs) by exact E. rewrite E'.
  exists gs. apply filling_rows in F. split; [easy|]. apply listed. now destruct F as (_ & _ & _ & H).
Qed.
Lemma sections items mods : exists ls, Sections items mods ls /\ forall what, print_modules what items mods = (L "; " ++ what ++ L " providing modules used:") :: ls ++ [L ";"].
Proof.
  unfold print_modules. set (F := fun m : str => match item_lines [[]] _ with [] => [] | l :: r => _ end).
  assert (exists ls, Sections items mods ls /\ flat_map F mods = ls) as (ls & HS & E).
  { induction mods as [|m mods (ls & HS & E)]; [exists []; split; [constructor|reflexivity]|].
    destruct (module_lines m (map fst (filter (fun i => str_eqb (snd i) m) items))) as (rows & HR & HL).
    eexists. split; [eapply Se_cons; eassumption|]. cbn [flat_map]. rewrite E. reflexivity. }
  exists ls. split; [easy|]. intros what. now rewrite E.
Qed.

Lemma used_exact {A} (nm md : A -> str) (t : list (str * A)) (u : A) keys : lookup (L "unknown") t = Some u ->
  exists is, used_items nm md t keys = Ok is /\ Used nm md t u keys is.
Proof.
  intros HU. destruct (ld_final_state u keys t [] HU) as [K1 K2]. unfold used_items. set (s := fst (ld_run (Loader t []) (map LGet keys))) in *. clearbody s.
  rewrite K1, app_nil_r. cbn zeta.
  assert (KE : forall ks, (forall k, In k ks -> In k keys) ->
    exists is, (fix go l := match l with [] => Ok [] | k :: r => if str_eqb k (L "unknown") then go r else
       match lookup k (ld_tab s) with Some a => let! xs := go r in Ok ((nm a, md a) :: xs) | None => Exn KeyError end end) ks = Ok is /\
     Forall2 (fun k i => exists a, (lookup k t = Some a \/ lookup k t = None /\ a = u) /\ i = (nm a, md a)) (filter (fun k => negb (str_eqb k (L "unknown"))) ks) is).
  { induction ks as [|k ks IH]; intros HK; [exists []; split; [easy|constructor]|]. destruct IH as (is & E & HM); [intros; apply HK; now right|]. rewrite E. cbn [filter].
    destruct (str_eqb_spec k (L "unknown")) as [->|HN]; cbn [negb]; [eauto|].
    assert (HX : smem k keys = true) by (apply smem_In, HK; now left). rewrite K2, HX.
    destruct (lookup k t) as [a|] eqn:El; cbn [bind]; eexists; (split; [reflexivity|]); constructor; [|easy| |easy]; rewrite El; eauto. }
  destruct (KE (sorted_set (rev keys))) as (is & E & HM); [intros k; now rewrite sorted_set_in, <- in_rev|]. exists is. split; [exact E|].
  exists (filter (fun k => negb (str_eqb k (L "unknown"))) (sorted_set (rev keys))). split; [apply ss_filter, sorted_set_sorted|]. split; [apply NoDup_filter, sorted_set_nodup|].
  split; [|easy]. intros k. rewrite filter_In, sorted_set_in, <- in_rev. destruct (str_eqb_spec k (L "unknown")) as [->|HN]; cbn; split; try easy; tauto.
Qed.
Lemma commas ns : ns <> [] -> Commas ns (join (L ", ") ns).
Proof. induction ns as [|n [|m r] IH]; [easy|constructor|]. intros _. cbn [join]. apply Cm_more. now apply IH. Qed.
Lemma sorted_set_nil l : sorted_set l = [] <-> l = [].
Proof.
  split; [|now intros ->]. intros H. destruct l as [|x l]; [easy|]. assert (K : In x (sorted_set (x :: l))) by (apply sorted_set_in; now left). now rewrite H in K.
Qed.
Lemma unknown_lines what l : Unknown what (sorted_set l) (print_unknown what l).
Proof.
  unfold print_unknown. destruct l as [|x l]; [constructor|]. apply Uk_some. apply commas. intros H. apply (proj1 (sorted_set_nil _)) in H. discriminate.
Qed.
Lemma arg_str_in m k n : In n (arg_str m k) <-> lookup k (m_args m) = Some (AStr n).
Proof. unfold arg_str. destruct (lookup k (m_args m)) as [[]|]; cbn; split; try easy; [intros [<-|[]]; easy|intros [= ->]; now left]. Qed.
Lemma names_apps ms : Names ms E_APP_MISSING (L "app") (sorted_set (unknown_apps ms)).
Proof.
  split; [apply sorted_set_sorted|]. split; [apply sorted_set_nodup|]. intros n. rewrite sorted_set_in. unfold unknown_apps. rewrite in_flat_map. split.
  - intros (m & HI & H). exists m. destruct (m_cls m); try easy. now apply arg_str_in in H.
  - intros (m & HI & Hc & H). exists m. split; [easy|]. rewrite Hc. now apply arg_str_in.
Qed.
Lemma names_funcs ms : Names ms E_FUNC_MISSING (L "func") (sorted_set (unknown_funcs ms)).
Proof.
  split; [apply sorted_set_sorted|]. split; [apply sorted_set_nodup|]. intros n. rewrite sorted_set_in. unfold unknown_funcs. rewrite in_flat_map. split.
  - intros (m & HI & H). exists m. destruct (m_cls m); try easy. now apply arg_str_in in H.
  - intros (m & HI & Hc & H). exists m. split; [easy|]. rewrite Hc. now apply arg_str_in.
Qed.

Theorem page U FT AT ex fuel fs arg dp fns d ua uf :
  snd (load_odbc ex fuel fs arg dp) = Ok fns ->
  let ft := register_all U fns FT in
  lookup (L "unknown") AT = Some ua -> lookup (L "unknown") ft = Some uf -> a_module ua = L "unknown" -> VarFun.f_module uf = L "unknown" ->
  snd (show_run U FT AT ex fuel fs arg dp) = Ok d ->
  let log := fst (show_run U FT AT ex fuel fs arg dp) in
  exists lines n, modules_show U FT AT ex fuel fs arg dp = Ok (lines, n) /\ Page AT ft (log_apps log) (log_funcs log) (run_msgs None log) lines n.
Proof.
  intros HL ft Ha Hf Ma Mf HD log.
  destruct (show_ok U FT AT ex fuel fs arg dp fns HL ua uf Ha Hf Ma Mf d HD) as (ia & im & if_ & fm & E1 & E2 & E3 & E4 & H). fold log in E1, E2, E3, E4, H. fold ft in E3, E4.
  destruct (used_exact a_name a_module AT ua (log_apps log) Ha) as (ia' & E1' & U1). rewrite E1 in E1'. injection E1' as <-.
  destruct (used_exact VarFun.f_name VarFun.f_module ft uf (log_funcs log) Hf) as (if' & E3' & U3). rewrite E3 in E3'. injection E3' as <-.
  destruct (used_modules_ok a_module AT ua (log_apps log) Ha Ma) as (im' & E2' & M1). rewrite E2 in E2'. injection E2' as <-.
  destruct (used_modules_ok VarFun.f_module ft uf (log_funcs log) Hf Mf) as (fm' & E4' & M2). rewrite E4 in E4'. injection E4' as <-.
  destruct (sections ia im) as (la & SA & PA). destruct (sections if_ fm) as (lf & SF & PF). rewrite PA, PF in H.
  eexists. eexists. split; [exact H|]. unfold load_statements.
  eapply (Pg_intro _ _ _ _ _ ua uf ia im if_ fm la lf _ (sorted_set (unknown_apps (run_msgs None log))) (sorted_set (unknown_funcs (run_msgs None log)))); try eassumption.
  - apply ss_filter, sorted_set_sorted.
  - apply NoDup_filter, sorted_set_nodup.
  - intros m. rewrite filter_In, sorted_set_in, in_app_iff. destruct (str_eqb_spec m (L "<builtin>")) as [->|N]; cbn; split; try easy; tauto.
  - apply names_apps.
  - apply unknown_lines.
  - apply names_funcs.
  - apply unknown_lines.
  - rewrite !sorted_set_nil. destruct (unknown_apps _) as [|x l]; [destruct (unknown_funcs _) as [|y l']|]; [now left| |]; right; (split; [easy|]); [right|left]; discriminate.
Qed.

(* ---- the rules determine the page ---- *)
Lemma rows_filling k : forall (first : Prop) g y q, (length (y ++ List.concat q) < k)%nat ->
  (forall p r a n b x, (g ++ y) :: q = p ++ (a ++ n :: b) :: r -> a <> [] \/ p = [] /\ first -> Width a n x -> (x <= 52)%nat) ->
  (forall p r u h, (g ++ y) :: q = p ++ u :: h :: r -> exists n b x, h = n :: b /\ Width u n x /\ (52 < x)%nat) ->
  g <> [] \/ first -> Filling g (y ++ List.concat q) ((g ++ y) :: q).
Proof.
  induction k as [|k IH]; intros first g y q Hk Ha Hb Hg; [lia|]. destruct y as [|n y].
  - rewrite app_nil_r in *. cbn [app] in *. destruct q as [|h q]; [constructor|].
    destruct (Hb [] q g h eq_refl) as (n & b & x & -> & W & Hx). cbn [List.concat app] in *. eapply Fg_break; [exact W|exact Hx|].
    change (n :: b) with ([n] ++ b). apply (IH False); [cbn [length] in Hk; lia| | |left; discriminate].
    + intros p r a m b' y E Hp. eapply (Ha (g :: p)); [cbn [app]; f_equal; exact E|]. left. tauto.
    + intros p r u h E. apply (Hb (g :: p) r u h). cbn [app]. f_equal. exact E.
  - cbn [app]. pose proof (width_ex g n) as W. eapply Fg_fits; [exact W| |].
    + eapply (Ha [] q g n y); [reflexivity|tauto|exact W].
    + replace (g ++ n :: y) with ((g ++ [n]) ++ y) in * by now rewrite <- app_assoc.
      apply (IH first); [cbn [app length] in Hk; lia|exact Ha|exact Hb|left; now destruct g].
Qed.
Lemma filling_fun g names gs : Filling g names gs -> forall gs', Filling g names gs' -> gs = gs'.
Proof.
  induction 1 as [g|g n r gs x W Hx F IH|g n r gs x W Hx F IH]; intros gs' H; inversion H as [|? ? ? ? x' W' Hx' F'|? ? ? ? x' W' Hx' F']; subst; try easy;
    pose proof (Width_fun _ _ _ _ W W') as E; [auto|lia|lia|f_equal; auto].
Qed.
Lemma Rows_fun names gs gs' : Rows names gs -> Rows names gs' -> gs = gs'.
Proof.
  assert (G : forall gs, Rows names gs -> Filling [] names gs).
  { clear. intros gs (E & Ha & Hb & Hn). destruct gs as [|y q]; [easy|]. rewrite <- E. apply (rows_filling (S (length (y ++ List.concat q))) True); [lia| | |now right].
    - intros p r a n b x K Hp. eapply Ha; [exact K|tauto].
    - exact Hb. }
  intros H H'. eapply filling_fun; eauto.
Qed.
Lemma Bare_fun s t t' : Bare s t -> Bare s t' -> t = t'.
Proof.
  assert (G : forall s t, Bare s t -> t = strip_p isspace s).
  { clear. intros s t (a & b & -> & Ha & Hb & H1 & H2). unfold strip_p. destruct t as [|c t].
    - cbn [app]. rewrite (proj2 (rstrip_p_nil _ _)); [easy|]. assert (E : forallb isspace (a ++ b) = true) by (rewrite forallb_app, Ha, Hb; easy).
      destruct (lstrip_p_split isspace (a ++ b)) as (l & El & _). rewrite El, forallb_app in E. now apply andb_prop in E.
    - rewrite (Config_proofs.lstrip_p_unique isspace a) by (try easy; cbn [app]; now apply (H1 c t)). symmetry.
      eapply rstrip_p_unique; [reflexivity|exact Hb|]. destruct (last_opt (c :: t)) as [x|] eqn:El; [|easy].
      destruct t as [|y t _] using rev_ind; [cbn in El; injection El as <-; now apply (H2 c [])|].
      change (c :: t ++ [y]) with ((c :: t) ++ [y]) in El. rewrite last_opt_app in El. injection El as <-. now apply (H2 y (c :: t)). }
  intros H H'. rewrite (G _ _ H). symmetry. auto.
Qed.
Lemma Column_fun m c c' : Column m c -> Column m c' -> c = c'.
Proof.
  intros (k & -> & H) (k' & -> & H'). rewrite !app_length, !repeat_length in *. replace k' with k by lia. easy.
Qed.
Lemma Listed_fun m gs ls : Listed m gs ls -> forall ls', Listed m gs ls' -> ls = ls'.
Proof.
  induction 1 as [m g col s t C R B|m g r col t ls C Eg Et H IH|m g r col s t ls C Eg R B H IH]; intros ls' H'.
  - inversion H' as [? ? col' s' t' C' R' B'|? ? ? ? ? ? ? ? ? K|? ? ? ? ? ? ? ? ? ? ? K]; subst; [|inversion K|inversion K].
    rewrite (Column_fun _ _ _ C C'). rewrite (Row_fun _ _ R _ R') in B. now rewrite (Bare_fun _ _ _ B B').
  - inversion H' as [? ? col' s' t' C' R' B'|? ? ? col' t' ? C' Eg' Et' K|? ? ? col' s' t' ? C' Eg' R' B' K]; subst; [inversion H| |easy].
    rewrite (Column_fun _ _ _ C C'). f_equal. auto.
  - inversion H' as [? ? col' s' t' C' R' B'|? ? ? col' t' ? C' Eg' Et' K|? ? ? col' s' t' ? C' Eg' R' B' K]; subst; [inversion H|easy|].
    rewrite (Column_fun _ _ _ C C'). rewrite (Row_fun _ _ R _ R') in B. rewrite (Bare_fun _ _ _ B B'). f_equal. auto.
Qed.
Lemma Sections_fun items mods ls : Sections items mods ls -> forall ls', Sections items mods ls' -> ls = ls'.
Proof.
  induction 1 as [|m mods rows ls ls1 R H HS IH]; intros ls' H'; inversion H' as [|? ? rows' ? ? R' K HS']; subst; [easy|].
  rewrite (Rows_fun _ _ _ R R') in H. rewrite (Listed_fun _ _ _ H _ K). f_equal. auto.
Qed.
Lemma sorted_same l : StronglySorted StrLe l -> NoDup l -> forall l', StronglySorted StrLe l' -> NoDup l' -> (forall x, In x l <-> In x l') -> l = l'.
Proof.
  induction 1 as [|x l S IH F]; intros N l' S' N' H.
  - destruct l' as [|y l']; [easy|]. destruct (proj2 (H y)); now left.
  - destruct S' as [|y l' S' F']; [destruct (proj1 (H x)); now left|]. inversion N as [|? ? Nx N2]; subst. inversion N' as [|? ? Ny N2']; subst.
    rewrite Forall_forall in F, F'.
    assert (E : x = y).
    { destruct (proj1 (H x) (or_introl eq_refl)) as [E|Hx]; [easy|]. destruct (proj2 (H y) (or_introl eq_refl)) as [E|Hy]; [easy|].
      apply Commands_proofs.strle_antisym; auto. }
    subst y. f_equal. apply IH; [easy|easy|easy|]. intros z. split; intros Hz.
    + destruct (proj1 (H z) (or_intror Hz)) as [<-|K]; [easy|easy].
    + destruct (proj2 (H z) (or_intror Hz)) as [<-|K]; [easy|easy].
Qed.
Lemma Used_fun {A} (nm md : A -> str) t u keys is is' : Used nm md t u keys is -> Used nm md t u keys is' -> is = is'.
Proof.
  intros (ks & S & N & H & F) (ks' & S' & N' & H' & F'). assert (ks = ks') as <- by (apply sorted_same; auto; intros x; now rewrite H, H').
  clear - F F'. revert is' F'. induction F as [|k i ks is (a & Ha & ->) F IH]; intros is' F'; [now inversion F'|]. inversion F' as [|? ? ? ? (a' & Ha' & ->) F2]; subst.
  f_equal; [|auto]. assert (a = a') as ->; [|easy]. destruct Ha as [Ha|[Ha ->]], Ha' as [Ha'|[Ha' ->]]; congruence.
Qed.
Lemma Modules_fun {A} (md : A -> str) t keys m m' : Modules md t keys m -> Modules md t keys m' -> m = m'.
Proof. intros (S & N & H) (S' & N' & H'). apply sorted_same; auto. intros x. now rewrite H, H'. Qed.
Lemma Names_fun ms c k n n' : Names ms c k n -> Names ms c k n' -> n = n'.
Proof. intros (S & N & H) (S' & N' & H'). apply sorted_same; auto. intros x. now rewrite H, H'. Qed.
Lemma Commas_fun n s : Commas n s -> forall s', Commas n s' -> s = s'.
Proof. induction 1 as [n|n m r s H IH]; intros s' H'; inversion H' as [|? ? ? ? K]; subst; [easy|]. f_equal. f_equal. auto. Qed.
Lemma Unknown_fun what n l l' : Unknown what n l -> Unknown what n l' -> l = l'.
Proof.
  intros H H'. destruct H as [|ns s H].
  - inversion H' as [|? ? K]; subst; [easy|inversion K].
  - inversion H' as [|? ? K]; subst; [inversion H|]. now rewrite (Commas_fun _ _ H _ K).
Qed.
Theorem page_fun AT ft apps funcs ms lines n lines' n' : Page AT ft apps funcs ms lines n -> Page AT ft apps funcs ms lines' n' -> lines = lines' /\ n = n'.
Proof.
  intros H H'. destruct H as [ua uf ia im if_ fm la lf mods unka unkf lua luf st A1 A2 A3 A4 A5 A6 A7 A8 A9 A10 A11 A12 A13 A14 A15 A16].
  destruct H' as [ua' uf' ia' im' if' fm' la' lf' mods' unka' unkf' lua' luf' st' B1 B2 B3 B4 B5 B6 B7 B8 B9 B10 B11 B12 B13 B14 B15 B16].
  rewrite A1 in B1. injection B1 as <-. rewrite A2 in B2. injection B2 as <-.
  pose proof (Used_fun _ _ _ _ _ _ _ A3 B3) as <-. pose proof (Used_fun _ _ _ _ _ _ _ A6 B6) as <-.
  pose proof (Modules_fun _ _ _ _ _ A4 B4) as <-. pose proof (Modules_fun _ _ _ _ _ A7 B7) as <-.
  pose proof (Sections_fun _ _ _ A5 _ B5) as <-. pose proof (Sections_fun _ _ _ A8 _ B8) as <-.
  assert (mods = mods') as <- by (apply sorted_same; auto; intros x; now rewrite A11, B11).
  pose proof (Names_fun _ _ _ _ _ A12 B12) as <-. pose proof (Names_fun _ _ _ _ _ A14 B14) as <-.
  rewrite (Unknown_fun _ _ _ _ A13 B13), (Unknown_fun _ _ _ _ A15 B15). split; [easy|].
  destruct A16 as [(-> & E1 & E2)|(-> & E)], B16 as [(-> & E1' & E2')|(-> & E')]; try easy; exfalso; [destruct E'|destruct E]; congruence.
Qed.
