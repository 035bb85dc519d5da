From Verif Require Import Base Utf8 Utf8_proofs PyStr Defines FileRd Spec_File.
From Coq Require Import ZifyBool ZifyN ZifyNat.
Ltac Zify.zify_post_hook ::= Z.div_mod_to_equations.

(* ---- UTF-8 and cp1252 ---- *)

Lemma Utf8_1_encode c b : Utf8_1 c b <-> utf8_encode1 c = Ok b.
Proof.
  split.
  - intros H; inversion H; subst; unfold utf8_encode1, in_rng.
    + destruct (N.ltb_spec c 0x80); [easy|lia].
    + destruct (N.ltb_spec (64 * x + y) 0x80); [lia|].
      destruct (N.ltb_spec (64 * x + y) 0x800); [|lia].
      f_equal. f_equal; [|f_equal]; lia.
    + set (c := 4096 * x + 64 * y + z) in *.
      destruct (N.ltb_spec c 0x80); [lia|]. destruct (N.ltb_spec c 0x800); [lia|].
      destruct ((0xd800 <=? c) && (c <=? 0xdfff)) eqn:?; [lia|].
      destruct (N.ltb_spec c 0x10000); [|lia].
      f_equal. f_equal; [|f_equal; [|f_equal]]; lia.
    + set (c := 262144 * x + 4096 * y + 64 * z + t) in *.
      destruct (N.ltb_spec c 0x80); [lia|]. destruct (N.ltb_spec c 0x800); [lia|].
      destruct ((0xd800 <=? c) && (c <=? 0xdfff)) eqn:?; [lia|].
      destruct (N.ltb_spec c 0x10000); [lia|]. destruct (N.ltb_spec c 0x110000); [|lia].
      f_equal. f_equal; [|f_equal; [|f_equal; [|f_equal]]]; lia.
  - unfold utf8_encode1, in_rng. intros H.
    destruct (N.ltb_spec c 0x80); [injection H as <-; now constructor|].
    destruct (N.ltb_spec c 0x800).
    { injection H as <-. replace c with (64 * (c / 64) + c mod 64) at 1 by lia. constructor; lia. }
    destruct ((0xd800 <=? c) && (c <=? 0xdfff)) eqn:?; [easy|].
    destruct (N.ltb_spec c 0x10000).
    { injection H as <-. 
      assert (E : c = 4096 * (c / 4096) + 64 * ((c / 64) mod 64) + c mod 64) by lia.
      rewrite E at 1. constructor; lia. }
    destruct (N.ltb_spec c 0x110000); [|easy].
    injection H as <-.
    assert (E : c = 262144 * (c / 262144) + 4096 * ((c / 4096) mod 64) + 64 * ((c / 64) mod 64) + c mod 64) by lia.
    rewrite E at 1. constructor; lia.
Qed.

Lemma Utf8_encode s b : Utf8 s b <-> utf8_encode s = Ok b.
Proof.
  revert b; induction s as [|c s IH]; intros b; cbn.
  - split; [now inversion 1 | intros [= <-]; constructor].
  - split.
    + inversion 1; subst. apply bind_ok. exists b0. split; [now apply Utf8_1_encode|].
      apply bind_ok. exists bs. split; [now apply IH | easy].
    + intros H. apply bind_ok in H as (b1 & H1 & H). apply bind_ok in H as (b2 & H2 & H).
      injection H as <-. constructor; [now apply Utf8_1_encode | now apply IH].
Qed.

Lemma utf8_decode_iff b s : utf8_decode b = Ok s <-> Utf8 s b.
Proof.
  rewrite Utf8_encode. split; [apply utf8_encode_decode | apply utf8_decode_encode].
Qed.

Lemma cp1252_char_spec b c : cp1252_char b = Some c <-> Cp1252 b c.
Proof.
  unfold cp1252_char, Cp1252, in_rng.
  destruct ((128 <=? b) && (b <=? 159)) eqn:R.
  - assert (Hb : exists i, (i < 32)%nat /\ b = 128 + N.of_nat i).
    { exists (N.to_nat (b - 128)). lia. }
    destruct Hb as (i & Hi & ->).
    replace (N.to_nat (128 + N.of_nat i - 128)) with i by lia.
    do 32 (destruct i as [|i]; [cbn; split;
      [intros H; left; try discriminate H; injection H as <-; vm_compute; tauto
      |intros [H|H]; [|lia]; vm_compute in H; repeat (destruct H as [H|H]; [inversion H; reflexivity|]); destruct H]|]).
    lia.
  - split.
    + intros [= <-]. right. lia.
    + intros [H|[_ ->]]; [|easy].
      exfalso. cbn in H. repeat (destruct H as [H|H]; [injection H as <- <-; lia|]). destruct H.
Qed.

Lemma cp1252_char_none b : cp1252_char b = None <-> cp1252_undefined b.
Proof.
  unfold cp1252_char, cp1252_undefined, in_rng.
  destruct ((128 <=? b) && (b <=? 159)) eqn:R.
  - assert (Hb : exists i, (i < 32)%nat /\ b = 128 + N.of_nat i).
    { exists (N.to_nat (b - 128)). lia. }
    destruct Hb as (i & Hi & ->).
    replace (N.to_nat (128 + N.of_nat i - 128)) with i by lia.
    do 32 (destruct i as [|i]; [cbn; split; [intros H; try discriminate H; lia | intros H; try reflexivity; exfalso; lia]|]).
    lia.
  - split; [easy|lia].
Qed.

Lemma cp1252_decode_ok b s : cp1252_decode b = Ok s <-> Forall2 Cp1252 b s.
Proof.
  revert s; induction b as [|x b IH]; intros s; cbn.
  - split; [intros [= <-]; constructor | inversion 1; easy].
  - destruct (cp1252_char x) as [c|] eqn:E.
    + split.
      * intros H. apply bind_ok in H as (s' & H1 & [= <-]). constructor; [now apply cp1252_char_spec | now apply IH].
      * intros H. inversion H as [|? c' ? s' Hc Hs]; subst. apply bind_ok. exists s'. split; [now apply IH|].
        apply cp1252_char_spec in Hc. rewrite E in Hc. injection Hc as ->. easy.
    + split; [easy|]. intros H. inversion H as [|? c' ? s' Hc Hs]; subst.
      apply cp1252_char_spec in Hc. congruence.
Qed.

Lemma cp1252_decode_exn b e : cp1252_decode b = Exn e <->
  e = UnicodeDecodeError /\ Exists cp1252_undefined b.
Proof.
  induction b as [|x b IH]; cbn.
  - split; [easy | intros [_ H]; inversion H].
  - destruct (cp1252_char x) as [c|] eqn:E.
    + assert (N1 : ~ cp1252_undefined x) by (rewrite <- cp1252_char_none; congruence).
      destruct (cp1252_decode b) as [s|e'|]; cbn.
      * split; [easy|]. intros [He H]. inversion H; subst; [easy|]. destruct IH as [_ IH]. discriminate IH; auto.
      * split.
        -- intros [= <-]. destruct IH as [IH _]. destruct IH as [I1 I2]; [easy|]. split; [easy|]. now apply Exists_cons_tl.
        -- intros [He H]. inversion H; subst; [easy|]. now apply IH.
      * split; [easy|]. intros [He H]. inversion H; subst; [easy|]. destruct IH as [_ IH]. discriminate IH; auto.
    + assert (N1 : cp1252_undefined x) by now apply cp1252_char_none.
      split; [intros [= <-]; split; [easy | now constructor] | intros [-> _]; easy].
Qed.

Lemma cp1252_decode_no_hang b : cp1252_decode b <> Hang.
Proof.
  induction b as [|x b IH]; cbn; [easy|]. destruct (cp1252_char x); [|easy].
  destruct (cp1252_decode b); cbn; congruence.
Qed.

Lemma decode_line_utf8 w b s : Utf8 s b -> decode_line w b = ([], Ok s).
Proof. intros H. apply utf8_decode_iff in H. unfold decode_line. now rewrite H. Qed.

Lemma decode_line_other w b : (forall s, ~ Utf8 s b) ->
  fst (decode_line w b) = [msg0 E_FILE_UTF8_BAD w]
  /\ (forall s, snd (decode_line w b) = Ok s <-> Forall2 Cp1252 b s)
  /\ (forall e, snd (decode_line w b) = Exn e <-> e = UnicodeDecodeError /\ Exists cp1252_undefined b)
  /\ snd (decode_line w b) <> Hang.
Proof.
  intros H. unfold decode_line.
  destruct (utf8_decode b) as [s|e|] eqn:E.
  { exfalso. apply (H s). now apply utf8_decode_iff. }
  all: cbn; split; [easy|]; split; [apply cp1252_decode_ok|]; split; [apply cp1252_decode_exn | apply cp1252_decode_no_hang].
Qed.

Lemma decode_line_fst_nil w b s : decode_line w b = ([], Ok s) -> Utf8 s b.
Proof.
  unfold decode_line. destruct (utf8_decode b) eqn:E; intros [= ]; try easy.
  subst. now apply utf8_decode_iff.
Qed.

Lemma utf8_dec b : (exists s, Utf8 s b) \/ (forall s, ~ Utf8 s b).
Proof.
  destruct (utf8_decode b) as [s|e|] eqn:E.
  - left. exists s. now apply utf8_decode_iff.
  - right. intros s H. apply utf8_decode_iff in H. congruence.
  - right. intros s H. apply utf8_decode_iff in H. congruence.
Qed.

(* ---- line ends ---- *)

#[local] Arguments has_lf : simpl never.
#[local] Arguments has_crlf : simpl never.
#[local] Arguments drop_last : simpl never.
#[local] Arguments msg0 : simpl never.

Lemma has_lf_snoc s c : has_lf (s ++ [c]) = (c =? 10).
Proof.
  unfold has_lf, endswith. rewrite rev_app_distr. cbn. rewrite N.eqb_sym. now rewrite andb_true_r.
Qed.
Lemma has_crlf_snoc2 s a b : has_crlf (s ++ [a; b]) = (b =? 10) && (a =? 13).
Proof.
  unfold has_crlf, endswith. rewrite rev_app_distr. cbn. rewrite (N.eqb_sym 10), (N.eqb_sym 13).
  now rewrite andb_true_r.
Qed.

Lemma eol_cases s :
  match eol_of s with
  | CRLF => has_crlf s = true /\ has_lf s = true /\ exists b, s = b ++ [13; 10]
  | LF => has_crlf s = false /\ has_lf s = true /\ exists b, s = b ++ [10] /\ forall b', b <> b' ++ [13]
  | NOEOL => has_crlf s = false /\ has_lf s = false /\ forall b, s <> b ++ [10]
  end.
Proof.
  unfold eol_of. destruct (rev s) as [|x r] eqn:E.
  - assert (s = []) as -> by (rewrite <- (rev_involutive s), E; easy).
    cbn. repeat split; try easy. intros b. now destruct b.
  - assert (Es : s = rev r ++ [x]) by (rewrite <- (rev_involutive s), E; easy).
    assert (D : x = 10 \/ x <> 10) by (destruct (N.eq_dec x 10); tauto).
    destruct D as [->|D].
    + destruct r as [|y r].
      * cbn in Es. subst s. cbn. repeat split; try easy. exists []. split; [easy|]. intros b'. now destruct b'.
      * cbn in Es. rewrite <- app_assoc in Es. cbn in Es.
        assert (D : y = 13 \/ y <> 13) by (destruct (N.eq_dec y 13); tauto).
        destruct D as [->|D].
        -- subst s. rewrite has_crlf_snoc2. change (rev r ++ [13; 10]) with (rev r ++ [13] ++ [10]).
           rewrite app_assoc, has_lf_snoc. repeat split. rewrite <- app_assoc. now exists (rev r).
        -- assert (G : has_crlf s = false /\ has_lf s = true /\
              exists b, s = b ++ [10] /\ forall b', b <> b' ++ [13]).
           { subst s. rewrite has_crlf_snoc2. change (rev r ++ [y; 10]) with (rev r ++ [y] ++ [10]).
             rewrite app_assoc, has_lf_snoc. repeat split.
             - destruct (N.eqb_spec y 13); [easy|]. now rewrite andb_false_r.
             - exists (rev r ++ [y]). split; [easy|]. intros b' H. apply app_inj_tail in H. now destruct H. }
           clear - G D. destruct y as [|[[[[]|[]|]|[[]|[]|]|]|[[[]|[]|]|[[]|[]|]|]|]]; easy.
    + assert (G : has_crlf s = false /\ has_lf s = false /\ forall b, s <> b ++ [10]).
      { subst s. rewrite has_lf_snoc. repeat split.
        - unfold has_crlf, endswith. rewrite rev_app_distr. cbn. destruct (N.eqb_spec 10 x); [now subst|easy].
        - now destruct (N.eqb_spec x 10).
        - intros b H. apply app_inj_tail in H. now destruct H. }
      clear - G D. destruct x as [|[[[[]|[]|]|[[]|[]|]|]|[[[]|[]|]|[[]|[]|]|]|]]; easy.
Qed.

Definition complete (e : ffent) : Prop := fe_dos e <> None /\ fe_lf e <> None.
Definition pm (l : list ffent) : list msg := flat_map (fun e => fst (ff_pop1 e)) l.

Lemma pop1_complete e : complete e -> ff_pop1 e = (fst (ff_pop1 e), Ok tt).
Proof.
  unfold complete, ff_pop1. destruct (fe_dos e) as [d|], (fe_lf e) as [f|]; intros [H1 H2]; try easy.
  destruct d, f; easy.
Qed.

Lemma ff_pop_pend pend e rest name : Forall complete pend ->
  Forall (fun x => fe_name x <> name) pend -> fe_name e = name ->
  ff_pop (pend ++ e :: rest) (Some name) = (pm pend, Ok (e :: rest)).
Proof.
  induction pend as [|p pend IH]; intros C D E; cbn.
  - rewrite E, str_eqb_refl. easy.
  - inversion C; inversion D; subst. destruct (str_eqb_spec (fe_name p) (fe_name e)); [easy|].
    rewrite pop1_complete by easy. cbn. rewrite IH by easy. easy.
Qed.

Lemma ff_pop_all pend : Forall complete pend -> ff_pop pend None = (pm pend, Ok []).
Proof.
  induction pend as [|p pend IH]; intros C; cbn; [easy|].
  inversion C; subst. rewrite pop1_complete by easy. cbn. now rewrite IH.
Qed.

Definition strip_eol (s : str) : str :=
  if has_crlf s then drop_last 2 s else if has_lf s then drop_last 1 s else s.

Lemma drop_last_app n a b : length b = n -> drop_last n (a ++ b) = a.
Proof.
  intros <-.
  unfold drop_last. rewrite app_length. replace (length a + length b - length b)%nat with (length a) by lia.
  rewrite firstn_app, Nat.sub_diag. cbn. rewrite firstn_all. apply app_nil_r.
Qed.

Lemma strip_eol_ends s : exists e, Ends s (strip_eol s) e.
Proof.
  pose proof (eol_cases s) as H. unfold strip_eol. destruct (eol_of s).
  - destruct H as (-> & _ & b & ->). exists [13; 10]. rewrite (drop_last_app 2 b [13; 10]) by easy. constructor.
  - destruct H as (-> & -> & b & -> & Hb). exists [10]. rewrite (drop_last_app 1 b [10]) by easy. now constructor.
  - destruct H as (-> & -> & Hb). exists []. now constructor.
Qed.

Lemma line_msgs_model (dos : bool) w s :
  (if dos then if has_lf s && negb (has_crlf s) then [msg0 W_FILE_DOS_BARELF w] else []
   else if has_crlf s then [msg0 W_FILE_UNIX_CRLF w] else []) = line_msgs dos w s.
Proof.
  pose proof (eol_cases s) as H. unfold line_msgs.
  destruct (eol_of s), dos; destruct H as (-> & H & _); rewrite ?H; easy.
Qed.

Lemma existsb_name pend e rest name : fe_name e = name ->
  existsb (fun x => str_eqb (fe_name x) name) (pend ++ e :: rest) = true.
Proof. intros <-. rewrite existsb_app. cbn. rewrite str_eqb_refl. now rewrite orb_true_r. Qed.

Definition sync (st : ffst) : Prop :=
  match ff_info st with [] => True | e :: _ => ff_dos st = fe_dos e end.

Lemma ff_line_known pend e rest d0 w s dos :
  Forall complete pend -> Forall (fun x => fe_name x <> w_file w) pend ->
  fe_name e = w_file w -> fe_dos e = Some dos -> sync (FFst (pend ++ e :: rest) d0) ->
  ff_line (FFst (pend ++ e :: rest) d0) w s
  = (pm pend ++ line_msgs dos w s,
     Ok (FFst (FFent (w_file w) (Some dos) (Some (has_lf s)) w :: rest) (Some dos), strip_eol s)).
Proof.
  intros C D En Ed Sy. unfold ff_line.
  assert (G : ff_enter (FFst (pend ++ e :: rest) d0) w = (pm pend, Ok (FFst (e :: rest) (Some dos)))).
  { unfold ff_enter. cbn [ff_info]. destruct pend as [|p pend].
    - cbn. rewrite En, str_eqb_refl. cbn in Sy. rewrite Sy, Ed. easy.
    - cbn [app]. inversion D; subst. destruct (str_eqb_spec (fe_name p) (w_file w)); [easy|].
      change (p :: pend ++ e :: rest) with ((p :: pend) ++ e :: rest).
      rewrite existsb_name by easy. rewrite ff_pop_pend by easy. cbn. rewrite Ed. now rewrite app_nil_r. }
  rewrite G. cbn. rewrite Ed, En, line_msgs_model. fold (strip_eol s). easy.
Qed.

Lemma ff_line_new base d0 w s :
  ~ In (w_file w) (map fe_name base) ->
  ff_line (FFst base d0) w s
  = (line_msgs (match eol_of s with LF => false | _ => true end) w s,
     Ok (FFst (FFent (w_file w) (Some (match eol_of s with LF => false | _ => true end))
                 (Some (has_lf s)) w :: base)
          (Some (match eol_of s with LF => false | _ => true end)), strip_eol s)).
Proof.
  intros D. unfold ff_line.
  assert (G : ff_enter (FFst base d0) w = ([], Ok (FFst (FFent (w_file w) None None w :: base) None))).
  { unfold ff_enter. cbn [ff_info]. destruct base as [|p base]; [easy|].
    destruct (str_eqb_spec (fe_name p) (w_file w)) as [E|E]; [exfalso; apply D; now left|].
    replace (existsb (fun x => str_eqb (fe_name x) (w_file w)) (p :: base)) with false; [easy|].
    symmetry. apply not_true_is_false. intros H. apply existsb_exists in H as (x & Hx & Ex).
    apply str_eqb_eq in Ex. apply D. rewrite <- Ex. now apply in_map. }
  rewrite G. cbn. assert (Ed : (has_crlf s || negb (has_lf s)) = match eol_of s with LF => false | _ => true end).
  { pose proof (eol_cases s) as H. destruct (eol_of s); destruct H as (-> & H & _); rewrite ?H; easy. }
  rewrite !Ed, line_msgs_model. fold (strip_eol s). easy.
Qed.

Scheme ftree_mut := Induction for ftree Sort Prop
  with fitems_mut := Induction for fitems Sort Prop.
Combined Scheme ftree_fitems_ind from ftree_mut, fitems_mut.

Definition is_ent (e : ffent) (name : str) (dos : bool) (l : option (loc * str)) : Prop :=
  match l with
  | Some (w, s) => e = FFent name (Some dos) (Some (has_lf s)) w
  | None => False
  end.

Lemma is_ent_end e name dos l : is_ent e name dos l -> fst (ff_pop1 e) = end_msgs dos l /\ complete e /\ fe_name e = name /\ fe_dos e = Some dos.
Proof.
  unfold is_ent. destruct l as [[w s]|]; [|easy]. intros ->. split.
  - unfold ff_pop1, end_msgs. cbn. pose proof (eol_cases s) as H.
    destruct (eol_of s), dos; destruct H as (_ & H & _); rewrite ?H; easy.
  - repeat split; easy.
Qed.

Definition disj (names : list str) (pend : list ffent) : Prop :=
  Forall (fun x => ~ In (fe_name x) names) pend.

Lemma ff_run_app st a b : ff_run st (a ++ b) =
  (do! (st', d1) <- ff_run st a; do! (st'', d2) <- ff_run st' b; wret (st'', d1 ++ d2)).
Proof.
  revert st; induction a as [|[w s] a IH]; intros st.
  - cbn. destruct (ff_run st b) as [ms [[st' d]|e|]]; cbn; now rewrite ?app_nil_r.
  - cbn [app ff_run].
    destruct (ff_line st w s) as [ms [[st1 d]|e|]]; cbn; [|easy|easy].
    rewrite IH. destruct (ff_run st1 a) as [ms2 [[st2 ds]|e|]]; cbn; [|easy|easy].
    destruct (ff_run st2 b) as [ms3 [[st3 ds3]|e|]]; cbn; now rewrite ?app_nil_r, ?app_assoc.
Qed.

Lemma wbind_ok {A B} ms (a : A) (f : A -> W B) ms' r :
  f a = (ms', r) -> wbind (ms, Ok a) f = (ms ++ ms', r).
Proof. intros H. cbn. now rewrite H. Qed.

Lemma tree_items_run :
  (forall t above base d0, wf_tree above t -> map fe_name base = above -> sync (FFst base d0) ->
     exists ms pend d1,
       ff_run (FFst base d0) (flat_tree t)
         = (ms, Ok (FFst (pend ++ base) d1, map (fun x => strip_eol (snd x)) (flat_tree t)))
       /\ Forall complete pend /\ disj above pend /\ ms ++ pm pend = ff_spec t
       /\ sync (FFst (pend ++ base) d1))
  /\
  (forall i name above base d0 pend dos e l, wf_items (name :: above) name i ->
     map fe_name base = above -> sync (FFst (pend ++ e :: base) d0) ->
     Forall complete pend -> disj (name :: above) pend -> is_ent e name dos l ->
     exists ms pend' e' d1,
       ff_run (FFst (pend ++ e :: base) d0) (flat_items i)
         = (ms, Ok (FFst (pend' ++ e' :: base) d1, map (fun x => strip_eol (snd x)) (flat_items i)))
       /\ Forall complete pend' /\ disj (name :: above) pend'
       /\ ms ++ pm pend' = pm pend ++ ff_spec_items dos i
       /\ is_ent e' name dos (last_line i l)
       /\ sync (FFst (pend' ++ e' :: base) d1)).
Proof.
  assert (PM1 : forall a b, pm (a ++ b) = pm a ++ pm b) by (intros; apply flat_map_app).
  assert (DN : forall name above pend, disj (name :: above) pend -> Forall (fun x => fe_name x <> name) pend).
  { intros name above pend H. eapply Forall_impl; [|exact H]. intros x Hx E. apply Hx. now left. }
  apply ftree_fitems_ind.
  - (* FT *)
    intros name items IH above base d0 [Hn Hw] Hb Sy.
    destruct items as [|w s r|w s t r].
    + cbn. exists [], [], d0. repeat split; try easy; constructor.
    + cbn [wf_items] in Hw. destruct Hw as [Ew Hw].
      (* use IH on (FLine w s r) with a fake entry: instead replay from r *)
      pose (dos := match eol_of s with LF => false | _ => true end).
      assert (L1 : ff_line (FFst base d0) w s = (line_msgs dos w s, Ok (FFst (FFent name (Some dos) (Some (has_lf s)) w :: base) (Some dos), strip_eol s))).
      { rewrite ff_line_new; [now rewrite Ew | rewrite Ew, Hb; exact Hn]. }
      destruct (IH name above base (Some dos) [] dos (FFent name (Some dos) (Some (has_lf s)) w) (Some (w, s)))
        as (ms & pend' & e' & d1 & R & C & D & M & E & S1); try easy; try constructor.
      cbn [flat_items ff_run] in R. cbn [app] in R.
      pose proof (ff_line_known [] (FFent name (Some dos) (Some (has_lf s)) w) base (Some dos) w s dos) as K.
      cbn [app] in K. rewrite K in R; try easy; try constructor. clear K.
      cbn [pm flat_map app] in R. cbn [wbind] in R. rewrite Ew in R.
      destruct (ff_run (FFst (FFent name (Some dos) (Some (has_lf s)) w :: base) (Some dos)) (flat_items r)) as [ms2 [[st2 ds]|x|]] eqn:R2;
        cbn in R; try discriminate R.
      injection R as R3 R4 R5.
      exists ms, (pend' ++ [e']), d1.
      cbn [flat_tree flat_items ff_run]. rewrite L1. cbn. rewrite R2. cbn. rewrite R3, R4, R5, <- app_assoc.
      destruct (is_ent_end _ _ _ _ E) as (E1 & E2 & E3 & E4).
      repeat split.
      * apply Forall_app. split; [easy|]. now constructor.
      * apply Forall_app. split.
        -- eapply Forall_impl; [|exact D]. intros x Hx H. apply Hx. now right.
        -- constructor; [|constructor]. now rewrite E3.
      * rewrite PM1, app_assoc, M. cbn [pm flat_map]. rewrite app_nil_r, E1. easy.
      * exact S1.
    + cbn [wf_items] in Hw. destruct Hw as (Ew & Ht & Hw).
      pose (dos := match eol_of s with LF => false | _ => true end).
      assert (L1 : ff_line (FFst base d0) w s = (line_msgs dos w s, Ok (FFst (FFent name (Some dos) (Some (has_lf s)) w :: base) (Some dos), strip_eol s))).
      { rewrite ff_line_new; [now rewrite Ew | rewrite Ew, Hb; exact Hn]. }
      destruct (IH name above base (Some dos) [] dos (FFent name (Some dos) (Some (has_lf s)) w) (Some (w, s)))
        as (ms & pend' & e' & d1 & R & C & D & M & E & S1); try easy; try constructor.
      cbn [flat_items ff_run] in R. cbn [app] in R.
      pose proof (ff_line_known [] (FFent name (Some dos) (Some (has_lf s)) w) base (Some dos) w s dos) as K.
      cbn [app] in K. rewrite K in R; try easy; try constructor. clear K.
      cbn [pm flat_map app] in R. cbn [wbind] in R. rewrite Ew in R.
      destruct (ff_run (FFst (FFent name (Some dos) (Some (has_lf s)) w :: base) (Some dos)) (flat_tree t ++ flat_items r)) as [ms2 [[st2 ds]|x|]] eqn:R2;
        cbn in R; try discriminate R.
      injection R as R3 R4 R5.
      exists ms, (pend' ++ [e']), d1.
      cbn [flat_tree flat_items ff_run]. rewrite L1. cbn. rewrite R2. cbn. rewrite R3, R4, R5, <- app_assoc.
      destruct (is_ent_end _ _ _ _ E) as (E1 & E2 & E3 & E4).
      repeat split.
      * apply Forall_app. split; [easy|]. now constructor.
      * apply Forall_app. split.
        -- eapply Forall_impl; [|exact D]. intros x Hx H. apply Hx. now right.
        -- constructor; [|constructor]. now rewrite E3.
      * rewrite PM1, app_assoc, M. cbn [pm flat_map]. rewrite app_nil_r, E1. easy.
      * exact S1.
  - (* FNil *)
    intros name above base d0 pend dos e l Hw Hb Sy C D E.
    exists [], pend, e, d0. cbn. now rewrite app_nil_r.
  - (* FLine *)
    intros w s r IH name above base d0 pend dos e l [Ew Hw] Hb Sy C D E.
    destruct (is_ent_end _ _ _ _ E) as (E1 & E2 & E3 & E4).
    destruct (IH name above base (Some dos) [] dos (FFent name (Some dos) (Some (has_lf s)) w) (Some (w, s)))
      as (ms & pend' & e' & d1 & R & C' & D' & M & E' & S1); try easy; try constructor.
    exists ((pm pend ++ line_msgs dos w s) ++ ms), pend', e', d1.
    cbn [flat_items ff_run]. rewrite (ff_line_known pend e base d0 w s dos); try easy.
    2: { rewrite Ew. now apply (DN name above). }
    2: { now rewrite Ew. }
    cbn [app] in R. rewrite Ew. erewrite wbind_ok; [|rewrite R; reflexivity].
    cbn. rewrite app_nil_r. repeat split; try easy.
    cbn in M. rewrite <- !app_assoc, M. easy.
  - (* FIncl *)
    intros w s t IHt r IH name above base d0 pend dos e l (Ew & Ht & Hw) Hb Sy C D E.
    destruct (is_ent_end _ _ _ _ E) as (E1 & E2 & E3 & E4).
    pose (e1 := FFent name (Some dos) (Some (has_lf s)) w).
    destruct (IHt (name :: above) (e1 :: base) (Some dos)) as (mt & pt & dt & Rt & Ct & Dt & Mt & St); try easy.
    { cbn. now rewrite Hb. }
    destruct (IH name above base dt pt dos e1 (Some (w, s)))
      as (ms & pend' & e' & d1 & R & C' & D' & M & E' & S1); try easy.
    exists ((pm pend ++ line_msgs dos w s) ++ mt ++ ms), pend', e', d1.
    cbn [flat_items ff_run]. rewrite (ff_line_known pend e base d0 w s dos); try easy.
    2: { rewrite Ew. now apply (DN name above). }
    2: { now rewrite Ew. }
    rewrite Ew. fold e1. cbn [wbind]. rewrite ff_run_app, Rt. cbn. rewrite R. cbn. rewrite !app_nil_r.
    rewrite map_app. repeat split; try easy.
    rewrite <- !app_assoc, M. cbn. rewrite <- Mt, <- !app_assoc. easy.
Qed.

Lemma ff_file_tree t : wf_tree [] t ->
  ff_file (flat_tree t) = (ff_spec t, Ok (map (fun x => strip_eol (snd x)) (flat_tree t))).
Proof.
  intros H. destruct tree_items_run as [T _].
  destruct (T t [] [] None H eq_refl I) as (ms & pend & d1 & R & C & D & M & S1).
  unfold ff_file, ff_init. rewrite R. cbn [wbind]. rewrite app_nil_r.
  unfold ff_finish. cbn [ff_info]. rewrite ff_pop_all by easy. cbn. now rewrite !app_nil_r, M.
Qed.

(* never an exception, whatever the order of the files *)
Definition ff_good (st : ffst) : Prop := Forall complete (ff_info st) /\ sync st.

Lemma ff_pop_good l stop : Forall complete l ->
  exists ms l', ff_pop l stop = (ms, Ok l') /\ Forall complete l'
    /\ match stop with None => l' = []
       | Some f => (existsb (fun x => str_eqb (fe_name x) f) l = true -> l' <> []) end.
Proof.
  induction l as [|e l IH]; intros C.
  - exists [], []. cbn. destruct stop; easy.
  - inversion C; subst. cbn. destruct stop as [f|].
    + destruct (str_eqb_spec (fe_name e) f).
      * exists [], (e :: l). easy.
      * rewrite pop1_complete by easy. cbn. destruct IH as (ms & l' & -> & C' & X); [easy|].
        exists (fst (ff_pop1 e) ++ ms), l'. easy.
    + rewrite pop1_complete by easy. cbn. destruct IH as (ms & l' & -> & C' & X); [easy|].
      exists (fst (ff_pop1 e) ++ ms), l'. easy.
Qed.

Lemma ff_line_total st w s : ff_good st ->
  exists ms st', ff_line st w s = (ms, Ok (st', strip_eol s)) /\ ff_good st'.
Proof.
  intros [C Sy]. unfold ff_line.
  assert (G : exists ms e r d, ff_enter st w = (ms, Ok (FFst (e :: r) d)) /\ Forall complete r /\
     (d = fe_dos e) /\ (d = None \/ complete e)).
  { unfold ff_enter. destruct st as [[|e l] d0]; cbn [ff_info] in *.
    - exists [], (FFent (w_file w) None None w), [], None. repeat split; auto.
    - inversion C as [|? ? Ce Cl]; subst. destruct (str_eqb (fe_name e) (w_file w)).
      + exists [], e, l, d0. cbn in Sy. auto.
      + destruct (existsb _ (e :: l)) eqn:X.
        * destruct (ff_pop_good (e :: l) (Some (w_file w)) C) as (ms & l' & R & C' & N1).
          rewrite R. specialize (N1 X). destruct l' as [|e' l']; [easy|]. cbn. rewrite app_nil_r.
          inversion C'; subst. exists ms, e', l', (fe_dos e'). auto.
        * exists [], (FFent (w_file w) None None w), (e :: l), None. auto. }
  destruct G as (ms & e & r & d & -> & Cr & Ed & Hd). cbn. fold (strip_eol s).
  eexists _, _. split; [reflexivity|]. split; cbn.
  - constructor; [|easy]. split; cbn; [|easy]. destruct d; [|easy]. destruct Hd as [Hd|Hd]; [easy|]. apply Hd.
  - destruct d as [b|]; [now rewrite <- Ed | easy].
Qed.

Lemma ff_run_total l st : ff_good st ->
  exists ms st', ff_run st l = (ms, Ok (st', map (fun x => strip_eol (snd x)) l)) /\ ff_good st'.
Proof.
  revert st; induction l as [|[w s] l IH]; intros st G; cbn.
  - now exists [], st.
  - destruct (ff_line_total st w s G) as (ms & st' & -> & G'). cbn.
    destruct (IH st' G') as (ms2 & st2 & -> & G2). cbn. eexists _, _. split; [reflexivity|easy].
Qed.

Lemma ff_finish_total st : ff_good st -> exists ms, ff_finish st = (ms, Ok tt).
Proof.
  intros [C _]. unfold ff_finish. rewrite ff_pop_all by easy. cbn. now exists (pm (ff_info st) ++ []).
Qed.

Lemma ff_file_total l : exists ms, ff_file l = (ms, Ok (map (fun x => strip_eol (snd x)) l)).
Proof.
  unfold ff_file. destruct (ff_run_total l ff_init) as (ms & st & -> & G).
  { split; [constructor | easy]. }
  cbn. destruct (ff_finish_total st G) as [ms2 ->]. cbn. eexists. reflexivity.
Qed.

Lemma strip_eols_ends (l : list (loc * str)) :
  Forall2 (fun x d => exists e, Ends (snd x) d e) l (map (fun x => strip_eol (snd x)) l).
Proof. induction l as [|x l IH]; cbn; constructor; [apply strip_eol_ends | easy]. Qed.

Lemma Ends_strip s d e : Ends s d e -> d = strip_eol s.
Proof.
  intros H. unfold strip_eol. destruct H as [b|b N1|b N1].
  - rewrite has_crlf_snoc2. cbn [N.eqb andb]. change ((10 =? 10) && (13 =? 13)) with true. cbn iota.
    now rewrite (drop_last_app 2 b [13; 10]).
  - assert (has_crlf (b ++ [10]) = false) as ->.
    { destruct b as [|x b] using rev_ind; [easy|]. rewrite <- app_assoc. cbn [app].
      rewrite has_crlf_snoc2. destruct (N.eqb_spec x 13) as [->|]; [now elim (N1 b) | now rewrite andb_false_r]. }
    rewrite has_lf_snoc. change (10 =? 10) with true. cbn iota. now rewrite (drop_last_app 1 b [10]).
  - pose proof (eol_cases b) as H. destruct (eol_of b).
    + destruct H as (_ & _ & b' & ->). exfalso. apply (N1 (b' ++ [13])). now rewrite <- app_assoc.
    + destruct H as (_ & _ & b' & -> & _). exfalso. now apply (N1 b').
    + now destruct H as (-> & -> & _).
Qed.

Lemma Ends_app s d e : Ends s d e -> s = d ++ e.
Proof. destruct 1; now rewrite ?app_nil_r. Qed.

Lemma Ends_unique s d1 e1 d2 e2 : Ends s d1 e1 -> Ends s d2 e2 -> d1 = d2 /\ e1 = e2.
Proof.
  intros H1 H2. pose proof (Ends_strip _ _ _ H1) as S1. pose proof (Ends_strip _ _ _ H2) as S2.
  apply Ends_app in H1. apply Ends_app in H2.
  assert (E : d1 = d2) by (rewrite S1, S2; easy). clear S1 S2. subst d2. split; [easy|].
  rewrite H1 in H2. now apply app_inv_head in H2.
Qed.

(* ---- comments ---- *)

Lemma isblank_iff c : isblank c = true <-> c = 32 \/ c = 9.
Proof. unfold isblank. rewrite orb_true_iff, !N.eqb_eq. easy. Qed.
Lemma isblank_false c : isblank c = false <-> ~ (c = 32 \/ c = 9).
Proof. rewrite <- isblank_iff. now destruct (isblank c). Qed.
Lemma forallb_blank s : forallb isblank s = true <-> blank_str s.
Proof. unfold blank_str. rewrite forallb_forall, Forall_forall. split; intros H x Hx; apply isblank_iff; auto. Qed.
Lemma ends_blank_last s : ends_blank s <-> exists c, last_opt s = Some c /\ isblank c = true.
Proof.
  unfold ends_blank. split.
  - intros (a & c & -> & Hc). exists c. rewrite last_opt_app. now rewrite isblank_iff.
  - intros (c & Hl & Hc). apply last_opt_some in Hl as [a ->]. exists a, c. now rewrite <- isblank_iff.
Qed.
Lemma rstrip_no_blank s : ~ ends_blank (rstrip_p isblank s).
Proof.
  rewrite ends_blank_last. intros (c & Hl & Hc). pose proof (rstrip_p_last isblank s) as H. rewrite Hl in H. congruence.
Qed.

Lemma skipn_app_len {A} (a b : list A) : skipn (length a) (a ++ b) = b.
Proof. induction a; cbn; auto. Qed.
Lemma firstn_app_len {A} (a b : list A) : firstn (length a) (a ++ b) = a.
Proof. induction a; cbn; congruence. Qed.

Lemma Unesc_plain r : ~ In 59 r -> Unesc r r.
Proof.
  induction r as [|c r IH]; intros H; [constructor|]. cbn in H. constructor; [tauto| |tauto].
  intros _ r' ->. cbn in H. tauto.
Qed.

Lemma Unesc_app_esc b r d : ~ In 59 b -> Unesc r d ->
  Unesc (b ++ 92 :: 59 :: r) (b ++ 59 :: d).
Proof.
  induction b as [|c b IH]; intros Hb H; cbn.
  - now constructor.
  - cbn in Hb. constructor; [tauto| |apply IH; tauto].
    intros _ r'. destruct b as [|c' b]; cbn; [congruence|]. intros [= -> _]. cbn in Hb. tauto.
Qed.

(* the loop: finds the comment *)
Lemma lookback_spec n data : (length data < n)%nat ->
  exists d k, lookback n data = Ok (d, k) /\
    ((k = [] /\ Unesc data d)
     \/ (exists raw text, k = 59 :: text /\ data = raw ++ k /\ Unesc raw d /\ forall r, raw <> r ++ [92])).
Proof.
  revert data; induction n as [|n IH]; intros data Hn; [lia|]. cbn [lookback].
  destruct (index_of 59 data) as [i|] eqn:Ei.
  - apply index_of_split in Ei as (b & t & E1 & E2 & Ei & Eb0 & Et & Et').
    rewrite Eb0, Et'.
    assert (Bare : (forall r, b <> r ++ [92]) -> exists d k, Ok (b, skipn i data) = Ok (d, k) /\
    ((k = [] /\ Unesc data d)
     \/ (exists raw text, k = 59 :: text /\ data = raw ++ k /\ Unesc raw d /\ forall r, raw <> r ++ [92]))).
    { intros Hb. exists b, (59 :: t). rewrite Et. split; [easy|]. right. exists b, t. repeat split; try easy. now apply Unesc_plain. }
    destruct (last_opt b) as [c|] eqn:El.
    + apply last_opt_some in El as [b0 Eb].
      destruct (N.eqb_spec c 92) as [->|Hc].
      * rewrite Eb in *. destruct (IH t) as (d & k & R & D).
        { rewrite E1 in Hn. rewrite app_length in Hn. cbn in Hn. lia. }
        rewrite R. cbn [bind]. rewrite (drop_last_app 1 b0 [92]) by easy.
        exists (b0 ++ 59 :: d), k. split; [easy|].
        assert (N0 : ~ In 59 b0) by (intros H; apply E2; apply in_or_app; now left).
        rewrite E1, <- app_assoc. cbn [app].
        destruct D as [[-> U]|(raw & text & -> & -> & U & Hr)].
        -- left. split; [easy|]. now apply Unesc_app_esc.
        -- right. exists (b0 ++ 92 :: 59 :: raw), text. split; [easy|]. split; [now rewrite <- app_assoc|].
           split; [now apply Unesc_app_esc|]. intros r Er.
           destruct raw as [|x raw] using rev_ind.
           ++ change (b0 ++ [92; 59]) with (b0 ++ [92] ++ [59]) in Er. rewrite app_assoc in Er.
              apply app_inj_tail in Er as [_ ?]. easy.
           ++ clear IHraw. change (b0 ++ 92 :: 59 :: raw ++ [x]) with (b0 ++ [92; 59] ++ raw ++ [x]) in Er.
              rewrite !app_assoc in Er. apply app_inj_tail in Er as [_ ->]. now apply (Hr raw).
      * apply Bare. intros r Er. rewrite Er in Eb. apply app_inj_tail in Eb as [_ ?]. congruence.
    + apply Bare. intros r Er. apply last_opt_none in El. rewrite El in Er. now destruct r.
  - apply index_of_none in Ei. exists data, []. split; [easy|]. left. split; [easy|]. now apply Unesc_plain.
Qed.

Lemma Unesc_last_blank raw d : Unesc raw d -> ends_blank raw <-> ends_blank d.
Proof.
  rewrite !ends_blank_last.
  induction 1 as [|r d U IH|c r d H1 H2 U IH].
  - easy.
  - assert (R0 : r = [] <-> d = []) by (destruct U; easy).
    destruct r as [|x r], d as [|y d]; try (exfalso; destruct R0; intuition discriminate); cbn.
    + split; intros (c & [= <-] & Hc); discriminate Hc.
    + exact IH.
  - assert (R0 : r = [] <-> d = []) by (destruct U; easy).
    destruct r as [|x r], d as [|y d]; try (exfalso; destruct R0; intuition discriminate); cbn.
    + easy.
    + exact IH.
Qed.

Definition bare_of (data0 : str) : bool :=
  match last_opt data0 with Some c => negb (isblank c) | None => false end.

Lemma bare_of_spec data0 : bare_of data0 = true <->
  data0 <> [] /\ skipn (length (rstrip_p isblank data0)) data0 = [].
Proof.
  unfold bare_of. destruct (rstrip_p_split isblank data0) as (t & E & F).
  rewrite E at 4. rewrite skipn_app_len.
  destruct data0 as [|c a] using rev_ind; [easy|]. clear IHa. rewrite last_opt_app.
  assert (NE : a ++ [c] <> []) by now destruct a.
  destruct (isblank c) eqn:B; cbn.
  - split; [easy|]. intros [_ ->]. rewrite app_nil_r in E. pose proof (rstrip_p_last isblank (a ++ [c])) as H.
    rewrite <- E, last_opt_app in H. congruence.
  - split; [|easy]. intros _. split; [easy|]. destruct t as [|x t] using rev_ind; [easy|].
    exfalso. rewrite app_assoc in E. apply app_inj_tail in E as [_ ->]. rewrite forallb_app in F.
    cbn in F. rewrite andb_true_r in F. apply andb_prop in F as [_ F]. congruence.
Qed.

(* the shared tail: blanks go to the comment *)
Lemma split_result data0 raw text :
  Unesc raw data0 -> (forall r, raw <> r ++ [92]) ->
  CommentSplit (raw ++ 59 :: text) (rstrip_p isblank data0)
    (skipn (length (rstrip_p isblank data0)) data0 ++ 59 :: text) (bare_of data0).
Proof.
  intros U Hr. destruct (rstrip_p_split isblank data0) as (t & E & F).
  assert (Et : skipn (length (rstrip_p isblank data0)) data0 = t).
  { rewrite E at 2. apply skipn_app_len. }
  rewrite Et. econstructor; try eassumption.
  - now apply forallb_blank.
  - apply rstrip_no_blank.
  - rewrite bare_of_spec, Et. easy.
Qed.

Lemma rstrip_id s : ~ ends_blank s -> rstrip_p isblank s = s.
Proof.
  intros H. apply (rstrip_p_unique isblank s s []); [now rewrite app_nil_r | easy |].
  destruct (last_opt s) as [c|] eqn:E; [|easy]. apply isblank_false. intros Hc. apply H.
  apply ends_blank_last. exists c. split; [easy|]. now apply isblank_iff.
Qed.

Lemma comment_split_spec s w : ~ ends_blank s ->
  exists d k bare, CommentSplit s d k bare
    /\ comment_split s w = ((if bare then [msg0 W_WSH_COMMENT w] else []), Ok (d, k)).
Proof.
  intros NB. unfold comment_split. destruct (memb 92 s) eqn:M.
  - destruct (lookback_spec (S (length s)) s) as (d0 & k & R & D); [lia|]. rewrite R.
    unfold move_middle_space. destruct D as [[-> U]|(raw & text & -> & -> & U & Hr)].
    + assert (NB0 : ~ ends_blank d0) by now rewrite <- (Unesc_last_blank s d0).
      exists d0, [], false. split; [now constructor|].
      rewrite rstrip_id by easy. rewrite skipn_all, app_nil_r. now destruct (last_opt d0).
    + eexists _, _, _. split; [apply split_result; eassumption|]. unfold bare_of.
      destruct (last_opt d0) as [c|]; [|easy]. now destruct (isblank c).
  - apply memb_not_In in M. unfold simple_split.
    destruct (index_of 59 s) as [i|] eqn:Ei.
    + apply index_of_split in Ei as (b & t0 & E1 & E2 & Ei & Eb0 & Et & Et').
      rewrite Eb0. destruct (rstrip_p_split isblank b) as (t & E & F).
      assert (Hr : forall r, b <> r ++ [92]).
      { intros r Er. apply M. rewrite E1. apply in_or_app. left. rewrite Er. apply in_or_app. right. now left. }
      exists (rstrip_p isblank b), (skipn (length (rstrip_p isblank b)) s), (bare_of b). split.
      * rewrite E1. 
        replace (skipn (length (rstrip_p isblank b)) (b ++ 59 :: t0))
          with (skipn (length (rstrip_p isblank b)) b ++ 59 :: t0).
        -- apply split_result; [now apply Unesc_plain | easy].
        -- rewrite skipn_app. f_equal. assert (Hl : (length (rstrip_p isblank b) - length b = 0)%nat) by (apply (f_equal (@length N)) in E; rewrite app_length in E; lia). now rewrite Hl.
      * unfold bare_of. destruct (last_opt b) as [c|]; [|easy]. now destruct (isblank c).
    + apply index_of_none in Ei. exists s, [], false. split; [|easy]. constructor. now apply Unesc_plain.
Qed.

Lemma comment_line_spec s w : exists s' blanks d k bare,
  s = s' ++ blanks /\ blank_str blanks /\ ~ ends_blank s' /\ CommentSplit s' d k bare
  /\ comment_line s w
     = ((match blanks with [] => [] | _ => [msg0 W_WSH_EOL w] end)
        ++ (if bare then [msg0 W_WSH_COMMENT w] else []), Ok (d, k)).
Proof.
  destruct (rstrip_p_split isblank s) as (t & E & F).
  destruct (comment_split_spec (rstrip_p isblank s) w (rstrip_no_blank s)) as (d & k & bare & CS & R).
  exists (rstrip_p isblank s), t, d, k, bare. split; [easy|]. split; [now apply forallb_blank|].
  split; [apply rstrip_no_blank|]. split; [easy|].
  unfold comment_line. destruct (last_opt s) as [c|] eqn:El.
  - apply last_opt_some in El as [a Ea]. destruct (isblank c) eqn:B.
    + destruct t as [|x t].
      * exfalso. apply (rstrip_no_blank s). rewrite app_nil_r in E. rewrite <- E.
        apply ends_blank_last. exists c. rewrite Ea, last_opt_app. easy.
      * cbn [wbind]. rewrite R. easy.
    + destruct t as [|x t].
      * rewrite app_nil_r in E. rewrite <- E in R. now rewrite R.
      * exfalso. destruct (@exists_last _ (x :: t) ltac:(easy)) as (t' & y & Et). rewrite Et in *.
        rewrite E, app_assoc in Ea. apply app_inj_tail in Ea as [_ ->].
        rewrite forallb_app in F. cbn in F. rewrite andb_true_r in F. apply andb_prop in F as [_ F]. congruence.
  - apply last_opt_none in El. subst s. destruct t; [|easy]. change (rstrip_p isblank []) with (@nil N) in R. now rewrite R.
Qed.

(* the specification determines its result *)
Lemma Unesc_no_bare r d text d' rest :
  Unesc r d -> (forall x, r <> x ++ [92]) -> Unesc (r ++ 59 :: text ++ rest) d' -> False.
Proof.
  intros U. revert d'. induction U as [|r d U IH|c r d H1 H2 U IH]; cbn; intros d' N1 H.
  - inversion H; easy.
  - inversion H as [|? ? H'|? ? ? ? Hx]; subst.
    + eapply IH; [|exact H']. intros x ->. now apply (N1 (92 :: 59 :: x)).
    + now eapply Hx.
  - inversion H; subst.
    + match goal with X : _ = r ++ _ |- _ => rename X into E0 end.
      destruct r as [|x r]; [now apply (N1 [])|]. cbn in E0. injection E0 as <- _. now apply (H2 eq_refl r).
    + match goal with X : Unesc (r ++ _) _ |- _ => rename X into H' end.
      eapply IH; [|exact H']. intros x ->. now apply (N1 (c :: x)).
Qed.

Lemma Unesc_fun r d d' : Unesc r d -> Unesc r d' -> d = d'.
Proof.
  intros U; revert d'; induction U as [|r d U IH|c r d H1 H2 U IH]; intros d' H; inversion H; subst; try easy.
  - f_equal. now apply IH.
  - exfalso. match goal with X : 92 = 92 -> _ |- _ => now apply (X eq_refl r) end.
  - exfalso. match goal with X : 92 = 92 -> _ |- _ => now eapply (X eq_refl) end.
  - f_equal. now apply IH.
Qed.

Lemma Unesc_prefix_eq r1 : forall r2 d1 d2 t1 t2,
  Unesc r1 d1 -> Unesc r2 d2 -> (forall x, r1 <> x ++ [92]) -> (forall x, r2 <> x ++ [92]) ->
  r1 ++ 59 :: t1 = r2 ++ 59 :: t2 -> r1 = r2 /\ t1 = t2.
Proof.
  intros r2 d1 d2 t1 t2 U1 U2 N1 N2 E.
  assert (G : forall (a b : str) x y, a ++ x = b ++ y -> exists c, (a = b ++ c /\ y = c ++ x) \/ (b = a ++ c /\ x = c ++ y)).
  { induction a as [|h a IHa]; intros b x y H.
    - exists b. right. cbn in H. now subst.
    - destruct b as [|h' b]; [exists (h :: a); left; easy|]. cbn in H. injection H as -> H.
      destruct (IHa b x y H) as (c & [[-> ->]|[-> ->]]); exists c; [left|right]; easy. }
  destruct (G _ _ _ _ E) as (c & [[-> E2]|[-> E2]]).
  - destruct c as [|x c]; [rewrite app_nil_r in *; cbn in E2; injection E2 as ->; easy|].
    cbn in E2. injection E2 as <- E2. exfalso.
    replace (r2 ++ 59 :: c) with (r2 ++ 59 :: c ++ []) in U1 by now rewrite app_nil_r.
    eapply (Unesc_no_bare r2 d2 c d1 []); eassumption.
  - destruct c as [|x c]; [rewrite app_nil_r in *; cbn in E2; injection E2 as ->; easy|].
    cbn in E2. injection E2 as <- E2. exfalso.
    replace (r1 ++ 59 :: c) with (r1 ++ 59 :: c ++ []) in U2 by now rewrite app_nil_r.
    eapply (Unesc_no_bare r1 d1 c d2 []); eassumption.
Qed.

Lemma blank_cut_unique a1 b1 a2 b2 : a1 ++ b1 = a2 ++ b2 -> blank_str b1 -> blank_str b2 ->
  ~ ends_blank a1 -> ~ ends_blank a2 -> a1 = a2 /\ b1 = b2.
Proof.
  intros E B1 B2 N1 N2.
  assert (R1 : rstrip_p isblank (a1 ++ b1) = a1).
  { apply (rstrip_p_unique isblank _ a1 b1); [easy | now apply forallb_blank |].
    destruct (last_opt a1) as [c|] eqn:El; [|easy]. apply isblank_false. intros Hc. apply N1, ends_blank_last.
    exists c. rewrite isblank_iff. easy. }
  assert (R2 : rstrip_p isblank (a2 ++ b2) = a2).
  { apply (rstrip_p_unique isblank _ a2 b2); [easy | now apply forallb_blank |].
    destruct (last_opt a2) as [c|] eqn:El; [|easy]. apply isblank_false. intros Hc. apply N2, ends_blank_last.
    exists c. rewrite isblank_iff. easy. }
  rewrite E in R1. assert (Ea : a1 = a2) by congruence. clear R1 R2. subst a2. split; [easy|]. now apply app_inv_head in E.
Qed.

Lemma CommentSplit_fun s d k b d' k' b' :
  CommentSplit s d k b -> CommentSplit s d' k' b' -> d = d' /\ k = k' /\ b = b'.
Proof.
  intros H1 H2. destruct H1 as [line data U|raw text data0 data blanks bare U1 N1 E1 B1 X1 Y1].
  - inversion H2 as [? ? U2|raw text data0 data' blanks bare U2 N2 E2 B2 X2 Y2]; subst.
    + split; [eapply Unesc_fun; eassumption | easy].
    + exfalso. replace (raw ++ 59 :: text) with (raw ++ 59 :: text ++ []) in U by now rewrite app_nil_r.
      eapply (Unesc_no_bare raw _ text _ []); [|eassumption|exact U]. eassumption.
  - inversion H2 as [? ? U2 Ea|raw' text' data0' data' blanks' bare' U2 N2 E2 B2 X2 Y2 Ea Eb Ec Ed]; subst.
    + exfalso. replace (raw ++ 59 :: text) with (raw ++ 59 :: text ++ []) in U2 by now rewrite app_nil_r.
      eapply (Unesc_no_bare raw _ text _ []); [exact U1|eassumption|exact U2].
    + destruct (Unesc_prefix_eq _ _ _ _ _ _ U2 U1 N2 N1 Ea) as [-> ->].
      pose proof (Unesc_fun _ _ _ U1 U2) as E. apply blank_cut_unique in E as [-> ->]; try easy.
      repeat split. destruct b', bare; try easy; exfalso; intuition congruence.
Qed.

(* without a backslash nothing is lost *)
Lemma CommentSplit_lossless s d k b : ~ In 92 s -> CommentSplit s d k b -> d ++ k = s.
Proof.
  assert (P : forall r d, ~ In 92 r -> Unesc r d -> d = r).
  { intros r d' N1 U. induction U; try easy; cbn in N1; [tauto|]. f_equal. apply IHU. tauto. }
  intros N1 H. destruct H as [line data U|raw text data0 data blanks bare U N2 E B X Y].
  - rewrite app_nil_r. now apply P.
  - rewrite app_assoc. f_equal. rewrite <- E. apply P; [|easy]. intros H. apply N1. apply in_or_app. now left.
Qed.

(* ---- One line through all layers ---- *)

Lemma is_ctrl_unusual c : is_ctrl c = true <-> unusual c.
Proof.
  unfold is_ctrl, unusual. rewrite andb_true_iff, negb_true_iff, !orb_false_iff, N.ltb_lt, !N.eqb_neq. lia.
Qed.
Lemma ctrl_msgs_when w s : when (Exists unusual s) W_FILE_CTRL_CHAR w (ctrl_msgs w s).
Proof.
  unfold ctrl_msgs. assert (existsb is_ctrl s = true <-> Exists unusual s) as E.
  { rewrite existsb_exists, Exists_exists. split; intros (c & A & B); exists c; (split; [easy|]); now apply is_ctrl_unusual. }
  destruct (existsb is_ctrl s); [left|right]; split; try easy; try now apply E. intros X. now apply E in X.
Qed.
Lemma when_fun P c w l l' : when P c w l -> when P c w l' -> l = l'.
Proof. intros [[A ->]|[A ->]] [[B ->]|[B ->]]; easy. Qed.

Lemma decode_line_decoded w b l s : decode_line w b = (l, Ok s) <->
  Decoded b s /\ when (forall s', ~ Utf8 s' b) E_FILE_UTF8_BAD w l.
Proof.
  destruct (utf8_dec b) as [[s0 H]|H].
  - rewrite (decode_line_utf8 w b s0 H). split.
    + intros E. injection E as <- <-. split; [now left|]. right. split; [intros X; now apply (X s0)|easy].
    + intros [D [[X _]|[_ ->]]]; [now destruct (X s0)|]. destruct D as [D|[D _]]; [|now destruct (D s0)].
      pose proof (decode_line_utf8 w b s D) as E1. pose proof (decode_line_utf8 w b s0 H) as E2. congruence.
  - destruct (decode_line_other w b H) as (A & B & _). destruct (decode_line w b) as [l0 r]. cbn [fst snd] in *. subst l0. split.
    + intros E. injection E as <- ->. split; [|now left]. right. split; [easy|]. now apply B.
    + intros [D [[_ ->]|[X _]]]; [|easy]. destruct D as [D|[_ D]]; [now destruct (H s)|]. apply B in D. now rewrite D.
Qed.

Lemma ff_line_ends st w s l st' d : ff_line st w s = (l, Ok (st', d)) -> d = strip_eol s.
Proof.
  unfold ff_line, wbind. destruct (ff_enter st w) as [l0 [st1| |]]; cbn [fst snd]; try easy.
  destruct (ff_info st1) as [|e r]; cbn [fst snd]; [easy|]. intros H. injection H as _ _ <-. reflexivity.
Qed.

Lemma comment_line_iff body w l d k : comment_line body w = (l, Ok (d, k)) <->
  exists text blanks bare l3, body = text ++ blanks /\ blank_str blanks /\ ~ ends_blank text /\
    CommentSplit text d k bare /\ when (blanks <> []) W_WSH_EOL w l3 /\
    l = l3 ++ (if bare : bool then [msg0 W_WSH_COMMENT w] else []).
Proof.
  destruct (comment_line_spec body w) as (s' & bl & d0 & k0 & bare & E & B & N & C & R). rewrite R. split.
  - intros H. injection H as <- <- <-. exists s', bl, bare. eexists. repeat split; try eassumption.
    destruct bl; [right|left]; split; easy.
  - intros (text & blanks & bare' & l3 & E' & B' & N' & C' & W & ->).
    destruct (blank_cut_unique s' bl text blanks) as [-> ->]; try easy; [congruence|].
    destruct (CommentSplit_fun _ _ _ _ _ _ _ C C') as (-> & -> & ->). f_equal. f_equal.
    destruct W as [[X ->]|[X ->]]; destruct blanks; try easy. now destruct X.
Qed.

Lemma read_line_iff st w b l st' d k : read_line st w b = (l, Ok (st', d, k)) <->
  exists s before lf after body, LineRead w b s d k before after /\ ff_line st w s = (lf, Ok (st', body)) /\
    l = before ++ lf ++ after.
Proof.
  unfold read_line. split.
  - unfold wbind. destruct (decode_line w b) as [l1 [s| |]] eqn:E1; cbn [fst snd]; try easy.
    destruct (ff_line st w s) as [lf [[st1 body]| |]] eqn:E2; cbn [fst snd]; try easy.
    destruct (comment_line body w) as [l3 [[d1 k1]| |]] eqn:E3; cbn [fst snd]; try easy.
    unfold wret. cbn [fst snd]. intros H. injection H as H -> -> ->.
    apply decode_line_decoded in E1 as [D W1]. apply comment_line_iff in E3 as (text & bl & bare & l4 & Eb & B & N & C & W3 & ->).
    destruct (strip_eol_ends s) as [e He]. pose proof (ff_line_ends _ _ _ _ _ _ E2) as ->.
    exists s, (l1 ++ ctrl_msgs w s), lf. eexists. exists (strip_eol s). split; [|split; [easy|]].
    + exists (strip_eol s), e, text, bl, bare, l1, (ctrl_msgs w s), l4. repeat split; try easy. apply ctrl_msgs_when.
    + subst l. rewrite !app_nil_r, <- !app_assoc. reflexivity.
  - intros (s & before & lf & after & body & (body' & e & text & bl & bare & l1 & l2 & l3 & D & He & Eb & B & N & C & W1 & W2 & W3 & -> & ->) & E2 & ->).
    assert (decode_line w b = (l1, Ok s)) as E1 by now apply decode_line_decoded.
    pose proof (ff_line_ends _ _ _ _ _ _ E2) as ->. pose proof (Ends_strip _ _ _ He) as ->.
    assert (comment_line (strip_eol s) w = (l3 ++ (if bare then [msg0 W_WSH_COMMENT w] else []), Ok (d, k))) as E3.
    { apply comment_line_iff. exists text, bl, bare, l3. easy. }
    rewrite <- (when_fun _ _ _ _ _ (ctrl_msgs_when w s) W2).
    unfold wbind. rewrite E1. cbn [fst snd]. rewrite E2. cbn [fst snd]. rewrite E3. unfold wret. cbn [fst snd].
    rewrite !app_nil_r, <- !app_assoc. reflexivity.
Qed.

Lemma LineRead_fun w b s d k l1 l2 s' d' k' l1' l2' : LineRead w b s d k l1 l2 -> LineRead w b s' d' k' l1' l2' ->
  s = s' /\ d = d' /\ k = k' /\ l1 = l1' /\ l2 = l2'.
Proof.
  intros (body & e & text & bl & bare & m1 & m2 & m3 & D & He & Eb & B & N & C & W1 & W2 & W3 & -> & ->)
         (body' & e' & text' & bl' & bare' & m1' & m2' & m3' & D' & He' & Eb' & B' & N' & C' & W1' & W2' & W3' & -> & ->).
  assert (decode_line w b = (m1, Ok s)) as E1 by now apply decode_line_decoded.
  assert (decode_line w b = (m1', Ok s')) as E1' by now apply decode_line_decoded.
  rewrite E1 in E1'. injection E1' as <- <-. rewrite (when_fun _ _ _ _ _ W2' W2).
  destruct (Ends_unique _ _ _ _ _ He He') as [<- <-].
  destruct (blank_cut_unique text bl text' bl') as [<- <-]; try easy; [congruence|].
  destruct (CommentSplit_fun _ _ _ _ _ _ _ C C') as (-> & -> & ->). now rewrite (when_fun _ _ _ _ _ W3' W3).
Qed.
