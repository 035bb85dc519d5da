(* Proofs for C61: what a dialplan says. *)
From Coq Require Import ZifyBool ZifyN ZifyNat Sorted.
From Verif Require Import Base Utf8 PyStr Defines FileRd Config VSpace Pattern Spec_Pattern Utf8_proofs Pattern_proofs Var VarFun AppM Dialplan Spec_Var Var_proofs Flat_proofs FlatM_proofs.

(* ---- patterns ---- *)
Lemma land_byte c : c < 256 -> N.land c 0xff = c.
Proof. intros H. change 0xff with (N.ones 8). rewrite N.land_ones. now apply N.mod_small. Qed.
Lemma land_char c : c < 256 -> N.land (0x100 + c) 0xff = c.
Proof.
  intros H. change 0xff with (N.ones 8). rewrite N.land_ones. change (2 ^ 8) with 256. replace (0x100 + c) with (c + 1 * 256) by lia.
  rewrite N.mod_add by lia. now apply N.mod_small.
Qed.
Lemma land_set n c : c < 256 -> N.land (N.lor (n * 0x100) c) 0xff = c.
Proof.
  intros H. rewrite lor_add by easy. change 0xff with (N.ones 8). rewrite N.land_ones. change (2 ^ 8) with 256. replace (n * 0x100 + c) with (c + n * 256) by lia.
  rewrite N.mod_add by lia. now apply N.mod_small.
Qed.
Lemma nrange_len_in k : forall a x, In x (nrange_len a k) -> a <= x < a + N.of_nat k.
Proof. induction k as [|k IH]; intros a x; cbn [nrange_len]; [easy|]. intros [<-|H]; [lia|]. apply IH in H. lia. Qed.
Lemma nrange_in a b x : a <= b -> In x (nrange a b) -> a <= x <= b.
Proof. unfold nrange. intros H I. apply nrange_len_in in I. lia. Qed.
Lemma nrange_low a b : a <= b -> In a (nrange a b).
Proof. intros H. unfold nrange. destruct (N.to_nat (b + 1 - a)) eqn:E; [lia|]. now left. Qed.
(* everything in the set is at least some byte of the text that is in the set *)
Lemma used_low n : forall l, (length l <= n)%nat -> forall x, In x (range_used l) -> exists y, In y l /\ In y (range_used l) /\ y <= x.
Proof.
  induction n as [|n IH]; intros l Hl x H; [destruct l; [easy|cbn in Hl; lia]|].
  destruct l as [|a [|m [|b rest]]]; cbn [range_used] in H |- *; [easy|destruct H as [->|[]]; exists x; cbn; intuition lia|destruct H as [->|[->|[]]]; exists x; cbn; intuition lia|].
  destruct (m =? 0x2d).
  - apply in_app_iff in H as [H|H].
    + destruct (b <? a) eqn:E.
      * apply nrange_in in H; [|lia]. exists b. rewrite in_app_iff. split; [cbn; tauto|]. split; [left; apply nrange_low; lia|lia].
      * apply nrange_in in H; [|lia]. exists a. rewrite in_app_iff. split; [cbn; tauto|]. split; [left; apply nrange_low; lia|lia].
    + destruct (IH rest) with (x := x) as (y & A & B & C); [cbn in Hl; lia|easy|]. exists y. rewrite in_app_iff. split; [cbn; tauto|]. split; [now right|easy].
  - destruct H as [<-|H]; [exists a; cbn; intuition lia|]. destruct (IH (m :: b :: rest)) with (x := x) as (y & A & B & C); [cbn in *; lia|easy|].
    exists y. split; [now right|]. split; [now right|easy].
Qed.
Definition VOk (v : value) : Prop := N.land (fst v) 0xff <> 10.
Lemma range_list_ok l v : Forall (fun c => c < 256) l -> NL l -> parse_range_list l = Ok v -> VOk v.
Proof.
  intros HB HN. unfold parse_range_list. pose proof (sorted_set_sorted (range_used l)) as S. pose proof (sorted_set_In (range_used l)) as I.
  destruct (sorted_set (range_used l)) as [|f r]; [easy|]. intros E.
  assert (F : In f l).
  { destruct (used_low _ l (le_n _) f) as (y & A & B & C); [apply I; now left|]. apply I in B. destruct B as [->|B]; [easy|].
    inversion S as [|? ? S1 S2]; subst. rewrite Forall_forall in S2. apply S2 in B. lia. }
  rewrite Forall_forall in HB. pose proof (HB f F) as F1. apply nl_in in HN.
  assert (V : fst v = N.lor (N.of_nat (List.length (f :: r)) * 0x100) f) by (cbv zeta in E; destruct (_ && _); now injection E as <-).
  unfold VOk. rewrite V, land_set by easy. intros ->. easy.
Qed.
Lemma cut_rb_sub l a b : cut_rbracket l = Some (a, b) -> forall c, In c a \/ In c b -> In c l.
Proof.
  revert a b. induction l as [|x l IH]; intros a b; cbn [cut_rbracket]; [easy|]. destruct (x =? 0x5d); [intros [= <- <-] c [[]|H]; now right|].
  destruct (cut_rbracket l) as [[a' b']|]; [|easy]. intros [= <- <-] c [[->|H]|H]; [now left|right; apply (IH a' b'); tauto|right; apply (IH a' b'); tauto].
Qed.
Lemma pattern_b_ok k : forall l vs, Forall (fun c => c < 256) l -> NL l -> parse_pattern_b k l = Ok vs -> Forall VOk vs.
Proof.
  induction k as [|k IH]; intros l vs HB HN; cbn [parse_pattern_b]; [easy|]. destruct l as [|x l].
  - intros [= <-]. constructor; [|constructor]. unfold VOk. now vm_compute.
  - inversion HB as [|? ? B1 B2]; subst. inversion HN as [|? ? N1 N2]; subst. pose proof (IH l) as IHl.
    assert (G : forall v, VOk v -> (let! r := parse_pattern_b k l in Ok (v :: r)) = Ok vs -> Forall VOk vs).
    { intros v V E. destruct (parse_pattern_b k l) as [r| |]; cbn [bind] in E; try easy. injection E as <-. constructor; [easy|now apply IHl]. }
    destruct (x =? 0x2d); [now apply IHl|]. destruct (_ || _); [apply G; now vm_compute|]. destruct (_ || _); [apply G; now vm_compute|]. destruct (_ || _); [apply G; now vm_compute|].
    destruct (x =? 0x2e); [apply G; now vm_compute|]. destruct (x =? 0x21); [apply G; now vm_compute|]. destruct (x =? 0x5b).
    + destruct (cut_rbracket l) as [[a b]|] eqn:C; [|easy]. pose proof (cut_rb_sub _ _ _ C) as Sub.
      destruct (parse_range_list a) as [v| |] eqn:E; cbn [bind]; try easy. destruct (parse_pattern_b k b) as [r| |] eqn:E2; cbn [bind]; try easy. intros [= <-].
      rewrite Forall_forall in B2. constructor.
      * apply (range_list_ok a); [apply Forall_forall; auto|eapply nl_sub; [|exact N2]; auto|easy].
      * apply (IH b); [apply Forall_forall; auto|eapply nl_sub; [|exact N2]; auto|easy].
    + apply G. unfold VOk. cbn [fst]. now rewrite land_char.
Qed.
Definition PatOk (p : pattern) : Prop := forall s, example (pv p) = Ok s -> NL s.
Lemma encode_ok s b : utf8_encode s = Ok b -> NL s -> NL b /\ Forall (fun c => c < 256) b.
Proof.
  intros E H. split; [|eapply Forall_impl; [|exact (utf8_encode_bytes _ _ E)]; cbn; lia]. apply nl_in. intros K. apply (utf8_In_ascii s b 10 E) in K; [|lia]. now apply nl_in in H.
Qed.
Lemma mk_pattern_ok raw p : NL raw -> mk_pattern raw = Ok p -> PatOk p.
Proof.
  intros H. unfold mk_pattern. destruct (parse raw) as [v| |] eqn:E; cbn [bind]; try easy. intros [= <-]. unfold PatOk. cbn [pv].
  unfold parse in E. destruct raw as [|c rest]; [easy|]. inversion H as [|? ? H1 H2]; subst. intros s X. destruct (c =? 0x5f).
  - unfold parse_pattern in E. destruct (utf8_encode rest) as [b| |] eqn:U; cbn [bind] in E; try easy. apply encode_ok in U as [U1 U2]; [|easy].
    destruct (parse_pattern_b _ b) as [vs| |] eqn:P; cbn [bind] in E; try easy. injection E as <-. apply pattern_b_ok in P; [|easy|easy].
    unfold example in X. cbn [ptype pvals] in X. change (IS_A_PATTERN =? NOT_A_PATTERN) with false in X. change (IS_A_PATTERN =? IS_A_PATTERN) with true in X. cbv iota in X.
    apply ok_inj in X as <-. apply nl_concat, Forall_map. eapply Forall_impl; [|exact P]. intros v V. unfold example_piece.
    destruct (fst v =? 0x18000); [nlit|]. destruct (fst v =? 0x28000); [nlit|]. destruct (fst v =? 0x30000); [constructor|]. constructor; [exact V|constructor].
  - destruct (utf8_encode (c :: rest)) as [b| |] eqn:U; cbn [bind] in E; try easy. apply encode_ok in U as [U1 U2]; [|easy]. apply ok_inj in E as <-.
    unfold example in X. cbn [ptype pvals] in X. change (NOT_A_PATTERN =? NOT_A_PATTERN) with true in X. cbv iota in X. destruct (forallb _ _); [|easy].
    apply ok_inj in X as <-. rewrite map_map. cbn [fst]. apply Forall_map. apply Forall_forall. intros x I. apply filter_In in I as [I _].
    rewrite Forall_forall in U2. rewrite land_char by auto. unfold NL in U1. rewrite Forall_forall in U1. auto.
Qed.

(* ---- formatting ---- *)
Lemma firstn_sub {A} n (l : list A) x : In x (firstn n l) -> In x l.
Proof. intros H. rewrite <- (firstn_skipn n l). apply in_or_app. now left. Qed.
Lemma skipn_sub {A} n (l : list A) x : In x (skipn n l) -> In x l.
Proof. intros H. rewrite <- (firstn_skipn n l). apply in_or_app. now right. Qed.
Lemma pyslice_ok s a b : NL s -> NL (pyslice s a b).
Proof. intros H. unfold pyslice. cbv zeta. eapply nl_sub; [|exact H]. intros c I. apply firstn_sub, skipn_sub in I. exact I. Qed.
Lemma exten_env_ok ex k v : NL ex -> exten_env ex k = Some v -> NL v.
Proof. unfold exten_env. destruct (str_eqb _ _); [|easy]. now intros H [= <-]. Qed.
Lemma tformat_ok ex t : NL ex -> forall s, tformat (exten_env ex) t = Ok s -> TOk t -> NL s.
Proof.
  intros X. induction t as [s|l H|t IHt|t IHt|t start len IHt|t start len IHt H H0|f t IHt|f t start len IHt H H0] using tok_ind2; intros s0 E T.
  - apply ok_inj in E as <-. easy.
  - apply tok_list in T. cbn [tformat] in E. revert s0 E. induction H as [|x l Hx H IH]; intros s0 E; [apply ok_inj in E as <-; constructor|].
    inversion T; subst. destruct (tformat _ x) as [a| |] eqn:Ea; cbn [bind] in E; try easy.
    match goal with [E : context [bind ?g _] |- _] => destruct g as [b| |] eqn:Eb; cbn [bind] in E; try easy end.
    apply ok_inj in E as <-. apply nl_app. split; [now apply Hx|now apply IH].
  - cbn [tformat] in E. destruct (tformat _ t) as [k| |]; cbn [bind] in E; try easy. destruct (exten_env ex k) as [v|] eqn:V; [|easy]. apply ok_inj in E as <-. exact (exten_env_ok _ _ _ X V).
  - cbn [tformat] in E. destruct (tformat _ t) as [k| |]; cbn [bind] in E; try easy. destruct (exten_env ex k) as [v|] eqn:V; [|easy]. apply ok_inj in E as <-. exact (exten_env_ok _ _ _ X V).
  - cbn [tformat] in E. destruct (tformat _ t) as [k| |]; cbn [bind] in E; try easy. destruct (exten_env ex k) as [v|] eqn:V; [|easy]. cbn [bind] in E. apply (exten_env_ok _ _ _ X) in V.
    destruct len as [z|]; [destruct (slice_endpos start z); cbn [bind] in E; try easy|]; apply ok_inj in E as <-; now apply pyslice_ok.
  - cbn [tformat] in E. destruct (tformat _ t) as [k| |]; cbn [bind] in E; try easy. destruct (exten_env ex k) as [v|] eqn:V; [|easy]. apply ok_inj in E as <-. exact (exten_env_ok _ _ _ X V).
  - cbn [tformat] in E. destruct (tformat _ t) as [k| |]; cbn [bind] in E; try easy. destruct (exten_env ex _) as [v|] eqn:V; [|easy]. apply ok_inj in E as <-. exact (exten_env_ok _ _ _ X V).
  - cbn [tformat] in E. destruct (tformat _ t) as [k| |]; cbn [bind] in E; try easy. destruct (exten_env ex _) as [v|] eqn:V; [|easy]. cbn [bind] in E. apply (exten_env_ok _ _ _ X) in V.
    destruct len as [[z|]|], start as [y|]; try easy; [destruct (slice_endpos y z); cbn [bind] in E; try easy|]; apply ok_inj in E as <-; now apply pyslice_ok.
Qed.

(* ---- jumps ---- *)
Definition PrOk (q : jprio) : Prop := match q with JInt _ => True | JTok t => TOk t | JList _ => True end.
Definition JOk (j : jump) : Prop := TOk (j_ctx j) /\ TOk (j_ext j) /\ PrOk (j_prio j) /\ NL (w_file (j_where j)).
Definition POk (p : pattern) : Prop := PatOk p /\ NL (praw p).
Lemma mk_jump_ok U name p w d j : NL name -> PatOk p -> NL (w_file w) -> DestOk d -> mk_jump U name p w d = Ok j -> JOk j.
Proof.
  intros N P W D. unfold mk_jump. cbv zeta. destruct D as (D1 & D2 & D3).
  set (c := match d_ctx d with Some t => if truthy t then t else TS name | None => TS name end).
  assert (C : TOk c) by (subst c; destruct (d_ctx d) as [t|]; [destruct (truthy t)|]; easy). clearbody c.
  match goal with |- context [bind ?r _] => assert (E : forall e, r = Ok e -> TOk e) end.
  { intros e. destruct (d_ext d) as [t|].
    - destruct (truthy t).
      + assert (K : (let! ex := example (pv p) in match tformat (exten_env ex) t with Ok s => Ok (TS s) | Exn KeyError => Ok t | Exn e => Exn e | Hang => Hang end) = Ok e -> TOk e).
        { destruct (example (pv p)) as [ex| |] eqn:X; cbn [bind]; try easy. apply P in X. destruct (tformat (exten_env ex) t) as [s|y|] eqn:F; [|destruct y; try easy|easy].
          - intros [= <-]. apply tok_ts. exact (tformat_ok _ _ X _ F D2).
          - now intros [= <-]. }
        destruct t; try exact K. now intros [= <-].
      + destruct (example (pv p)) as [ex| |] eqn:X; cbn [bind]; try easy. intros [= <-]. now apply P.
    - destruct (example (pv p)) as [ex| |] eqn:X; cbn [bind]; try easy. intros [= <-]. now apply P. }
  match goal with |- context [bind ?r _] => destruct r as [e| |]; cbn [bind]; try easy end. specialize (E e eq_refl).
  match goal with |- context [bind ?r _] => assert (Q : forall q, r = Ok q -> PrOk q) end.
  { intros q. destruct (d_prio d) as [t|l]; [|now intros [= <-]]. assert (K : Ok (JTok t) = Ok q -> PrOk q) by now intros [= <-].
    destruct t; try exact K. destruct (sisdigit U s); [|exact K]. destruct (int_of U s); cbn [bind]; try easy. now intros [= <-]. }
  match goal with |- context [bind ?r _] => destruct r as [q| |]; cbn [bind]; try easy end. specialize (Q q eq_refl).
  now intros [= <-].
Qed.
Lemma mk_jumps_ok U name p w ds : NL name -> PatOk p -> NL (w_file w) -> Forall DestOk ds -> forall js, mk_jumps U name p w ds = Ok js -> Forall JOk js.
Proof.
  intros N P W. induction 1 as [|d ds Hd H IH]; intros js; cbn [mk_jumps]; [intros [= <-]; constructor|].
  destruct (mk_jump U name p w d) as [j| |] eqn:E; cbn [bind]; try easy. destruct (mk_jumps U name p w ds) as [l| |]; cbn [bind]; try easy.
  intros [= <-]. constructor; [now apply (mk_jump_ok U name p w d)|auto].
Qed.

(* ---- what is remembered ---- *)
Definition XOk (x : ext) : Prop := POk (x_pat x) /\ NL (x_raw x) /\ OOk NL (x_label x).
Definition IOk (x : xline) : Prop := OOk POk (i_pat x) /\ Forall DestOk (i_dests x) /\ NL (w_file (i_where x)) /\ NL (i_raw x) /\ OOk NL (i_label x).
Definition COk (c : dctx) : Prop := NL (dc_name c) /\ NL (w_file (dc_where c)) /\ Forall XOk (dc_exts c) /\ Forall (fun i : str * loc => NL (fst i)) (dc_includes c).
Definition GOk (g : glob) : Prop := Forall JOk (g_jumps g).
Definition DOk (d : dplan) : Prop := Forall COk (dp_ctxs d) /\ GOk (dp_glob d).

Lemma last_forall {A} (P : A -> Prop) l x : Forall P l -> last_opt l = Some x -> P x.
Proof.
  induction l as [|y l IH]; [easy|]. intros H E. inversion H; subst. destruct l; [now injection E as <-|]. now apply IH.
Qed.
Lemma add_check_ok g c x : COk c -> IOk x -> MOk (add_check g c x) (OOk (fun y => POk (fst y))).
Proof.
  intros (C1 & C2 & C3 & C4) (I1 & I2 & I3 & I4 & I5). unfold add_check. cbv zeta. seq (OOk POk).
  { destruct (i_pat x); [now apply mok_ret|]. destruct (last_ext c) as [y|] eqn:Y; [apply mok_ret; exact (proj1 (last_forall _ _ _ C3 Y))|].
    seq (fun _ : unit => True); [say|now apply mok_ret]. }
  destruct a as [p|]; [|now apply mok_ret]. cbn [OOk] in HA. destruct HA as [HA1 HA2].
  assert (B : forall a, AOk false a -> MOk (memit W_DP_PRIO_BADORDER (i_where x) [(L "pat", AStr (praw p)); (L "prio", a)]) (fun _ => True)).
  { intros a A. say. }
  destruct (i_prio x) as [q|].
  - destruct (q <? 1)%Z; [seq (fun _ : unit => True); [say|now apply mok_ret]|]. destruct (q =? 1)%Z; [now apply mok_ret|].
    seq (fun _ : unit => True); [|now apply mok_ret]. destruct (last_opt _) as [y|]; [destruct (_ && _); [|now apply mok_ret]|]; now apply B.
  - destruct (g_last g) as [[]|]; try (seq (fun _ : unit => True); [say|now apply mok_ret]).
    all: seq (fun _ : bool => True); [destruct (dc_last c) as [[]|]; try (now apply mok_ret); (destruct (last_ext c); [now apply mok_ret|apply mok_exn])|].
    all: seq (fun _ : unit => True); [destruct a; [apply B; right; nlit|now apply mok_ret]|now apply mok_ret].
Qed.
Lemma add_cache_ok c p q x : IOk x -> MOk (add_cache c p q x) (OOk (fun y => OOk NL (fst (fst y)))).
Proof.
  intros (I1 & I2 & I3 & I4 & I5). unfold add_cache. cbv zeta. destruct (lookup _ _) as [pc|]; [|now apply mok_ret].
  destruct (zlookup _ _) as [old|].
  { seq (fun _ : unit => True); [|now apply mok_ret]. apply mok_w; [easy|fields|exact I]. }
  destruct (lab _) as [s|]; [|now apply mok_ret]. destruct (lookup s _) as [old|]; [|now apply mok_ret].
  seq (fun _ : unit => True); [|apply mok_ret; cbn; constructor]. apply mok_w; [easy|fields|exact I].
Qed.
Lemma ctx_add_ok U g c x : GOk g -> COk c -> IOk x -> MOk (ctx_add U g c x) (fun y => GOk (fst y) /\ COk (snd y)).
Proof.
  intros G C X. unfold ctx_add. cbv zeta. seq (OOk (fun y : pattern * Z => POk (fst y))); [now apply add_check_ok|].
  destruct a as [[p q]|]; [|now apply mok_ret]. cbn [OOk fst] in HA. seq (OOk (fun y : option str * pcache * list str => OOk NL (fst (fst y)))); [now apply add_cache_ok|].
  destruct a as [[[lb pc] ls]|]; [|now apply mok_ret]. destruct C as (C1 & C2 & C3 & C4), X as (X1 & X2 & X3 & X4 & X5).
  seq (Forall JOk). { apply mok_lift. apply mk_jumps_ok; try easy. apply HA. }
  apply mok_ret. cbn [fst snd]. split; [apply Forall_app; now split|]. split; [easy|]. split; [easy|]. split; [|easy]. apply Forall_app. split; [easy|]. now constructor.
Qed.

Lemma cut1_ok c s a b : NL s -> cut1 c s = Some (a, b) -> NL a /\ NL b.
Proof.
  intros H. unfold cut1. pose proof (ssplit_ok c s (Some 1%nat) H) as K. destruct (ssplit _ _ _) as [|x [|y [|]]]; try easy.
  intros [= <- <-]. inversion K as [|? ? K1 K2]; subst. now inversion K2.
Qed.
Lemma expect_arrow_ok v : NL (w_file (v_where v)) -> MOk (expect_arrow v) T0.
Proof. intros W. unfold expect_arrow. destruct (v_arrow v) as [[]|]; [now apply mok_ret|say|apply mok_exn]. Qed.
Definition DVOk (d : dvar) : Prop := match d with DExt x => IOk x | DInc n _ => NL n end.
Definition VarOk (v : varset) : Prop := NL (v_value v) /\ NL (w_file (v_where v)).
Lemma from_varset_ok U FT AT v : VarOk v -> MOk (from_varset U FT AT v) (OOk DVOk).
Proof.
  intros [V W]. unfold from_varset. cbv zeta.
  assert (A : MOk (expect_arrow v) T0) by now apply expect_arrow_ok.
  destruct (_ || _).
  - seq (fun _ : unit => True); [exact A|]. seq (fun y : str * str => NL (fst y) /\ NL (snd y)).
    { destruct (str_eqb _ _); [|apply mok_ret; split; [constructor|easy]]. destruct (cut1 44 (v_value v)) as [[p r]|] eqn:E; [|apply mok_exn]. apply mok_ret. exact (cut1_ok _ _ _ _ V E). }
    destruct a0 as [pat rest]. cbn [fst snd] in HA0. destruct HA0 as [P R].
    set (pa := match cut1 44 rest with Some r => r | None => (rest, []) end). assert (PA : NL (fst pa) /\ NL (snd pa)).
    { subst pa. destruct (cut1 44 rest) as [[a0 b0]|] eqn:E; [exact (cut1_ok _ _ _ _ R E)|]. split; [easy|constructor]. }
    clearbody pa. destruct pa as [prio0 aa]. cbn [fst snd] in PA. destruct PA as [PA1 PA2].
    set (pl := match cut1 40 prio0 with Some (a, b) => (a, Some b) | None => (prio0, None) end). assert (PL : OOk NL (snd pl)).
    { subst pl. destruct (cut1 40 prio0) as [[a0 b0]|] eqn:E; [exact (proj2 (cut1_ok _ _ _ _ PA1 E))|exact I]. }
    clearbody pl. destruct pl as [prio label]. cbn [snd] in PL.
    seq (fun _ : option (option Z) => True).
    { destruct (str_eqb prio _); [now apply mok_ret|]. destruct (sisdigit U prio); [seq (fun _ : Z => True); [now apply mok_lift|now apply mok_ret]|].
      destruct (str_eqb prio _); (seq (fun _ : unit => True); [say|now apply mok_ret]). }
    destruct a0 as [q|]; [|now apply mok_ret]. seq (OOk (OOk NL)).
    { destruct label as [s|]; [|now apply mok_ret]. destruct (endswith _ _); [apply mok_ret; revert PL; apply nl_sub; intros c; unfold drop_last; rewrite removelast_firstn_len; apply firstn_sub|]. seq (fun _ : unit => True); [say|now apply mok_ret]. }
    destruct a0 as [lb|]; [|now apply mok_ret]. seq (OOk POk).
    { destruct pat as [|c pat]; [now apply mok_ret|]. seq (fun p => POk p); [|now apply mok_ret]. apply mok_lift. intros p E. split; [now apply (mk_pattern_ok (c :: pat))|].
      unfold mk_pattern in E. destruct (parse _); cbn [bind] in E; try easy. now injection E as <-. }
    seq (Forall DestOk); [now apply application_ok|]. apply mok_ret. cbn [OOk DVOk]. now split.
  - destruct (str_eqb _ _); [seq (fun _ : unit => True); [exact A|now apply mok_ret]|].
    destruct (str_eqb _ _); [seq (fun _ : unit => True); [exact A|]; seq (fun _ : unit => True); [say|now apply mok_ret]|].
    destruct (str_eqb _ _); [seq (fun _ : unit => True); [exact A|]; seq (fun _ : unit => True); [say|now apply mok_ret]|].
    seq (fun _ : unit => True); [say|now apply mok_ret].
Qed.

(* ---- the dialplan ---- *)
Definition CtxOk (c : ctx) : Prop := NL (c_name c) /\ NL (w_file (c_where c)).
Definition ElemOk (e : Config.elem) : Prop := match e with ECtx c => CtxOk c | EVar v => VarOk v | EEmpty _ w => NL (w_file w) end.
Lemma find_ctx_ok n l c : Forall COk l -> find_ctx n l = Some c -> COk c.
Proof. induction 1 as [|x l Hx H IH]; cbn [find_ctx]; [easy|]. destruct (str_eqb _ _); [now intros [= <-]|auto]. Qed.
Lemma set_ctx_ok c l : COk c -> Forall COk l -> Forall COk (set_ctx c l).
Proof. intros C. induction 1 as [|x l Hx H IH]; cbn [set_ctx]; [constructor|]. destruct (str_eqb _ _); now constructor. Qed.
Lemma on_context_ok d c : DOk d -> CtxOk c -> MOk (on_context d c) DOk.
Proof.
  intros [D1 D2] [C1 C2]. unfold on_context. destruct (str_eqb _ _).
  { unfold add_general. destruct (dp_general d).
    - seq (fun _ : unit => True); [|apply mok_exn]. apply mok_w; [easy|fields|exact I].
    - seq (fun _ : unit => True); [|now apply mok_ret]. destruct (dp_globals d), (dp_ctxs d); try (now apply mok_ret); say. }
  destruct (str_eqb _ _).
  { unfold add_globals. destruct (dp_globals d).
    - seq (fun _ : unit => True); [|now apply mok_ret]. apply mok_w; [easy|fields|exact I].
    - seq (fun _ : unit => True); [|now apply mok_ret]. destruct (dp_general d), (dp_ctxs d); try (now apply mok_ret); say. }
  seq (fun _ : unit => True); [destruct (c_templates c); [now apply mok_ret|say]|].
  destruct (find_ctx _ _) as [old|] eqn:F.
  - apply find_ctx_ok in F as (F1 & F2 & F3 & F4); [|easy]. seq COk.
    + apply mok_lift. unfold ctx_update. destruct (c_comment c); [easy|]. destruct (c_templates c); [|easy]. now intros n [= <-].
    + apply mok_ret. split; [|easy]. now apply set_ctx_ok.
  - apply mok_ret. split; [|easy]. apply Forall_app. split; [easy|]. constructor; [|constructor]. split; [easy|]. split; [easy|]. split; constructor.
Qed.
Lemma on_varset_ok U FT AT d v : DOk d -> VarOk v -> MOk (on_varset U FT AT d v) DOk.
Proof.
  intros [D1 D2] V. assert (W := proj2 V). unfold on_varset. destruct (dp_cur d); [seq (fun _ : unit => True); [say|now apply mok_ret]|now apply mok_ret|].
  seq (OOk DVOk); [now apply from_varset_ok|]. destruct a as [dv|]; [|now apply mok_ret]. cbn [OOk] in HA.
  destruct (find_ctx _ _) as [c|] eqn:F; [|apply mok_exn]. apply find_ctx_ok in F; [|easy]. destruct dv as [x|n w].
  - cbn [DVOk] in HA. seq (fun _ : unit => True).
    { destruct (i_pat x) as [p|] eqn:P; [|now apply mok_ret]. destruct (is_canonical p); [now apply mok_ret|]. apply mok_emit; [apply HA|fields|exact I]. }
    seq (fun y : glob * dctx => GOk (fst y) /\ COk (snd y)); [now apply ctx_add_ok|]. destruct a0 as [g c']. apply mok_ret. split; [apply set_ctx_ok; [apply HA1|easy]|apply HA1].
  - apply mok_ret. split; [|easy]. apply set_ctx_ok; [|easy]. destruct F as (F1 & F2 & F3 & F4). split; [easy|]. split; [easy|]. split; [easy|]. apply Forall_app. split; [easy|]. now constructor.
Qed.
Lemma on_element_ok U FT AT d e : DOk d -> ElemOk e -> MOk (on_element U FT AT d e) DOk.
Proof.
  intros D E. unfold on_element. cbv zeta.
  assert (K : MOk (match e with ECtx c => on_context d c | EVar v => on_varset U FT AT d v | EEmpty _ _ => mret d end) DOk).
  { destruct e; [now apply mok_ret|now apply on_context_ok|now apply on_varset_ok]. }
  destruct (match e with ECtx c => on_context d c | EVar v => on_varset U FT AT d v | EEmpty _ _ => mret d end) as [l [a|x|]]; try exact K.
  split; [apply K|easy].
Qed.
Definition EvOk (e : event) : Prop := match e with EvLine _ _ _ => True | EvMsg m => MsgOk m | EvElem e => ElemOk e end.
Lemma dp_stream_ok U FT AT evs o : Forall EvOk evs -> forall d, DOk d -> MOk (dp_stream U FT AT d evs o) DOk.
Proof.
  induction 1 as [|e evs He H IH]; intros d D; cbn [dp_stream].
  - apply mok_lift. destruct o; cbn [bind]; try easy. now intros ? [= <-].
  - destruct e; [auto| |].
    + seq (fun _ : unit => True); [now apply mok_log|auto].
    + seq DOk; [now apply on_element_ok|auto].
Qed.
Lemma on_complete_ok d : DOk d -> MOk (on_complete d) T0.
Proof.
  intros [D1 D2]. unfold on_complete.
  assert (K : MOk (match dp_ctxs d with [] => mret tt | c :: _ => let w := Where (w_file (dc_where c)) 0 [] in
      do* _ <- (if is_some (dp_general d) then mret tt else memit H_DP_GENERAL_MISPLACED w []);
      if is_some (dp_globals d) then mret tt else memit H_DP_GLOBALS_MISPLACED w [] end) T0).
  { destruct (dp_ctxs d) as [|c l]; [now apply mok_ret|]. inversion D1 as [|? ? (C1 & C2 & C3 & C4) _]; subst. cbv zeta.
    seq (fun _ : unit => True); [destruct (is_some _); [now apply mok_ret|say]|]. destruct (is_some _); [now apply mok_ret|say]. }
  destruct (dp_general d), (dp_globals d); try exact K. now apply mok_ret.
Qed.
Lemma jarg_ok q : PrOk q -> AOk false (jarg q).
Proof. destruct q; cbn [jarg]; [easy| |]; intros H; [now apply targ_ok|apply larg_ok]. Qed.
Lemma check_jump_ok fuel d j : JOk j -> MOk (check_jump fuel d j) T0.
Proof.
  intros (J1 & J2 & J3 & J4). unfold check_jump. cbv zeta. pose proof (targ_ok false _ J1) as A1. pose proof (targ_ok false _ J2) as A2. pose proof (jarg_ok _ J3) as A3.
  set (c := targ (j_ctx j)) in *. set (e := targ (j_ext j)) in *. set (q := jarg (j_prio j)) in *.
  assert (S1 : MOk (memit E_DP_GOTO_NOCONTEXT (j_where j) ([(L "context", c); (L "exten", e)] ++ [(L "prio", q)])) T0) by (cbn [app]; say).
  assert (S2 : MOk (memit W_DP_GOTO_CONTEXT_NOEXTEN (j_where j) ([(L "context", c); (L "exten", e)] ++ [(L "prio", q)])) T0) by (cbn [app]; say).
  assert (S3 : forall s, NL s -> MOk (memit E_DP_GOTO_CONTEXT_NOLABEL (j_where j) ([(L "context", c); (L "exten", e)] ++ [(L "label", AStr s)])) T0) by (intros s HS; cbn [app]; say).
  assert (S4 : forall s, NL s -> MOk (memit E_DP_GOTO_NOLABEL (j_where j) ([(L "context", c); (L "exten", e)] ++ [(L "label", AStr s)])) T0) by (intros s HS; cbn [app]; say).
  assert (M1 : MOk (match j_prio j with JTok (TS s) => if all_label d s then mret tt else memit E_DP_GOTO_NOLABEL (j_where j) ([(L "context", c); (L "exten", e)] ++ [(L "label", AStr s)]) | _ => mret tt end) T0).
  { destruct (j_prio j) as [|[]|]; try (now apply mok_ret). destruct (all_label d s); [now apply mok_ret|]. now apply S4. }
  destruct (j_ctx j) as [name| | | | | | |]; try exact M1.
  destruct (find_ctx name (dp_ctxs d)) as [k|]; [|exact S1].
  assert (M2 : MOk (match j_prio j with JTok (TS s) => if has_label k s then mret tt else memit E_DP_GOTO_CONTEXT_NOLABEL (j_where j) ([(L "context", c); (L "exten", e)] ++ [(L "label", AStr s)]) | _ => mret tt end) T0).
  { destruct (j_prio j) as [|[]|]; try (now apply mok_ret). destruct (has_label k s); [now apply mok_ret|]. now apply S3. }
  destruct (j_ext j); try exact M2. seq (fun _ : option ext => True); [now apply mok_lift|]. destruct a; [now apply mok_ret|exact S2].
Qed.
Lemma walk_ok d : DOk d -> MOk (walk_jump_destinations d) T0.
Proof.
  intros [_ D]. unfold walk_jump_destinations. induction D as [|j js Hj H IH]; cbn [walk_jumps]; [now apply mok_ret|].
  seq (fun _ : unit => True); [now apply check_jump_ok|exact IH].
Qed.
