(* Proofs for C61: what applications say. *)
From Coq Require Import ZifyBool ZifyN ZifyNat.
From Verif Require Import Base PyStr Defines Var VarFun AppM Flat_proofs.

(* ---- messages ---- *)
Definition rp_ok (x : rp) : Prop := match x with RLit s => NL s | _ => True end.
Definition AOk (quoted : bool) (a : arg) : Prop :=
  match a with
  | AStr s => quoted = true \/ NL s
  | AObj s r => Forall rp_ok r /\ (quoted = true \/ forall x, s = Ok x -> NL x)
  | AList r | AShown r => Forall rp_ok r
  | _ => True
  end.
Definition FieldsOk (c : mcls) (args : list (str * arg)) : Prop :=
  Forall (fun fb => OOk (AOk (snd fb)) (lookup (fst fb) args)) (mfields c).
Definition MsgOk (m : msg) : Prop := NL (w_file (m_where m)) /\ FieldsOk (m_cls m) (m_args m).
Definition LevOk (e : lev) : Prop := match e with LMsg m => MsgOk m | LBg _ w => NL (w_file w) | _ => True end.

Lemma trepr_ok t : Forall rp_ok (trepr t).
Proof. destruct t; cbn [trepr]; repeat (constructor; [first [exact I|nlit]|]); constructor. Qed.
Lemma lrepr_ok l : Forall rp_ok (lrepr l).
Proof.
  destruct l as [|x l]; cbn [lrepr]; [constructor; [nlit|constructor]|]. constructor; [nlit|].
  apply Forall_app. split; [apply trepr_ok|]. apply Forall_app. split; [|constructor; [nlit|constructor]].
  induction l as [|y l IH]; cbn [flat_map]; [constructor|]. cbn [app]. constructor; [nlit|]. apply Forall_app. split; [apply trepr_ok|easy].
Qed.
Lemma targ_ok q t : TOk t -> AOk q (targ t).
Proof.
  intros T. assert (K : AOk q (AObj (str_of t) (trepr t))).
  { split; [apply trepr_ok|]. right. intros x E. exact (str_of_ok _ _ E T). }
  destruct t; try exact K. now right.
Qed.
Lemma larg_ok q l : AOk q (larg l).
Proof. apply lrepr_ok. Qed.

(* ---- the monad ---- *)
Definition MOk {A} (m : M A) (R : A -> Prop) : Prop := Forall LevOk (fst m) /\ forall a, snd m = Ok a -> R a.
Lemma mok_ret {A} (a : A) (R : A -> Prop) : R a -> MOk (mret a) R.
Proof. intros H. split; [constructor|]. now intros x [= <-]. Qed.
Lemma mok_exn {A} e (R : A -> Prop) : MOk (mexn e) R.
Proof. split; [constructor|easy]. Qed.
Lemma mok_hang {A} (R : A -> Prop) : MOk ([], Hang) R.
Proof. split; [constructor|easy]. Qed.
Lemma mok_lift {A} (r : res A) (R : A -> Prop) : (forall a, r = Ok a -> R a) -> MOk (mlift r) R.
Proof. intros H. split; [constructor|exact H]. Qed.
Lemma mok_log e (R : unit -> Prop) : LevOk e -> R tt -> MOk (mlog e) R.
Proof. intros E H. split; [now repeat constructor|]. now intros []. Qed.
Lemma mok_bind {A B} (m : M A) (f : A -> M B) (R : A -> Prop) (S : B -> Prop) : MOk m R -> (forall a, R a -> MOk (f a) S) -> MOk (mbind m f) S.
Proof.
  destruct m as [l [a| |]]; intros [H1 H2] F; cbn [fst snd] in *; (split; [|try easy]).
  - cbn. destruct (F a (H2 a eq_refl)) as [F1 _]. apply Forall_app. now split.
  - cbn. destruct (F a (H2 a eq_refl)) as [_ F2]. exact F2.
  - exact H1.
  - exact H1.
Qed.
Lemma mok_mono {A} (m : M A) (R S : A -> Prop) : (forall a, R a -> S a) -> MOk m R -> MOk m S.
Proof. intros H [A1 A2]. split; [easy|]. auto. Qed.
Lemma mok_w c w prev args (R : unit -> Prop) : NL (w_file w) -> FieldsOk c args -> R tt -> MOk (mw (emit c w prev args)) R.
Proof.
  intros W F HR. unfold mw, emit. assert (K : MOk (map LMsg [Msg c w prev args], format_ok (mfields c) args) R).
  { split; [constructor; [now split|constructor]|]. now intros []. }
  destruct (mdupe c), prev; try exact K. split; [constructor|easy].
Qed.
Lemma mok_emit c w args (R : unit -> Prop) : NL (w_file w) -> FieldsOk c args -> R tt -> MOk (memit c w args) R.
Proof. apply mok_w. Qed.

Ltac eqbs := repeat match goal with |- context [str_eqb ?a ?b] => let r := eval vm_compute in (str_eqb a b) in change (str_eqb a b) with r end.
Ltac field1 := cbn [fst snd lookup]; eqbs; cbn [OOk]; cbv iota beta; try assumption; cbn [AOk]; cbv iota beta;
  first [exact I | assumption | now left | now right | apply targ_ok; assumption | apply larg_ok | apply lrepr_ok | idtac].
Ltac fields := unfold FieldsOk; cbn [mfields]; repeat (apply Forall_cons; [solve [field1]|]); try apply Forall_nil.
Ltac say := apply mok_emit; [assumption|fields|try exact I].
Notation T0 := (fun _ => True).
Ltac seq R := apply (mok_bind _ _ R); [|let a := fresh "a" in let H := fresh "HA" in intros a H].

(* ---- variables and functions ---- *)
Section Flat.
Variable U : uni.
Variable FT : ftable.
Variable AT : atable.
Variable w : loc.
Hypothesis W : NL (w_file w).

Lemma func_get_ok l : MOk (func_get FT l) T0.
Proof.
  unfold func_get. destruct (lookup l FT); [|destruct (lookup (L "unknown") FT); [|apply mok_exn]]; (seq (fun _ : unit => True); [now apply mok_log|now apply mok_ret]).
Qed.
Lemma func_check_ok f : MOk (func_check U FT f w) T0.
Proof.
  unfold func_check. seq (fun _ : finfo => True); [apply func_get_ok|]. seq (fun _ : unit => True); [|now apply mok_ret].
  destruct (str_eqb (f_name a) f); [now apply mok_ret|]. destruct (str_eqb (f_name a) (L "UNKNOWN")); say.
Qed.
Lemma count_var_ok v : NL v -> MOk (count_var v w) T0.
Proof.
  intros V. unfold count_var. seq (fun _ : unit => True); [|now apply mok_log]. destruct (forallb _ v); [now apply mok_ret|]. say.
Qed.
Lemma sl_arg_ok q s : SOk s -> AOk q (sl_arg s).
Proof.
  destruct s as [t|l]; cbn [sl_arg SOk]; intros H; [|apply lrepr_ok]. destruct (str_of t) eqn:E; [|exact I|exact I]. right. exact (str_of_ok _ _ E H).
Qed.
Lemma base_call_ok d : SOk d -> MOk (base_call d w) T0.
Proof.
  intros D. unfold base_call. destruct (check_balance _) as [[]|e|]; [now apply mok_ret| |apply mok_hang]. destruct (is_value_error e); [|apply mok_exn].
  seq (fun _ : unit => True); [now apply mok_lift|]. apply mok_emit; [assumption| |exact I]. unfold FieldsOk. cbn [mfields]. constructor; [|constructor].
  cbn [fst snd lookup]; eqbs; cbv iota. apply sl_arg_ok, D.
Qed.
Lemma last_ok l x : Forall TOk l -> last_opt l = Some x -> TOk x.
Proof.
  induction l as [|y l IH]; [easy|]. intros H E. inversion H; subst. destruct l; [now injection E as <-|]. now apply IH.
Qed.
Lemma removelast_ok l : Forall TOk l -> Forall TOk (removelast l).
Proof. induction 1 as [|x l Hx H IH]; [constructor|]. cbn [removelast]. destruct l; [constructor|now constructor]. Qed.
Lemma process_write_ok call d : (forall f s, SOk s -> MOk (call f s w) T0) -> TOk d -> MOk (process_write U FT call d w) T0.
Proof.
  intros C D. unfold process_write. destruct (tin 40 d); [|apply mok_exn]. seq (Forall TOk); [apply mok_lift; intros a; now apply vsplit_ok|].
  destruct a as [|func [|args [|]]]; try apply mok_exn. inversion HA as [|? ? H1 HB]; subst. inversion HB as [|? ? H2 _]; subst.
  destruct (last_opt (items args)); [|apply mok_exn]. destruct (tok_isc t 41); [|apply mok_exn]. destruct func; try apply mok_exn.
  seq (fun _ : finfo => True); [apply func_check_ok|]. apply C. apply slice_ok. now apply removelast_ok, items_ok.
Qed.
Lemma assignment_ok call d : (forall f s, SOk s -> MOk (call f s w) T0) -> SOk d -> MOk (parse_assignment U FT call d w) T0.
Proof.
  intros C D. unfold parse_assignment. destruct (negb (sl_truthy d)); [say|]. destruct d as [t|l]; [|apply mok_exn].
  seq (Forall TOk); [apply mok_lift; intros a; now apply vsplit_ok|].
  destruct a as [|dest [|v [|]]]; try say. inversion HA as [|? ? H1 HB]; subst.
  seq (fun _ : unit => True).
  { destruct (tin 32 dest); [say|now apply mok_ret]. }
  destruct (last_opt (items dest)); [|now apply mok_ret]. destruct (tok_isc t0 41); [now apply process_write_ok|now apply mok_ret].
Qed.
Lemma func_call_ok k : forall f d, SOk d -> MOk (func_call U FT k f d w) T0.
Proof.
  induction k as [|k IH]; intros f d D; cbn [func_call]; [apply mok_hang|]. destruct (f_kind f).
  - now apply base_call_ok.
  - seq (fun _ : unit => True); [now apply assignment_ok|now apply base_call_ok].
  - seq (fun _ : unit => True); [now apply base_call_ok|]. destruct d as [[]|]; try apply mok_exn. now apply count_var_ok.
  - seq (fun _ : unit => True); [|now apply base_call_ok]. destruct d as [[]|]; try now apply mok_ret. destruct (smem s audio_args); [now apply mok_ret|]. say.
Qed.
Lemma assign_ok d : TOk d -> MOk (assign U FT d w) T0.
Proof. intros D. apply assignment_ok; [|easy]. intros f s. apply func_call_ok. Qed.

Lemma sl_start_ok st ln : OOk TOk st -> OOk TOk ln -> MOk (sl_start U st ln w) (fun y => OOk NOk (fst y) /\ OOk TOk (snd y)).
Proof.
  intros A B. unfold sl_start. destruct st as [t|]; [|now apply mok_ret]. assert (K : MOk (mret (Some (NV t), ln)) (fun y => OOk NOk (fst y) /\ OOk TOk (snd y))) by now apply mok_ret.
  destruct t; try exact K. destruct (int_like U s).
  - seq (fun _ : Z => True); [now apply mok_lift|now apply mok_ret].
  - seq (fun _ : unit => True); [say|now apply mok_ret].
Qed.
Lemma sl_length_ok st ln : OOk NOk st -> OOk TOk ln -> MOk (sl_length U st ln w) (fun y => OOk NOk (fst y) /\ OOk NOk (snd y)).
Proof.
  intros A B. unfold sl_length. destruct ln as [t|]; [|now apply mok_ret]. assert (K : MOk (mret (st, Some (NV t))) (fun y => OOk NOk (fst y) /\ OOk NOk (snd y))) by now apply mok_ret.
  destruct t; try exact K. destruct (int_like U s).
  - seq (fun _ : Z => True); [now apply mok_lift|]. seq (fun _ : bool => True); [destruct (a =? 0)%Z; [now apply mok_ret|]; destruct st as [[]|]; try apply mok_exn; now apply mok_ret|].
    destruct a0; [|now apply mok_ret]. seq (fun _ : unit => True); [say|now apply mok_ret].
  - seq (fun _ : unit => True); [say|now apply mok_ret].
Qed.
Definition SplitOk (y : tok * option (num tok) * option (num tok)) : Prop := TOk (fst (fst y)) /\ OOk NOk (snd (fst y)) /\ OOk NOk (snd y).
Lemma split_slice_ok d : TOk d -> MOk (split_slice U d w) SplitOk.
Proof.
  intros D. unfold split_slice. seq (Forall TOk); [apply mok_lift; intros a; now apply vsplit_ok|].
  seq (fun y : tok * option tok * option tok => TOk (fst (fst y)) /\ OOk TOk (snd (fst y)) /\ OOk TOk (snd y)).
  { assert (K : forall v r, Forall TOk (v :: r) -> MOk (do* _ <- memit E_VAR_SUBSTR_ARGS w [(L "data", targ d)]; mret (v, @None tok, @None tok)) (fun y => TOk (fst (fst y)) /\ OOk TOk (snd (fst y)) /\ OOk TOk (snd y))).
    { intros v r HV. seq (fun _ : unit => True); [say|]. apply mok_ret. inversion HV; subst. now repeat split. }
    destruct a as [|v [|s [|l [|]]]]; [apply mok_exn|now apply (K v [])| | |exact (K _ _ HA)];
    repeat match goal with H : Forall TOk (_ :: _) |- _ => inversion H; subst; clear H end; apply mok_ret; now repeat split. }
  destruct a0 as [[v s] l]. cbn [fst snd] in HA0. destruct HA0 as (H1 & H2 & H3).
  seq (fun y : option (num tok) * option tok => OOk NOk (fst y) /\ OOk TOk (snd y)); [now apply sl_start_ok|]. destruct HA0 as [H4 H5].
  seq (fun y : option (num tok) * option (num tok) => OOk NOk (fst y) /\ OOk NOk (snd y)); [now apply sl_length_ok|]. destruct HA0 as [H6 H7].
  assert (K : MOk (mret (v, fst a1, snd a1)) SplitOk) by now apply mok_ret.
  destruct a1 as [[[[]|]|] [|]]; cbn [fst snd] in *; try exact K. seq (fun _ : unit => True); [say|]. apply mok_ret. now repeat split.
Qed.
Lemma cut_first_ok c l a b : Forall TOk l -> cut_first c l = Some (a, b) -> Forall TOk a /\ Forall TOk b.
Proof.
  revert a b. induction l as [|x l IH]; intros a b H; cbn [cut_first]; [easy|]. inversion H; subst. destruct (tok_isc x c); [intros [= <- <-]; now split|].
  destruct (cut_first c l) as [[a' b']|]; [|easy]. intros [= <- <-]. destruct (IH a' b') as [A B]; [easy|easy|]. split; [now constructor|easy].
Qed.
Lemma cut_last_ok c l a b : Forall TOk l -> cut_last c l = Some (a, b) -> Forall TOk a /\ Forall TOk b.
Proof.
  revert a b. induction l as [|x l IH]; intros a b H; cbn [cut_last]; [easy|]. inversion H; subst. destruct (cut_last c l) as [[a' b']|].
  - intros [= <- <-]. destruct (IH a' b') as [A B]; [easy|easy|]. split; [now constructor|easy].
  - destruct (tok_isc x c); [|easy]. intros [= <- <-]. now split.
Qed.
Lemma mk_slice_ok v s l t : TOk v -> mk_slice v s l = Ok t -> TOk t.
Proof. intros V. unfold mk_slice. destruct l; [destruct (slice_endpos s z); cbn [bind]; try easy|]; intros E; apply ok_inj in E as <-; exact V. Qed.
Lemma mk_func_slice_ok f a s l t : NL f -> TOk a -> NOk s -> OOk NOk l -> mk_func_slice f a s l = Ok t -> TOk t.
Proof.
  intros F A S O E. assert (t = TFuncS f a s l) as ->; [|now apply tok_funcs].
  unfold mk_func_slice in E. destruct l as [[l|v]|]; [|now injection E as <-|now injection E as <-]. destruct s as [s|v].
  - destruct (slice_endpos s l); cbn [bind] in E; try easy. now injection E as <-.
  - destruct (l =? 0)%Z; [easy|]. destruct (l <? 0)%Z; [now injection E as <-|easy].
Qed.
Lemma process_read_ok d : TOk d -> MOk (process_read U FT d w) TOk.
Proof.
  intros D. unfold process_read. destruct (cut_first 40 (items d)) as [[before after]|] eqn:E; [|apply mok_exn].
  apply cut_first_ok in E as [HB HAf]; [|now apply items_ok]. set (func := slice_of d before). assert (HF : SOk func) by now apply slice_ok.
  destruct (negb (sl_truthy func)); [apply mok_exn|].
  assert (J : forall its, Forall TOk its -> TOk (vjoin (sl_items (slice_of d its)))) by (intros its H; now apply vjoin_ok, sl_items_ok, slice_ok).
  seq (fun y : tok * tok => TOk (fst y) /\ TOk (snd y)).
  { destruct (cut_last 41 after) as [[a t]|] eqn:E.
    - apply cut_last_ok in E as [A B]; [|easy]. apply mok_ret. split; now apply J.
    - seq (fun _ : unit => True); [say|]. apply mok_ret. split; [now apply J|constructor]. }
  destruct a as [args tail]. cbn [fst snd] in HA. destruct HA as [H1 H2].
  seq (fun y : option (num tok) * option (num tok) => OOk NOk (fst y) /\ OOk NOk (snd y)).
  { destruct (truthy tail); [|now apply mok_ret]. seq SplitOk; [now apply split_slice_ok|]. destruct a as [[v st] ln]. destruct HA as (A & B & C). cbn [fst snd] in *.
    destruct (truthy v); [|now apply mok_ret]. seq (fun _ : unit => True); [say|now apply mok_ret]. }
  destruct HA as [H3 H4]. destruct func as [t|l]; [|apply mok_exn]. cbn [SOk] in HF.
  assert (K : MOk (do* _ <- memit W_FUNC_DYNAMIC w [(L "func", targ t)]; mexn KeyError) TOk).
  { seq (fun _ : unit => True); [|apply mok_exn]. say. }
  destruct t; try exact K. seq (fun _ : finfo => True); [apply func_check_ok|].
  seq (fun _ : unit => True); [now apply func_call_ok|]. apply mok_lift. intros x E. unfold read_result in E.
  destruct (fst a) as [st|] eqn:EF; [|injection E as <-; now apply tok_func]. cbn [OOk] in H3. exact (mk_func_slice_ok _ _ _ _ _ HF H1 H3 H4 E).
Qed.
Lemma process_slice_ok d : TOk d -> MOk (process_slice U d w) TOk.
Proof.
  intros D. unfold process_slice. seq SplitOk; [now apply split_slice_ok|]. destruct a as [[v st] ln]. destruct HA as (A & B & C). cbn [fst snd] in *.
  seq (fun _ : unit => True); [destruct v; try (now apply mok_ret); []; now apply count_var_ok|].
  destruct st as [st|]; [|now apply mok_ret]. assert (K : TOk (TDyn v st ln)) by now apply tok_dyn.
  destruct st as [s|]; [|now apply mok_ret]. destruct ln as [[l|]|]; try now apply mok_ret.
  apply mok_lift. intros t. now apply mk_slice_ok.
Qed.
Lemma process_variable_ok d : TOk d -> MOk (process_variable U FT d w) TOk.
Proof.
  intros D. unfold process_variable. destruct (tin 40 d); [now apply process_read_ok|]. destruct (tin 58 d); [now apply process_slice_ok|].
  seq (fun _ : unit => True); [destruct d; try (now apply mok_ret); []; now apply count_var_ok|now apply mok_ret].
Qed.
Lemma scan_sub d a x b : scan d = Some (a, x, b) -> NL d -> NL a /\ NL b.
Proof.
  revert a x b. induction d as [|c r IH]; intros a x b; cbn [scan]; [easy|]. intros E H. inversion H; subst.
  assert (K : match scan r with Some (a, x, b) => Some (c :: a, x, b) | None => None end = Some (a, x, b) -> NL a /\ NL b).
  { destruct (scan r) as [[[a' x'] b']|]; [|easy]. intros [= <- <- <-]. destruct (IH a' x' b' eq_refl) as [A B]; [easy|]. split; [now constructor|easy]. }
  destruct (c =? 36); [|now apply K]. destruct r as [|y r']; [now apply K|]. destruct (is_open y); [|now apply K]. injection E as <- <- <-.
  split; [constructor|]. now inversion H3.
Qed.
Lemma find_end_sub ob cb d : forall n a b m, find_end ob cb n d = Some (a, b, m) -> NL d -> NL a /\ NL b.
Proof.
  induction d as [|c r IH]; intros n a b m; cbn [find_end]; [easy|]. intros E H. inversion H; subst. destruct (c =? 36).
  - destruct (find_end ob cb n r) as [[[a' b'] m']|] eqn:F; [|easy]. injection E as <- <- _. destruct (IH _ _ _ _ F) as [A B]; [easy|]. split; [now constructor|easy].
  - cbv zeta in E. destruct (if c =? ob then S n else if c =? cb then pred n else n) as [|n'].
    + injection E as <- <- _. split; [constructor|easy].
    + destruct (find_end ob cb (S n') r) as [[[a' b'] m']|] eqn:F; [|easy]. injection E as <- <- _. destruct (IH _ _ _ _ F) as [A B]; [easy|]. split; [now constructor|easy].
Qed.
Lemma parse_loop_ok k : forall acc d, Forall TOk acc -> NL d -> MOk (parse_loop U FT k acc d w) TOk.
Proof.
  induction k as [|k IH]; intros acc d A D; cbn [parse_loop]; [apply mok_hang|]. destruct (scan d) as [[[pre x] rest]|] eqn:E.
  - apply scan_sub in E as [P R]; [|easy]. destruct (find_end x (close_of x) 1 rest) as [[[inner rest'] more]|] eqn:F; [|apply mok_exn].
    apply find_end_sub in F as [HI R']; [|easy]. seq TOk; [destruct more; [apply IH; [constructor|easy]|now apply mok_ret]|].
    seq TOk; [destruct (x =? 123); [now apply process_variable_ok|now apply mok_ret]|]. apply IH; [|easy]. now repeat constructor.
  - apply mok_ret, vjoin_ok, Forall_rev. now constructor.
Qed.
Lemma parse_variables_ok d : NL d -> MOk (parse_variables U FT d w) TOk.
Proof. intros D. apply parse_loop_ok; [constructor|easy]. Qed.

(* ---- applications ---- *)
Lemma seq_slice_ok d its : SOk d -> Forall TOk its -> Forall TOk (seq_slice d its).
Proof. intros D H. destruct d; cbn [seq_slice]; [now apply sl_items_ok, slice_ok|easy]. Qed.
Lemma sep_ok d dl rm l : SOk d -> Forall TOk l -> forall b p q sk cur pend, Forall TOk cur -> Forall TOk pend ->
  Forall (Forall TOk) (sep d dl rm b p q sk cur pend l).
Proof.
  intros D. induction l as [|x l IH]; intros HL b p q sk cur pend C P; cbn [sep].
  - constructor; [|constructor]. apply Forall_app. split; [easy|]. apply seq_slice_ok; [easy|now apply Forall_rev].
  - inversion HL; subst. cbv zeta. assert (F : Forall TOk (cur ++ seq_slice d (rev pend))).
    { apply Forall_app. split; [easy|]. apply seq_slice_ok; [easy|now apply Forall_rev]. }
    assert (K : forall b p q sk, Forall (Forall TOk) (sep d dl rm b p q sk cur (x :: pend) l)) by (intros; apply IH; [easy|easy|now constructor]).
    assert (G : forall b p q sk, Forall (Forall TOk) (sep d dl rm b p q sk (cur ++ seq_slice d (rev pend)) [] l)) by (intros; apply IH; [easy|easy|constructor]).
    repeat match goal with |- Forall _ (if ?c then _ else _) => destruct c; try apply K; try apply G end. constructor; [easy|]. apply IH; [easy|constructor|constructor].
Qed.
Lemma squash_ok l : Forall TOk l -> TOk (squash l).
Proof.
  intros H. unfold squash, strjoin. pose proof (strjoin_ok l None I H) as S. destruct (strjoin_from None l) as [|x [|y r]]; [constructor|now inversion S|now apply vjoin_ok].
Qed.
Lemma separate_ok d dl rm : SOk d -> Forall TOk (separate_args d dl rm).
Proof.
  intros D. unfold separate_args. apply Forall_map. eapply Forall_impl; [|apply sep_ok; [exact D|now apply sl_items_ok|constructor|constructor]]. intros l. apply squash_ok.
Qed.
Lemma minmax_ok n mn mx args : MOk (minmax n mn mx args w) T0.
Proof.
  unfold minmax. cbv zeta. match goal with |- MOk (if ?c then _ else _) _ => destruct c end.
  - apply mok_emit; [assumption| |exact I]. destruct mn; fields.
  - destruct mx; [|now apply mok_ret]. destruct (Nat.ltb _ _); [say|now apply mok_ret].
Qed.
Lemma nopipe_ok n d args : TOk d -> MOk (nopipe n d args w) T0.
Proof.
  intros D. unfold nopipe. destruct args as [|a [|]]; try now apply mok_ret. destruct (tin 124 a); [say|now apply mok_ret].
Qed.
Lemma validate_arg_ok n i k a : TOk a -> MOk (validate_arg n i k a w) T0.
Proof.
  intros A. unfold validate_arg. cbv zeta. destruct k; [now apply mok_ret| |].
  - seq (fun _ : unit => True); [|destruct (has_dup _); [say|now apply mok_ret]]. match goal with |- context [filter ?f ?l] => destruct (filter f l) as [|x r] end; [now apply mok_ret|].
    say.
  - destruct (tok_is a _ || tok_is a _); [now apply mok_ret|say].
Qed.
Lemma validate_ok n ks : forall i args, Forall TOk args -> MOk (validate n i ks args w) T0.
Proof.
  induction ks as [|k ks IH]; intros i args H; cbn [validate]; [now apply mok_ret|]. destruct args; [now apply mok_ret|]. inversion H; subst.
  seq (fun _ : unit => True); [now apply validate_arg_ok|now apply IH].
Qed.
Definition IfOk (x : tok * sliced * option tok) : Prop := TOk (fst (fst x)) /\ SOk (snd (fst x)) /\ OOk TOk (snd x).
Lemma if_args_ok n d : TOk d -> MOk (if_args n d w) IfOk.
Proof.
  intros D. unfold if_args. cbv zeta. seq IfOk.
  - pose proof (separate_ok (SlTok d) 63 true D) as S1. pose proof (separate_ok (SlTok d) 44 false D) as S2.
    assert (K : MOk match separate_args (SlTok d) 44 false with
      | c :: more => do* _ <- (match more with [] => memit E_APP_ARG_FEW w [(L "app", AStr n); (L "data", targ d); (L "min_args", zn 2)]
                     | _ => memit E_APP_ARG_IFSTYLE w [(L "app", AStr n); (L "data", targ d); (L "cond", targ c); (L "args", larg more)] end);
                     mret (c, SlList more, None)
      | [] => mexn IndexError end IfOk).
    { destruct (separate_args (SlTok d) 44 false) as [|c more]; [apply mok_exn|]. inversion S2; subst.
      seq (fun _ : unit => True); [destruct more; say|]. apply mok_ret. now repeat split. }
    destruct (separate_args (SlTok d) 63 true) as [|c [|act more]]; [exact K|exact K|].
    repeat match goal with H : Forall TOk (_ :: _) |- _ => inversion H; subst; clear H end.
    seq (fun _ : unit => True); [destruct more; [now apply mok_ret|say]|].
    pose proof (separate_ok (SlTok act) 58 false ltac:(easy)) as S3. destruct (separate_args (SlTok act) 58 false) as [|t [|f r]]; [apply mok_exn| |];
    repeat match goal with H : Forall TOk (_ :: _) |- _ => inversion H; subst; clear H end; apply mok_ret; now repeat split.
  - destruct a as [[c t] f]. destruct HA as (A & B & C). cbn [fst snd] in *. seq TOk; [apply mok_lift; intros x; now apply vstrip_ok|].
    seq (fun _ : unit => True); [destruct (tok_is a []); [say|now apply mok_ret]|]. apply mok_ret. now repeat split.
Qed.
Lemma varcond_ok n d : TOk d -> MOk (varcond_args n d w) IfOk.
Proof.
  intros D. unfold varcond_args. seq IfOk; [now apply if_args_ok|]. destruct a as [[c t] f]. destruct HA as (A & B & C). cbn [fst snd] in *.
  seq (fun _ : unit => True); [|apply mok_ret; now repeat split]. destruct (_ && _); [say|now apply mok_ret].
Qed.
Definition DestOk (d : dest) : Prop := OOk TOk (d_ctx d) /\ OOk TOk (d_ext d) /\ SOk (d_prio d).
Lemma pad_loop_ok k : forall l l', Forall (OOk TOk) l -> pad_loop k l = Ok l' -> Forall (OOk TOk) l'.
Proof.
  induction k as [|k IH]; intros l l' H; cbn [pad_loop]; destruct (Nat.eqb _ _); try easy; try (now intros [= <-]). apply IH. now constructor.
Qed.
Lemma to_dest_ok l d : Forall (OOk TOk) l -> to_dest l = Ok d -> DestOk d.
Proof.
  intros H. unfold to_dest. destruct l as [|c [|e [|[p|] [|]]]]; try easy. intros [= <-]. repeat match goal with H : Forall _ (_ :: _) |- _ => inversion H; subst; clear H end. now repeat split.
Qed.
Lemma some_ok l : Forall TOk l -> Forall (OOk TOk) (map Some l).
Proof. intros H. apply Forall_map. exact H. Qed.
Lemma goto_dest_ok args d : Forall TOk args -> goto_dest args = Ok d -> DestOk d.
Proof.
  intros H. unfold goto_dest. destruct (pad_loop 3 (map Some args)) as [l| |] eqn:E; cbn [bind]; try easy. apply to_dest_ok. exact (pad_loop_ok _ _ _ (some_ok _ H) E).
Qed.
Lemma gosub_prio_ok p : TOk p -> MOk (gosub_prio p w) SOk.
Proof.
  intros P. unfold gosub_prio. destruct (cut_first 40 (items p)) as [[before r]|] eqn:E; [|now apply mok_ret].
  apply cut_first_ok in E as [B _]; [|now apply items_ok]. seq (fun _ : unit => True); [|apply mok_ret; now apply slice_ok].
  destruct (last_opt (items p)); [|apply mok_exn]. destruct (tok_isc t 41); [now apply mok_ret|say].
Qed.
Lemma excess_ok l : Forall TOk l -> Forall TOk (excess l).
Proof.
  intros H. destruct H as [|x l Hx H]; cbn [excess]; [constructor|]. constructor; [easy|]. induction H as [|y l Hy H IH]; cbn [flat_map]; [constructor|].
  cbn [app]. constructor; [nlit|]. now constructor.
Qed.
Lemma firstn_ok {A} (R : A -> Prop) n l : Forall R l -> Forall R (firstn n l).
Proof. intros H. rewrite <- (firstn_skipn n l) in H. now apply Forall_app in H. Qed.
Lemma skipn_ok {A} (R : A -> Prop) n l : Forall R l -> Forall R (skipn n l).
Proof. intros H. rewrite <- (firstn_skipn n l) in H. now apply Forall_app in H. Qed.
Lemma gosub_dest_ok n b args : Forall TOk args -> MOk (gosub_dest n b args w) DestOk.
Proof.
  intros H. unfold gosub_dest. seq (Forall TOk).
  - destruct (Nat.ltb 3 (length args)); [|now apply mok_ret]. seq (fun _ : unit => True); [destruct b; [now apply mok_ret|say]|]. apply mok_ret.
    apply Forall_app. split; [now apply firstn_ok|]. constructor; [|constructor]. now apply vjoin_ok, excess_ok, skipn_ok.
  - assert (P : Forall (OOk TOk) (pad3 (map Some a))).
    { unfold pad3. apply Forall_app. split; [|now apply some_ok]. apply Forall_forall. intros x I. apply repeat_spec in I as ->. exact I. }
    destruct (pad3 (map Some a)) as [|c [|e [|[p|] [|]]]]; try apply mok_exn. repeat match goal with H : Forall _ (_ :: _) |- _ => inversion H; subst; clear H end.
    seq SOk; [now apply gosub_prio_ok|]. apply mok_ret. now repeat split.
Qed.
Lemma branches_ok t f : SOk t -> OOk TOk f -> Forall SOk (branches t f).
Proof.
  intros T F. unfold branches. apply incl_Forall with (l1 := t :: match f with Some x => [SlTok x] | None => [] end); [intros x; apply incl_filter|].
  constructor; [easy|]. destruct f; repeat constructor; easy.
Qed.
Lemma mmap_ok {A B} (f : A -> M B) (R : A -> Prop) (S : B -> Prop) l : (forall x, R x -> MOk (f x) S) -> Forall R l -> MOk (mmap f l) (Forall S).
Proof.
  intros F. induction 1 as [|x l Hx H IH]; cbn [mmap]; [apply mok_ret; constructor|]. seq S; [now apply F|]. seq (Forall S); [easy|]. apply mok_ret. now constructor.
Qed.
Lemma abase_ok d : TOk d -> MOk (abase_call d w) T0.
Proof.
  intros D. unfold abase_call. destruct (check_balance _) as [[]|e|]; [now apply mok_ret| |apply mok_hang]. destruct (is_value_error e); [|apply mok_exn].
  seq NL; [apply mok_lift; intros s E; exact (str_of_ok _ _ E D)|say].
Qed.
Lemma app_call_ok nested a d : (forall s, SOk s -> MOk (nested s) T0) -> TOk d -> MOk (app_call U FT nested a d w) (Forall DestOk).
Proof.
  intros N D. unfold app_call. cbv zeta.
  assert (SP : forall mn mx, MOk (do* _ <- minmax (a_name a) mn mx (separate_args (SlTok d) 44 false) w; mret (separate_args (SlTok d) 44 false)) (Forall TOk)).
  { intros mn mx. seq (fun _ : unit => True); [apply minmax_ok|]. apply mok_ret. now apply separate_ok. }
  assert (Z : MOk (mret []) (Forall DestOk)) by (apply mok_ret; constructor).
  destruct (a_kind a).
  - seq (fun _ : unit => True); [now apply abase_ok|exact Z].
  - seq (fun _ : unit => True); [now apply abase_ok|exact Z].
  - seq (Forall TOk); [apply SP|]. seq (fun _ : unit => True); [now apply nopipe_ok|]. seq DestOk; [apply mok_lift; intros x; now apply goto_dest_ok|]. apply mok_ret. constructor; [easy|constructor].
  - seq IfOk; [now apply varcond_ok|]. destruct a0 as [[c t] f]. destruct HA as (_ & A & B). cbn [fst snd] in *.
    apply (mmap_ok _ SOk); [|now apply branches_ok]. intros x X. apply mok_lift. intros y. apply goto_dest_ok. now apply separate_ok.
  - seq IfOk; [now apply if_args_ok|exact Z].
  - seq (fun _ : unit => True); [now apply assign_ok|]. seq (fun _ : unit => True); [now apply abase_ok|exact Z].
  - seq IfOk; [now apply varcond_ok|]. destruct a0 as [[c t] f]. destruct HA as (_ & A & B). cbn [fst snd] in *.
    seq (Forall (fun _ : unit => True)); [|exact Z]. apply (mmap_ok _ SOk); [exact N|now apply branches_ok].
  - seq (Forall TOk); [apply SP|]. seq (fun _ : unit => True); [now apply nopipe_ok|]. seq DestOk; [now apply gosub_dest_ok|]. apply mok_ret. constructor; [easy|constructor].
  - seq IfOk; [now apply varcond_ok|]. destruct a0 as [[c t] f]. destruct HA as (_ & A & B). cbn [fst snd] in *.
    apply (mmap_ok _ SOk); [|now apply branches_ok]. intros x X. apply gosub_dest_ok. now apply separate_ok.
  - seq (Forall TOk); [apply SP|]. seq (fun _ : unit => True); [now apply validate_ok|]. seq (fun _ : unit => True); [now apply nopipe_ok|exact Z].
Qed.
Lemma app_get_ok l : MOk (app_get AT l) T0.
Proof.
  unfold app_get. destruct (lookup l AT); [|destruct (lookup (L "unknown") AT); [|apply mok_exn]]; (seq (fun _ : unit => True); [now apply mok_log|now apply mok_ret]).
Qed.
Lemma availability_ok a s : MOk (check_availability a s w) T0.
Proof.
  unfold check_availability. assert (K : MOk (if str_eqb (a_name a) s then mret tt else if str_eqb (a_name a) (L "Unknown") then memit E_APP_MISSING w [(L "app", AStr s)]
    else memit W_APP_BAD_CASE w [(L "app", AStr s); (L "proper", AStr (a_name a))]) T0).
  { destruct (str_eqb (a_name a) s); [now apply mok_ret|]. destruct (str_eqb (a_name a) (L "Unknown")); say. }
  destruct (a_kind a); try exact K. now apply mok_log.
Qed.
Lemma parse_inner_ok app d : NL d -> MOk (parse_inner U FT app d w) TOk.
Proof.
  intros D. unfold parse_inner. destruct (has_sub d); [|now apply mok_ret]. pose proof (parse_variables_ok d D) as [P1 P2].
  destruct (parse_variables U FT d w) as [l [t|e|]]; cbn [fst snd] in *; try (split; [exact P1|easy]); try (split; [exact P1|exact P2]).
  destruct e; try (split; [exact P1|easy]). match goal with |- MOk (l ++ fst ?m, snd ?m) _ => assert (K : MOk m TOk) end.
  { seq (fun _ : unit => True); [say|now apply mok_ret]. }
  destruct K as [K1 K2]. split; [|exact K2]. apply Forall_app. now split.
Qed.
Lemma unparen_sub d : NL d -> NL (unparen d).
Proof.
  intros H. unfold unparen. destruct (_ && _); [|easy]. assert (NL (tl d)) by (destruct d; [easy|now inversion H]). clear H. induction H0 as [|x l Hx H IH]; [constructor|].
  cbn [removelast]. destruct l; [constructor|now constructor].
Qed.
Lemma split_app_ok t : TOk t -> MOk (split_app U t w) (OOk (fun y => NL (fst y) /\ NL (snd y))).
Proof.
  intros T. unfold split_app. seq (Forall TOk); [apply mok_lift; intros a; now apply vsplit_ok|].
  seq (fun y : tok * str => TOk (fst y) /\ NL (snd y)).
  - assert (K : MOk match t with
                   | TS s => do* _ <- (if str_eqb (u_lower U s) (L "noop") then mret tt
                                       else memit W_APP_NEED_PARENS w [(L "app", AStr s)]);
                             mret (t, L "()")
                   | _ => mexn AttributeError end (fun y => TOk (fst y) /\ NL (snd y))).
    { destruct t; try apply mok_exn. seq (fun _ : unit => True); [destruct (str_eqb _ _); [now apply mok_ret|say]|]. apply mok_ret. split; [easy|nlit]. }
    destruct a as [|app [|data [|]]]; try exact K. repeat match goal with H : Forall _ (_ :: _) |- _ => inversion H; subst; clear H end.
    seq NL; [apply mok_lift; intros s E; now apply (str_of_ok data)|]. apply mok_ret. split; [easy|]. constructor; [lia|easy].
  - destruct a0 as [app s]. cbn [fst snd] in *. destruct HA0 as [A B]. destruct app as [app| | | | | | |]; try apply mok_exn.
    destruct (negb _); [seq (fun _ : unit => True); [say|now apply mok_ret]|]. seq (fun _ : unit => True); [destruct (str_eqb _ _); [now apply mok_ret|say]|].
    assert (NL (lstrip_p isspace app)) by (eapply nl_sub; [intros c; apply lstrip_sub|exact A]).
    destruct (lstrip_p isspace app) as [|x r]; [seq (fun _ : unit => True); [say|now apply mok_ret]|]. apply mok_ret. split; [easy|now apply unparen_sub].
Qed.
Lemma app_new_ok k : forall raw, SOk raw -> MOk (app_new U FT AT k raw w) (Forall DestOk).
Proof.
  induction k as [|k IH]; intros raw R; cbn [app_new]; [apply mok_hang|]. destruct raw as [t|]; [|apply mok_exn].
  seq (OOk (fun y : str * str => NL (fst y) /\ NL (snd y))); [now apply split_app_ok|]. destruct a as [[app data]|]; [|apply mok_ret; constructor]. destruct HA as [A B]. cbn [fst snd] in *.
  seq (fun _ : ainfo => True); [apply app_get_ok|]. seq (fun _ : unit => True); [apply availability_ok|]. seq TOk; [now apply parse_inner_ok|].
  apply app_call_ok; [|easy]. intros s S. seq (Forall DestOk); [now apply IH|now apply mok_ret].
Qed.
Lemma application_ok raw : NL raw -> MOk (application U FT AT raw w) (Forall DestOk).
Proof. intros R. now apply app_new_ok. Qed.
End Flat.
