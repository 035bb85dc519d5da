(* Proofs for C66: what is done to a line. *)
From Coq Require Import ZifyBool ZifyN ZifyNat Sorting.Sorted.
From Verif Require Import Base PyStr Utf8 Defines FileRd Config VSpace Pattern VarFun AppM Dialplan Commands Mutator MakeCanon
  Spec_Pattern Spec_VarFun Spec_Dialplan Spec_File Spec_Config Spec_VSpace Spec_Include Spec_Reader Spec_Log Spec_Run Spec_Mutator Spec_MakeCanon MakeCanon_proofs MakeCanonL_proofs.
From Verif Require Pattern_proofs Utf8_proofs File_proofs Include_proofs Mutator_proofs.
Import Spec_File.

(* ---- bytes of a text ---- *)
Definition Enc (k : bool) (s : str) (b : bytes) : Prop := if k then Utf8 s b else Forall2 Cp1252 b s.
Lemma cp_low b c : Cp1252 b c -> b < 128 \/ c < 128 -> b = c.
Proof.
  intros [I|[_ ->]]; [|easy]. intros H. exfalso. assert (F : Forall (fun x => 128 <= fst x /\ 128 <= snd x) cp1252_table) by (repeat constructor; cbn; lia).
  rewrite Forall_forall in F. apply F in I. cbn in I. lia.
Qed.
Lemma enc_split k s t b : Enc k (s ++ t) b -> exists b1 b2, b = b1 ++ b2 /\ Enc k s b1 /\ Enc k t b2.
Proof.
  destruct k; cbn; intros H.
  - apply File_proofs.Utf8_encode in H. apply Pattern_proofs.encode_split in H as (b1 & b2 & E1 & E2 & ->). exists b1, b2. rewrite !File_proofs.Utf8_encode. easy.
  - apply Forall2_app_inv_r in H as (b1 & b2 & H1 & H2 & ->). now exists b1, b2.
Qed.
Lemma enc_in k s b x : Enc k s b -> x < 128 -> In x b <-> In x s.
Proof.
  destruct k; cbn; intros H Hx.
  - apply File_proofs.Utf8_encode in H. now apply Pattern_proofs.utf8_In_ascii.
  - induction H as [|c d b s H1 _ IH]; [easy|]. cbn [In]. rewrite IH. split; (intros [E|E]; [left|now right]); subst.
    + symmetry. apply cp_low; [easy|now left].
    + apply cp_low; [easy|now right].
Qed.
Lemma enc_low k s b : Forall (fun c => c < 128) s -> Enc k s b -> b = s.
Proof.
  destruct k; cbn; intros F H.
  - apply File_proofs.Utf8_encode in H. rewrite Utf8_proofs.utf8_encode_ascii in H by easy. congruence.
  - induction H as [|c d b s H1 _ IH]; [easy|]. inversion F; subst. f_equal; [|auto]. apply cp_low; [easy|now right].
Qed.
Lemma enc_det s a b : Enc true s a -> Enc true s b -> a = b.
Proof. cbn. rewrite !File_proofs.Utf8_encode. congruence. Qed.
Lemma enc_nil k s : Enc k s [] -> s = [].
Proof.
  destruct k; cbn; intros H; [|now inversion H]. inversion H as [|c b s0 bs X Y E1 E2]; [easy|]. apply app_eq_nil in E2 as [-> _]. inversion X.
Qed.
Lemma enc_app k s t a b : Enc k s a -> Enc k t b -> Enc k (s ++ t) (a ++ b).
Proof.
  destruct k; cbn; [|apply Forall2_app]. induction 1 as [|c x s xs H1 _ IH]; intros H; [easy|]. cbn [app]. rewrite <- app_assoc. constructor; auto.
Qed.
Lemma decoded_enc b s : Decoded b s -> exists k, Enc k s b /\ ((exists s', Utf8 s' b) -> k = true).
Proof. intros [H|[N H]]; [now exists true|exists false]. split; [easy|]. intros (s' & X). now elim (N s'). Qed.

(* ---- the text before the comment ---- *)
Lemma unesc_prefix p q raw : ~ In 59 p -> Unesc raw (p ++ q) -> exists r, raw = p ++ r /\ Unesc r q.
Proof.
  revert raw. induction p as [|c p IH]; intros raw N H; [now exists raw|]. cbn [app] in H. inversion H as [|r d H1 E1 E2|c' r d X1 X2 H1 E1 E2]; subst; [elim N; now left|].
  destruct (IH _ (fun i => N (or_intror i)) H1) as (r' & -> & U). now exists r'.
Qed.
Lemma unesc_nil r : Unesc [] r -> r = [].
Proof. now inversion 1. Qed.
Lemma text_has w b s d k before after p q : LineRead w b s d k before after -> d = p ++ q -> ~ In 59 p ->
  exists t, s = p ++ t /\ (q <> [] -> t <> []).
Proof.
  intros (body & e & text & blanks & bare & _ & _ & _ & _ & E & -> & _ & _ & CS & _) -> N.
  assert (T : exists t, text = p ++ t /\ (q <> [] -> t <> [])).
  { inversion CS as [line data U|raw tx data0 data bl br U _ E0 _ _ _]; subst.
    - apply unesc_prefix in U as (r & -> & U); [|easy]. exists r. split; [easy|]. intros NE ->. now apply unesc_nil in U.
    - rewrite <- app_assoc in U. apply unesc_prefix in U as (r & -> & U); [|easy]. exists (r ++ 59 :: tx). rewrite <- app_assoc. split; [easy|]. intros _ X. now apply app_eq_nil in X. }
  destruct T as (t & -> & NT). inversion E; subst; rewrite <- ?app_assoc; eexists; (split; [reflexivity|]); intros NE X; apply app_eq_nil in X; now apply NT.
Qed.

(* ---- rewriting ---- *)
Lemma index_here c s t : ~ In c s -> index_of c (s ++ c :: t) = Some (length s).
Proof.
  induction s as [|x s IH]; cbn [app index_of length]; intros N; [now rewrite N.eqb_refl|].
  destruct (N.eqb_spec x c) as [->|_]; [elim N; now left|]. rewrite IH; [easy|]. intros X. apply N. now right.
Qed.
Lemma skip_gap c a b gap t : ~ In c gap -> replace_first (c :: a) b (gap ++ (c :: a) ++ t) = gap ++ b ++ t.
Proof.
  induction gap as [|x gap IH]; intros N.
  - cbn [app]. change (c :: a ++ t) with ((c :: a) ++ t). unfold replace_first. assert (S : startswith (c :: a) ((c :: a) ++ t) = true) by (apply startswith_app; now exists t).
    destruct ((c :: a) ++ t) as [|y r] eqn:E; [discriminate E|]. rewrite S, <- E, skipn_app, skipn_all, Nat.sub_diag. easy.
  - cbn [app replace_first startswith]. destruct (N.eqb_spec c x) as [->|_]; [elim N; now left|]. cbn [andb]. f_equal.
    change (c :: a ++ t) with ((c :: a) ++ t). apply IH. intros X. apply N. now right.
Qed.
Lemma isspace_not c : (c = 59 \/ c = 61 \/ c = 62) -> isspace c = true -> False.
Proof. intros [->|[->| ->]]; vm_compute; discriminate. Qed.

Section Line.
Variables (v : varset) (pat body : str).
Hypothesis HV : AssignLine v.
Hypothesis HN : v_variable v = L "exten".
Hypothesis HB : v_value v = pat ++ 44 :: body.
Notation line := (w_text (v_where v)).
Lemma line_head : exists k s bl sp1 arrow sp2, Enc k s line /\ ((exists s', Utf8 s' line) -> k = true) /\ blank_str bl /\ ws sp1 /\ ws sp2 /\ ~ starts_ws (pat ++ [44]) /\
  (arrow = [] \/ arrow = [62]) /\
  (exists t, s = (bl ++ L "exten" ++ sp1 ++ [61]) ++ t /\ t <> []) /\
  (~ In 59 pat -> exists t, s = (bl ++ L "exten" ++ sp1 ++ [61]) ++ (arrow ++ sp2) ++ pat ++ 44 :: t).
Proof.
  destruct HV as (b & s & d & k & before & after & key & sep & bl & -> & LR & AS & (-> & BL & _)). rewrite HN, HB in *.
  assert (DE : Decoded line s) by (destruct LR as (? & ? & ? & ? & ? & ? & ? & ? & X & _); exact X).
  destruct (decoded_enc _ _ DE) as (kd & EN & KD).
  assert (G : exists sp1 arrow sp2, ws sp1 /\ ws sp2 /\ ~ starts_ws (pat ++ 44 :: body) /\ (arrow = [] \/ arrow = [62]) /\ d = (bl ++ L "exten" ++ sp1 ++ [61]) ++ (arrow ++ sp2) ++ pat ++ 44 :: body).
  { remember (pat ++ 44 :: body) as vl eqn:EV. remember (bl ++ L "exten") as ky eqn:EK. destruct AS as [ky sp1 sp2 vl _ _ W1 W2 SW|ky sp1 sp2 vl _ _ W1 W2 SW _]; subst.
    - exists sp1, [62], sp2. split; [easy|]. split; [easy|]. split; [easy|]. split; [now right|]. rewrite <- !app_assoc. reflexivity.
    - exists sp1, [], sp2. split; [easy|]. split; [easy|]. split; [easy|]. split; [now left|]. rewrite <- !app_assoc. reflexivity. }
  destruct G as (sp1 & arrow & sp2 & W1 & W2 & SW & AR & ED).
  assert (N1 : ~ In 59 (bl ++ L "exten" ++ sp1 ++ [61])).
  { rewrite !in_app_iff. intros [I|[I|[I|I]]].
    - apply (proj1 (Forall_forall _ _) BL) in I. destruct I; discriminate.
    - revert I. vm_compute. intuition discriminate.
    - apply (proj1 (Forall_forall _ _) W1) in I. cbv beta in I. apply isspace_not in I; auto.
    - destruct I as [I|[]]. discriminate. }
  exists kd, s, bl, sp1, arrow, sp2. split; [easy|]. split; [easy|]. split; [exact BL|]. split; [easy|]. split; [easy|]. split.
  { intros (c & r & E & IS). apply SW. destruct pat as [|c0 p0]; cbn [app] in *; injection E as -> _; eexists _, _; (split; [reflexivity|easy]). }
  split; [easy|]. split.
  - destruct (text_has _ _ _ _ _ _ _ _ _ LR ED N1) as (t & E & NT). exists t. split; [exact E|]. apply NT. intros X. apply app_eq_nil in X as [_ X]. now apply app_eq_nil in X.
  - intros N59.
    assert (ED2 : d = ((bl ++ L "exten" ++ sp1 ++ [61]) ++ (arrow ++ sp2) ++ pat ++ [44]) ++ body) by (rewrite ED, <- !app_assoc; reflexivity).
    assert (N2 : ~ In 59 ((bl ++ L "exten" ++ sp1 ++ [61]) ++ (arrow ++ sp2) ++ pat ++ [44])).
    { rewrite in_app_iff. intros [I|I]; [now apply N1|]. rewrite !in_app_iff in I. destruct I as [[I|I]|[I|I]].
      - destruct AR; subst; [easy|]. destruct I as [I|[]]. discriminate.
      - apply (proj1 (Forall_forall _ _) W2) in I. cbv beta in I. apply isspace_not in I; auto.
      - now apply N59.
      - destruct I as [I|[]]. discriminate. }
    destruct (text_has _ _ _ _ _ _ _ _ _ LR ED2 N2) as (t & E & _). exists t. rewrite E, <- !app_assoc. reflexivity.
Qed.
Lemma bytes_head k bl sp1 b : Enc k (bl ++ L "exten" ++ sp1 ++ [61]) b -> blank_str bl -> ws sp1 -> exists h, b = h ++ [61] /\ ~ In 61 h.
Proof.
  intros H BL W. rewrite !app_assoc in H. apply enc_split in H as (h & e & -> & H1 & H2). apply enc_low in H2; [|repeat constructor; lia]. subst e. exists h. split; [easy|].
  rewrite (enc_in _ _ _ _ H1) by lia. rewrite !in_app_iff. intros [[I|I]|I].
  - apply (proj1 (Forall_forall _ _) BL) in I. destruct I; discriminate.
  - revert I. vm_compute. intuition discriminate.
  - apply (proj1 (Forall_forall _ _) W) in I. cbv beta in I. apply isspace_not in I; auto.
Qed.
Theorem never_fails a b : snd (mpc_issue (a, b) line) = Ok tt.
Proof.
  destruct line_head as (k & s & bl & sp1 & arrow & sp2 & EN & _ & BL & W1 & _ & _ & _ & (t & -> & NT) & _).
  apply enc_split in EN as (b1 & b2 & -> & E1 & E2). destruct (bytes_head _ _ _ _ E1 BL W1) as (h & -> & N61). unfold mpc_issue. rewrite <- app_assoc. cbn [app]. rewrite index_here by easy.
  replace (S (length h)) with (length (h ++ [61])) by (rewrite app_length; cbn; lia). rewrite (app_assoc h [61] b2 : h ++ 61 :: b2 = _), skipn_app, skipn_all, Nat.sub_diag. cbn [app skipn].
  destruct b2; [|easy]. now apply enc_nil in E2.
Qed.
Theorem rewritten a b : Utf8 pat a -> Findable pat -> ((exists s, Utf8 s line) \/ Forall (fun c => c < 128) pat) ->
  exists new, mpc_issue (a, b) line = ([new], Ok tt) /\ Replaced a b line new.
Proof.
  intros EA (N59 & c & r & EP & C1 & C2) EN8. destruct line_head as (k & s & bl & sp1 & arrow & sp2 & EN & KD & BL & W1 & W2 & SW & AR & _ & T).
  destruct (T N59) as (t & ->). clear T. apply enc_split in EN as (b1 & b2 & EL & E1 & E2). destruct (bytes_head _ _ _ _ E1 BL W1) as (h & -> & N61).
  apply enc_split in E2 as (gap & b3 & -> & EG & E3). apply enc_split in E3 as (a' & b4 & -> & EA' & E4). change (44 :: t) with ([44] ++ t) in E4. apply enc_split in E4 as (c44 & rest & -> & E44 & _).
  apply enc_low in E44; [|repeat constructor; lia]. subst c44.
  assert (a' = a). { destruct EN8 as [X|X]; [rewrite (KD X) in EA'; now apply (enc_det pat)|]. rewrite (enc_low _ _ _ X EA'). symmetry. now apply (enc_low true). } subst a'.
  assert (EA0 : exists a0, a = c :: a0). { rewrite EP in EA. change (c :: r) with ([c] ++ r) in EA. apply (enc_split true) in EA as (x & y & -> & H & _). apply (enc_low true) in H; [|now repeat constructor]. subst x. now exists y. }
  destruct EA0 as (a0 & ->).
  assert (NG : ~ In c gap). { rewrite (enc_in _ _ _ _ EG C1), in_app_iff. intros [I|I].
    - destruct AR; subst; [easy|]. destruct I as [I|[]]. congruence.
    - apply (proj1 (Forall_forall _ _) W2) in I. cbv beta in I. apply SW. exists c, (r ++ [44]). now rewrite EP. }
  exists ((h ++ [61] ++ gap) ++ b ++ 44 :: rest). split.
  - rewrite EL. unfold mpc_issue. rewrite <- !app_assoc. cbn [app]. rewrite index_here by easy.
    replace (S (length h)) with (length (h ++ [61])) by (rewrite app_length; cbn; lia).
    rewrite firstn_app, firstn_all, Nat.sub_diag. cbn [firstn]. rewrite app_nil_r.
    change (h ++ 61 :: gap ++ c :: a0 ++ 44 :: rest) with (h ++ [61] ++ gap ++ (c :: a0) ++ 44 :: rest). rewrite (app_assoc h [61]), skipn_app, skipn_all, Nat.sub_diag. cbn [skipn].
    change ([] ++ gap ++ (c :: a0) ++ 44 :: rest) with (gap ++ (c :: a0) ++ 44 :: rest).
    destruct (gap ++ (c :: a0) ++ 44 :: rest) as [|y z] eqn:EY; [apply app_eq_nil in EY; easy|]. rewrite <- EY. cbn [fst snd]. rewrite skip_gap by easy. reflexivity.
  - exists (h ++ [61] ++ gap), ((bl ++ L "exten" ++ sp1 ++ [61]) ++ arrow ++ sp2), rest. split; [|split; [|split; [|reflexivity]]].
    + exists bl, sp1, ([61] ++ arrow), sp2. split; [now rewrite <- !app_assoc|]. split; [easy|]. split; [easy|]. split; [easy|]. destruct AR; subst; auto.
    + pose proof (enc_app _ _ _ _ _ E1 EG) as X. rewrite <- (app_assoc h) in X. destruct k; [now left|now right].
    + rewrite EL, <- !app_assoc. reflexivity.
Qed.
End Line.

(* ---- all files ---- *)
Lemma hints_back f l is m p x n a b : Hints f l is -> In (LMsg m) l -> Hint m -> w_file (m_where m) = f -> w_line (m_where m) = n + 1 ->
  m_args m = [(L "pat", AStr p); (L "expected", AStr x)] -> Utf8 p a -> Utf8 x b -> In (n, (a, b)) is.
Proof.
  induction 1 as [|m' p' x' n' a' b' l is H F W A E1 E2 _ IH|e l is N _ IH]; intros I; [easy| |].
  - destruct I as [E|I]; [|intros; right; now apply IH]. injection E as ->. intros _ _ W' A' U1 U2. left. rewrite A in A'. injection A' as -> ->. rewrite File_proofs.Utf8_encode in *.
    f_equal; [lia|congruence].
  - destruct I as [->|I]; [|now apply IH]. intros HM F. now elim (N m eq_refl HM).
Qed.
Definition NoLinks (d : disk) : Prop := forall x t, d x <> Some (Link t).
Lemma disk_plain d f b : NoLinks d -> disk_fs d f = Ok b -> Holds d f b.
Proof.
  intros NL. unfold disk_fs. destruct (existsb _ f); [easy|]. unfold max_links. cbn [resolve]. destruct (d f) as [[c u g m|t]|] eqn:E; [|now elim (NL f t)|easy].
  rewrite E. intros [= ->]. now exists u, g, m.
Qed.
Lemma nth_mid {A} (pre : list A) x post : nth_error (pre ++ x :: post) (length pre) = Some x.
Proof. rewrite nth_error_app2, Nat.sub_diag; easy. Qed.
Section Files.
Variable U : uni.
Variable FT : ftable.
Variable AT : atable.
Hypothesis HU : AsciiOk U.
Variables (d : disk) (name answer : str) (evs : list event) (h : list hev) (log : list lev) (names : list str).
Hypothesis HS : StreamOf (disk_fs d) name evs (Ok tt).
Hypothesis HP : PlanSays U FT AT evs h log.
Hypothesis HC : Concerned log names.
Theorem ok_line f is n a b : Hints f log is -> In (n, (a, b)) is -> exists content ls line, disk_fs d f = Ok content /\ Spec_Include.Lines content ls /\
  nth_error ls (N.to_nat n) = Some line /\ snd (mpc_issue (a, b) line) = Ok tt /\
  forall p, Utf8 p a -> Findable p -> (exists s, Utf8 s line) \/ Forall (fun c => c < 128) p -> exists new, mpc_issue (a, b) line = ([new], Ok tt) /\ Replaced a b line new.
Proof.
  intros H I. destruct (from_line U FT AT HU _ _ _ _ _ HS HP f is n a b H I) as (v & pat & body & prio & label & text & p & (FL & AL) & F & W & VE & VV & _ & _ & _ & _ & _ & E1 & E2).
  destruct FL as (content & ls & pre & post & O & LN & -> & W'). rewrite F in O. exists content, (pre ++ w_text (v_where v) :: post), (w_text (v_where v)).
  split; [easy|]. split; [easy|]. split; [rewrite W in W'; replace (N.to_nat n) with (length pre) by lia; apply nth_mid|].
  split; [now apply (never_fails v pat body AL VE VV)|]. intros p0 EP FI X. assert (p0 = pat) as -> by (apply File_proofs.Utf8_encode, Utf8_proofs.utf8_decode_encode in EP; apply File_proofs.Utf8_encode, Utf8_proofs.utf8_decode_encode in E1; congruence).
  now apply (rewritten v pat body AL VE VV).
Qed.
Theorem files out work tr d' p : NoLinks d -> Answer log answer names out work -> reach d (process mpc_issue work) tr d' p ->
  (answer <> L "y" -> work = []) /\ (answer = L "y" -> map fst work = names) /\
  exists done rest, map fst work = done ++ rest /\ (p = Ret (Ok tt) -> rest = []) /\
  (forall f, In f done -> exists old new, Holds d f old /\ Holds d' f new /\ (NoDup (lines_read f evs) -> Rewritten log f old new)) /\
  (forall x, d x <> None -> ~ In x done -> d' x = d x) /\ (exists t, forall x, x <> t -> ~ In x done -> d' x = d x).
Proof.
  intros NL A RE.
  assert (AN : (answer <> L "y" -> work = []) /\ (answer = L "y" -> map fst work = names) /\ (work = [] \/ map fst work = names) /\ (forall f is, In (f, is) work -> Hints f log is)).
  { destruct A as [|names0 NE NY|names0 work0 NE NY F]; [repeat split; try easy; now left|repeat split; try easy; now left|]. assert (E : map fst work0 = names0) by (clear -F; induction F as [|f x fs xs [H _] _ IH]; [easy|]; cbn [map]; congruence).
    split; [easy|]. split; [easy|]. split; [now right|]. clear -F. intros f is I. induction F as [|g x gs xs [H1 H2] _ IH]; [easy|]. destruct I as [->|I]; [cbn in *; now subst|auto]. }
  destruct AN as (A1 & A2 & A3 & A4). split; [easy|]. split; [easy|].
  assert (ND : NoDup (map fst work)).
  { destruct A3 as [->| ->]; [constructor|]. destruct HC as [SS _]. clear -SS. induction SS as [|x l SS IH F]; constructor; [|auto]. intros I. rewrite Forall_forall in F. apply F in I. destruct I as [_ I]. now apply I. }
  assert (PL : forall f, In f work -> exists b, Mutator_proofs.plain d (fst f) b).
  { intros [f is] I. cbn [fst]. assert (J : In f names). { destruct A3 as [->|E]; [easy|]. rewrite <- E. apply (in_map fst) in I. exact I. }
    apply HC in J as (m & I' & Hm & F). pose proof (A4 f is I) as HI. pose proof (plan_good U FT AT HU _ _ _ _ _ HS HP m I' Hm) as G. destruct G as (p0 & x0 & n & a & b & W & AR & E1 & E2).
    destruct (ok_line f is n a b HI) as (content & ls & line & O & _). { eapply hints_back; eassumption. } exists content. now apply disk_plain. }
  destruct (Mutator_proofs.batch mpc_issue work d tr d' p ND PL RE) as (l1 & l2 & -> & B1 & B2 & B3 & B4). exists (map fst l1), (map fst l2).
  split; [apply map_app|]. split; [intros X; now rewrite (B4 X)|]. split; [|easy].
  intros f If. apply in_map_iff in If as ([f' is] & E & I). cbn [fst] in E. subst f'. destruct (PL (f, is)) as [old PO]; [apply in_or_app; now left|]. cbn [fst] in PO.
  destruct (Mutator_proofs.used_exists is) as [pre UP]. destruct (B1 f is pre old I PO UP) as (new & ED & PN). exists old, new. split; [easy|]. split; [easy|].
  intros NDL. pose proof (A4 f is (in_or_app _ _ _ (or_introl I))) as HI. pose proof (once U FT AT HU _ _ _ _ _ HS HP f is HI NDL) as AS.
  assert (pre = is) as -> by (eapply Mutator_proofs.used_fun; [exact UP|now apply Mutator_proofs.used_all]).
  destruct ED as (outs & EC & EL & EK). exists (lines_of old), outs. split; [apply Include_proofs.lines_of_Lines|]. split; [easy|]. split; [easy|].
  intros i line NI. destruct (EK i line NI) as [K1 K2].
  assert (SO : exists out0, nth_error outs i = Some out0). { destruct (nth_error outs i) eqn:X; [eauto|]. apply nth_error_None in X. rewrite EL in X. assert (nth_error (lines_of old) i <> None) as Y by congruence. apply nth_error_Some in Y. lia. }
  destruct SO as (out0 & SO). exists out0. split; [easy|]. split.
  - intros NH. assert (X : forall x, ~ In (N.of_nat i, x) is). { intros [a b] J. destruct (hints_from _ _ _ _ _ _ HI J) as (m & p0 & x0 & Jm & F & W & _). apply hints_in in Jm as [Jm Hm]. now apply (NH m). }
    apply K2 in X. congruence.
  - intros m p0 x0 a b Im Hm F W AR E1 E2 FI X. assert (J : In (N.of_nat i, (a, b)) is) by (eapply hints_back; eassumption).
    destruct (ok_line f is (N.of_nat i) a b HI J) as (content & ls & line' & O & LN & NT & _ & R). assert (content = old).
    { apply disk_plain in O; [|easy]. destruct O as (u & g & mm & O), PO as (u' & g' & mm' & PO). rewrite O in PO. now injection PO. } subst content.
    rewrite (Include_proofs.Lines_fun _ _ LN _ (Include_proofs.lines_of_Lines old)), Nat2N.id, NI in NT. injection NT as <-. destruct (R p0 E1 FI X) as (nw & EN & RP).
    destruct (K1 _ J) as [_ K]. rewrite EN in K. cbn [fst List.concat] in K. rewrite app_nil_r, SO in K. injection K as ->. exact RP.
Qed.
Theorem ends out work tr d' r : NoLinks d -> Answer log answer names out work -> reach d (process mpc_issue work) tr d' (Ret r) -> nothing_fails tr -> r = Ok tt.
Proof.
  intros NL A RE NF. destruct A as [|names0 NE NY|names0 work NE NY F]; [now inversion RE|now inversion RE|].
  apply (Mutator_proofs.batch_ends mpc_issue work d tr d' r); [| |exact RE|exact NF].
  - assert (E : map fst work = names0) by (clear -F; induction F as [|f x fs xs [H _] _ IH]; [easy|]; cbn [map]; congruence). rewrite E.
    destruct HC as [SS _]. clear -SS. induction SS as [|x l SS IH F]; constructor; [|auto]. intros I. rewrite Forall_forall in F. apply F in I. destruct I as [_ I]. now apply I.
  - intros [f is] I. assert (HI : In f names0 /\ Hints f log is).
    { clear -F I. induction F as [|g x gs xs [H1 H2] _ IH]; [easy|]. destruct I as [->|I]; [cbn in *; subst; split; [now left|easy]|]. destruct (IH I). split; [now right|easy]. }
    destruct HI as [J HI]. apply HC in J as (m & I' & Hm & FN). pose proof (plan_good U FT AT HU _ _ _ _ _ HS HP m I' Hm) as (p0 & x0 & n & a & b & W & AR & E1 & E2).
    assert (J : In (n, (a, b)) is) by (eapply hints_back; eassumption). cbn [fst snd]. split; [now destruct is|].
    destruct (ok_line f is n a b HI J) as (content & ls & line & O & _). exists content. split; [now apply disk_plain|].
    intros n' [a' b'] line' J' NT. destruct (ok_line f is n' a' b' HI J') as (content' & ls' & line2 & O' & LN & NT' & OK & _). rewrite O in O'. injection O' as <-.
    rewrite (Include_proofs.Lines_fun _ _ LN _ (Include_proofs.lines_of_Lines content)), NT in NT'. now injection NT' as <-.
Qed.
End Files.

(* ---- what is printed while files are rewritten ---- *)
Definition renames (tr : trace) : list str := flat_map (fun x => match fst x with ORename _ dst => [dst] | _ => [] end) tr.
Lemma renames_app a b : renames (a ++ b) = renames a ++ renames b.
Proof. apply flat_map_app. Qed.
Fixpoint Once (dst : str) (p : prog) : Prop :=
  match p with
  | Ret r => r <> Ok tt
  | Do (ORename _ x) k => x = dst /\ forall r, exists r', k r = Ret r'
  | Do _ k => forall r, Once dst (k r)
  end.
Lemma once_reach dst d p tr d' q : reach d p tr d' q -> Once dst p -> (renames tr = [] /\ q <> Ret (Ok tt)) \/ renames tr = [dst].
Proof.
  induction 1 as [d p|d o k r d1 tr d2 p HD HR IH]; intros O.
  - left. split; [easy|]. intros ->. now apply O.
  - unfold renames. cbn [flat_map fst]. fold (renames tr). destruct o; cbn [Once] in O; try (cbn [app]; now apply IH).
    destruct O as [-> O]. destruct (O r) as [r' E]. rewrite E in HR. inversion HR; subst. now right.
Qed.
Section Once.
Context {I : Type}.
Variable proc : I -> bytes -> list bytes * res unit.
Lemma once_give_up dst t e : Once dst (give_up t e).
Proof. cbn. intros r r0. destruct r0; cbn; easy. Qed.
Lemma once_must dst o k : (forall s x, o <> ORename s x) -> (forall r, (forall e, r <> RFail e) -> Once dst (k r)) -> Once dst (must o k).
Proof. intros N H. unfold must. destruct o; cbn; try (intros []; cbn; try easy; now apply H). now elim (N src dst0). Qed.
Lemma once_rename dst t : Once dst (must (ORename t dst) (fun _ => Ret (Ok tt))).
Proof. cbn. split; [easy|]. intros []; eauto. Qed.
Lemma once_take t f dst : Once dst (take_over t f dst).
Proof.
  unfold take_over. apply once_must; [easy|]. intros src _. apply once_must; [easy|]. intros ds _. destruct src; try easy. destruct ds; try easy.
  assert (K : Once dst (if mode =? mode0 then must (ORename t dst) (fun _ => Ret (Ok tt)) else must (OChmod t mode0) (fun _ => must (ORename t dst) (fun _ => Ret (Ok tt))))).
  { destruct (_ =? _); [apply once_rename|]. apply once_must; [easy|]. intros _ _. apply once_rename. }
  destruct (_ && _); [exact K|]. apply once_must; [easy|]. intros _ _. exact K.
Qed.
Lemma once_write dst t l k : (forall w, Once dst (k w)) -> forall w, Once dst (write_all t w l k).
Proof. intros H. induction l as [|b l IH]; intros w; cbn [write_all]; [apply H|]. cbn [Once]. intros []; try apply IH. apply once_give_up. Qed.
Lemma once_loop t f dst lines : forall no is w, Once dst (mut_loop proc t f dst no is w lines).
Proof.
  induction lines as [|line lines IH]; intros no is w; cbn [mut_loop Once]; intros a.
  - assert (K : Once dst (Do (OFlush t w) (fun a => match a with RFail e => give_up t e | _ => must (OClose t) (fun _ => take_over t f dst) end))).
    { cbn [Once]. intros a'. assert (Once dst (must (OClose t) (fun _ => take_over t f dst))) by (apply once_must; [easy|]; intros; apply once_take). destruct a'; try easy. apply once_give_up. }
    destruct a; try exact K. apply once_give_up.
  - assert (K : forall is', Once dst (write_all t w [line] (fun w => mut_loop proc t f dst (no + 1) is' w lines))) by (intros is'; apply once_write; intros w'; apply IH).
    assert (K2 : Once dst (match is with (n, i) :: more => if no =? n then let (out, r) := proc i line in write_all t w out (fun w => match r with Ok _ => mut_loop proc t f dst (no + 1) more w lines | Exn e => give_up t e | Hang => Ret Hang end)
        else write_all t w [line] (fun w => mut_loop proc t f dst (no + 1) is w lines) | [] => write_all t w [line] (fun w => mut_loop proc t f dst (no + 1) is w lines) end)).
    { destruct is as [|[n i] more]; [apply K|]. destruct (no =? n); [|apply K]. destruct (proc i line) as [out r]. apply once_write. intros w'. destruct r; [apply IH|apply once_give_up|easy]. }
    destruct a; try exact K2. apply once_give_up.
Qed.
Lemma does_links d o r d' : does d o r d' -> NoLinks d -> NoLinks d'.
Proof.
  assert (G : forall d p n, NoLinks d -> (forall t, n <> Some (Link t)) -> NoLinks (upd d p n)) by (intros d0 p n H1 H2 x t; unfold upd; destruct (str_eqb _ _); [apply H2|apply H1]).
  intros H NL. destruct H; try easy; try (apply G; easy).
  apply G; [now apply G|]. intros t E. injection E as ->. now apply (NL src t).
Qed.
Lemma reach_links d p tr d' q : reach d p tr d' q -> NoLinks d -> NoLinks d'.
Proof. induction 1; intros NL; [easy|]. apply IHreach. eapply does_links; eassumption. Qed.
Lemma once_file d f is tr d' q : NoLinks d -> reach d (process_file proc f is) tr d' q -> (renames tr = [] /\ q <> Ret (Ok tt)) \/ renames tr = [f].
Proof.
  intros NL RE. unfold process_file in RE. inversion RE as [|? ? ? r d1 tr' ? ? DO RE']; subst; [left; now split|].
  unfold renames. cbn [flat_map fst app]. fold (renames tr'). apply (once_reach f) in RE'; [exact RE'|]. inversion DO; subst; [|now elim (NL f t)].
  destruct e; try (cbn [Once]; easy).
  apply once_must; [easy|]. intros a' _. destruct a'; try easy. destruct is; [apply once_give_up|]. cbn [Once]. intros []; try apply once_give_up. apply once_loop.
Qed.
Theorem overwriting l : forall d tr d' q, NoLinks d -> reach d (process proc l) tr d' q ->
  exists rest, map fst l = renames tr ++ rest /\ (q = Ret (Ok tt) -> rest = []).
Proof.
  induction l as [|[f is] l IH]; intros d tr d' q NL RE; cbn [process] in RE.
  - inversion RE; subst. now exists [].
  - destruct (Mutator_proofs.reach_seq _ _ _ _ _ _ RE) as [(p1 & -> & NP & R1)|(tr1 & tr2 & d1 & -> & R1 & R2)].
    + destruct (once_file _ _ _ _ _ _ NL R1) as [[-> _]| ->]; [exists (f :: map fst l)|exists (map fst l)]; cbn [app map fst]; (split; [easy|]); intros X; now apply Mutator_proofs.seq_ok in X.
    + destruct (once_file _ _ _ _ _ _ NL R1) as [[_ X]|X]; [now elim X|]. destruct (IH d1 tr2 d' q (reach_links _ _ _ _ _ R1 NL) R2) as (rest & E & K).
      exists rest. split; [|exact K]. rewrite renames_app, X. cbn [map fst app]. now rewrite E.
Qed.
End Once.
Theorem printed work d tr d' q : NoLinks d -> reach d (process mpc_issue work) tr d' q ->
  exists shown rest, map fst work = shown ++ rest /\ (q = Ret (Ok tt) -> rest = []) /\
    forall r, mpc_later tr r = List.concat (map (fun f => L "Overwriting " ++ f ++ L " ..." ++ [10]) shown) ++ match r with Ok _ => L "Done" ++ [10] | _ => [] end.
Proof.
  intros NL RE. destruct (overwriting _ _ _ _ _ _ NL RE) as (rest & E & K). exists (renames tr), rest. split; [easy|]. split; [easy|]. intros r. unfold mpc_later. f_equal. clear.
  induction tr as [|[o a] tr IH]; [easy|]. unfold renames in *. cbn [flat_map fst] in *. rewrite IH. now destruct o.
Qed.
