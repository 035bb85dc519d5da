(* Proofs about func_odbc-annotate (C53). *)
From Verif Require Import Base PyStr Defines FileRd Config VSpace VarFun FuncOdbc Var Annotate
  Spec_FuncOdbc Spec_Dialplan FuncOdbc_proofs Spec_Annotate.
From Coq Require Import Lia.

(* ---- numbers ---- *)
Lemma digits_numeral f : forall n acc, n < 2 ^ N.of_nat f -> (0 < f)%nat ->
  exists s, Numeral s n /\ digits_fuel f n acc = s ++ acc.
Proof.
  induction f as [|f IH]; intros n acc LT P; [lia|]. cbn [digits_fuel].
  pose proof (N.div_mod n 10 ltac:(lia)) as DM. pose proof (N.mod_lt n 10 ltac:(lia)) as ML.
  destruct (N.eqb_spec (n / 10) 0) as [E|NE].
  - exists [48 + n mod 10]. split; [|easy]. rewrite E in DM. replace n with (n mod 10) at 2 by lia. now constructor.
  - assert (LD : n / 10 < 2 ^ N.of_nat f).
    { rewrite Nnat.Nat2N.inj_succ, N.pow_succ_r' in LT. apply N.div_lt_upper_bound; lia. }
    destruct (IH (n / 10) (48 + n mod 10 :: acc) LD) as (s & NS & E).
    { destruct f; [|lia]. cbn in LD. lia. }
    exists (s ++ [48 + n mod 10]). split.
    + rewrite DM at 2. rewrite (N.mul_comm 10). constructor; [easy|lia|easy].
    + rewrite E. now rewrite <- app_assoc.
Qed.
Lemma nstr_numeral n : Numeral (nstr n) n.
Proof.
  unfold nstr. destruct (digits_numeral (S (N.to_nat (N.log2 n))) n []) as (s & H & E); [|lia|].
  - rewrite Nnat.Nat2N.inj_succ, Nnat.N2Nat.id. destruct (N.eq_dec n 0) as [->|NZ]; [reflexivity|]. apply N.log2_spec. lia.
  - now rewrite E, app_nil_r.
Qed.
Lemma numeral_pos s n : Numeral s n -> (0 < length s)%nat.
Proof. induction 1; [cbn; lia|]. rewrite app_length. lia. Qed.
Lemma ten_div n d : d < 10 -> (n * 10 + d) / 10 = n /\ (n * 10 + d) mod 10 = d.
Proof.
  intros H. split; [now rewrite N.div_add_l, N.div_small, N.add_0_r by lia|]. now rewrite N.add_comm, N.mod_add, N.mod_small by lia.
Qed.
Lemma numeral_inv s n : Numeral s n -> (n < 10 /\ s = [48 + n]) \/
  (10 <= n /\ exists s', Numeral s' (n / 10) /\ s = s' ++ [48 + n mod 10]).
Proof.
  destruct 1 as [d H|s n d H P LT]; [now left|]. right. split; [lia|]. exists s. now destruct (ten_div n d LT) as [-> ->].
Qed.
Lemma numeral_fun s n : Numeral s n -> forall s', Numeral s' n -> s = s'.
Proof.
  induction 1 as [d H|s n d H IH P LT]; intros s' H'; apply numeral_inv in H' as [[A ->]|(A & t & H2 & ->)]; try lia; [easy|].
  destruct (ten_div n d LT) as [E1 E2]. rewrite E1 in H2. now rewrite E2, (IH _ H2).
Qed.

Lemma row_line n c : Row n c (L "-- " ++ d2 n ++ L ". " ++ c).
Proof.
  unfold d2. pose proof (nstr_numeral n) as H. pose proof (numeral_pos _ _ H) as LP.
  exists (nstr n), (repeat 32 (2 - length (nstr n))). split; [easy|]. split; [now rewrite <- !app_assoc|].
  destruct (length (nstr n)) as [|[|k]] eqn:E; [lia| |].
  - split; [now right|]. split; [discriminate|lia].
  - cbn [repeat Nat.sub]. replace (k - 0)%nat with k by lia. split; [now left|]. split; [lia|easy].
Qed.
Lemma row_fun n c l l' : Row n c l -> Row n c l' -> l = l'.
Proof.
  intros (s & p & N1 & -> & P & E) (s' & p' & N2 & -> & P' & E'). rewrite (numeral_fun _ _ N1 _ N2) in *.
  destruct P as [->| ->], P' as [->| ->]; try easy; exfalso.
  - destruct E as [E _]. specialize (E eq_refl). apply E' in E. discriminate.
  - destruct E' as [E' _]. specialize (E' eq_refl). apply E in E'. discriminate.
Qed.
Lemma rows_iff cs : forall n ls, Rows n cs ls <-> column_lines n cs = ls.
Proof.
  induction cs as [|c cs IH]; intros n ls; cbn [column_lines].
  - split; [intros H; now inversion H|intros <-; constructor].
  - split.
    + intros H. inversion H as [|? ? ? l ls' R RS]; subst. apply IH in RS. f_equal; [|easy]. now apply (row_fun n c); [apply row_line|].
    + intros <-. constructor; [apply row_line|now apply IH].
Qed.

(* ---- columns ---- *)
Lemma names_iff i c : Names i c <-> column_name i = c.
Proof.
  unfold Names, column_name. destruct (id_alias i) as [[|x a]|].
  - split; [intros [(a & [= <-] & NE & _)|[_ ->]]; easy|]. intros <-. right. auto.
  - split; [intros [(b & [= <-] & _ & ->)|[[X|X] _]]; easy|]. intros <-. left. now exists (x :: a).
  - split; [intros [(a & [=] & _)|[_ ->]]; easy|]. intros <-. right. auto.
Qed.
Lemma names_all is cs : Forall2 Names is cs <-> map column_name is = cs.
Proof.
  split.
  - induction 1 as [|i c is cs H F IH]; [easy|]. cbn. apply names_iff in H. congruence.
  - intros <-. induction is as [|i is IH]; constructor; [now apply names_iff|easy].
Qed.
Lemma idents_fun t is is' : Idents t is -> Idents t is' -> is = is'.
Proof. intros [(i & -> & ->)| ->] [(j & E & ->)|E]; congruence. Qed.
Lemma idents_iff t is : Idents t is <-> token_idents t = Ok is.
Proof.
  split.
  - intros [(i & -> & ->)| ->]; easy.
  - destruct t; intros [= <-]; [left; now eexists|now right].
Qed.
Lemma no_idents t : (forall is, ~ Idents t is) <-> token_idents t = Exn TypeError.
Proof.
  split.
  - intros H. destruct t; try easy; [elim (H [i])|elim (H l)]; [left; now exists i|now right].
  - intros H is X. apply idents_iff in X. congruence.
Qed.
Lemma selects_fun ts t t' : Selects ts t -> Selects ts t' -> t = t'.
Proof. intros [->|(s & r & ->)] [E|(s' & r' & E)]; congruence. Qed.

Section Ann.
Variable fmt : str -> str.
Variable parse : str -> list (list sqltok).

Lemma columns_spec q : match select_columns true parse q with
  | Ok (Some cs) => Columns (parse q) cs
  | Ok None => Columns (parse q) []
  | Exn e => NoColumns (parse q) e
  | Hang => False
  end.
Proof.
  unfold select_columns, require. cbn [bind]. destruct (parse q) as [|ts [|ts2 r]]; [now apply Nc_many| |now apply Nc_many].
  destruct ts as [|t ts]; [now apply Nc_empty|].
  assert (O : t <> TkSelect -> Columns [t :: ts] []) by (intros H; now apply (Co_other _ t ts)).
  destruct t; try (apply O; discriminate). clear O.
  destruct ts as [|s ts]; [apply (Nc_short _ []); [reflexivity|cbn; lia]|]. destruct ts as [|t ts]; [apply (Nc_short _ [s]); [reflexivity|cbn; lia]|].
  cbn [tokens_idents].
  assert (S : s <> TkSpace -> NoColumns [TkSelect :: s :: t :: ts] AssertionError) by (intros H; now apply (Nc_space _ s t ts)).
  destruct s; try (apply S; discriminate). clear S.
  assert (D : Selects (TkSelect :: TkSpace :: t :: ts) t ->
    match (let! is := token_idents t in Ok (Some (map column_name is))) with
    | Ok (Some cs) => Columns [TkSelect :: TkSpace :: t :: ts] cs
    | Ok None => Columns [TkSelect :: TkSpace :: t :: ts] []
    | Exn e => NoColumns [TkSelect :: TkSpace :: t :: ts] e
    | Hang => False end).
  { intros S. destruct (token_idents t) as [is|e|] eqn:E; cbn [bind].
    - apply (Co_select _ (TkSelect :: TkSpace :: t :: ts) t is); [reflexivity|easy|now apply idents_iff|now apply names_all].
    - assert (e = TypeError) as -> by (destruct t; cbn in E; congruence). apply (Nc_type _ (TkSelect :: TkSpace :: t :: ts) t); [reflexivity|easy|now apply no_idents].
    - destruct t; discriminate. }
  destruct ts as [|s1 ts]; [apply D; now left|].
  destruct ts as [|s2 ts]; [cbn [bind]; apply (Nc_keyword _ t s1 []); [reflexivity|discriminate]|].
  assert (K : s2 <> TkFrom -> NoColumns [TkSelect :: TkSpace :: t :: s1 :: s2 :: ts] NotImplementedError).
  { intros H. apply (Nc_keyword _ t s1 (s2 :: ts)); [easy|]. intros r [= X _]. contradiction. }
  destruct s2; try (cbn [bind]; apply K; discriminate). apply D. right. now exists s1, ts.
Qed.
Lemma columns_calc q cs : Columns (parse q) cs -> select_columns true parse q = Ok (Some cs) \/ (select_columns true parse q = Ok None /\ cs = []).
Proof.
  unfold select_columns, require. cbn [bind]. destruct 1 as [t r E NS|ts t is cs E S I F]; rewrite E.
  - right. destruct t; easy.
  - left. apply idents_iff in I. apply names_all in F. destruct S as [->|(s & r & ->)]; cbn; rewrite I; cbn; now rewrite F.
Qed.
Lemma nocolumns_calc q e : NoColumns (parse q) e -> select_columns true parse q = Exn e.
Proof.
  unfold select_columns, require. cbn [bind]. destruct 1 as [H|E|ts E H|s t r E H|t s r E H|ts t E S H]; rewrite ?E; try easy.
  - destruct (parse q) as [|ts [|ts2 r]]; easy.
  - destruct ts as [|a [|b ts]]; cbn in *; try easy; lia.
  - cbn. now destruct s.
  - cbn. destruct r as [|f r]; [easy|]. destruct f; try easy. now elim (H r).
  - apply no_idents in H. destruct S as [->|(s & r & ->)]; cbn; now rewrite H.
Qed.

(* ---- queries ---- *)
Lemma statement_iff f line : Statement f line <-> (if endswith (L ";") f then f else f ++ L ";") = line.
Proof.
  unfold Statement. pose proof (ends_semi f) as E. change (L ";") with [59] in *. destruct (endswith [59] f).
  - split; [intros [[_ ->]|[N _]]; [easy|now elim N; apply E]|]. intros <-. left. split; [now apply E|easy].
  - split; [intros [[X _]|[_ ->]]; [now apply E in X|easy]|]. intros <-. right. split; [|easy]. intros X. now apply E in X.
Qed.
Lemma collines_iff cs ls : ColumnLines cs ls <-> match cs with c :: r => L "-- COLUMNS:" :: column_lines 1 (c :: r) | [] => [] end = ls.
Proof.
  unfold ColumnLines. destruct cs as [|c cs].
  - split; [intros [[_ ->]|[X _]]; easy|intros <-; now left].
  - split; [intros [[X _]|(_ & rows & R & ->)]; [easy|]|].
    + apply rows_iff in R. now rewrite R.
    + intros <-. right. split; [easy|]. eexists. split; [now apply rows_iff|easy].
Qed.
Variable installed : bool.
Notation aq := (annotate_query installed fmt parse).
Notation aqs := (annotate_queries installed fmt parse).
Notation WQ := (WritesQueries installed fmt parse).

Lemma obind_res {A B} (m : out A) (f : A -> out B) l r : m = (l, r) ->
  obind m f = match r with Ok a => (l ++ fst (f a), snd (f a)) | Exn e => (l, Exn e) | Hang => (l, Hang) end.
Proof. intros ->. unfold obind. destruct r; try easy. now destruct (f a). Qed.

Lemma query_line k q : installed = true -> k <> L "read" ->
  aq (k, q) = ([L "-- FUNCTION TYPE: " ++ k; if endswith (L ";") (fmt q) then fmt q else fmt q ++ L ";"], Ok tt).
Proof.
  intros I NK. unfold annotate_query. destruct (str_eqb_spec k (L "read")); [easy|]. unfold format_sql, require. now rewrite I.
Qed.
Lemma query_read q : installed = true ->
  aq (L "read", q) = match select_columns true parse q with
    | Ok cs => (L "-- FUNCTION TYPE: read" :: match cs with Some (c :: r) => L "-- COLUMNS:" :: column_lines 1 (c :: r) | _ => [] end
                 ++ [if endswith (L ";") (fmt q) then fmt q else fmt q ++ L ";"], Ok tt)
    | Exn e => ([L "-- FUNCTION TYPE: read"], Exn e)
    | Hang => ([L "-- FUNCTION TYPE: read"], Hang)
    end.
Proof.
  intros I. unfold annotate_query. rewrite str_eqb_refl. unfold format_sql, require. rewrite I.
  destruct (select_columns true parse q) as [[[|c r]|]|e|]; try easy.
Qed.
Lemma query_missing k q : installed = false -> aq (k, q) = ([L "-- FUNCTION TYPE: " ++ k], Exn ImportError).
Proof.
  intros I. unfold annotate_query, select_columns, format_sql, require. rewrite I. now destruct (str_eqb k (L "read")).
Qed.
Lemma queries_total qs : WQ qs (fst (aqs qs)) (snd (aqs qs)).
Proof.
  induction qs as [|[k q] qs IH]; [constructor|]. cbn [annotate_queries].
  assert (installed = true \/ installed = false) as [I|I] by (destruct installed; auto).
  - destruct (str_eqb_spec k (L "read")) as [->|NK].
    + pose proof (query_read q I) as Q. pose proof (columns_spec q) as C.
      destruct (select_columns true parse q) as [cs|e|]; rewrite (obind_res _ _ _ _ Q); [|now apply WQ_fail|easy]. cbn [fst snd].
      rewrite <- app_comm_cons, <- app_assoc. cbn [app].
      destruct cs as [cs|].
      * apply (WQ_read _ _ _ q cs); [easy|easy| |now apply statement_iff|exact IH]. apply collines_iff. now destruct cs.
      * apply (WQ_read _ _ _ q []); [easy|easy|now left|now apply statement_iff|exact IH].
    + rewrite (obind_res _ _ _ _ (query_line k q I NK)). cbn [fst snd app].
      apply WQ_other; [easy|easy|now apply statement_iff|exact IH].
  - rewrite (obind_res _ _ _ _ (query_missing k q I)). now apply WQ_missing.
Qed.
Lemma queries_calc qs ls r : WQ qs ls r -> aqs qs = (ls, r).
Proof.
  induction 1 as [|k q qs I|q cs cl st qs ls r I C CL S W IH|q qs e I N|k q st qs ls r I NK S W IH]; cbn [annotate_queries].
  - reflexivity.
  - now rewrite (obind_res _ _ _ _ (query_missing k q I)).
  - pose proof (query_read q I) as Q. apply statement_iff in S. apply collines_iff in CL. rewrite S in Q. subst cl.
    apply columns_calc in C as [C|[C ->]]; rewrite C in Q; rewrite (obind_res _ _ _ _ Q), IH; cbn [fst snd app]; [|easy].
    rewrite <- app_assoc. cbn [app]. now destruct cs.
  - pose proof (query_read q I) as Q. rewrite (nocolumns_calc _ _ N) in Q. now rewrite (obind_res _ _ _ _ Q).
  - pose proof (query_line k q I NK) as Q. apply statement_iff in S. rewrite S in Q. now rewrite (obind_res _ _ _ _ Q), IH.
Qed.

(* ---- sections ---- *)
Lemma last_snoc_inv {A} (l : list A) (a : A) : last_opt (l ++ [a]) = Some a.
Proof. apply last_opt_app. Qed.
Lemma trim_strip s t : Trim s t <-> strip_p isspace s = t.
Proof.
  unfold strip_p. split.
  - intros (a & b & -> & FA & FB & H1 & H2).
    assert (E : lstrip_p isspace (a ++ t ++ b) = match t with [] => [] | _ => t ++ b end).
    { induction a as [|x a IH]; cbn [app].
      - destruct t as [|c t].
        + cbn [app]. clear - FB. induction b as [|x b IH]; [easy|]. cbn in *. apply andb_prop in FB as [-> FB]. auto.
        + cbn. now rewrite (H1 c t eq_refl).
      - cbn in FA. apply andb_prop in FA as [FX FA]. cbn. rewrite FX. auto. }
    rewrite E. destruct t as [|c t]; [easy|]. apply (rstrip_p_unique isspace _ (c :: t) b); [easy|easy|].
    destruct (exists_last (l := c :: t)) as (r & x & EX); [easy|]. rewrite EX, last_snoc_inv. now apply (H2 r).
  - intros <-. destruct (lstrip_p_split isspace s) as (a & E1 & FA & H1). destruct (rstrip_p_split isspace (lstrip_p isspace s)) as (b & E2 & FB).
    pose proof (rstrip_p_last isspace (lstrip_p isspace s)) as H2.
    exists a, b. split; [now rewrite <- E2|]. split; [easy|]. split; [easy|]. split.
    + intros c r E. rewrite E2, E in H1. exact H1.
    + intros r c E. rewrite E, last_snoc_inv in H2. exact H2.
Qed.
Lemma listed_iff k x l : Listed k x l <-> opt_query k x = l.
Proof.
  unfold opt_query. destruct x as [s|].
  - split; [intros H; inversion H as [|? ? T]; subst; apply trim_strip in T; now subst|]. intros <-. constructor. now apply trim_strip.
  - split; [intros H; now inversion H|intros <-; constructor].
Qed.
Lemma texts_iff o qs : Good (of_vars o) -> Texts o qs <-> sorted_queries o = qs.
Proof.
  intros G. unfold sorted_queries, queries.
  assert (HI : or_str (get_variable (of_vars o) (L "insertsql")) None =
    or_str (or_str (get_variable (of_vars o) (L "insertsql")) (get_variable (of_vars o) (L "insertsql"))) None)
    by (destruct (get_variable (of_vars o) (L "insertsql")) as [[|]|]; easy).
  rewrite HI. split.
  - intros (i & r & w & l1 & l2 & l3 & C1 & C2 & C3 & L1 & L2 & L3 & ->).
    rewrite (Chosen_fun _ _ _ _ _ G C1 (or_chosen o _ _ G)) in L1. rewrite (Chosen_fun _ _ _ _ _ G C2 (or_chosen o _ _ G)) in L2.
    rewrite (Chosen_fun _ _ _ _ _ G C3 (or_chosen o _ _ G)) in L3. apply listed_iff in L1, L2, L3. now subst.
  - intros <-. eexists _, _, _, _, _, _. split; [now apply or_chosen|]. split; [now apply or_chosen|]. split; [now apply or_chosen|].
    split; [now apply listed_iff|]. split; [now apply listed_iff|]. split; [now apply listed_iff|reflexivity].
Qed.
Lemma finalize_spec o : Good (of_vars o) -> (finalize o = Ok tt /\ (HasQuery o -> ~ In 0 (function_name o))) \/
  (finalize o = Exn ValueError /\ HasQuery o /\ In 0 (function_name o)).
Proof.
  intros G. unfold finalize, registered. pose proof (any_spec o G) as A. destruct (any_read_write o).
  - assert (HQ : HasQuery o) by now apply A. destruct (memb 0 (function_name o)) eqn:M; cbn [bind].
    + right. repeat split; auto. now apply memb_In.
    + left. split; [easy|]. intros _ H. apply memb_In in H. congruence.
  - left. split; [easy|]. intros H. now apply A in H.
Qed.
Notation aa := (annotate_all installed fmt parse).
Lemma all_total os : Forall (fun o => Good (of_vars o)) os -> Writes installed fmt parse os (fst (aa os)) (snd (aa os)).
Proof.
  induction 1 as [|o os G F IH]; [constructor|]. cbn [annotate_all].
  assert (FN : FunName o (function_name o)) by now apply name_spec.
  destruct (finalize_spec o G) as [[-> NN]|(-> & HQ & IN)].
  - unfold olift, print. cbn [obind]. pose proof (queries_total (sorted_queries o)) as Q.
    assert (T : Texts o (sorted_queries o)) by now apply texts_iff.
    destruct (aqs (sorted_queries o)) as [ls [[]|e|]]; cbn [fst snd obind] in *.
    + destruct (aa os) as [ls' r]. cbn [fst snd app] in *. now apply (Wr_cons _ _ _ o os _ (sorted_queries o) ls ls' r).
    + now apply (Wr_fail _ _ _ o os _ (sorted_queries o) ls e).
    + exfalso. clear - Q. remember Hang as h eqn:E. revert E. induction Q; intros; try discriminate; auto.
  - cbn. now apply (Wr_nul _ _ _ o os (function_name o)).
Qed.
Lemma all_calc os ls r : Forall (fun o => Good (of_vars o)) os -> Writes installed fmt parse os ls r -> aa os = (ls, r).
Proof.
  intros F W. induction W as [|o os n HQ FN IN|o os n qs ls ls' r FN NN T Q W IH|o os n qs ls e FN NN T Q]; [easy| | |];
    inversion F as [|? ? G F']; subst; apply name_spec in FN; try easy; cbn [annotate_all].
  - subst n. destruct (finalize_spec o G) as [[_ NN]|(-> & _)]; [now elim NN|easy].
  - subst n. destruct (finalize_spec o G) as [[-> _]|(_ & HQ & IN)]; [|now elim NN].
    apply texts_iff in T; [|easy]. apply queries_calc in Q. rewrite T, Q, (IH F'). easy.
  - subst n. destruct (finalize_spec o G) as [[-> _]|(_ & HQ & IN)]; [|now elim NN].
    apply texts_iff in T; [|easy]. apply queries_calc in Q. now rewrite T, Q.
Qed.
Lemma all_iff es os l : FileRule es os l -> forall ls r, aa os = (ls, r) <-> Writes installed fmt parse os ls r.
Proof.
  intros R ls r. pose proof (FileRule_good _ _ _ R) as G. split.
  - intros E. pose proof (all_total os G) as W. now rewrite E in W.
  - now apply all_calc.
Qed.

Theorem annotate_iff fuel fs name ls r :
  annotate installed fmt parse fuel fs name = (ls, r) <->
  (exists b, fs name = Ok b /\
    let (evs, o) := vsw_stream (parse_file fuel fs name) in
    (o = Ok tt /\ exists os l ls', FileRule (elems evs) os l /\ Writes installed fmt parse os ls' r /\ ls = Preamble ++ ls') \/
    (ls = Preamble /\ ((exists e, o = Exn e /\ r = Exn e) \/ (o = Hang /\ r = Hang)))) \/
  (ls = [] /\ ((exists e, fs name = Exn e /\ r = Exn e) \/ (fs name = Hang /\ r = Hang))).
Proof.
  unfold annotate. pose proof (file_arrows fuel fs name) as A. unfold open_frame at 1.
  destruct (fs name) as [b|e|] eqn:EF; cbn [bind olift obind].
  - destruct (vsw_stream (parse_file fuel fs name)) as [evs o]. cbn [fst] in A.
    destruct (steps_pre (elems evs) A) as (os & l & E & R & G).
    pose proof (fo_stream_total evs o [] _ E A) as T. cbn [snd] in T. rewrite T. clear T.
    destruct o as [[]|e|]; cbn [bind olift obind].
    + rewrite rev_involutive. pose proof (all_iff _ _ _ R) as AI. destruct (aa os) as [ls' r'] eqn:EA. cbn [app]. split.
      * intros [= <- <-]. left. exists b. split; [easy|]. left. split; [easy|]. exists os, l, ls'. split; [easy|]. split; [now apply AI|easy].
      * intros [(b' & _ & [(_ & os' & l' & ls2 & R' & W & ->)|(_ & [(e & [=] & _)|[[=] _]])])|(_ & [(e & [=] & _)|[[=] _]])].
        destruct (FileRule_fun _ _ _ _ _ R R') as [<- _]. apply AI in W. now injection W as -> ->.
    + cbn [app]. split.
      * intros [= <- <-]. left. exists b. split; [easy|]. right. split; [easy|]. left. now exists e.
      * intros [(b' & _ & [([=] & _)|(-> & [(e' & [= <-] & ->)|[[=] _]])])|(_ & [(e' & [=] & _)|[[=] _]])]. easy.
    + cbn [app]. split.
      * intros [= <- <-]. left. exists b. split; [easy|]. right. split; [easy|]. now right.
      * intros [(b' & _ & [([=] & _)|(-> & [(e' & [=] & _)|[_ ->]])])|(_ & [(e' & [=] & _)|[[=] _]])]. easy.
  - split.
    + intros [= <- <-]. right. split; [easy|]. left. now exists e.
    + intros [(b & [=] & _)|(-> & [(e' & [= <-] & ->)|[[=] _]])]. easy.
  - split.
    + intros [= <- <-]. right. split; [easy|]. now right.
    + intros [(b & [=] & _)|(-> & [(e' & [=] & _)|[_ ->]])]. easy.
Qed.
End Ann.
