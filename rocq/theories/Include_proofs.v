From Verif Require Import Base Utf8 PyStr Regex Defines FileRd Config Spec_File Spec_Config
  Spec_Include File_proofs Config_proofs.

(* ---- lines ---- *)
Lemma lines_of_Lines b : Lines b (lines_of b).
Proof.
  induction b as [|c b IH]; [constructor|]. cbn [lines_of].
  destruct (N.eqb_spec c 10) as [->|Hc].
  - apply (Ln_cons [] b); [easy|exact IH].
  - inversion IH as [|l NE Nl|l r ls Nl H]; subst; try rewrite <- H0.
    + apply Ln_last; [easy|]. cbn. intuition.
    + apply Ln_last; [easy|]. cbn. intuition.
    + apply (Ln_cons (c :: l)); [|easy]. cbn. intuition.
Qed.

Lemma Lines_fun b ls : Lines b ls -> forall ls', Lines b ls' -> ls = ls'.
Proof.
  induction 1 as [|l NE Nl|l b ls Nl H IH]; intros ls' H'.
  - inversion H'; subst; try easy. now destruct l.
  - inversion H'; subst; try easy. exfalso. apply Nl, in_or_app. right. now left.
  - inversion H' as [E|l' NE' Nl' E|l' b' ls1 Nl' H1 E]; subst.
    + now destruct l.
    + exfalso. apply Nl', in_or_app. right. now left.
    + assert (l = l' /\ b = b') as [-> ->].
      { clear - E Nl Nl'. revert l' E Nl'. induction l as [|x l IH]; intros [|y l'] E Nl'; cbn in *.
        - now injection E.
        - injection E as -> E0. tauto.
        - injection E as <- E0. tauto.
        - injection E as -> E. destruct (IH ltac:(tauto) l' E ltac:(tauto)). now subst. }
      f_equal. now apply IH.
Qed.

Definition nl_last (b : bytes) : Prop := exists l, ~ In 10 l /\ (b = l \/ b = l ++ [10]).
Lemma Lines_nl b ls : Lines b ls -> Forall nl_last ls.
Proof.
  induction 1; constructor; try easy.
  - exists l. tauto.
  - exists l. tauto.
Qed.

(* ---- decoding ---- *)
Lemma decode_cases w b : (exists s, Decoded b s /\ exists ms, decode_line w b = (ms, Ok s) /\ forallb (fun m => negb (is_missing m)) ms = true)
  \/ (forall s, ~ Decoded b s) /\ exists ms, decode_line w b = (ms, Exn UnicodeDecodeError)
       /\ forallb (fun m => negb (is_missing m)) ms = true.
Proof.
  destruct (utf8_dec b) as [[s H]|H].
  - left. exists s. split; [now left|]. exists []. now rewrite (decode_line_utf8 w b s).
  - destruct (decode_line_other w b H) as (F & K & E & G).
    destruct (decode_line w b) as [ms r]. cbn in *. subst ms. destruct r as [s|e|].
    + left. exists s. split; [right; split; [easy|]; now apply K|]. now eexists.
    + right. split.
      * intros s [U|[_ U]]; [now apply (H s)|]. apply K in U. discriminate.
      * destruct (E e) as [E' _]. destruct (E' eq_refl) as [-> _]. now eexists.
    + easy.
Qed.

Lemma Forall2_Cp_fun b s s' : Forall2 Cp1252 b s -> Forall2 Cp1252 b s' -> s = s'.
Proof. intros H H'. apply cp1252_decode_ok in H, H'. congruence. Qed.

Lemma Decoded_fun b s s' : Decoded b s -> Decoded b s' -> s = s'.
Proof.
  intros [U|[N1 U]] [U'|[N2 U']].
  - apply utf8_decode_iff in U, U'. congruence.
  - now destruct (N2 s).
  - now destruct (N1 s').
  - now apply (Forall2_Cp_fun b).
Qed.

(* newlines survive decoding in their place *)
Lemma Utf8_1_nl c b : Utf8_1 c b -> (In 10 b -> c = 10) /\ (c = 10 -> b = [10]).
Proof.
  destruct 1; cbn; split; intros; try lia. now subst.
Qed.

Lemma Utf8_nl s b : Utf8 s b -> nl_last b -> nl_last s.
Proof.
  induction 1 as [|c b0 s bs H1 H2 IH]; intros (l & N1 & E).
  { exists []. tauto. }
  destruct (Utf8_1_nl c b0 H1) as [G1 G2].
  destruct (N.eq_dec c 10) as [->|Hc].
  - rewrite (G2 eq_refl) in E. cbn in E. destruct l as [|x l]; cbn in E.
    + destruct E as [E|E]; [easy|]. injection E as ->. inversion H2; subst.
      * exists []. cbn. tauto.
      * exfalso. match goal with X : Utf8_1 _ ?b |- _ => destruct b; [inversion X|discriminate] end.
    + exfalso. apply N1. left. destruct E as [E|E]; now injection E.
  - assert (Nb : ~ In 10 b0) by tauto.
    assert (G : nl_last bs).
    { destruct E as [E|E].
      - exists bs. split; [|tauto]. intros I. apply N1. rewrite <- E. apply in_or_app. tauto.
      - destruct bs as [|y bs] using rev_ind.
        + exfalso. apply Nb. rewrite app_nil_r in E. rewrite E. apply in_or_app. right. now left.
        + rewrite app_assoc in E. apply app_inj_tail in E as [E ->]. exists bs. split; [|tauto].
          intros I. apply N1. rewrite <- E. apply in_or_app. tauto. }
    destruct (IH G) as (l' & N2 & [->| ->]).
    + exists (c :: l'). cbn. split; [|tauto]. intros [|]; [congruence|tauto].
    + exists (c :: l'). cbn. split; [|tauto]. intros [|]; [congruence|tauto].
Qed.

Lemma Cp_nl b c : Cp1252 b c -> (b = 10 <-> c = 10).
Proof.
  intros [H|[H ->]]; [|tauto]. cbn in H. intuition (try congruence);
  repeat match goal with X : _ \/ _ |- _ => destruct X end; try easy; congruence.
Qed.
Lemma Cps_in b s : Forall2 Cp1252 b s -> In 10 s -> In 10 b.
Proof.
  induction 1 as [|x c b s Hc H IH]; [easy|]. cbn. intros [->|I]; [left; now apply (Cp_nl x 10)|tauto].
Qed.
Lemma Cps_nl b s : Forall2 Cp1252 b s -> nl_last b -> nl_last s.
Proof.
  intros H (l & N1 & [->| ->]).
  - exists s. split; [|tauto]. intros I. apply N1. now apply (Cps_in l s).
  - apply Forall2_app_inv_l in H as (s1 & s2 & H1 & H2 & ->). inversion H2 as [|x c y z Hc E]; subst.
    inversion E; subst. destruct (Cp_nl _ _ Hc) as [C _]. rewrite (C eq_refl). exists s1. split; [|tauto].
    intros I. apply N1. now apply (Cps_in l s1).
Qed.
Lemma Decoded_nl b s : Decoded b s -> nl_last b -> nl_last s.
Proof. intros [H|[_ H]]; [now apply Utf8_nl | now apply Cps_nl]. Qed.

Lemma Unesc_in c r d : c <> 59 -> Unesc r d -> In c d -> In c r.
Proof. intros Hc. induction 1; cbn; intuition congruence. Qed.

Lemma RawLine_no_nl b d k : RawLine b d k -> nl_last b -> no_nl d.
Proof.
  intros (s & body & e & s' & bl & bare & D & En & -> & Bl & NB & CS) N1.
  apply (Decoded_nl b s) in N1; [|easy].
  assert (Nb : ~ In 10 (s' ++ bl)).
  { destruct N1 as (l & Nl & E). inversion En as [y Ey|y Hy Ey|y Hy Ey]; subst.
    - destruct E as [E|E].
      + exfalso. apply Nl. rewrite <- E. apply in_or_app. right. cbn. tauto.
      + intros I. apply Nl. change [13; 10] with ([13] ++ [10]) in E. rewrite app_assoc in E.
        apply app_inj_tail in E as [E _]. rewrite <- E. apply in_or_app. tauto.
    - destruct E as [E|E].
      + exfalso. apply Nl. rewrite <- E. apply in_or_app. right. cbn. tauto.
      + apply app_inj_tail in E as [-> _]. easy.
    - destruct E as [->|E]; [easy|]. now apply Hy in E. }
  intros I. apply Nb, in_or_app. left. inversion CS; subst.
  - now apply (Unesc_in 10 s' d).
  - apply in_or_app. left. apply (Unesc_in 10 raw (d ++ blanks)); [easy|easy|]. apply in_or_app. tauto.
Qed.

Lemma RawLine_fun b d k d' k' : RawLine b d k -> RawLine b d' k' -> d = d' /\ k = k'.
Proof.
  intros (s & body & e & t & bl & bare & D & En & E & Bl & NB & CS)
         (s2 & body2 & e2 & t2 & bl2 & bare2 & D2 & En2 & E2 & Bl2 & NB2 & CS2).
  rewrite (Decoded_fun b s2 s) in * by easy. destruct (Ends_unique _ _ _ _ _ En En2) as [<- _].
  rewrite E in E2. destruct (blank_cut_unique _ _ _ _ E2) as [<- _]; try easy.
  now destruct (CommentSplit_fun _ _ _ _ _ _ _ CS CS2) as (-> & -> & _).
Qed.

(* ---- reading one line ---- *)
Definition quiet (ms : list msg) : Prop := forallb (fun m => negb (is_missing m)) ms = true.
Lemma quiet_app a b : quiet a -> quiet b -> quiet (a ++ b).
Proof. unfold quiet. rewrite forallb_app. now intros -> ->. Qed.

Lemma ff_pop1_quiet e : quiet (fst (ff_pop1 e)).
Proof. unfold ff_pop1. destruct (fe_dos e) as [[]|], (fe_lf e) as [[]|]; reflexivity. Qed.
Lemma ff_pop_quiet l stop : quiet (fst (ff_pop l stop)).
Proof.
  induction l as [|e l IH]; cbn; [easy|].
  destruct (match stop with Some f => _ | None => _ end); [easy|].
  pose proof (ff_pop1_quiet e). destruct (ff_pop1 e) as [ms []]; cbn in *; try easy.
  destruct (ff_pop l stop). cbn in *. now apply quiet_app.
Qed.
Lemma ff_finish_quiet st : quiet (fst (ff_finish st)).
Proof.
  unfold ff_finish. pose proof (ff_pop_quiet (ff_info st) None) as Q.
  destruct (ff_pop (ff_info st) None) as [ms []]; cbn in *; try easy. now apply quiet_app.
Qed.
#[local] Arguments has_lf : simpl never.
#[local] Arguments has_crlf : simpl never.
Lemma ff_line_quiet st w s : quiet (fst (ff_line st w s)).
Proof.
  unfold ff_line.
  assert (Q : quiet (fst (ff_enter st w))).
  { unfold ff_enter. destruct (ff_info st) as [|e l]; [easy|].
    destruct (str_eqb (fe_name e) (w_file w)); [easy|]. destruct (existsb _ _); [|easy].
    pose proof (ff_pop_quiet (e :: l) (Some (w_file w))) as Q.
    destruct (ff_pop (e :: l) (Some (w_file w))) as [ms [[|? ?]| |]]; cbn in *; try easy; now apply quiet_app. }
  destruct (ff_enter st w) as [ms [st1| |]]; cbn in *; try easy.
  destruct (ff_info st1) as [|e r]; cbn; [now apply quiet_app|]. apply quiet_app; [easy|].
  destruct (ff_dos st1) as [[]|], (has_lf s), (has_crlf s); reflexivity.
Qed.

Lemma line_cases w b :
  ((forall s, ~ Decoded b s) /\ forall ff, exists ms, read_line ff w b = (ms, Exn UnicodeDecodeError) /\ quiet ms)
  \/ exists d k, RawLine b d k /\ forall ff, ff_good ff ->
       exists ms ff', read_line ff w b = (ms, Ok (ff', d, k)) /\ ff_good ff' /\ quiet ms.
Proof.
  destruct (decode_cases w b) as [(s & D & ms & E & Q)|(N1 & ms & E & Q)].
  - right. destruct (comment_line_spec (strip_eol s) w) as (s' & bl & d & k & bare & E1 & Bl & NB & CS & R).
    destruct (strip_eol_ends s) as [e En].
    exists d, k. split; [exists s, (strip_eol s), e, s', bl, bare; tauto|].
    intros ff G. unfold read_line. rewrite E. cbn [wbind].
    destruct (ff_line_total ff w s G) as (ms2 & ff' & E2 & G').
    pose proof (ff_line_quiet ff w s) as Q2. rewrite E2 in *. cbn [wbind fst] in *. rewrite R. cbn [wbind wret].
    eexists _, ff'. split; [reflexivity|]. split; [easy|].
    repeat apply quiet_app; try easy.
    + unfold ctrl_msgs. now destruct (existsb is_ctrl s).
    + now destruct bl.
    + now destruct bare.
  - left. split; [easy|]. intros ff. exists ms. unfold read_line. rewrite E. cbn. now split.
Qed.

(* ---- what the line asks for ---- *)
Lemma DirResult_include w text ms t must : DirResult w text ms (PPinclude t must) <->
  exists gap arg bad c, DirText text (if must then KInclude else KTryinclude) gap arg /\ Unquoted arg t bad
    /\ (c = true <-> ~ gap_ok gap)
    /\ ms = some_if c (msg0 W_WSH_CTRL w) ++ some_if bad (msg0 W_PP_QUOTE_BAD w).
Proof.
  split.
  - intros H. inversion H as [k gap arg t0 bad c D U C E1 E2|]; subst. destruct k; inversion E2; subst;
    exists gap, arg, bad, c; rewrite app_nil_r; tauto.
  - intros (gap & arg & bad & c & D & U & C & ->).
    pose proof (DR_ok w text _ gap arg t bad c D U C) as X. destruct must; cbn in X; now rewrite app_nil_r in X.
Qed.

Lemma parse_include w b d k t must : RawLine b d k -> no_nl d ->
  snd (parse_line w d k) = PAct (PPinclude t must) <-> IncludeLine b t must.
Proof.
  intros R N1. destruct (parse_line_spec w d k N1) as (kd & K & P). split.
  - intros E. rewrite E in P. inversion P; subst.
    match goal with X : DirResult _ _ _ _ |- _ => apply DirResult_include in X as (gap & arg & bad & c & D & U & C & Ems) end.
    now exists (sp ++ text), k, sp, text, gap, arg, bad.
  - intros (d' & k' & sp & text & gap & arg & bad & R' & K' & E & Ws & NS & D & U).
    destruct (RawLine_fun _ _ _ _ _ R R') as [<- <-]. rewrite (LineKind_fun _ _ _ K K') in P.
    destruct (negb (forallb (N.eqb 32) gap) && negb (forallb (N.eqb 9) gap)) eqn:C;
    (eapply LineResult_fun; [exact P|]; apply (LR_directive w d _ sp text); [easy..|];
     apply DirResult_include; exists gap, arg, bad, (negb (forallb (N.eqb 32) gap) && negb (forallb (N.eqb 9) gap));
     split; [easy|]; split; [easy|]; split; [apply gap_dec|reflexivity]).
Qed.

Lemma some_if_quiet b m : is_missing m = false -> quiet (some_if b m).
Proof. intros H. destruct b; cbn; [|easy]. unfold quiet. cbn. now rewrite H. Qed.
Lemma parse_quiet w d k : no_nl d -> quiet (fst (parse_line w d k)).
Proof.
  intros N1. destruct (parse_line_spec w d k N1) as (kd & K & P).
  revert P. generalize (fst (parse_line w d k)), (snd (parse_line w d k)). intros ms p P.
  inversion P; subst; try reflexivity.
  - unfold header_msgs. apply quiet_app; now apply some_if_quiet.
  - unfold sep_msgs, indent_msgs. apply quiet_app; [destruct arrow|]; now apply some_if_quiet.
  - apply quiet_app; [now apply some_if_quiet|].
    match goal with X : DirResult _ _ _ _ |- _ => inversion X; subst end; [|reflexivity].
    apply quiet_app; [now apply some_if_quiet|]. apply quiet_app; [now apply some_if_quiet|]. now destruct k0.
Qed.

(* ---- paths ---- *)
Lemma uls_none p : ~ In 47 p -> upto_last_slash p = [].
Proof.
  induction p as [|c p IH]; cbn; [easy|]. intros H. rewrite IH by tauto. unfold is_slash.
  destruct (N.eqb_spec c 47); [tauto|easy].
Qed.
Lemma uls_app a base : ~ In 47 base -> upto_last_slash (a ++ [47] ++ base) = a ++ [47].
Proof.
  intros H. induction a as [|c a IH].
  - change ([] ++ [47] ++ base) with (47 :: base). cbn [upto_last_slash]. now rewrite uls_none.
  - change ((c :: a) ++ [47] ++ base) with (c :: (a ++ [47] ++ base)).
    cbn [upto_last_slash]. rewrite IH. now destruct a.
Qed.
Lemma slashes_snoc sl : slashes sl -> exists sl', sl = sl' ++ [47] /\ Forall (fun c => c = 47) sl'.
Proof.
  intros [NE F]. destruct (exists_last NE) as (sl' & x & ->). apply Forall_app in F as [F Fx].
  inversion Fx; subst. now exists sl'.
Qed.
Lemma slashes_forallb sl : Forall (fun c => c = 47) sl <-> forallb is_slash sl = true.
Proof. rewrite forallb_forall, Forall_forall. unfold is_slash. split; intros H x I; apply N.eqb_eq; rewrite ?(H x I); try easy; symmetry; apply N.eqb_eq; rewrite N.eqb_sym; now apply H. Qed.

Lemma dirname_root sl base : slashes sl -> ~ In 47 base -> dirname (sl ++ base) = sl.
Proof.
  intros S1 Nb. destruct (slashes_snoc sl S1) as (sl' & -> & F). unfold dirname. rewrite <- app_assoc.
  rewrite uls_app by easy. rewrite forallb_app. rewrite (proj1 (slashes_forallb sl')) by easy. easy.
Qed.
Lemma dirname_dir dir c sl base : c <> 47 -> slashes sl -> ~ In 47 base ->
  dirname (dir ++ [c] ++ sl ++ base) = dir ++ [c].
Proof.
  intros Hc S1 Nb. destruct (slashes_snoc sl S1) as (sl' & -> & F). unfold dirname.
  replace (dir ++ [c] ++ (sl' ++ [47]) ++ base) with ((dir ++ [c] ++ sl') ++ [47] ++ base) by lists.
  rewrite uls_app by easy.
  assert (is_slash c = false) as Hs by (unfold is_slash; now apply N.eqb_neq).
  rewrite !forallb_app. cbn [forallb]. rewrite Hs. rewrite andb_false_l, andb_false_r, andb_false_l. cbn [andb].
  rewrite (rstrip_p_unique is_slash _ (dir ++ [c]) (sl' ++ [47])).
  - easy.
  - lists.
  - rewrite forallb_app. now rewrite (proj1 (slashes_forallb sl')).
  - now rewrite last_opt_app.
Qed.

Lemma last_slash file : ~ In 47 file \/ exists a base, file = a ++ [47] ++ base /\ ~ In 47 base.
Proof.
  induction file as [|x file [IH|(a & base & -> & H)]]; [left; easy|..].
  - destruct (N.eq_dec x 47) as [->|Hx].
    + right. now exists [], file.
    + left. cbn. intuition.
  - right. now exists (x :: a), base.
Qed.
Lemma slash_tail a : Forall (fun c => c = 47) a \/
  exists dir c sl, a = dir ++ [c] ++ sl /\ c <> 47 /\ Forall (fun c => c = 47) sl.
Proof.
  induction a as [|x a IH] using rev_ind; [left; constructor|].
  destruct (N.eq_dec x 47) as [->|Hx].
  - destruct IH as [IH|(dir & c & sl & -> & Hc & F)].
    + left. apply Forall_app. split; [easy|]. now constructor.
    + right. exists dir, c, (sl ++ [47]). split; [lists|]. split; [easy|]. apply Forall_app. split; [easy|]. now constructor.
  - right. now exists a, x, [].
Qed.

Lemma Target_exists file t : exists p, Target file t p.
Proof.
  assert (A : (exists r, t = 47 :: r) \/ (forall r, t <> 47 :: r)).
  { destruct t as [|x t]; [right; easy|]. destruct (N.eq_dec x 47) as [->|]; [left; now eexists|right; congruence]. }
  destruct A as [[r E]|A]; [exists t; now apply (Tg_abs file t r)|].
  destruct (last_slash file) as [H|(a & base & -> & H)]; [exists t; now apply Tg_here|].
  destruct (slash_tail a) as [F|(dir & c & sl & -> & Hc & F)].
  - exists ((a ++ [47]) ++ t). apply (Tg_root _ t (a ++ [47]) base); try easy; [lists|].
    split; [now destruct a|]. apply Forall_app. split; [easy|]. now constructor.
  - exists (dir ++ [c] ++ [47] ++ t). apply (Tg_dir _ t dir c (sl ++ [47]) base); try easy; [lists|].
    split; [now destruct sl|]. apply Forall_app. split; [easy|]. now constructor.
Qed.
Lemma Target_path file t p : Target file t p -> path_join (dirname file) t = p.
Proof.
  unfold path_join. destruct 1 as [r E|Nf Ht|sl base E S1 Nb Ht|dir c sl base E Hc S1 Nb Ht].
  - now rewrite E.
  - assert (startswith (L "/") t = false) as ->.
    { destruct (startswith (L "/") t) eqn:X; [|easy]. apply startswith_app in X as [r ->]. now destruct (Ht r). }
    unfold dirname. now rewrite uls_none.
  - assert (startswith (L "/") t = false) as ->.
    { destruct (startswith (L "/") t) eqn:X; [|easy]. apply startswith_app in X as [r ->]. now destruct (Ht r). }
    rewrite E, dirname_root by easy. destruct (slashes_snoc sl S1) as (sl' & -> & F). now rewrite last_opt_app.
  - assert (startswith (L "/") t = false) as ->.
    { destruct (startswith (L "/") t) eqn:X; [|easy]. apply startswith_app in X as [r ->]. now destruct (Ht r). }
    rewrite E, dirname_dir by easy. rewrite last_opt_app. unfold is_slash.
    destruct (N.eqb_spec c 47); [easy|]. cbn. lists.
Qed.
Lemma Target_iff file t p : Target file t p <-> path_join (dirname file) t = p.
Proof.
  split; [apply Target_path|]. intros <-. destruct (Target_exists file t) as [p T].
  now rewrite (Target_path _ _ _ T).
Qed.

(* ---- the machine ---- *)
Lemma xview_app a b : xview (a ++ b) = xview a ++ xview b.
Proof. apply flat_map_app. Qed.
Lemma xview_quiet ms : quiet ms -> xview (map EvMsg ms) = [].
Proof.
  unfold quiet. induction ms as [|m ms IH]; cbn; [easy|]. intros H. apply andb_prop in H as [H1 H2].
  apply negb_true_iff in H1. rewrite H1. now apply IH.
Qed.

(* one line, without includes resolved *)
Definition item_evs (p : parsed) : list event := match p with PElem e => [EvElem e] | _ => [] end.
Definition line_evs (ms : list msg) (w : loc) (d k : str) : list event :=
  map EvMsg ms ++ EvLine w d k :: map EvMsg (fst (parse_line w d k)) ++ item_evs (snd (parse_line w d k)).
Lemma xview_line ms w d k : quiet ms -> no_nl d -> xview (line_evs ms w d k) = [XLine w d k].
Proof.
  intros Q N1. unfold line_evs. rewrite xview_app, xview_quiet by easy.
  change (EvLine w d k :: map EvMsg (fst (parse_line w d k)) ++ item_evs (snd (parse_line w d k)))
    with ([EvLine w d k] ++ map EvMsg (fst (parse_line w d k)) ++ item_evs (snd (parse_line w d k))).
  rewrite !xview_app, xview_quiet by now apply parse_quiet. now destruct (snd (parse_line w d k)).
Qed.

Lemma step_line n fs name no b bs stk ff ms ff' d k :
  let w := Where name (no + 1) b in
  read_line ff w b = (ms, Ok (ff', d, k)) ->
  read (S n) fs (Frame name no (b :: bs) :: stk) ff =
  match snd (parse_line w d k) with
  | PAct (PPinclude t must) =>
    match fs (path_join (dirname name) t) with
    | Ok c => let r := read n fs (Frame (path_join (dirname name) t) 0 (lines_of c) :: Frame name (no + 1) bs :: stk) ff' in
              (line_evs ms w d k ++ fst r, snd r)
    | Exn OSError => let r := read n fs (Frame name (no + 1) bs :: stk) ff' in
              (line_evs ms w d k ++ map EvMsg (if must then
                 [Msg W_PP_INCLUDE_MISSING w None [(L "filename", AStr t)]] else []) ++ fst r, snd r)
    | Exn e => (line_evs ms w d k, Exn e)
    | Hang => (line_evs ms w d k, Hang)
    end
  | _ => let r := read n fs (Frame name (no + 1) bs :: stk) ff' in (line_evs ms w d k ++ fst r, snd r)
  end.
Proof.
  intros w E. cbn [read]. fold w. rewrite E. unfold line_evs.
  destruct (parse_line w d k) as [ms2 p] eqn:P. cbn [fst snd].
  destruct p as [e|[|t must]]; cbn [item_evs].
  - destruct (read n fs _ ff') as [l o]. cbn [fst snd]. f_equal. lists.
  - destruct (read n fs _ ff') as [l o]. cbn [fst snd]. f_equal. lists.
  - unfold do_include, open_frame, include_path. cbn [w_file w].
    destruct (fs (path_join (dirname name) t)) as [c|[]|]; cbn [bind map app]; try (f_equal; lists).
    + destruct (read n fs _ ff') as [l o]. cbn [fst snd]. f_equal. lists.
    + destruct (read n fs _ ff') as [l o]. cbn [fst snd]. f_equal. lists.
Qed.

Lemma expand_run fs name n bs out : Expand fs name n bs out -> Forall nl_last bs ->
  exists k, forall fuel stk ff, ff_good ff -> exists evs ff', ff_good ff' /\ xview evs = out /\
    read (k + fuel) fs (Frame name n bs :: stk) ff = (evs ++ fst (read fuel fs stk ff'), snd (read fuel fs stk ff')).
Proof.
  induction 1 as [name n|name n b bs d k out R NI H IH|name n b bs d k t must p content ls sub out R I T Ef Ln Hs IHs H IH
                 |name n b bs d k t must p out R I T Ef H IH]; intros NL.
  - exists 1%nat. intros fuel stk ff G. exists [], ff. split; [easy|]. split; [easy|]. cbn. now destruct (read fuel fs stk ff).
  - inversion NL as [|? ? Nb Nbs]; subst. destruct (IH Nbs) as [k1 IH1]. exists (S k1). intros fuel stk ff G.
    pose proof (RawLine_no_nl _ _ _ R Nb) as N1.
    destruct (line_cases (Where name (n + 1) b) b) as [[ND _]|(d' & k' & R' & X)].
    { exfalso. destruct R as (s & ? & ? & ? & ? & ? & D & _). now apply (ND s). }
    destruct (RawLine_fun _ _ _ _ _ R R') as [<- <-]. destruct (X ff G) as (ms & ff1 & E & G1 & Q).
    cbn [plus]. rewrite (step_line _ _ _ _ _ _ _ _ _ _ _ _ E).
    destruct (IH1 fuel stk ff1 G1) as (evs & ff2 & G2 & V & E2). cbv zeta. rewrite E2.
    exists (line_evs ms (Where name (n + 1) b) d k ++ evs), ff2. split; [easy|].
    split; [rewrite xview_app, xview_line, V by easy; easy|].
    destruct (snd (parse_line _ d k)) as [e|[|t must]] eqn:P; cbn [fst snd]; try (f_equal; lists).
    exfalso. apply (parse_include _ b) in P; [|easy..]. now apply (NI t must).
  - inversion NL as [|? ? Nb Nbs]; subst. destruct (IH Nbs) as [k1 IH1].
    destruct (IHs (Lines_nl _ _ Ln)) as [k2 IH2].
    exists (S (k2 + k1)). intros fuel stk ff G.
    pose proof (RawLine_no_nl _ _ _ R Nb) as N1.
    destruct (line_cases (Where name (n + 1) b) b) as [[ND _]|(d' & k' & R' & X)].
    { exfalso. destruct R as (s & ? & ? & ? & ? & ? & D & _). now apply (ND s). }
    destruct (RawLine_fun _ _ _ _ _ R R') as [<- <-]. destruct (X ff G) as (ms & ff1 & E & G1 & Q).
    cbn [plus]. rewrite (step_line _ _ _ _ _ _ _ _ _ _ _ _ E). cbv zeta.
    rewrite (proj2 (parse_include _ b d k t must R N1) I). rewrite (Target_path _ _ _ T), Ef.
    rewrite (Lines_fun _ _ (lines_of_Lines content) _ Ln). rewrite <- Nat.add_assoc.
    destruct (IH2 (k1 + fuel)%nat (Frame name (n + 1) bs :: stk) ff1 G1) as (evs & ff2 & G2 & V & E2). rewrite E2.
    destruct (IH1 fuel stk ff2 G2) as (evs' & ff3 & G3 & V' & E3). rewrite E3.
    exists (line_evs ms (Where name (n + 1) b) d k ++ evs ++ evs'), ff3. split; [easy|]. cbn [fst snd].
    split; [rewrite !xview_app, xview_line, V, V' by easy; easy|]. f_equal. lists.
  - inversion NL as [|? ? Nb Nbs]; subst. destruct (IH Nbs) as [k1 IH1]. exists (S k1). intros fuel stk ff G.
    pose proof (RawLine_no_nl _ _ _ R Nb) as N1.
    destruct (line_cases (Where name (n + 1) b) b) as [[ND _]|(d' & k' & R' & X)].
    { exfalso. destruct R as (s & ? & ? & ? & ? & ? & D & _). now apply (ND s). }
    destruct (RawLine_fun _ _ _ _ _ R R') as [<- <-]. destruct (X ff G) as (ms & ff1 & E & G1 & Q).
    cbn [plus]. rewrite (step_line _ _ _ _ _ _ _ _ _ _ _ _ E).
    rewrite (proj2 (parse_include _ b d k t must R N1) I). rewrite (Target_path _ _ _ T), Ef.
    destruct (IH1 fuel stk ff1 G1) as (evs & ff2 & G2 & V & E2). cbv zeta. rewrite E2. cbn [fst snd].
    exists (line_evs ms (Where name (n + 1) b) d k ++ map EvMsg (if must then
                 [Msg W_PP_INCLUDE_MISSING (Where name (n + 1) b) None [(L "filename", AStr t)]] else []) ++ evs), ff2.
    split; [easy|]. split; [|f_equal; lists].
    rewrite !xview_app, xview_line, V by easy. now destruct must.
Qed.

Lemma init_good : ff_good ff_init.
Proof. split; [constructor|easy]. Qed.

Lemma expand_parse fs name content ls out : fs name = Ok content -> Lines content ls -> Expand fs name 0 ls out ->
  exists k, forall fuel, (k <= fuel)%nat -> exists evs, parse_file fuel fs name = (evs, Ok tt) /\ xview evs = out.
Proof.
  intros Ef Ln Ex. destruct (expand_run _ _ _ _ _ Ex (Lines_nl _ _ Ln)) as [k X].
  exists (k + 1)%nat. intros fuel Hf. replace fuel with (k + S (fuel - k - 1))%nat by lia.
  unfold parse_file, open_frame. rewrite Ef. cbn [bind].
  rewrite (Lines_fun _ _ (lines_of_Lines content) _ Ln).
  destruct (X (S (fuel - k - 1)) [] ff_init init_good) as (evs & ff & G & V & ->). cbn [read].
  destruct (ff_finish_total ff G) as [ms Em]. pose proof (ff_finish_quiet ff) as Q. rewrite Em in *.
  cbn [fst snd] in *. exists (evs ++ map EvMsg ms). split; [easy|]. rewrite xview_app, V, xview_quiet by easy.
  now rewrite app_nil_r.
Qed.

Lemma run_expand fs : forall fuel stk ff evs, ff_good ff -> Forall (fun f => Forall nl_last (f_rest f)) stk ->
  read fuel fs stk ff = (evs, Ok tt) ->
  Forall (fun f => exists out, Expand fs (f_name f) (f_no f) (f_rest f) out) stk.
Proof.
  induction fuel as [|n IH]; intros stk ff evs G NL E; [easy|].
  destruct stk as [|[name no [|b bs]] stk]; [constructor| |].
  - cbn in E. inversion NL; subst. constructor; [eexists; constructor|]. now apply (IH stk ff evs).
  - inversion NL as [|? ? Nf Ns]; subst. cbn [f_rest] in Nf. inversion Nf as [|? ? Nb Nbs]; subst.
    destruct (line_cases (Where name (no + 1) b) b) as [[ND X]|(d & k & R & X)].
    { exfalso. destruct (X ff) as (ms & Er & _). cbn [read] in E. rewrite Er in E. discriminate. }
    destruct (X ff G) as (ms & ff1 & Er & G1 & Q).
    pose proof (RawLine_no_nl _ _ _ R Nb) as N1.
    rewrite (step_line _ _ _ _ _ _ _ _ _ _ _ _ Er) in E. cbv zeta in E.
    assert (NS : Forall (fun f => Forall nl_last (f_rest f)) (Frame name (no + 1) bs :: stk)) by now constructor.
    assert (Go : forall r, r = read n fs (Frame name (no + 1) bs :: stk) ff1 -> snd r = Ok tt ->
      (exists out, Expand fs name (no + 1) bs out) /\
      Forall (fun f => exists out, Expand fs (f_name f) (f_no f) (f_rest f) out) stk).
    { intros [l o] Hr Ho. cbn in Ho. subst o. symmetry in Hr. specialize (IH _ _ _ G1 NS Hr).
      inversion IH; subst. easy. }
    assert (Plain : (forall t must, ~ IncludeLine b t must) -> forall r, r = read n fs (Frame name (no + 1) bs :: stk) ff1 ->
       snd r = Ok tt -> Forall (fun f => exists out, Expand fs (f_name f) (f_no f) (f_rest f) out) (Frame name no (b :: bs) :: stk)).
    { intros NI r Hr Ho. destruct (Go r Hr Ho) as [[out Ex] Fo]. constructor; [|easy]. eexists. cbn. now apply (Ex_plain fs name no b bs d k out). }
    destruct (snd (parse_line _ d k)) as [e|[|t must]] eqn:P.
    + apply (Plain) with (r := read n fs (Frame name (no + 1) bs :: stk) ff1); [|easy|now injection E].
      intros t must I. apply (parse_include (Where name (no + 1) b) b d k) in I; [|easy..]. congruence.
    + apply (Plain) with (r := read n fs (Frame name (no + 1) bs :: stk) ff1); [|easy|now injection E].
      intros t must I. apply (parse_include (Where name (no + 1) b) b d k) in I; [|easy..]. congruence.
    + apply (parse_include _ b) in P; [|easy..].
      destruct (Target_exists name t) as [p T]. rewrite (Target_path _ _ _ T) in E.
      destruct (fs p) as [c|e|] eqn:Ef.
      * destruct (read n fs (Frame p 0 (lines_of c) :: Frame name (no + 1) bs :: stk) ff1) as [l o] eqn:Er2.
        cbn [snd] in E. injection E as _ ->.
        assert (NS2 : Forall (fun f => Forall nl_last (f_rest f)) (Frame p 0 (lines_of c) :: Frame name (no + 1) bs :: stk)).
        { constructor; [|easy]. cbn. apply (Lines_nl c). apply lines_of_Lines. }
        specialize (IH _ _ _ G1 NS2 Er2). inversion IH as [|? ? [sub Hs] IH']; subst. inversion IH' as [|? ? [out Ho] IH'']; subst.
        cbn in *. constructor; [|easy]. eexists. cbn.
        apply (Ex_include fs name no b bs d k t must p c (lines_of c) sub out); try easy. apply lines_of_Lines.
      * assert (e = OSError) as ->.
        { destruct e; try easy; discriminate. }
        destruct (Go _ eq_refl ltac:(now injection E)) as [[out Ex] Fo]. constructor; [|easy]. eexists. cbn.
        now apply (Ex_missing fs name no b bs d k t must p out).
      * discriminate.
Qed.

Lemma read_mono fs : forall n m stk ff, snd (read n fs stk ff) <> Hang -> read (n + m) fs stk ff = read n fs stk ff.
Proof.
  induction n as [|n IH]; intros m stk ff H; [easy|]. cbn [plus].
  destruct stk as [|[name no [|b bs]] stk]; [easy|cbn [read] in *; now apply IH|].
  cbn [read] in *. destruct (read_line ff _ b) as [ms [[[ff' d] k]| |]]; try easy.
  destruct (parse_line _ d k) as [ms2 [e|[|t must]]].
  - pose proof (IH m (Frame name (no + 1) bs :: stk) ff') as X.
    destruct (read n fs (Frame name (no + 1) bs :: stk) ff') as [l o]. now rewrite X.
  - pose proof (IH m (Frame name (no + 1) bs :: stk) ff') as X.
    destruct (read n fs (Frame name (no + 1) bs :: stk) ff') as [l o]. now rewrite X.
  - destruct (do_include fs _ t must) as [ms3 [[f|]| |]]; try easy.
    + pose proof (IH m (f :: Frame name (no + 1) bs :: stk) ff') as X.
      destruct (read n fs (f :: Frame name (no + 1) bs :: stk) ff') as [l o]. now rewrite X.
    + pose proof (IH m (Frame name (no + 1) bs :: stk) ff') as X.
      destruct (read n fs (Frame name (no + 1) bs :: stk) ff') as [l o]. now rewrite X.
Qed.
Lemma parse_mono fs n m name : snd (parse_file n fs name) <> Hang ->
  parse_file (n + m) fs name = parse_file n fs name.
Proof. unfold parse_file. destruct (open_frame fs name); try easy. apply read_mono. Qed.

Lemma parse_expand fuel fs name evs : parse_file fuel fs name = (evs, Ok tt) ->
  exists content ls, fs name = Ok content /\ Lines content ls /\ Expand fs name 0 ls (xview evs).
Proof.
  intros E0. pose proof E0 as E. unfold parse_file, open_frame in E. destruct (fs name) as [c| |] eqn:Ef; cbn [bind] in E; try easy.
  assert (NL : Forall (fun f => Forall nl_last (f_rest f)) [Frame name 0 (lines_of c)]).
  { constructor; [|easy]. apply (Lines_nl c), lines_of_Lines. }
  pose proof (run_expand fs fuel _ _ _ init_good NL E) as X. inversion X as [|? ? [out Ex] _]; subst.
  cbn in Ex. exists c, (lines_of c). split; [easy|]. split; [apply lines_of_Lines|].
  destruct (expand_parse fs name c (lines_of c) out Ef (lines_of_Lines c) Ex) as [k K].
  destruct (K (fuel + k)%nat ltac:(lia)) as (evs' & E' & V).
  rewrite parse_mono in E' by now rewrite E0. rewrite E0 in E'. injection E' as ->. now rewrite V.
Qed.

(* ---- termination ---- *)
Lemma expand_acc fs name n bs out : Expand fs name n bs out ->
  forall line t must p c, In line bs -> IncludeLine line t must -> Target name t p -> fs p = Ok c ->
  Acc (fun b a => Inc fs a b) p.
Proof.
  induction 1 as [name n|name n b bs d k out R NI H IH|name n b bs d k t must p content ls sub out R I T Ef Ln Hs IHs H IH
                 |name n b bs d k t must p out R I T Ef H IH]; intros line t' must' p' c' Hl Il Tl El.
  - easy.
  - destruct Hl as [->|Hl]; [now destruct (NI t' must')|]. now apply (IH line t' must' p' c').
  - destruct Hl as [->|Hl]; [|now apply (IH line t' must' p' c')].
    assert (t' = t) as ->.
    { destruct I as (d1 & k1 & sp1 & x1 & g1 & a1 & b1 & R1 & K1 & E1 & W1 & S1 & D1 & U1).
      destruct Il as (d2 & k2 & sp2 & x2 & g2 & a2 & b2 & R2 & K2 & E2 & W2 & S2 & D2 & U2).
      destruct (RawLine_fun _ _ _ _ _ R1 R2) as [<- <-]. rewrite E1 in E2.
      destruct (starts_ws_unique _ _ _ _ E2) as [<- <-]; try easy.
      destruct (DirText_fun _ _ _ _ _ _ _ D1 D2) as (_ & <- & <-).
      now destruct (Unquoted_fun _ _ _ _ _ U1 U2) as [<- _]. }
    apply Target_path in T, Tl. rewrite T in Tl. subst p'.
    constructor. intros q (c2 & ls2 & l2 & t2 & m2 & E2 & L2 & In2 & I2 & T2 & c3 & E3).
    rewrite Ef in E2. injection E2 as <-. rewrite (Lines_fun _ _ L2 _ Ln) in In2.
    now apply (IHs l2 t2 m2 q c3).
  - destruct Hl as [->|Hl]; [|now apply (IH line t' must' p' c')].
    assert (t' = t) as ->.
    { destruct I as (d1 & k1 & sp1 & x1 & g1 & a1 & b1 & R1 & K1 & E1 & W1 & S1 & D1 & U1).
      destruct Il as (d2 & k2 & sp2 & x2 & g2 & a2 & b2 & R2 & K2 & E2 & W2 & S2 & D2 & U2).
      destruct (RawLine_fun _ _ _ _ _ R1 R2) as [<- <-]. rewrite E1 in E2.
      destruct (starts_ws_unique _ _ _ _ E2) as [<- <-]; try easy.
      destruct (DirText_fun _ _ _ _ _ _ _ D1 D2) as (_ & <- & <-).
      now destruct (Unquoted_fun _ _ _ _ _ U1 U2) as [<- _]. }
    apply Target_path in T, Tl. rewrite T in Tl. subst p'. congruence.
Qed.

Lemma ok_acyclic fuel fs name evs : parse_file fuel fs name = (evs, Ok tt) -> Acc (fun b a => Inc fs a b) name.
Proof.
  intros H. apply parse_expand in H as (c & ls & Ef & Ln & Ex).
  constructor. intros q (c2 & ls2 & l2 & t2 & m2 & E2 & L2 & In2 & I2 & T2 & c3 & E3).
  rewrite Ef in E2. injection E2 as <-. rewrite (Lines_fun _ _ L2 _ Ln) in In2.
  now apply (expand_acc fs name 0 ls _ Ex l2 t2 m2 q c3).
Qed.

Lemma acc_run fs name : (forall p, fs p <> Hang) -> Acc (fun b a => Inc fs a b) name ->
  forall c, fs name = Ok c -> forall n bs, incl bs (lines_of c) ->
  exists k, forall fuel stk ff, ff_good ff ->
    (exists evs ff', ff_good ff' /\ read (k + fuel) fs (Frame name n bs :: stk) ff
       = (evs ++ fst (read fuel fs stk ff'), snd (read fuel fs stk ff')))
    \/ exists evs e, read (k + fuel) fs (Frame name n bs :: stk) ff = (evs, Exn e).
Proof.
  intros NH A. induction A as [name _ IHA]. intros c Ef n bs. revert n.
  induction bs as [|b bs IH]; intros n Hi.
  { exists 1%nat. intros fuel stk ff G. left. exists [], ff. split; [easy|]. cbn. now destruct (read fuel fs stk ff). }
  destruct (IH (n + 1)) as [k1 IH1]. { intros x Hx. apply Hi. now right. }
  assert (Nb : nl_last b).
  { assert (X := Lines_nl _ _ (lines_of_Lines c)). rewrite Forall_forall in X. apply X, Hi. now left. }
  set (w := Where name (n + 1) b).
  destruct (line_cases w b) as [[ND X]|(d & k & R & X)].
  { exists 1%nat. intros fuel stk ff G. right. destruct (X ff) as (ms & Er & _). cbn [plus read].
    change {| w_file := name; w_line := n + 1; w_text := b |} with w.
    rewrite Er. now eexists _, _. }
  pose proof (RawLine_no_nl _ _ _ R Nb) as N1.
  destruct (snd (parse_line w d k)) as [e|[|t must]] eqn:P.
  1,2: exists (S k1); intros fuel stk ff G; destruct (X ff G) as (ms & ff1 & Er & G1 & Q);
    cbn [plus]; rewrite (step_line _ _ _ _ _ _ _ _ _ _ _ _ Er); fold w; rewrite P; cbv zeta;
    destruct (IH1 fuel stk ff1 G1) as [(evs & ff2 & G2 & ->)|(evs & e2 & ->)]; cbn [fst snd];
    [left; eexists (_ ++ evs), ff2; split; [easy|]; now rewrite <- app_assoc|right; now eexists _, _].
  destruct (Target_exists name t) as [p T]. apply (parse_include w b) in P as I; [|easy..].
  destruct (fs p) as [cp|e|] eqn:Ep.
  - destruct (IHA p) with (c := cp) (n := 0) (bs := lines_of cp) as [k2 IH2]; try easy.
    { exists c, (lines_of c), b, t, must. split; [easy|]. split; [apply lines_of_Lines|].
      split; [apply Hi; now left|]. split; [easy|]. split; [easy|]. now exists cp. }
    exists (S (k2 + k1)). intros fuel stk ff G. destruct (X ff G) as (ms & ff1 & Er & G1 & Q).
    cbn [plus]. rewrite (step_line _ _ _ _ _ _ _ _ _ _ _ _ Er). fold w. rewrite P.
    rewrite (Target_path _ _ _ T), Ep. cbv zeta. rewrite <- Nat.add_assoc.
    destruct (IH2 (k1 + fuel)%nat (Frame name (n + 1) bs :: stk) ff1 G1) as [(evs & ff2 & G2 & ->)|(evs & e2 & ->)];
      cbn [fst snd]; [|right; now eexists _, _].
    destruct (IH1 fuel stk ff2 G2) as [(evs' & ff3 & G3 & ->)|(evs' & e2 & ->)]; cbn [fst snd].
    + left. exists (line_evs ms w d k ++ evs ++ evs'), ff3. split; [easy|]. f_equal. lists.
    + right. now eexists _, _.
  - exists (S k1). intros fuel stk ff G. destruct (X ff G) as (ms & ff1 & Er & G1 & Q).
    cbn [plus]. rewrite (step_line _ _ _ _ _ _ _ _ _ _ _ _ Er). fold w. rewrite P.
    rewrite (Target_path _ _ _ T), Ep. cbv zeta.
    destruct e; try (right; now eexists _, _).
    destruct (IH1 fuel stk ff1 G1) as [(evs & ff2 & G2 & ->)|(evs & e2 & ->)]; cbn [fst snd].
    + left. exists (line_evs ms w d k ++ map EvMsg (if must then
                 [Msg W_PP_INCLUDE_MISSING w None [(L "filename", AStr t)]] else []) ++ evs), ff2. split; [easy|]. f_equal. lists.
    + right. now eexists _, _.
  - now destruct (NH p).
Qed.

Lemma acyclic_ends fs name : (forall p, fs p <> Hang) -> Acc (fun b a => Inc fs a b) name ->
  exists k, forall fuel, (k <= fuel)%nat -> snd (parse_file fuel fs name) <> Hang.
Proof.
  intros NH A. destruct (fs name) as [c|e|] eqn:Ef.
  - destruct (acc_run fs name NH A c Ef 0 (lines_of c)) as [k K]; [easy|].
    exists (k + 1)%nat. intros fuel Hf. replace fuel with (k + S (fuel - k - 1))%nat by lia.
    unfold parse_file, open_frame. rewrite Ef. cbn [bind].
    destruct (K (S (fuel - k - 1)) [] ff_init init_good) as [(evs & ff & G & ->)|(evs & e & ->)]; [|easy].
    cbn [read]. destruct (ff_finish_total ff G) as [ms ->]. easy.
  - exists O. intros fuel _. unfold parse_file, open_frame. now rewrite Ef.
  - now destruct (NH name).
Qed.

Lemma readable_run fs : Readable fs -> forall fuel stk ff, ff_good ff ->
  Forall (fun f => Forall (fun l => nl_last l /\ exists s, Decoded l s) (f_rest f)) stk ->
  snd (read fuel fs stk ff) = Ok tt \/ snd (read fuel fs stk ff) = Hang.
Proof.
  intros [Op De]. induction fuel as [|n IH]; intros stk ff G NL; [now right|].
  destruct stk as [|[name no [|b bs]] stk].
  - cbn. destruct (ff_finish_total ff G) as [ms ->]. now left.
  - cbn [read]. apply IH; [easy|]. now inversion NL.
  - inversion NL as [|? ? Nf Ns]; subst. cbn in Nf. inversion Nf as [|? ? [Nb [s Hs]] Nbs]; subst.
    destruct (line_cases (Where name (no + 1) b) b) as [[ND X]|(d & k & R & X)]; [now destruct (ND s)|].
    destruct (X ff G) as (ms & ff1 & Er & G1 & Q). rewrite (step_line _ _ _ _ _ _ _ _ _ _ _ _ Er). cbv zeta.
    assert (Go := IH (Frame name (no + 1) bs :: stk) ff1 G1 ltac:(now constructor)).
    destruct (snd (parse_line _ d k)) as [e|[|t must]]; [exact Go|exact Go|].
    destruct (Op (path_join (dirname name) t)) as [[c Ec]|Ec]; rewrite Ec; [|exact Go].
    apply IH; [easy|]. constructor; [|now constructor]. cbn.
    apply Forall_forall. intros l Hl. split.
    + assert (Y := Lines_nl _ _ (lines_of_Lines c)). rewrite Forall_forall in Y. now apply Y.
    + apply (De _ c (lines_of c) l Ec); [apply lines_of_Lines|easy].
Qed.

Lemma readable_parse fs name c : Readable fs -> fs name = Ok c ->
  forall fuel, snd (parse_file fuel fs name) = Ok tt \/ snd (parse_file fuel fs name) = Hang.
Proof.
  intros Rd Ef fuel. unfold parse_file, open_frame. rewrite Ef. cbn [bind].
  apply readable_run; [easy|apply init_good|]. constructor; [|easy]. cbn.
  apply Forall_forall. intros l Hl. split.
  - assert (Y := Lines_nl _ _ (lines_of_Lines c)). rewrite Forall_forall in Y. now apply Y.
  - apply (proj2 Rd _ c (lines_of c) l Ef); [apply lines_of_Lines|easy].
Qed.

Definition line_elems (x : xev) : list elem :=
  match x with
  | XLine w d k => match snd (parse_line w d k) with PElem e => [e] | _ => [] end
  | XMissing _ => []
  end.
Definition ev_elems (evs : list event) : list elem :=
  flat_map (fun ev => match ev with EvElem e => [e] | _ => [] end) evs.
Lemma ev_elems_app a b : ev_elems (a ++ b) = ev_elems a ++ ev_elems b.
Proof. apply flat_map_app. Qed.
Lemma ev_elems_msgs ms : ev_elems (map EvMsg ms) = [].
Proof. now induction ms. Qed.
Lemma elems_msgs ms : flat_map line_elems (xview (map EvMsg ms)) = [].
Proof. induction ms as [|m ms IH]; cbn; [easy|]. now destruct (is_missing m). Qed.

Lemma read_elems fs : forall n stk ff,
  ev_elems (fst (read n fs stk ff)) = flat_map line_elems (xview (fst (read n fs stk ff))).
Proof.
  induction n as [|n IH]; intros stk ff; [easy|].
  destruct stk as [|[name no [|b bs]] stk].
  - cbn. destruct (ff_finish ff) as [ms r]. cbn [fst]. now rewrite ev_elems_msgs, elems_msgs.
  - apply IH.
  - destruct (read_line ff (Where name (no + 1) b) b) as [ms [[[ff' d] k]|e|]] eqn:E.
    + rewrite (step_line _ _ _ _ _ _ _ _ _ _ _ _ E). cbv zeta.
      assert (Ll : ev_elems (line_evs ms (Where name (no + 1) b) d k)
        = flat_map line_elems (xview (line_evs ms (Where name (no + 1) b) d k))).
      { unfold line_evs.
        rewrite !xview_app, !flat_map_app, !ev_elems_app, ev_elems_msgs, elems_msgs.
        change (EvLine ?w d k :: ?r) with ([EvLine w d k] ++ r).
        rewrite !xview_app, !flat_map_app, !ev_elems_app, ev_elems_msgs, elems_msgs. cbn.
        destruct (snd (parse_line _ d k)); easy. }
      pose proof (IH (Frame name (no + 1) bs :: stk) ff') as I1.
      destruct (snd (parse_line _ d k)) as [e|[|t must]].
      * cbn [fst]. now rewrite xview_app, flat_map_app, ev_elems_app, Ll, I1.
      * cbn [fst]. now rewrite xview_app, flat_map_app, ev_elems_app, Ll, I1.
      * destruct (fs _) as [c|e|]; cbn [fst]; [| |easy].
        -- now rewrite xview_app, flat_map_app, ev_elems_app, Ll, IH.
        -- destruct e; try exact Ll. cbn [fst].
           now rewrite !xview_app, !flat_map_app, !ev_elems_app, Ll, I1, elems_msgs, ev_elems_msgs.
    + cbn [read]. rewrite E. cbn [fst]. now rewrite ev_elems_msgs, elems_msgs.
    + cbn [read]. rewrite E. cbn [fst]. now rewrite ev_elems_msgs, elems_msgs.
Qed.
