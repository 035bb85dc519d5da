(* Declarative side of C60: everything the reader of a configuration file gives,
   from the bytes of the file and of the files it includes.  Uses the types of
   Config.v and the rules for single lines, none of the functions. *)
From Verif Require Import Base PyStr Defines Config Spec_File Spec_Config Spec_Include Spec_VSpace.

(* ---- lines ---- *)

(* A line is read (C47) and then taken for what it is (C21).  [lf] is what there
   is to say about line ends; it comes between the messages of C47. *)
Definition elem_ev (p : parsed) : list event := match p with PElem e => [EvElem e] | PAct _ => [] end.
Inductive LineYields (w : loc) (b : bytes) (lf : list msg) (s : str) : list event -> parsed -> Prop :=
| Li_line d k before after kd ms p : LineRead w b s d k before after -> LineKind d kd -> LineResult w d (nonempty k) kd ms p ->
    LineYields w b lf s (map EvMsg (before ++ lf ++ after) ++ EvLine w d k :: map EvMsg ms ++ elem_ev p) p.

(* What is known of an open file: nothing before its first line, then its
   format, which the first line decides, and its last line so far. *)
Definition fmt : Type := option (bool * (loc * str)).
Inductive Format : fmt -> str -> bool -> Prop :=
| Fo_first s : Format None s (match eol_of s with LF => false | _ => true end)
| Fo_later dos l s : Format (Some (dos, l)) s dos.

(* Line [n+1] of the file.  [pend] are the messages about the ends of files that
   were included before; they are only given with the next line outside. *)
Inductive LineStep (name : str) (f : fmt) (n : N) (pend : list msg) (b : bytes) : fmt -> list event -> parsed -> Prop :=
| Lt_line w s dos evs p : w = Where name (n + 1) b -> Format f s dos -> LineYields w b (pend ++ line_msgs dos w s) s evs p ->
    LineStep name f n pend b (Some (dos, (w, s))) evs p.

(* ---- files ---- *)

(* [FileSays fs name f n pend bs evs r]: what the lines [bs] of a file give, of
   which [n] lines were read already, together with the files they include.  The
   end is normal, with end messages to be given later, or an exception. *)
Inductive FileSays (fs : str -> res bytes) : str -> fmt -> N -> list msg -> list bytes -> list event -> list msg + exn -> Prop :=
| Fy_empty name n : FileSays fs name None n [] [] [] (inl [])
| Fy_end name dos l n pend : FileSays fs name (Some (dos, l)) n pend [] [] (inl (pend ++ end_msgs dos (Some l)))
| Fy_undecodable name f n pend b bs : (forall s, ~ Spec_File.Decoded b s) ->
    FileSays fs name f n pend (b :: bs) [EvMsg (msg0 E_FILE_UTF8_BAD (Where name (n + 1) b))] (inr UnicodeDecodeError)
| Fy_plain name f n pend b bs f' evs p rest r : LineStep name f n pend b f' evs p ->
    (forall t must, p <> PAct (PPinclude t must)) -> FileSays fs name f' (n + 1) [] bs rest r ->
    FileSays fs name f n pend (b :: bs) (evs ++ rest) r
| Fy_include name f n pend b bs f' evs t must p content ls sub pend' rest r :
    LineStep name f n pend b f' evs (PAct (PPinclude t must)) -> Target name t p -> fs p = Ok content -> Lines content ls ->
    FileSays fs p None 0 [] ls sub (inl pend') -> FileSays fs name f' (n + 1) pend' bs rest r ->
    FileSays fs name f n pend (b :: bs) (evs ++ sub ++ rest) r
| Fy_include_fails name f n pend b bs f' evs t must p content ls sub e :
    LineStep name f n pend b f' evs (PAct (PPinclude t must)) -> Target name t p -> fs p = Ok content -> Lines content ls ->
    FileSays fs p None 0 [] ls sub (inr e) ->
    FileSays fs name f n pend (b :: bs) (evs ++ sub) (inr e)
| Fy_missing name f n pend b bs f' evs t must p rest r :
    LineStep name f n pend b f' evs (PAct (PPinclude t must)) -> Target name t p -> fs p = Exn OSError ->
    FileSays fs name f' (n + 1) [] bs rest r ->
    FileSays fs name f n pend (b :: bs)
      (evs ++ (if must then [EvMsg (Msg W_PP_INCLUDE_MISSING (Where name (n + 1) b) None [(L "filename", AStr t)])] else []) ++ rest) r
| Fy_unopened name f n pend b bs f' evs t must p e :
    LineStep name f n pend b f' evs (PAct (PPinclude t must)) -> Target name t p -> fs p = Exn e -> e <> OSError ->
    FileSays fs name f n pend (b :: bs) evs (inr e).

Inductive ReaderSays (fs : str -> res bytes) (name : str) : list event -> res unit -> Prop :=
| Ry_ok content ls evs pend : fs name = Ok content -> Lines content ls -> FileSays fs name None 0 [] ls evs (inl pend) ->
    ReaderSays fs name (evs ++ map EvMsg pend) (Ok tt)
| Ry_fails content ls evs e : fs name = Ok content -> Lines content ls -> FileSays fs name None 0 [] ls evs (inr e) ->
    ReaderSays fs name evs (Exn e)
| Ry_unopened e : fs name = Exn e -> ReaderSays fs name [] (Exn e).

(* ---- vertical white space ---- *)

Definition blanks (bs : list bline) : list event := map EvElem (empties bs).
(* Runs of empty lines between elements, the too long ones with a message. *)
Definition run_events (cls : mcls) (max : nat) (g : bool * list bline) : list event := map EvMsg (long_msgs cls max [g]) ++ blanks (snd g).
Inductive GapGives (bof : bool) (cls : mcls) (max : nat) (bs : list bline) : list event -> Prop :=
| Gg_bof b g gs : bof = true -> Runs bs ((false, b :: g) :: gs) ->
    GapGives bof cls max bs (EvMsg (msg0 W_WSV_BOF (snd b)) :: blanks (b :: g) ++ flat_map (run_events cls max) gs)
| Gg_mid gs : Runs bs gs -> (bof = true -> forall g gs', gs <> (false, g) :: gs') ->
    GapGives bof cls max bs (flat_map (run_events cls max) gs).
(* The empty lines at the end of a file; without [rep] the last ones vanish. *)
Inductive TailGives (rep : bool) (bs : list bline) : list event -> Prop :=
| Tg_blank gs b g : Runs bs (gs ++ [(false, b :: g)]) ->
    TailGives rep bs (flat_map (run_events H_WSV_CTX_BETWEEN 2) gs
                      ++ if rep then blanks (b :: g) ++ [EvMsg (msg0 W_WSV_EOF (snd (last g b)))] else [])
| Tg_comment gs : Runs bs gs -> (forall gs' g, gs <> gs' ++ [(false, g)]) ->
    TailGives rep bs (flat_map (run_events H_WSV_CTX_BETWEEN 2) gs).

(* [Before h bof n bs]: the elements [h] of a file end in the empty lines [bs],
   which are all of them if [bof]; [n] variables follow the last context. *)
Definition is_var (e : elem) : bool := match e with EVar _ => true | _ => false end.
Definition is_ctx (e : elem) : bool := match e with ECtx _ => true | _ => false end.
Definition Before (h : list elem) (bof : bool) (n : N) (bs : list bline) : Prop :=
  (exists a, h = a ++ empties bs /\ (bof = true /\ a = [] \/ bof = false /\ exists a' e, a = a' ++ [e] /\ is_blank e = false)) /\
  exists a b, h = a ++ b /\ (a = [] \/ exists a' c, a = a' ++ [ECtx c]) /\ existsb is_ctx b = false /\
    n = N.of_nat (length (filter is_var b)).

(* An element, given the elements [h] of its file so far. *)
Inductive ElemGives (h : list elem) : elem -> list event -> Prop :=
| Eg_blank c w : ElemGives h (EEmpty c w) []
| Eg_crowded c bof n : Before h bof n [] -> 2 < n -> ElemGives h (ECtx c) [EvMsg (msg0 H_WSV_CTX_BETWEEN (c_where c)); EvElem (ECtx c)]
| Eg_ctx c bof n bs g : Before h bof n bs -> n <= 2 \/ bs <> [] -> GapGives bof H_WSV_CTX_BETWEEN 2 bs g -> ElemGives h (ECtx c) (g ++ [EvElem (ECtx c)])
| Eg_var v bof n bs g : Before h bof n bs -> GapGives bof H_WSV_VARSET_BETWEEN 1 bs g -> ElemGives h (EVar v) (g ++ [EvElem (EVar v)]).
Definition EndGives (rep : bool) (h : list elem) (g : list event) : Prop := exists bof n bs, Before h bof n bs /\ TailGives rep bs g.

(* Files that gave an element and are not over yet, the latest first, each with
   its elements.  Coming back to one of them ends those above it. *)
Definition open_files : Type := list (str * list elem).
Inductive Spaced : open_files -> elem -> list event -> open_files -> Prop :=
| Sp_new st e g : ~ In (w_file (e_where e)) (map fst st) -> ElemGives [] e g -> Spaced st e g ((w_file (e_where e), [e]) :: st)
| Sp_back above f h below e gs g : f = w_file (e_where e) -> ~ In f (map fst above) ->
    Forall2 (fun x y => EndGives true (snd x) y) above gs -> ElemGives h e g ->
    Spaced (above ++ (f, h) :: below) e (List.concat gs ++ g) ((f, h ++ [e]) :: below).
Inductive SpacedAll : open_files -> list event -> list event -> open_files -> Prop :=
| Sa_nil st : SpacedAll st [] [] st
| Sa_elem st e evs g st' out st'' : Spaced st e g st' -> SpacedAll st' evs out st'' -> SpacedAll st (EvElem e :: evs) (g ++ out) st''
| Sa_other st ev evs out st' : (forall e, ev <> EvElem e) -> SpacedAll st evs out st' -> SpacedAll st (ev :: evs) (ev :: out) st'.
(* At the end of all only the latest file is checked for empty lines at its end. *)
Inductive AllEnd : open_files -> list event -> Prop :=
| Ae_none : AllEnd [] []
| Ae_some x st g gs : EndGives true (snd x) g -> Forall2 (fun x y => EndGives false (snd x) y) st gs -> AllEnd (x :: st) (g ++ List.concat gs).

(* ---- the file as the commands see it ---- *)
Inductive StreamOf (fs : str -> res bytes) (name : str) : list event -> res unit -> Prop :=
| So_ok evs out st g : ReaderSays fs name evs (Ok tt) -> SpacedAll [] evs out st -> AllEnd st g -> StreamOf fs name (out ++ g) (Ok tt)
| So_fails evs out st e : ReaderSays fs name evs (Exn e) -> SpacedAll [] evs out st -> StreamOf fs name out (Exn e).
