(* Declarative side of C57: what a text with substitutions stands for, and all
   that is said about it and recorded of it. *)
From Verif Require Import Base PyStr Defines Var VarFun AppM Spec_Var Spec_VarFun Spec_App Spec_Args Spec_Crash.

Section Tables.
Variable U : uni.
Variable FT : ftable.
Variable w : loc.

(* ---- numbers: digits as Python knows them ---- *)
Definition DigitText (s : str) : Prop := s <> [] /\ Forall (fun c => u_isdigit U c = true) s.
Definition NumberText (s : str) : Prop := DigitText s \/ exists r, s = 45 :: r /\ DigitText r.
Inductive Decimal : str -> N -> Prop :=
| De_nil : Decimal [] 0
| De_snoc s n c d : Decimal s n -> u_decimal U c = Some d -> Decimal (s ++ [c]) (n * 10 + d).
Inductive Number : str -> Z -> Prop :=
| Nu_pos s n : DigitText s -> Decimal s n -> Number s (Z.of_N n)
| Nu_neg s n : DigitText s -> Decimal s n -> Number (45 :: s) (- Z.of_N n)%Z.

(* An offset or length: a number, something with variables, or neither. *)
Inductive Quantity : list elem -> option (num tok) -> Prop :=
| Qu_num a z : Number a z -> Quantity (map Ch a) (Some (NI z))
| Qu_bad a : ~ NumberText a -> Quantity (map Ch a) None
| Qu_var s v t : In (Va v) s -> Canon t s -> Quantity s (Some (NV t)).

(* ---- name:offset:length ---- *)
Definition bad_start : list lev := say E_VAR_SUBSTR_START w [(L "start", ANone)].
Definition bad_length (a : arg) : list lev := say E_VAR_SUBSTR_LENGTH w [(L "length", a)].

(* An offset of zero without a length is dropped. *)
Inductive Alone (o : num tok) : option (num tok) -> list lev -> Prop :=
| Al_zero : o = NI 0%Z -> Alone o None bad_start
| Al_other : o <> NI 0%Z -> Alone o (Some o) [].

Inductive Substring (data : tok) (il n : list elem) : option (num tok) -> option (num tok) -> list lev -> Prop :=
| Sb_off s o o' l : Split 58 None il [n; s] -> Quantity s (Some o) -> Alone o o' l -> Substring data il n o' None l
| Sb_badoff s more : Split 58 None il (n :: s :: more) -> (length more <= 1)%nat -> Quantity s None ->
    Substring data il n None None bad_start
| Sb_badlen s x o : Split 58 None il [n; s; map Ch x] -> Quantity s (Some o) -> ~ NumberText x ->
    Substring data il n None None (bad_length (AStr x))
| Sb_senseless s k z y o' l : Split 58 None il [n; s; k] -> Quantity s (Some (NI z)) -> Quantity k (Some (NI y)) ->
    ~ LengthMakesSense z y -> Alone (NI z) o' l -> Substring data il n o' None (bad_length ANone ++ l)
| Sb_zero s k t : Split 58 None il [n; s; k] -> Quantity s (Some (NV t)) -> Quantity k (Some (NI 0%Z)) ->
    Substring data il n (Some (NV t)) None (bad_length ANone)
| Sb_both s k z y : Split 58 None il [n; s; k] -> Quantity s (Some (NI z)) -> Quantity k (Some (NI y)) ->
    LengthMakesSense z y -> Substring data il n (Some (NI z)) (Some (NI y)) []
| Sb_var s k o t : Split 58 None il [n; s; k] -> Quantity s (Some o) -> Quantity k (Some (NV t)) ->
    Substring data il n (Some o) (Some (NV t)) []
| Sb_args ps x : Split 58 None il (n :: ps) -> length ps <> 1%nat -> length ps <> 2%nat -> str_of data = Ok x ->
    Substring data il n None None (say E_VAR_SUBSTR_ARGS w [(L "data", targ data)]).

(* ---- the use of a variable ---- *)
Inductive Counted (n : str) : list lev -> Prop :=
| Ct_legal : LegalName n -> Counted n [LVar n w]
| Ct_illegal : ~ LegalName n -> Counted n (say E_VAR_BAD_TOKENS w [(L "data", AStr n)] ++ [LVar n w]).
Inductive NameUse (il : list elem) : list lev -> Prop :=
| Nu_text s l : il = map Ch s -> Counted s l -> NameUse il l
| Nu_dynamic v : In (Va v) il -> NameUse il [].

(* ---- what is split where a value is split: its characters and variables; for
   one variable alone the text of its name, or nothing at all ---- *)
Inductive TextOnly : tok -> str -> Prop :=
| To_str s : TextOnly (TS s) s
| To_empty n : Flat n [] -> TextOnly n [].
Definition NoText (n : tok) : Prop := (forall s, ~ TextOnly n s).
Inductive Seen : tok -> list elem -> Prop :=
| Se_value t l : Flat t l -> ~ Named t -> Seen t l
| Se_name t n c s : NameIs t n -> TextOnly n (c :: s) -> Seen t (map Ch (c :: s))
| Se_call f n a : TextOnly n a -> Seen (TFunc f n) (map Ch (f ++ 40 :: a ++ [41]))
| Se_calls f n a o l : TextOnly n a -> Seen (TFuncS f n o l) (map Ch (f ++ 40 :: a ++ [41]))
| Se_lump t n : NameIs t n -> NoText n -> Seen t [Va t]
| Se_lumpcall f n : NoText n -> Seen (TFunc f n) [Va (TFunc f n)]
| Se_lumpcalls f n o l : NoText n -> Seen (TFuncS f n o l) [Va (TFuncS f n o l)].

(* ---- functions ---- *)

(* Brackets and quotes of the arguments.  If these are a list, a piece of text
   that is part of '}]' or the like counts as its first bracket, and a longer
   part of '({[' is never closed; other text does not count. *)
Definition piece (t : tok) : list elem :=
  match t with
  | TS [c] => [Ch c]
  | TS s => if existsb (str_eqb s) [L ")}"; L ")}]"] then [Ch 41]
            else if str_eqb s (L "}]") then [Ch 125]
            else if existsb (str_eqb s) [L "({"; L "{["; L "({["] then [Ch 40; Ch 93]
            else [Va t]
  | _ => [Va t]
  end.
Inductive Brackets : sliced -> list lev -> Prop :=
| Bk_fine t l : Flat t l -> Balanced l -> Brackets (SlTok t) []
| Bk_bad t l s : Flat t l -> ~ Balanced l -> str_of t = Ok s ->
    Brackets (SlTok t) (say W_FUNC_BALANCE w [(L "data", AStr s)])
| Bk_lfine m : Balanced (flat_map piece m) -> Brackets (SlList m) []
| Bk_lbad m : ~ Balanced (flat_map piece m) -> Brackets (SlList m) (say W_FUNC_BALANCE w [(L "data", AShown (lrepr m))]).

(* The arguments of a function written to. *)
Inductive ArgSlice (args : list elem) : sliced -> Prop :=
| As_text a : args = map Ch a -> ArgSlice args (SlTok (TS a))
| As_one v : args = [Va v] -> ArgSlice args (SlTok v)
| As_list m v : In (Va v) args -> Parts m args -> (2 <= length m)%nat -> ArgSlice args (SlList m).

Inductive Spaces (name : list elem) : list lev -> Prop :=
| Sc_none : ~ In (Ch 32) name -> Spaces name []
| Sc_some t x : In (Ch 32) name -> Canon t name -> str_of t = Ok x ->
    Spaces name (say W_ASSIGN_SPACES w [(L "name", targ t)]).

Definition audio_names : list str :=
  [L "MixMonitor"; L "Chanspy"; L "Volume"; L "Speex"; L "pitch_shift"; L "JACK_HOOK"; L "Mute"].

(* All that calling a function says.  SET assigns; INC and DEC use a variable. *)
Inductive FuncSays (fi : finfo) (sl : sliced) : list lev -> Prop :=
| Fn_plain l : f_kind fi = FPlain -> Brackets sl l -> FuncSays fi sl l
| Fn_audio l1 l : f_kind fi = FAudio ->
    ((forall v, sl <> SlTok (TS v)) /\ l1 = [] \/
     (exists v, sl = SlTok (TS v) /\ In v audio_names /\ l1 = []) \/
     (exists v, sl = SlTok (TS v) /\ ~ In v audio_names /\
        l1 = say E_FUNC_BAD_ARGS w [(L "func", AStr (f_name fi)); (L "data", AStr v)])) ->
    Brackets sl l -> FuncSays fi sl (l1 ++ l)
| Fn_count v l1 l : f_kind fi = FCount -> sl = SlTok (TS v) -> Brackets sl l1 -> Counted v l -> FuncSays fi sl (l1 ++ l)
| Fn_set_empty t l : f_kind fi = FSet -> sl = SlTok t -> Flat t [] -> Brackets sl l ->
    FuncSays fi sl (say E_ASSIGN_EMPTY w [] ++ l)
| Fn_set_noequals t il x l : f_kind fi = FSet -> sl = SlTok t -> ~ Flat t [] -> Seen t il -> ~ In (Ch 61) il ->
    str_of t = Ok x -> Brackets sl l -> FuncSays fi sl (say E_ASSIGN_NO_EQUALS w [(L "data", targ t)] ++ l)
| Fn_set_var t name value l1 l : f_kind fi = FSet -> sl = SlTok t -> Seen t (name ++ Ch 61 :: value) -> ~ In (Ch 61) name ->
    Spaces name l1 -> (forall r, name <> r ++ [Ch 41]) -> Brackets sl l -> FuncSays fi sl (l1 ++ l)
| Fn_set_func t fname args value l1 l2 l3 l fi' sl' : f_kind fi = FSet -> sl = SlTok t ->
    Seen t ((map Ch fname ++ Ch 40 :: args ++ [Ch 41]) ++ Ch 61 :: value) ->
    ~ In (Ch 61) (map Ch fname ++ Ch 40 :: args ++ [Ch 41]) -> ~ In 40 fname ->
    Spaces (map Ch fname ++ Ch 40 :: args ++ [Ch 41]) l1 ->
    FuncOf U FT fname fi' -> FuncSpelling w fi' fname l2 -> ArgSlice args sl' -> FuncSays fi' sl' l3 -> Brackets sl l ->
    FuncSays fi sl (l1 ++ (LFunc (u_lower U fname) :: l2 ++ l3) ++ l).

(* name=value; a name that ends in a parenthesis is a function written to *)
Inductive Assigned (t : tok) : list lev -> Prop :=
| Ag_empty : Flat t [] -> Assigned t (say E_ASSIGN_EMPTY w [])
| Ag_noequals il x : ~ Flat t [] -> Seen t il -> ~ In (Ch 61) il -> str_of t = Ok x ->
    Assigned t (say E_ASSIGN_NO_EQUALS w [(L "data", targ t)])
| Ag_var name value l1 : Seen t (name ++ Ch 61 :: value) -> ~ In (Ch 61) name -> Spaces name l1 ->
    (forall r, name <> r ++ [Ch 41]) -> Assigned t l1
| Ag_func fname args value l1 l2 l3 fi sl :
    Seen t ((map Ch fname ++ Ch 40 :: args ++ [Ch 41]) ++ Ch 61 :: value) ->
    ~ In (Ch 61) (map Ch fname ++ Ch 40 :: args ++ [Ch 41]) -> ~ In 40 fname ->
    Spaces (map Ch fname ++ Ch 40 :: args ++ [Ch 41]) l1 ->
    FuncOf U FT fname fi -> FuncSpelling w fi fname l2 -> ArgSlice args sl -> FuncSays fi sl l3 ->
    Assigned t (l1 ++ LFunc (u_lower U fname) :: l2 ++ l3).

(* func(args)tail *)
Inductive Cut (data : tok) (il : list elem) : list elem -> list elem -> list elem -> list lev -> Prop :=
| Cu_closed f args tail : il = f ++ Ch 40 :: args ++ Ch 41 :: tail -> ~ In (Ch 40) f -> ~ In (Ch 41) tail ->
    Cut data il f args tail []
| Cu_open f args x : il = f ++ Ch 40 :: args -> ~ In (Ch 40) f -> ~ In (Ch 41) args -> str_of data = Ok x ->
    Cut data il f args [] (say E_FUNC_PARENS w [(L "data", targ data)]).

Inductive Tail (data : tok) (tail : list elem) : option (num tok) -> option (num tok) -> list lev -> Prop :=
| Tl_none : tail = [] -> Tail data tail None None []
| Tl_junk t il c n o l lg x : tail <> [] -> Canon t tail -> Seen t il -> Substring t il (c :: n) o l lg -> str_of data = Ok x ->
    Tail data tail None None (lg ++ say E_FUNC_TAIL w [(L "data", targ data)])
| Tl_slice t il o l lg : tail <> [] -> Canon t tail -> Seen t il -> Substring t il [] o l lg -> Tail data tail o l lg.

(* ---- substitutions ---- *)
Inductive Means (il : list elem) : N -> tok -> list lev -> Prop :=
| Me_expr t : Canon t il -> Means il 91 (TExpr t) []
| Me_var t lg : ~ In (Ch 40) il -> ~ In (Ch 58) il -> Canon t il -> NameUse il lg -> Means il 123 (TVar t) lg
| Me_slice data n t o l v lg lg' : ~ In (Ch 40) il -> In (Ch 58) il -> Canon data il -> Substring data il n o l lg ->
    Canon t n -> NameUse n lg' -> VarOf t o l v -> Means il 123 v (lg ++ lg')
| Me_func data f args tail o l a v fi lg1 lg2 lg3 lg4 : Canon data il -> Cut data il (map Ch f) args tail lg1 -> f <> [] ->
    Tail data tail o l lg2 -> FuncOf U FT f fi -> FuncSpelling w fi f lg3 -> Canon a args -> FuncSays fi (SlTok a) lg4 ->
    FuncVal f a o l v -> Means il 123 v (lg1 ++ lg2 ++ LFunc (u_lower U f) :: lg3 ++ lg4).

(* ---- texts: from left to right and inside out ---- *)
Inductive Stands : str -> list elem -> list lev -> Prop :=
| St_text s : ~ Opens s -> Stands s (map Ch s) []
| St_sub s pre o c rest inner rest' il v rl lg1 lg2 lg3 : FirstOpen s pre o c rest -> ClosedBy o c rest inner rest' ->
    Stands inner il lg1 -> Means il o v lg2 -> Stands rest' rl lg3 ->
    Stands s (map Ch pre ++ Va v :: rl) (lg1 ++ lg2 ++ lg3).

(* A bracket that is not closed: what is to the left of it has been read. *)
Inductive Unfinished : str -> list lev -> Prop :=
| Un_here s : Unclosed s -> Unfinished s []
| Un_inner s pre o c rest inner rest' lg : FirstOpen s pre o c rest -> ClosedBy o c rest inner rest' ->
    Unfinished inner lg -> Unfinished s lg
| Un_after s pre o c rest inner rest' il v lg1 lg2 lg3 : FirstOpen s pre o c rest -> ClosedBy o c rest inner rest' ->
    Stands inner il lg1 -> Means il o v lg2 -> Unfinished rest' lg3 -> Unfinished s (lg1 ++ lg2 ++ lg3).

(* The data of an application. *)
Inductive Data (app s : str) : list elem -> list lev -> Prop :=
| Da_stands dl lg : Stands s dl lg -> Data app s dl lg
| Da_text lg : Unfinished s lg ->
    Data app s (map Ch s) (lg ++ say E_APP_PARSE_ERROR w [(L "app", AStr app); (L "args", AStr s)]).
End Tables.
