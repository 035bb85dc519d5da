(* Declarative side of C23: what the linter survives. *)
From Verif Require Import Base PyStr Defines Var VarFun AppM Spec_Var Spec_VarFun Spec_App Spec_Args.

(* A variable with a name: str() and split() fail on Var(''), which stands for
   '${}' and '$[]'. *)
Inductive NameIs : tok -> tok -> Prop :=
| Ni_var n : NameIs (TVar n) n
| Ni_expr n : NameIs (TExpr n) n
| Ni_slice n s l : NameIs (TSlice n s l) n
| Ni_dyn n s l : NameIs (TDyn n s l) n.
Definition Tame (v : tok) : Prop := (exists s, str_of v = Ok s) /\ forall n, NameIs v n -> ~ Flat n [].
Definition TameData (dl : list elem) : Prop := forall v, In (Va v) dl -> Tame v.

Section Tables.
Variable U : uni.
Variable FT : ftable.
Variable AT : atable.

(* ---- applications ---- *)

(* name=value where the name ends in a parenthesis. *)
Inductive SetFails (dl : list elem) : Prop :=
| Sf_noparen r value : dl = r ++ Ch 41 :: Ch 61 :: value -> ~ In (Ch 61) r -> ~ In (Ch 40) r -> SetFails dl
| Sf_dynamic pre v args value : dl = pre ++ Ch 40 :: args ++ Ch 41 :: Ch 61 :: value ->
    ~ In (Ch 61) (pre ++ args) -> ~ In (Ch 40) pre -> In (Va v) pre -> SetFails dl
| Sf_count f fi v args value : dl = map Ch f ++ Ch 40 :: args ++ Ch 41 :: Ch 61 :: value ->
    ~ In (Ch 61) (map Ch f ++ args) -> ~ In 40 f -> FuncOf U FT f fi -> f_kind fi = FCount -> In (Va v) args -> SetFails dl
| Sf_set f fi v args value : dl = map Ch f ++ Ch 40 :: args ++ Ch 41 :: Ch 61 :: value ->
    ~ In (Ch 61) (map Ch f ++ args) -> ~ In 40 f -> FuncOf U FT f fi -> f_kind fi = FSet -> In (Va v) args ->
    args <> [Va v] -> SetFails dl.

(* A variable standing alone is split by its name (C31). *)
Definition ByName (dl : list elem) : Prop :=
  (exists v, dl = [Va v]) \/ exists f v post, dl = map Ch f ++ [Ch 40; Va v; Ch 41; Ch 61] ++ post.

(* [nested] says which branches of an ExecIf fail. *)
Inductive CallFails (nested : list elem -> Prop) (dl : list elem) : akind -> Prop :=
| Cf_goto args : Separated 44 dl args -> (3 < length args)%nat -> CallFails nested dl AGoto
| Cf_gotoif bs b args : Branches dl bs -> In b bs -> Args 44 b args -> (3 < length args)%nat -> CallFails nested dl AGotoIf
| Cf_set : SetFails dl -> CallFails nested dl ASet
| Cf_execif bs b : Branches dl bs -> In b bs -> nested b -> CallFails nested dl AExecIf
| Cf_execif_old x c y more : Args 63 dl [x] -> Separated 44 dl (c :: y :: more) -> CallFails nested dl AExecIf.

(* ---- substitutions ---- *)

(* An offset or length.  Text that is no decimal number is reported. *)
Inductive Off : list elem -> option (num tok) -> Prop :=
| Of_num a z : Literal a z -> Off (map Ch a) (Some (NI z))
| Of_bad a : (forall z, ~ Literal a z) -> Off (map Ch a) None
| Of_var s v t : In (Va v) s -> Canon t s -> Off s (Some (NV t)).

(* An offset of zero without length is reported and dropped. *)
Inductive Whole : option (num tok) -> option (num tok) -> Prop :=
| Wh_none : Whole None None
| Wh_zero : Whole (Some (NI 0%Z)) None
| Wh_num z : z <> 0%Z -> Whole (Some (NI z)) (Some (NI z))
| Wh_var t : Whole (Some (NV t)) (Some (NV t)).

(* name:offset:length *)
Inductive SliceOf (il n : list elem) : option (num tok) -> option (num tok) -> Prop :=
| So_off s o o' : Split 58 None il [n; s] -> Off s o -> Whole o o' -> SliceOf il n o' None
| So_badoff s l : Split 58 None il [n; s; l] -> Off s None -> SliceOf il n None None
| So_badlen s l o : Split 58 None il [n; s; l] -> Off s (Some o) -> Off l None -> SliceOf il n None None
| So_senseless s l z z' y : Split 58 None il [n; s; l] -> Off s (Some (NI z)) -> Off l (Some (NI y)) ->
    ~ LengthMakesSense z y -> Whole (Some (NI z)) z' -> SliceOf il n z' None
| So_zero s l t : Split 58 None il [n; s; l] -> Off s (Some (NV t)) -> Off l (Some (NI 0%Z)) ->
    SliceOf il n (Some (NV t)) None
| So_both s l z y : Split 58 None il [n; s; l] -> Off s (Some (NI z)) -> Off l (Some (NI y)) ->
    LengthMakesSense z y -> SliceOf il n (Some (NI z)) (Some (NI y))
| So_dyn s l o t : Split 58 None il [n; s; l] -> Off s (Some o) -> Off l (Some (NV t)) ->
    SliceOf il n (Some o) (Some (NV t))
| So_args ps : Split 58 None il (n :: ps) -> length ps <> 1%nat -> length ps <> 2%nat -> SliceOf il n None None.

(* A length next to an offset with variables in it. *)
Definition SliceFails (il : list elem) : Prop :=
  exists n s l t y, Split 58 None il [n; s; l] /\ Off s (Some (NV t)) /\ Off l (Some (NI y)) /\ y <> 0%Z.

Inductive VarOf (n : tok) : option (num tok) -> option (num tok) -> tok -> Prop :=
| Vo_plain : VarOf n None None (TVar n)
| Vo_off z : VarOf n (Some (NI z)) None (TSlice n z None)
| Vo_both z y : VarOf n (Some (NI z)) (Some (NI y)) (TSlice n z (Some y))
| Vo_dyn t l : VarOf n (Some (NV t)) l (TDyn n (NV t) l)
| Vo_dynlen z t : VarOf n (Some (NI z)) (Some (NV t)) (TDyn n (NI z) (Some (NV t))).

(* func(args)tail: from the first parenthesis to the last. *)
Inductive FuncCut (il : list elem) : list elem -> list elem -> list elem -> Prop :=
| Fc_closed f args tail : il = f ++ Ch 40 :: args ++ Ch 41 :: tail -> ~ In (Ch 40) f -> ~ In (Ch 41) tail -> FuncCut il f args tail
| Fc_open f args : il = f ++ Ch 40 :: args -> ~ In (Ch 40) f -> ~ In (Ch 41) args -> FuncCut il f args [].

(* What may come behind a function is ':offset:length'. *)
Inductive TailOf (tail : list elem) : option (num tok) -> option (num tok) -> Prop :=
| Ta_none : tail = [] -> TailOf tail None None
| Ta_junk c n o l : SliceOf tail (c :: n) o l -> TailOf tail None None
| Ta_slice o l : tail <> [] -> SliceOf tail [] o l -> TailOf tail o l.

Inductive FuncVal (f : str) (a : tok) : option (num tok) -> option (num tok) -> tok -> Prop :=
| Fv_plain l : FuncVal f a None l (TFunc f a)
| Fv_slice o l : FuncVal f a (Some o) l (TFuncS f a o l).

(* Calling the function fails on these arguments. *)
Inductive ArgFails (args : list elem) : fkind -> Prop :=
| Af_set : SetFails args -> ArgFails args FSet
| Af_count v : In (Va v) args -> ArgFails args FCount.

(* '${il}' and '$[il]' stand for a variable. *)
Inductive Sub (il : list elem) : N -> tok -> Prop :=
| Su_expr t : Canon t il -> il <> [] -> Sub il 91 (TExpr t)
| Su_var t : Canon t il -> il <> [] -> ~ In (Ch 40) il -> ~ In (Ch 58) il -> Sub il 123 (TVar t)
| Su_slice n t o l v : ~ In (Ch 40) il -> In (Ch 58) il -> SliceOf il n o l -> Canon t n -> n <> [] -> VarOf t o l v -> Sub il 123 v
| Su_func f fi args a tail o l v : FuncCut il (map Ch f) args tail -> f <> [] -> (forall x, tail <> [Va x]) ->
    TailOf tail o l -> FuncOf U FT f fi -> (f_kind fi = FSet -> ~ ByName args) -> ~ ArgFails args (f_kind fi) ->
    Canon a args -> FuncVal f a o l v -> Sub il 123 v.

Inductive SubFails (il : list elem) : Prop :=
| Sx_slice : ~ In (Ch 40) il -> SliceFails il -> SubFails il
| Sx_nofunc args : il = Ch 40 :: args -> SubFails il
| Sx_dynamic f v args : il = f ++ Ch 40 :: args -> ~ In (Ch 40) f -> In (Va v) f -> SubFails il
| Sx_tail f args tail : FuncCut il (map Ch f) args tail -> (forall x, tail <> [Va x]) -> SliceFails tail -> SubFails il
| Sx_call f fi args tail o l : FuncCut il (map Ch f) args tail -> f <> [] -> (forall x, tail <> [Va x]) -> TailOf tail o l ->
    FuncOf U FT f fi -> (f_kind fi = FSet -> ~ ByName args) -> ArgFails args (f_kind fi) -> SubFails il.

(* Values that are taken apart by name (C31), or have none. *)
Inductive SubOdd (il : list elem) : N -> Prop :=
| So_empty o : il = [] -> SubOdd il o
| So_noname l : il = Ch 58 :: l -> ~ In (Ch 40) il -> SubOdd il 123
| So_tail f args x : FuncCut il (map Ch f) args [Va x] -> SubOdd il 123
| So_set f fi args tail : FuncCut il (map Ch f) args tail -> FuncOf U FT f fi -> f_kind fi = FSet -> ByName args -> SubOdd il 123.

(* ---- texts ---- *)
Definition AsciiS (s : str) : Prop := Forall (fun c => c < 128) s.

(* The text is read to its end. *)
Inductive Reads : str -> list elem -> Prop :=
| Rd_text s : ~ Opens s -> Reads s (map Ch s)
| Rd_sub s pre o c rest inner rest' il v rl : FirstOpen s pre o c rest -> ClosedBy o c rest inner rest' ->
    Reads inner il -> Sub il o v -> Reads rest' rl -> Reads s (map Ch pre ++ Va v :: rl).

(* The first thing that goes wrong, from left to right and inside out, is [P]
   of the text from where it is. *)
Inductive First (P : str -> Prop) : str -> Prop :=
| Fi_here s : P s -> First P s
| Fi_inner s pre o c rest inner rest' : FirstOpen s pre o c rest -> ClosedBy o c rest inner rest' ->
    First P inner -> First P s
| Fi_after s pre o c rest inner rest' il v : FirstOpen s pre o c rest -> ClosedBy o c rest inner rest' ->
    Reads inner il -> Sub il o v -> First P rest' -> First P s.
(* A bracket is not closed; what is in the brackets breaks the reader; or it
   is one of the odd cases. *)
Definition Unclosed (s : str) : Prop := exists pre o c rest, FirstOpen s pre o c rest /\ forall i r, ~ ClosedBy o c rest i r.
Definition Breaks (s : str) : Prop := exists pre c rest inner rest' il, FirstOpen s pre 123 c rest /\ ClosedBy 123 c rest inner rest' /\ Reads inner il /\ SubFails il /\ ~ SubOdd il 123.
Definition Odd (s : str) : Prop := exists pre o c rest inner rest' il, FirstOpen s pre o c rest /\ ClosedBy o c rest inner rest' /\ Reads inner il /\ SubOdd il o.

(* ---- applications as text ---- *)

(* A bracket that is not closed is reported, and all of it is text. *)
Inductive DataOf (s : str) : list elem -> Prop :=
| Do_reads dl : Reads s dl -> DataOf s dl
| Do_text : First Unclosed s -> DataOf s (map Ch s).

(* How values are printed. *)
Definition opt_text (l : option str) : str := match l with Some x => 58 :: x | None => [] end.
Inductive Text : tok -> str -> Prop :=
| Tx_var n nl s : Flat n nl -> nl <> [] -> Texts nl s -> Text (TVar n) (L "${" ++ s ++ L "}")
| Tx_expr n nl s : Flat n nl -> nl <> [] -> Texts nl s -> Text (TExpr n) (L "$[" ++ s ++ L "]")
| Tx_slice n nl s st l : Flat n nl -> Texts nl s ->
    Text (TSlice n st l) (L "${" ++ s ++ 58 :: zstr st ++ opt_text (option_map zstr l) ++ L "}")
| Tx_dyn n nl s o x l y : Flat n nl -> Texts nl s -> NumText o x -> LenText l y ->
    Text (TDyn n o l) (L "${" ++ s ++ 58 :: x ++ opt_text y ++ L "}")
| Tx_func f a al s : Flat a al -> Texts al s -> Text (TFunc f a) (L "${" ++ f ++ 40 :: s ++ L ")}")
| Tx_funcs f a al s o x l y : Flat a al -> Texts al s -> NumText o x -> LenText l y ->
    Text (TFuncS f a o l) (L "${" ++ f ++ 40 :: s ++ 41 :: 58 :: x ++ opt_text y ++ L "}")
with Texts : list elem -> str -> Prop :=
| Ts_nil : Texts [] []
| Ts_char c l s : Texts l s -> Texts (Ch c :: l) (c :: s)
| Ts_var v x l s : Text v x -> Texts l s -> Texts (Va v :: l) (x ++ s)
with NumText : num tok -> str -> Prop :=
| Nt_int z : NumText (NI z) (zstr z)
| Nt_val t tl s : Flat t tl -> Texts tl s -> NumText (NV t) s
with LenText : option (num tok) -> option str -> Prop :=
| Lt_none : LenText None None
| Lt_some o s : NumText o s -> LenText (Some o) (Some s).

(* The application called by a branch of an ExecIf: its arguments are printed
   to be read again. *)
Inductive Nested (b : list elem) : str -> Prop :=
| Ne_text s : b = map Ch s -> Nested b s
| Ne_call name post s : b = map Ch name ++ Ch 40 :: post -> ~ In 40 name -> Texts post s -> Nested b (name ++ 40 :: s).
(* There must not be a variable in the name. *)
Inductive NoName (b : list elem) : Prop :=
| Nn_bare v : ~ In (Ch 40) b -> In (Va v) b -> NoName b
| Nn_call v name post : b = name ++ Ch 40 :: post -> ~ In (Ch 40) name -> In (Va v) name -> NoName b.

Definition Called (s n data : str) : Prop := exists w l1 l2 name,
  AppText U w s l1 name data /\ AppName w name l2 (Some n).
Definition Nameless (s : str) : Prop := exists w l1 l2 name data,
  AppText U w s l1 name data /\ AppName w name l2 None.

Inductive SafeApp (s : str) : Prop :=
| Sa_noname : Nameless s -> SafeApp s
| Sa_call n data a dl : Called s n data -> AppOf U AT n a -> DataOf data dl -> a_kind a <> AExecIf ->
    (a_kind a = ASet -> ~ ByName dl) -> ~ CallFails (fun _ => False) dl (a_kind a) -> SafeApp s
| Sa_execif n data a dl bs : Called s n data -> AppOf U AT n a -> DataOf data dl -> a_kind a = AExecIf ->
    Branches dl bs -> (forall b, In b bs -> exists t, Nested b t /\ AsciiS t /\ SafeApp t) -> SafeApp s
| Sa_execif_cond n data a dl x c : Called s n data -> AppOf U AT n a -> DataOf data dl -> a_kind a = AExecIf ->
    Args 63 dl [x] -> Separated 44 dl [c] -> SafeApp s.

Inductive AppFails : str -> Prop :=
| Ax_data s n data : Called s n data -> First Breaks data -> AppFails s
| Ax_call s n data a dl : Called s n data -> AppOf U AT n a -> DataOf data dl ->
    (a_kind a = ASet -> ~ ByName dl) -> a_kind a <> AExecIf -> CallFails (fun _ => False) dl (a_kind a) -> AppFails s
| Ax_execif s n data a dl : Called s n data -> AppOf U AT n a -> DataOf data dl -> a_kind a = AExecIf ->
    CallFails NestFails dl AExecIf -> AppFails s
with NestFails : list elem -> Prop :=
| Nf_noname b : (forall v, b <> [Va v]) -> NoName b -> NestFails b
| Nf_app b t : Nested b t -> AsciiS t -> AppFails t -> NestFails b.

(* What is left out: values taken apart by name, and characters other than
   ASCII in the printed text. *)
Inductive OddApp (s : str) : Prop :=
| Oa_ascii : ~ AsciiS s -> OddApp s
| Oa_data n data : Called s n data -> First Odd data -> OddApp s
| Oa_set n data a dl : Called s n data -> AppOf U AT n a -> DataOf data dl -> a_kind a = ASet -> ByName dl -> OddApp s
| Oa_branch n data a dl bs v : Called s n data -> AppOf U AT n a -> DataOf data dl -> a_kind a = AExecIf ->
    Branches dl bs -> In [Va v] bs -> OddApp s
| Oa_nested n data a dl bs b t : Called s n data -> AppOf U AT n a -> DataOf data dl -> a_kind a = AExecIf ->
    Branches dl bs -> In b bs -> Nested b t -> OddApp t -> OddApp s.
End Tables.
