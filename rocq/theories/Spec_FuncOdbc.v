(* Independent specification of func_odbc.conf (C37): the rules for one key,
   one section and the whole file, and what is registered. *)
From Verif Require Import Base Defines Config VarFun FuncOdbc.

Definition documented : list str :=
  [L "prefix"; L "synopsis"; L "dsn"; L "escapecommas"; L "mode"; L "rowlimit"; L "readhandle";
   L "writehandle"; L "readsql"; L "writesql"; L "insertsql"; L "read"; L "write"].
(* j is documented before k *)
Definition Before (j k : str) : Prop := exists a b c, documented = a ++ j :: b ++ k :: c.
Definition last_of {A} (l : list A) (a : A) : Prop := exists r, l = r ++ [a].
(* The first element with property P. *)
Definition FirstWith {A} (P : A -> Prop) (l : list A) (a : A) : Prop :=
  exists l1 l2, l = l1 ++ a :: l2 /\ P a /\ forall b, In b l1 -> ~ P b.
Definition If (P : Prop) (m : msg) (l : list msg) : Prop := (P /\ l = [m]) \/ (~ P /\ l = []).

Definition key_msg (c : mcls) (v : varset) (prev : option loc) : msg :=
  Msg c (v_where v) prev [(L "key", AStr (v_variable v))].

(* A query key; its legacy form. *)
Definition Legacy (k : str) : Prop := k = L "read" \/ k = L "write".
Definition Query (k : str) : Prop := Legacy k \/ k = L "readsql" \/ k = L "writesql" \/ k = L "insertsql".

(* What a key=value line does to the keys stored so far, and its messages. *)
Inductive KeyRule (stored : list varset) (v : varset) : list varset -> list msg -> Prop :=
| KR_unknown : ~ In (v_variable v) documented ->
    KeyRule stored v stored [key_msg E_CONF_KEY_INVALID v None]
| KR_again first : In (v_variable v) documented ->
    FirstWith (fun u => v_variable u = v_variable v) stored first ->
    KeyRule stored v stored [key_msg E_CONF_KEY_DUPE v (Some (v_where first))]
| KR_new l1 l2 l3 : In (v_variable v) documented ->
    (forall u, In u stored -> v_variable u <> v_variable v) ->
    If (exists u, last_of stored u /\ Before (v_variable v) (v_variable u)) (key_msg W_CONF_KEY_LATE v None) l1 ->
    If (Legacy (v_variable v)) (msg0 W_ODBC_LEGACY (v_where v)) l2 ->
    If (Query (v_variable v) /\ last_of (v_value v) 59) (msg0 W_ODBC_TAILSEMI (v_where v)) l3 ->
    KeyRule stored v (stored ++ [v]) (l1 ++ l2 ++ l3).

Definition arrow_hint (v : varset) (l : list msg) : Prop :=
  (v_arrow v = Some true /\ l = [msg0 H_CONF_HAS_ARROW (v_where v)]) \/ (v_arrow v = Some false /\ l = []).

(* The lines of a section, one after the other. *)
Inductive KeysRule : list varset -> list varset -> list varset -> list msg -> Prop :=
| KS_nil st : KeysRule st [] st []
| KS_cons st v vs h st1 m st2 l : arrow_hint v h -> KeyRule st v st1 m -> KeysRule st1 vs st2 l ->
    KeysRule st (v :: vs) st2 (h ++ m ++ l).

(* Names are A-Z, 0-9 and single underscores in between; as everywhere with
   Python's [$], a newline at the end is not noticed. *)
Definition fchar (c : N) : Prop := (65 <= c <= 90) \/ (48 <= c <= 57).
Definition GoodName (s : str) : Prop :=
  exists words e, words <> [] /\ Forall (fun w => w <> [] /\ Forall fchar w) words /\
    s = PyStr.join [95] words ++ e /\ (e = [] \/ e = [10]).

Inductive SectionRule (c : ctx) (vs : list varset) : ofunc -> list msg -> Prop :=
| SR st l l1 l2 : KeysRule [] vs st l ->
    If (~ GoodName (c_name c)) (Msg W_ODBC_BADTOKENS (c_where c) None [(L "name", AStr (c_name c))]) l1 ->
    If (c_templates c <> []) (msg0 I_NOTIMPL_TEMPLATES (c_where c)) l2 ->
    SectionRule c vs (OFunc (c_name c) (c_where c) st) (l1 ++ l2 ++ l).

(* The file: lines before the first section, then sections.  Blank lines and
   comments do not count. *)
Definition not_blank (e : elem) : bool := match e with EEmpty _ _ => false | _ => true end.
Definition Shape (es : list elem) (pre : list varset) (secs : list (ctx * list varset)) : Prop :=
  filter not_blank es = map EVar pre ++ flat_map (fun s => ECtx (fst s) :: map EVar (snd s)) secs.

Inductive PreRule : list varset -> list msg -> Prop :=
| PR_nil : PreRule [] []
| PR_cons v vs h l : arrow_hint v h -> PreRule vs l ->
    PreRule (v :: vs) (h ++ msg0 E_CONF_CTX_MISSING (v_where v) :: l).
Inductive SectionsRule : list (ctx * list varset) -> list ofunc -> list msg -> Prop :=
| SS_nil : SectionsRule [] [] []
| SS_cons c vs o m secs os l : SectionRule c vs o m -> SectionsRule secs os l ->
    SectionsRule ((c, vs) :: secs) (o :: os) (m ++ l).

Definition FileRule (es : list elem) (os : list ofunc) (l : list msg) : Prop :=
  exists pre secs l1 l2, Shape es pre secs /\ PreRule pre l1 /\ SectionsRule secs os l2 /\ l = l1 ++ l2.

(* The value of a key of a section. *)
Definition Value (o : ofunc) (k x : str) : Prop :=
  exists v, In v (of_vars o) /\ v_variable v = k /\ v_value v = x.
Definition HasQuery (o : ofunc) : Prop :=
  exists k x, In k [L "read"; L "write"; L "readsql"; L "writesql"] /\ Value o k x.
Definition FunName (o : ofunc) (n : str) : Prop :=
  exists p, n = p ++ 95 :: of_name o /\
    ((p <> [] /\ Value o (L "prefix") p) \/
     (p = L "ODBC" /\ forall x, Value o (L "prefix") x -> x = [])).

(* What the sections register, and the complaints about those which do not. *)
Inductive Registers : list ofunc -> list finfo -> list msg -> Prop :=
| Rg_nil : Registers [] [] []
| Rg_yes o n os fs l : HasQuery o -> FunName o n -> ~ In 0 n -> Registers os fs l ->
    Registers (o :: os) (FInfo n (L "func_odbc") FPlain :: fs) l
| Rg_no o os fs l : ~ HasQuery o -> Registers os fs l ->
    Registers (o :: os) fs (msg0 E_ODBC_NOSQL (of_where o) :: l).

(* The value that counts for a query: the new key if it has a value, else the
   legacy one. *)
Definition Chosen (o : ofunc) (k legacy : str) (x : option str) : Prop :=
  (exists t, x = Some t /\ t <> [] /\
     (Value o k t \/ ((forall t', Value o k t' -> t' = []) /\ Value o legacy t))) \/
  (x = None /\ (forall t, Value o k t -> t = []) /\ (forall t, Value o legacy t -> t = [])).
