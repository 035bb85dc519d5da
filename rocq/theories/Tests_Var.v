(* The unit tests of tests/variable and tests/function, evaluated on the model.
   DUMMY_WHERE is replaced by an arbitrary position. *)
From Verif Require Import Base PyStr Defines Var VarFun Tables.

Definition w0 : loc := Where (L "dummy") 1 [].
Definition pv (s : str) : M tok := parse_variables uni_ascii funcs_v13 s w0.
Definition names (l : list lev) : list str := map (fun m => mname (m_cls m)) (log_msgs l).
Definition lint (s : str) : list str := names (fst (pv s)).
Definition text (s : str) : res str := let! t := snd (pv s) in str_of t.
Definition kw (l : list (str * str)) : kwargs := fun k => lookup k l.
Definition fmt (s : str) (l : list (str * str)) : res str :=
  let! t := snd (pv s) in tformat (kw l) t.
Definition v (s : string) : tok := TVar (TS (L s)).

(* tests/variable/test_normal.py *)
Example test_var_foo :
  (snd (pv (L "${foo}")), text (L "${foo}"), fmt (L "${foo}") [(L "foo", L "ABC")])
  = (Ok (v "foo"), Ok (L "${foo}"), Ok (L "ABC")).
Proof. reflexivity. Qed.
Example test_var_foo_bar :
  (snd (pv (L "${foo}${bar}")), text (L "${foo}${bar}"),
   fmt (L "${foo}${bar}") [(L "foo", L "ABC"); (L "bar", L "DEF")])
  = (Ok (vjoin [v "foo"; v "bar"]), Ok (L "${foo}${bar}"), Ok (L "ABCDEF")).
Proof. reflexivity. Qed.
Example test_var_foo_bar_with_otherdata :
  (snd (pv (L "//${foo}[$]${bar}$$")), text (L "//${foo}[$]${bar}$$"),
   fmt (L "//${foo}[$]${bar}$$") [(L "foo", L "ABC"); (L "bar", L "DEF")])
  = (Ok (vjoin [TS (L "//"); v "foo"; TS (L "[$]"); v "bar"; TS (L "$$")]),
     Ok (L "//${foo}[$]${bar}$$"), Ok (L "//ABC[$]DEF$$")).
Proof. reflexivity. Qed.
Example test_simple_var_in_var :
  (snd (pv (L "${${foo}}")), text (L "${${foo}}"),
   fmt (L "${${foo}}") [(L "foo", L "bar"); (L "bar", L "DEF")])
  = (Ok (TVar (v "foo")), Ok (L "${${foo}}"), Ok (L "DEF")).
Proof. reflexivity. Qed.
Example test_joined_var_in_var :
  (snd (pv (L "${${a}a${c}}")), text (L "${${a}a${c}}"),
   fmt (L "${${a}a${c}}") [(L "a", L "b"); (L "c", L "r"); (L "bar", L "DEF")])
  = (Ok (TVar (vjoin [v "a"; TS (L "a"); v "c"])), Ok (L "${${a}a${c}}"), Ok (L "DEF")).
Proof. reflexivity. Qed.

(* tests/variable/test_split.py *)
Example test_slice : text (L "${${foo}:${start}:${len}}") = Ok (L "${${foo}:${start}:${len}}").
Proof. reflexivity. Qed.
Example test_equals :
  (let! t := snd (pv (L "foo=${bar}=baz")) in
   let! p := vsplit 61 (Some 1%nat) t in Ok p)
  = Ok [TS (L "foo"); TList [v "bar"; TS (L "=baz")]].
Proof. reflexivity. Qed.
Example test_writefunc :
  (let! t := snd (pv (L "FUNC(${bar},baz)")) in
   let! p := vsplit 40 (Some 1%nat) t in Ok p)
  = Ok [TS (L "FUNC"); TList [v "bar"; TS (L ",baz)")]].
Proof. reflexivity. Qed.

(* tests/variable/test_substring.py *)
Definition sub (s : string) (out : string) : Prop :=
  (text (L s), fmt (L s) [(L "foo", L "ABCDEF")], lint (L s)) = (Ok (L s), Ok (L out), []).
Example test_var_begin : sub "${foo:0:2}" "AB". Proof. reflexivity. Qed.
Example test_var_offset : sub "${foo:2}" "CDEF". Proof. reflexivity. Qed.
Example test_var_middle : sub "${foo:2:3}" "CDE". Proof. reflexivity. Qed.
Example test_var_end : sub "${foo:-2}" "EF". Proof. reflexivity. Qed.
Example test_var_neg1_end : sub "${foo:1:-1}" "BCDE". Proof. reflexivity. Qed.
Example test_var_neg2_end : sub "${foo:1:-2}" "BCD". Proof. reflexivity. Qed.
Example test_var_endmiddle : sub "${foo:-3:2}" "DE". Proof. reflexivity. Qed.
Example test_invalid_args : lint (L "${foo:1:2:3}") = [L "E_VAR_SUBSTR_ARGS"].
Proof. reflexivity. Qed.
Example test_invalid_start :
  map (fun s => lint s) [L "${foo:}"; L "${foo:x}"; L "${foo:0}"; L "${foo::2}"]
  = [[L "E_VAR_SUBSTR_START"]; [L "E_VAR_SUBSTR_START"]; [L "E_VAR_SUBSTR_START"];
     [L "E_VAR_SUBSTR_START"]].
Proof. reflexivity. Qed.
Example test_invalid_length :
  map (fun s => lint s) [L "${foo:0:}"; L "${foo:0:x}"; L "${foo:2:0}"; L "${foo:-2:1}"; L "${foo:-2:2}"]
  = [[L "E_VAR_SUBSTR_LENGTH"]; [L "E_VAR_SUBSTR_LENGTH"]; [L "E_VAR_SUBSTR_LENGTH"]; [];
     [L "E_VAR_SUBSTR_LENGTH"]].
Proof. reflexivity. Qed.
Example test_slices_by_variable :
  map text [L "${foo:${tmp}}"; L "${foo:-${tmp}}"; L "${foo:1:${tmp}}"; L "${foo:1:-${tmp}}";
            L "${foo:${x}:-${y}}"; L "${foo:$[1+1]:$[2+2]}"; L "${CALLERID(num):0:-6}xxxxxx"]
  = map Ok [L "${foo:${tmp}}"; L "${foo:-${tmp}}"; L "${foo:1:${tmp}}"; L "${foo:1:-${tmp}}";
            L "${foo:${x}:-${y}}"; L "${foo:$[1+1]:$[2+2]}"; L "${CALLERID(num):0:-6}xxxxxx"].
Proof. reflexivity. Qed.

(* tests/function/test_funclist.py *)
Definition readfunc (f : str) : list str :=
  names (fst (process_read uni_ascii funcs_v13 (TS (f ++ L "(random_argument)")) w0)).
Definition writefunc (f : str) : list str :=
  names (fst (process_write uni_ascii funcs_v13 (call_func uni_ascii funcs_v13)
                (TS (f ++ L "(random_argument)")) w0)).
Example test_readwrite :
  forallb (fun f => match readfunc f, writefunc f with [], [] => true | _, _ => false end)
    [L "ARRAY"; L "CALLERID"; L "CALLERPRES"; L "CDR"; L "CHANNEL"; L "CONNECTEDLINE"; L "DB";
     L "DB_DELETE"; L "ENV"; L "GLOBAL"; L "GROUP"; L "HASH"; L "LOCAL"; L "MASTER_CHANNEL";
     L "REDIRECTING"; L "SHARED"; L "TIMEOUT"; L "PJSIP_HEADER"; L "CHANNELS"; L "CSV_QUOTE";
     L "CURL"; L "CURLOPT"; L "CUT"; L "DB_EXISTS"; L "DB_KEYS"; L "DEC"; L "ENUMLOOKUP";
     L "ENUMQUERY"; L "ENUMRESULT"; L "EVAL"; L "EXISTS"; L "FIELDNUM"; L "FIELDQTY"; L "FILE";
     L "FILE_COUNT_LINE"; L "FILE_FORMAT"; L "FILTER"; L "GROUP_COUNT"; L "GROUP_LIST";
     L "GROUP_MATCH_COUNT"; L "HASHKEYS"; L "IF"; L "IFTIME"; L "IMPORT"; L "INC"; L "ISNULL";
     L "KEYPADHASH"; L "LOCAL_PEEK"; L "LEN"; L "LISTFILTER"; L "MATH"; L "MD5"; L "PASSTHRU";
     L "POP"; L "QUOTE"; L "RAND"; L "REGEX"; L "REPLACE"; L "SHELL"; L "SHIFT"; L "SORT";
     L "STACK_PEEK"; L "STAT"; L "STRFTIME"; L "STRPTIME"; L "STRREPLACE"; L "TOLOWER";
     L "TOUPPER"; L "TXTCIDNAME"; L "URIDECODE"; L "URIENCODE"; L "PJSIP_AOR";
     L "PJSIP_CONTACT"; L "PJSIP_ENDPOINT"; L "PUSH"; L "UNSHIFT"; L "VOLUME"] = true.
Proof. vm_compute. reflexivity. Qed.
Example test_FOO : (readfunc (L "FOO"), writefunc (L "FOO")) = ([L "E_FUNC_MISSING"], [L "E_FUNC_MISSING"]).
Proof. reflexivity. Qed.

(* Further behaviour read off the source. *)
Example crash_empty_name : text (L "${}") = Exn AttributeError. Proof. reflexivity. Qed.
Example crash_paren_first : snd (pv (L "${(foo)}")) = Exn AssertionError. Proof. reflexivity. Qed.
Example crash_dynamic_func : snd (pv (L "${${a}(x)}")) = Exn KeyError. Proof. reflexivity. Qed.
Example crash_mixed_func : snd (pv (L "${a${b}(x)}")) = Exn AttributeError. Proof. reflexivity. Qed.
Example crash_dyn_start : snd (pv (L "${foo:${x}:2}")) = Exn TypeError. Proof. reflexivity. Qed.
Example crash_inc : snd (pv (L "${INC(${x})}")) = Exn AssertionError. Proof. reflexivity. Qed.
Example leading_zero : text (L "${foo:007}") = Ok (L "${foo:7}"). Proof. reflexivity. Qed.
