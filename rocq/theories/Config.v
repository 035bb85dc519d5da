(* asterisklint/config.py (ConfigParser) and configobj.py. *)
From Verif Require Import Base Utf8 PyStr Regex Defines FileRd.

(* configobj.py:37-60.  Varsets added by ConfigAggregator are not kept in the
   element but in the aggregator state. *)
Record ctx := Ctx { c_name : str; c_templates : str; c_comment : bool; c_where : loc }.

(* configobj.py:88-109; [v_arrow] is None if the attribute is never set *)
Record varset := Varset { v_variable : str; v_value : str; v_arrow : option bool;
                          v_comment : bool; v_where : loc }.

(* Elements yielded by ConfigParser; EmptyLine is configobj.py:31-34 *)
Inductive elem := EEmpty (comment : bool) (w : loc) | ECtx (c : ctx) | EVar (v : varset).
Definition e_where (e : elem) : loc :=
  match e with EEmpty _ w => w | ECtx c => c_where c | EVar v => v_where v end.

(* The regexes of config.py:85-110 (written with a blank inside "star paren").
   Items in pattern order. *)
(* ^(\s* )\[([^]]* )\]\s*\(([^)\+])\)$   groups: items 0, 2, 6 *)
Definition re_tmpl : list item :=
  [Greedy isspace; One (is_chr 91); Greedy (not_in [93]); One (is_chr 93);
   Greedy isspace; One (is_chr 40); One (not_in [41; 43]); One (is_chr 41)].
(* ^(\s* )\[([^]]* )\]$   groups: items 0, 2 *)
Definition re_ctx : list item :=
  [Greedy isspace; One (is_chr 91); Greedy (not_in [93]); One (is_chr 93)].
(* ^([^=]*?)(\s*=>\s* )(.* )$   groups: items 0, 1-4, 5 *)
Definition re_obj : list item :=
  [Lazy (not_in [61]); Greedy isspace; One (is_chr 61); One (is_chr 62);
   Greedy isspace; Greedy dot].
(* ^([^=]*?)(\s*=\s* )(.* )$   groups: items 0, 1-3, 4 *)
Definition re_var : list item :=
  [Lazy (not_in [61]); Greedy isspace; One (is_chr 61); Greedy isspace; Greedy dot].
(* ^\s*$ *)
Definition re_void : list item := [Greedy isspace].

Definition nth_seg (n : nat) (l : list str) : str := nth n l [].

(* Context.__init__, configobj.py:48-60 *)
Definition mk_ctx (name templates : str) (comment : bool) (bolspace : str) (w : loc)
  : list msg * ctx :=
  ((match bolspace with [] => [] | _ => [msg0 W_WSH_BOL w] end)
   ++ (match templates with [] => [] | _ => [msg0 I_NOTIMPL_TEMPLATES w] end),
   Ctx name templates comment w).

(* Varset.__init__, configobj.py:89-109 *)
Definition mk_varset (variable value separator : str) (comment : bool) (w : loc)
  : list msg * varset :=
  let clean := strip_p isspace separator in
  let '(ms1, arrow) :=
    if str_eqb clean (L "=>") then
      ((if str_eqb separator (L " => ") then [] else [msg0 W_WSH_OBJSET w]), Some true)
    else if str_eqb clean (L "=") then
      ((if str_eqb separator (L "=") then [] else [msg0 W_WSH_VARSET w]), Some false)
    else ([], None) in
  let '(ms2, variable') :=
    match variable with
    | c :: _ =>
      if isblank c then
        let v := lstrip_p isblank variable in
        ((if str_eqb v (L "same") then [] else [msg0 W_WSH_BOL w]), v)
      else ([], variable)
    | [] => ([], variable)
    end in
  (ms1 ++ ms2, Varset variable' value arrow comment w).

(* The first matching regex, config.py:114-121; None is the else of line 122 *)
Definition classify (w : loc) (data : str) (comment : bool) : option (list msg * elem) :=
  match re_match re_tmpl data with
  | Some g =>
    let (ms, c) := mk_ctx (nth_seg 2 g) (nth_seg 6 g) comment (nth_seg 0 g) w in
    Some (ms, ECtx c)
  | None =>
  match re_match re_ctx data with
  | Some g =>
    let (ms, c) := mk_ctx (nth_seg 2 g) [] comment (nth_seg 0 g) w in
    Some (ms, ECtx c)
  | None =>
  match re_match re_obj data with
  | Some g =>
    let (ms, v) := mk_varset (nth_seg 0 g) (nth_seg 5 g)
                     (nth_seg 1 g ++ nth_seg 2 g ++ nth_seg 3 g ++ nth_seg 4 g) comment w in
    Some (ms, EVar v)
  | None =>
  match re_match re_var data with
  | Some g =>
    let (ms, v) := mk_varset (nth_seg 0 g) (nth_seg 4 g)
                     (nth_seg 1 g ++ nth_seg 2 g ++ nth_seg 3 g) comment w in
    Some (ms, EVar v)
  | None =>
  match re_match re_void data with
  | Some _ => Some ([], EEmpty comment w)
  | None => None
  end end end end end.

Definition bad_line (w : loc) (text : str) : msg :=
  Msg E_CONF_BAD_LINE w None [(L "startswith", AStr (firstn 16 text))].

(* What the preprocessor asks for. *)
Inductive ppact :=
| PPnone
| PPinclude (target : str) (must_exist : bool).   (* target: the unquoted text *)

(* ConfigParser.preprocessor, config.py:130-180, up to the call of include *)
Definition preprocessor (w : loc) (data : str) : list msg * ppact :=
  let text := lstrip_p isspace data in
  let ms0 := if (length text <? length data)%nat then [msg0 W_WSH_BOL w] else [] in
  let '(cmd, rest) :=
    if startswith (L "#include") text then (firstn 8 text, Some (skipn 8 text))
    else if startswith (L "#tryinclude") text then (firstn 11 text, Some (skipn 11 text))
    else if startswith (L "#exec") text then (firstn 5 text, Some (skipn 5 text))
    else ([], None) in
  match rest with
  | Some ((c :: _) as rest) =>
    if 32 <? c then (ms0 ++ [bad_line w text], PPnone)
    else
      let rest' := lstrip_p (fun c => c <=? 32) rest in
      match rest' with
      | [] => (ms0 ++ [bad_line w text], PPnone)
      | a :: _ =>
        let gap := firstn (length rest - length rest') rest in
        let ms1 := if negb (forallb (N.eqb 32) gap) && negb (forallb (N.eqb 9) gap)
                   then [msg0 W_WSH_CTRL w] else [] in
        let z := match last_opt rest' with Some z => z | None => a end in
        let '(ms2, arg) :=
          if (a =? 34) && (z =? 34) then ([], drop_last 1 (skipn 1 rest'))
          else if (a =? 60) && (z =? 62) then ([], drop_last 1 (skipn 1 rest'))
          else if (a =? 60) || (a =? 34) || (z =? 34) || (z =? 62)
               then ([msg0 W_PP_QUOTE_BAD w], rest')
          else ([], rest') in
        let ms := ms0 ++ ms1 ++ ms2 in
        if str_eqb cmd (L "#exec") then
          (ms ++ [Msg W_PP_EXEC w None [(L "cmd", AStr arg)]], PPnone)
        else if str_eqb cmd (L "#include") then (ms, PPinclude arg true)
        else if str_eqb cmd (L "#tryinclude") then (ms, PPinclude arg false)
        else (ms, PPnone)
      end
  | _ => (ms0 ++ [bad_line w text], PPnone)
  end.

(* os.path.join(os.path.dirname(where.filename), rest): config.py:176-177 *)
Definition include_path (w : loc) (target : str) : str :=
  path_join (dirname (w_file w)) target.

(* config.py:113-128 for one line *)
Inductive parsed := PElem (e : elem) | PAct (a : ppact).
Definition parse_line (w : loc) (data comment : str) : list msg * parsed :=
  let has_comment := match comment with [] => false | _ => true end in
  match classify w data has_comment with
  | Some (ms, e) => (ms, PElem e)
  | None =>
    match lstrip_p isspace data with
    | 35 :: _ => let (ms, a) := preprocessor w data in (ms, PAct a)
    | _ => ([bad_line w data], PAct PPnone)
    end
  end.

(* The stream a ConfigParser produces: what FileReader yields ([EvLine]), the
   messages in the order they are raised and the yielded elements. *)
Inductive event :=
| EvLine (w : loc) (data comment : str)
| EvMsg (m : msg)
| EvElem (e : elem).

(* BinFileReader: the stack of open files, file.py:60-75; head = innermost *)
Record frame := Frame { f_name : str; f_no : N; f_rest : list bytes }.

(* The file system: the result of opener(name) with its content.  OSError is
   what config.py:178 catches; ValueError is raised for a NUL in the name. *)
Definition fsys := str -> res bytes.

(* BinFileReader.include, file.py:67-75.  fp.name is the name it was opened with. *)
Definition open_frame (fs : fsys) (name : str) : res frame :=
  let! b := fs name in Ok (Frame name 0 (lines_of b)).

(* config.py:173-180 *)
Definition do_include (fs : fsys) (w : loc) (target : str) (must_exist : bool)
  : list msg * res (option frame) :=
  match open_frame fs (include_path w target) with
  | Ok f => ([], Ok (Some f))
  | Exn OSError =>
    ((if must_exist then
        [Msg W_PP_INCLUDE_MISSING w None [(L "filename", AStr target)]] else []), Ok None)
  | Exn e => ([], Exn e)
  | Hang => ([], Hang)
  end.

(* The whole reading loop: BinFileReader.__iter__ (file.py:77-88) driving
   FileReader and ConfigParser.  One fuel unit per line or per end of file. *)
Fixpoint read (fuel : nat) (fs : fsys) (stk : list frame) (ff : ffst) : list event * res unit :=
  match fuel with
  | O => ([], Hang)
  | S n =>
    match stk with
    | [] => let (ms, r) := ff_finish ff in (map EvMsg ms, r)
    | Frame name no [] :: stk' => read n fs stk' ff
    | Frame name no (b :: bs) :: stk' =>
      let w := Where name (no + 1) b in
      let (ms, r) := read_line ff w b in
      match r with
      | Ok (ff', data, comment) =>
        let (ms2, p) := parse_line w data comment in
        let pre := map EvMsg ms ++ EvLine w data comment :: map EvMsg ms2 in
        let stk1 := Frame name (no + 1) bs :: stk' in
        match p with
        | PElem e => let (l, o) := read n fs stk1 ff' in (pre ++ EvElem e :: l, o)
        | PAct PPnone => let (l, o) := read n fs stk1 ff' in (pre ++ l, o)
        | PAct (PPinclude target must) =>
          let (ms3, r3) := do_include fs w target must in
          match r3 with
          | Ok None => let (l, o) := read n fs stk1 ff' in (pre ++ map EvMsg ms3 ++ l, o)
          | Ok (Some f) =>
            let (l, o) := read n fs (f :: stk1) ff' in (pre ++ map EvMsg ms3 ++ l, o)
          | Exn e => (pre ++ map EvMsg ms3, Exn e)
          | Hang => (pre ++ map EvMsg ms3, Hang)
          end
        end
      | Exn e => (map EvMsg ms, Exn e)
      | Hang => (map EvMsg ms, Hang)
      end
    end
  end.

(* Parser.include(filename) followed by iteration *)
Definition parse_file (fuel : nat) (fs : fsys) (name : str) : list event * res unit :=
  match open_frame fs name with
  | Ok f => read fuel fs [f] ff_init
  | Exn e => ([], Exn e)
  | Hang => ([], Hang)
  end.

(* A finite file system, for examples; anything else does not exist. *)
Fixpoint fs_of (l : list (str * bytes)) (name : str) : res bytes :=
  match l with
  | [] => Exn OSError
  | (n, b) :: r => if str_eqb n name then Ok b else fs_of r name
  end.
