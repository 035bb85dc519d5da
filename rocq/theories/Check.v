(* The commands dialplan-check, func_odbc-check and modules-show, the muting of
   messages, and the web service. *)
From Verif Require Import Base Utf8 PyStr Defines FileRd Config VarFun AppM Dialplan FuncOdbc Loader Commands.

(* ---- defines.py:41-71: muting ---- *)

(* the items of ALINT_IGNORE; None if it is not set.  The set made of them is
   only searched. *)
Definition ignores (env : option str) : list str :=
  filter (fun i => match i with [] => false | _ => true end)
         (split_on 44 (match env with Some s => s | None => [] end)).
Definition muted (env : option str) (c : mcls) : bool :=
  let name := mname c in
  if existsb (fun i => startswith i name) (ignores env) then
    existsb (fun i => str_eqb name i
                      || (match last_opt i with Some z => z =? 95 | None => false end
                          && startswith i name)) (ignores env)
  else false.

(* MessageDefManager.raised: a dict by class name, in order of the first
   message of a class; on_message, defines.py:80-81 *)
Definition raised := list (mcls * list msg).
Fixpoint raised_add (r : raised) (m : msg) : raised :=
  match r with
  | [] => [(m_cls m, [m])]
  | (c, ms) :: r' => if str_eqb (mname c) (mname (m_cls m)) then (c, ms ++ [m]) :: r' else (c, ms) :: raised_add r' m
  end.
Definition raise_all (ms : list msg) : raised := fold_left raised_add ms [].

(* what is printed to stderr: defines.py:82-89; a message is formatted before
   it is known to be muted *)
Definition printed (env : option str) (ms : list msg) : list msg :=
  filter (fun m => match format_ok (mfields (m_cls m)) (m_args m) with Ok _ => negb (muted env (m_cls m)) | _ => false end) ms.

(* dialplan-check.py:54-58, func_odbc-check.py:44-48: the return value None is
   exit status 0 *)
Definition check_status (env : option str) (r : raised) : N :=
  if existsb (fun cm => match snd cm with m :: _ => negb (muted env (m_cls m)) | [] => false end) r then 1 else 0.

(* The messages of a run; [chosen] is the spelling of Background (AppM.v). *)
Definition run_msgs (chosen : option str) (l : list lev) : list msg := log_msgs (snd (resolve_bg chosen l)).

Section Run.
Variable U : uni.
Variable FT : ftable.
Variable AT : atable.
Variable exists_ : str -> bool.     (* os.path.exists *)
Variable fuel : nat.
Variable fs : fsys.

(* load_func_odbc_functions: mainutil.py:46-64 *)
Definition load_odbc (arg : option str) (dialplan : str) : M (list finfo) :=
  match arg with
  | Some [] => mret []
  | Some name => mw (load_func_odbc fuel fs name)
  | None =>
    let p := path_join (dirname dialplan) (L "func_odbc.conf") in
    if exists_ p then mw (load_func_odbc fuel fs p) else mret []
  end.

(* dialplan-check.py:46-52; modules-show.py:76-81 without the walk *)
Definition show_run (arg : option str) (dialplan : str) : M dplan :=
  do* fns <- load_odbc arg dialplan;
  parse_dialplan U (register_all U fns FT) AT fuel fs dialplan.
Definition check_run (arg : option str) (dialplan : str) : M unit :=
  do* d <- show_run arg dialplan;
  walk_jump_destinations d.

(* A check command as a process: what was raised, what was printed and how it
   ended. *)
Record process := Process { p_raised : list msg; p_printed : list msg; p_end : res N }.
Definition process_of (env : option str) {A} (m : M A) : process :=
  let ms := run_msgs None (fst m) in
  Process ms (printed env ms) (let! _ := snd m in Ok (check_status env (raise_all ms))).
Definition dialplan_check (env arg : option str) (dialplan : str) : process :=
  process_of env (check_run arg dialplan).
(* func_odbc-check.py:37-48 *)
Definition odbc_check (env : option str) (name : str) : process :=
  process_of env (mw (load_func_odbc fuel fs name)).

(* ---- modules-show ---- *)

Definition log_apps (l : list lev) : list str := flat_map (fun e => match e with LApp k => [k] | _ => [] end) l.
Definition log_funcs (l : list lev) : list str := flat_map (fun e => match e with LFunc k => [k] | _ => [] end) l.

(* sorted(set(l)) *)
Definition sorted_set (l : list str) : list str := sort_by str_ltb (nodup str_eq_dec l).

(* used_modules: application.py:53-59, varfun.py:98-104, with the state of the
   loader after the lookups [keys] *)
Definition used_modules {A} (module : A -> str) (tab : list (str * A)) (keys : list str) : res (list str) :=
  let! ms := ld_modules module (fst (ld_run (Loader tab []) (map LGet keys))) in
  Ok (sorted_set ms).
(* used_apps, used_funcs: application.py:46-51, varfun.py:91-96: name and
   module *)
Definition used_items {A} (name module : A -> str) (tab : list (str * A)) (keys : list str) : res (list (str * str)) :=
  let s := fst (ld_run (Loader tab []) (map LGet keys)) in
  let fix go l := match l with
                  | [] => Ok []
                  | k :: r =>
                    if str_eqb k (L "unknown") then go r
                    else match lookup k (ld_tab s) with
                         | Some a => let! xs := go r in Ok ((name a, module a) :: xs)
                         | None => Exn KeyError
                         end
                  end in
  go (sorted_set (ld_used s)).

(* the loop of modules-show.py:105-112; the last line comes first *)
Fixpoint item_lines (lines : list str) (names : list str) : list str :=
  match names with
  | [] => rev lines
  | n :: r =>
    let formatted := n ++ L "()" in
    match lines with
    | [] => []
    | last :: ls =>
      let last' := match last with [] => [] | _ => last ++ L ", " end in
      if Nat.ltb 52 (length last' + length formatted)
      then item_lines (formatted :: last' :: ls) r
      else item_lines ((last' ++ formatted) :: ls) r
    end
  end.
Definition ljust20 (s : str) : str := s ++ repeat 32 (20 - length s).
(* modules-show.py:93-119 for one kind *)
Definition print_modules (what : str) (items : list (str * str)) (modules : list str) : list str :=
  (L "; " ++ what ++ L " providing modules used:")
  :: flat_map (fun m =>
       match item_lines [[]] (map fst (filter (fun i => str_eqb (snd i) m) items)) with
       | [] => []
       | l :: r => (L ";   " ++ ljust20 m ++ L "  " ++ strip_p isspace l)
                   :: map (fun l => L ";   " ++ ljust20 [] ++ L "  " ++ strip_p isspace l) r
       end) modules
  ++ [L ";"].
(* modules-show.py:121-126 *)
Definition load_statements (modules : list str) : list str :=
  L "; modules.conf"
  :: map (fun m => L "load => " ++ m ++ L ".so")
         (filter (fun m => negb (str_eqb m (L "<builtin>"))) (sorted_set modules))
  ++ [[]].
(* Aggregator, modules-show.py:35-45, and 128-136 *)
Definition arg_str (m : msg) (k : str) : list str :=
  match lookup k (m_args m) with Some (AStr s) => [s] | _ => [] end.
Definition unknown_apps (ms : list msg) : list str :=
  flat_map (fun m => match m_cls m with E_APP_MISSING => arg_str m (L "app") | _ => [] end) ms.
Definition unknown_funcs (ms : list msg) : list str :=
  flat_map (fun m => match m_cls m with E_FUNC_MISSING => arg_str m (L "func") | _ => [] end) ms.
Definition print_unknown (what : str) (l : list str) : list str :=
  match l with
  | [] => []
  | _ => [L "; WARNING: The following unknown " ++ what ++ L " were seen:";
          L ";   " ++ join (L ", ") (sorted_set l); L ";"]
  end.

(* modules-show.py:69-91: the lines printed and the exit status *)
Definition modules_show (arg : option str) (dialplan : str) : res (list str * N) :=
  let m := show_run arg dialplan in
  let! _ := snd m in
  let! fns := snd (load_odbc arg dialplan) in
  let ft := register_all U fns FT in
  let ka := log_apps (fst m) in
  let kf := log_funcs (fst m) in
  let! ma := used_modules a_module AT ka in
  let! mf := used_modules VarFun.f_module ft kf in
  let! ia := used_items a_name a_module AT ka in
  let! if_ := used_items VarFun.f_name VarFun.f_module ft kf in
  let ms := run_msgs None (fst m) in
  let ua := unknown_apps ms in
  let uf := unknown_funcs ms in
  Ok (print_modules (L "Application") ia ma ++ print_modules (L "Function") if_ mf
      ++ load_statements (ma ++ mf)
      ++ print_unknown (L "applications") ua ++ print_unknown (L "functions") uf,
      match ua, uf with [], [] => 0 | _, _ => 1 end).
End Run.

(* ---- web/wsgi.py ---- *)

Section Web.
Variable U : uni.
Variable FT : ftable.
Variable AT : atable.
Variable fuel : nat.

(* UploadedFileOpener: wsgi.py:25-35.  HttpNotImplementedError is not an
   OSError; NotImplementedError stands for it. *)
Definition web_name : str := L "extensions.conf".
Definition web_fs (data : bytes) : fsys :=
  fun name => if str_eqb name web_name then Ok data else Exn NotImplementedError.

(* What outlives a request: the messages and the spelling of Background.  (So
   does what the loaders remember, which does not matter: C33.) *)
Record wstate := WState { ws_raised : raised; ws_bg : option str }.
Definition web_start : wstate := WState [] None.

(* collect_messages: wsgi.py:38-45 *)
Definition msg_ltb (a b : msg) : bool :=
  if str_ltb (w_file (m_where a)) (w_file (m_where b)) then true
  else if str_ltb (w_file (m_where b)) (w_file (m_where a)) then false
  else if w_line (m_where a) <? w_line (m_where b) then true
  else if w_line (m_where b) <? w_line (m_where a) then false
  else str_ltb (mname (m_cls a)) (mname (m_cls b)).
Definition collect (r : raised) : list msg := sort_by msg_ltb (flat_map snd r).

(* wsgi.py:130-139.  The description of an issue is its message template with
   the arguments filled in; it is represented by these. *)
Record issue := Issue { is_line : N; is_class : str; is_args : list (str * arg) }.
Definition issue_of (m : msg) : issue := Issue (w_line (m_where m)) (mname (m_cls m)) (m_args m).
Fixpoint issues (ms : list msg) : res (list issue) :=
  match ms with
  | [] => Ok []
  | m :: r => let! _ := format_ok (mfields (m_cls m)) (m_args m) in
              let! is_ := issues r in Ok (issue_of m :: is_)
  end.

(* DialplanCheck.on_post: wsgi.py:107-144; [text] is the uploaded file *)
Definition web_run (data : bytes) : M unit :=
  do* d <- parse_dialplan U FT AT fuel (web_fs data) web_name;
  walk_jump_destinations d.
Definition web_post (st : wstate) (text : str) : wstate * res (list issue) :=
  match utf8_encode text with
  | Ok data =>
    let m := web_run data in
    let (bg, l) := resolve_bg (ws_bg st) (fst m) in
    let r := fold_left raised_add (log_msgs l) (ws_raised st) in
    match snd m with
    | Ok _ => (WState [] bg, issues (collect r))
    | Exn e => (WState r bg, Exn e)
    | Hang => (WState r bg, Hang)
    end
  | Exn e => (st, Exn e)
  | Hang => (st, Hang)
  end.
Definition web_history (st : wstate) (texts : list str) : wstate :=
  fold_left (fun s t => fst (web_post s t)) texts st.
End Web.
