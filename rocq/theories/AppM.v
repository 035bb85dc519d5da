(* Applications: asterisklint/application.py, app/base.py and the applications
   under app/vall that do more than AppBase. *)
From Verif Require Import Base PyStr Defines Var VarFun.

(* The argument checks of app/base.py:30-54 and app_originate.py:19-23. *)
Inductive aarg := AnyArg | Options (opts : str) | AppOrExten.

(* How an application handles its data.
     APlain       AppBase                       app/base.py:57-74
     ABackground  as AppBase, spelling aside    builtin.py:37-53
     AGoto        Goto                          builtin.py:68-82
     AGotoIf      GotoIf                        builtin.py:85-98
     AIfStyle     GotoIfTime, ExecIfTime        builtin.py:101-106
     ASet         Set                           builtin.py:157-161
     AExecIf      ExecIf                        app_exec.py:43-54
     AGosub       Gosub                         app_stack.py:72-83
     AGosubIf     GosubIf                       app_stack.py:86-97
     AArgs        subclasses of App             app/base.py:234-239 *)
Inductive akind :=
| APlain | ABackground | AGoto | AGotoIf | AIfStyle | ASet | AExecIf | AGosub | AGosubIf
| AArgs (args : list aarg) (min_args : option nat).

(* name and module: app/base.py:58-64; <builtin> for builtin.py:23-26 *)
Record ainfo := AInfo { a_name : str; a_module : str; a_kind : akind }.

(* AppLoader._lower_apps after load_all: application.py:41, 82-84. *)
Definition atable := list (str * ainfo).

(* A jump destination (context, exten, prio) as collected: None where the
   application gave no such argument.  The priority of a Gosub may be a list,
   the result of slicing a Var (app_stack.py:65). *)
Record dest := Dest { d_ctx : option tok; d_ext : option tok; d_prio : sliced }.

(* data[a:b] for a str or Var, or for a list of them: GotoIf and GosubIf pass
   the list of old-style arguments on (app/base.py:276-285, builtin.py:92). *)
Definition seq_slice (d : sliced) (its : list tok) : list tok :=
  match d with
  | SlTok t => sl_items (slice_of t its)
  | SlList _ => its
  end.

(* The loop of separate_args: app/base.py:96-147.  [b], [p], [q], [sk] are
   brackets, parens, quotes, skipnext; [cur] is ret[-1] and [pend] the part
   from start up to the current position, reversed.  The result is ret. *)
Fixpoint sep (d : sliced) (delim : N) (rm : bool) (b p : nat) (q sk : bool)
    (cur pend l : list tok) : list (list tok) :=
  let flush := cur ++ seq_slice d (rev pend) in
  match l with
  | [] => [flush]
  | x :: r =>
    let keep b p q sk := sep d delim rm b p q sk cur (x :: pend) r in
    if is_var x then keep b p q sk
    else if sk then keep b p q false
    else if tok_isc x 91 then keep (S b) p q false
    else if tok_isc x 93 then keep (pred b) p q false
    else if tok_isc x 40 then keep b (S p) q false
    else if tok_isc x 41 then keep b (pred p) q false
    else if tok_isc x 34 && negb (delim =? 34) then
      (if rm then sep d delim rm b p (negb q) false flush [] r else keep b p (negb q) false)
    else if tok_isc x 92 then
      (if rm then sep d delim rm b p q true flush [] r else keep b p q true)
    else if tok_isc x delim && Nat.eqb b 0 && Nat.eqb p 0 && negb q then
      flush :: sep d delim rm b p q false [] [] r
    else keep b p q false
  end.

(* app/base.py:149-156 *)
Definition squash (letters : list tok) : tok :=
  match strjoin letters with
  | [x] => x
  | l => vjoin l
  end.

(* separate_args: app/base.py:88-158; [delim] is one character. *)
Definition separate_args (d : sliced) (delim : N) (rm : bool) : list tok :=
  map squash (sep d delim rm 0 0 false false [] [] (sl_items d)).

Section WithTables.
Variable U : uni.
Variable FT : ftable.
Variable AT : atable.

Definition zn (n : nat) : arg := AInt (Z.of_nat n).

(* MinMaxArgsMixin.split_args: app/base.py:183-194 *)
Definition minmax (name : str) (mn mx : option nat) (args : list tok) (w : loc) : M unit :=
  let few := match mn with
             | Some m => Nat.ltb (length args) m ||
                         (Nat.eqb m 1 && match args with [a] => negb (truthy a) | _ => false end)
             | None => false
             end in
  if few then memit E_APP_ARG_FEW w
                [(L "app", AStr name); (L "min_args", match mn with Some m => zn m | None => ANone end)]
  else match mx with
       | Some m => if Nat.ltb m (length args)
                   then memit E_APP_ARG_MANY w [(L "app", AStr name); (L "max_args", zn m)]
                   else mret tt
       | None => mret tt
       end.

(* NoPipeDelimiterMixin.split_args: app/base.py:226-231 *)
Definition nopipe (name : str) (data : tok) (args : list tok) (w : loc) : M unit :=
  match args with
  | [a] => if tin 124 a
           then memit E_APP_ARG_PIPEDELIM w [(L "app", AStr name); (L "data", targ data)]
           else mret tt
  | _ => mret tt
  end.

(* len(x) != len(set(x)) *)
Fixpoint has_dup (l : list str) : bool :=
  match l with [] => false | x :: r => smem x r || has_dup r end.

(* validate: app/base.py:37-38, 46-54, app_originate.py:20-23 *)
Definition validate_arg (name : str) (argno : nat) (k : aarg) (arg : tok) (w : loc) : M unit :=
  let say c a := memit c w [(L "argno", zn argno); (L "app", AStr name); (L "opts", a)] in
  match k with
  | AnyArg => mret tt
  | Options opts =>
    let strs := flat_map (fun i => match i with TS s => [s] | _ => [] end) (items arg) in
    let bad := filter (fun s => negb (is_infix s opts)) strs in
    do* _ <- (match bad with [] => mret tt | _ => say E_APP_ARG_BADOPT (AStr (List.concat bad)) end);
    if has_dup strs then say E_APP_ARG_DUPEOPT (targ arg) else mret tt
  | AppOrExten =>
    if tok_is arg (L "app") || tok_is arg (L "exten") then mret tt
    else say E_APP_ARG_BADOPT (targ arg)
  end.

(* AppArgsMixin.split_args: app/base.py:210-217 *)
Fixpoint validate (name : str) (argno : nat) (ks : list aarg) (args : list tok) (w : loc) : M unit :=
  match ks, args with
  | k :: ks', a :: args' =>
    do* _ <- validate_arg name argno k a w;
    validate name (S argno) ks' args' w
  | _, _ => mret tt
  end.

(* IfStyleApp.split_args: app/base.py:249-292.  The second result is a list
   for old-style data. *)
Definition if_args (name : str) (data : tok) (w : loc) : M (tok * sliced * option tok) :=
  let str_app := (L "app", AStr name) in
  let str_data := (L "data", targ data) in
  do* x <- (match separate_args (SlTok data) 63 true with
            | c :: act :: more =>
              do* _ <- (match more with
                        | [] => mret tt
                        | _ => memit E_APP_ARG_MANY w [str_app; str_data; (L "max_args", zn 2)]
                        end);
              match separate_args (SlTok act) 58 false with
              | t :: f :: _ => mret (c, SlTok t, Some f)
              | [t] => mret (c, SlTok t, None)
              | [] => mexn AssertionError
              end
            | _ =>
              match separate_args (SlTok data) 44 false with
              | c :: more =>
                do* _ <- (match more with
                          | [] => memit E_APP_ARG_FEW w [str_app; str_data; (L "min_args", zn 2)]
                          | _ => memit E_APP_ARG_IFSTYLE w
                                   [str_app; str_data; (L "cond", targ c); (L "args", larg more)]
                          end);
                mret (c, SlList more, None)
              | [] => mexn IndexError
              end
            end);
  let '(c, t, f) := x in
  do* c' <- mlift (vstrip c);
  do* _ <- (if tok_is c' [] then memit E_APP_ARG_IFEMPTY w [str_app; str_data] else mret tt);
  mret (c', t, f).

(* VarCondIfStyleApp.split_args: app/base.py:302-317 *)
Definition varcond_args (name : str) (data : tok) (w : loc) : M (tok * sliced * option tok) :=
  do* x <- if_args name data w;
  let '(c, _, _) := x in
  do* _ <- (if negb (tok_is c []) && (is_str c || existsb is_str (items c))
            then memit E_APP_ARG_IFCONST w
                   [(L "app", AStr name); (L "data", targ data); (L "cond", targ c)]
            else mret tt);
  mret x.

(* while len(jumpdest) != 3: jumpdest.insert(0, None); builtin.py:77-78 and
   93-94.  Each round makes the list longer. *)
Fixpoint pad_loop (fuel : nat) (l : list (option tok)) : res (list (option tok)) :=
  if Nat.eqb (length l) 3 then Ok l
  else match fuel with
       | O => Hang
       | S k => pad_loop k (None :: l)
       end.

Definition to_dest (l : list (option tok)) : res dest :=
  match l with
  | [c; e; Some p] => Ok (Dest c e (SlTok p))
  | _ => Exn AssertionError
  end.

Definition goto_dest (args : list tok) : res dest :=
  let! l := pad_loop 3 (map Some args) in to_dest l.

(* while len(jumpdest) < 3: jumpdest.insert(0, None); app_stack.py:42-43 *)
Definition pad3 (l : list (option tok)) : list (option tok) := repeat None (3 - length l) ++ l.

(* [jumpdest[2]] followed by (',', i) for the rest: app_stack.py:39-41 *)
Definition excess (l : list tok) : list tok :=
  match l with
  | [] => []
  | x :: r => x :: flat_map (fun i => [TS [44]; i]) r
  end.

(* _split_gosub_prio_args(prio)[0]: app_stack.py:53-69 *)
Definition gosub_prio (prio : tok) (w : loc) : M sliced :=
  match cut_first 40 (items prio) with
  | None => mret (SlTok prio)
  | Some (before, _) =>
    do* _ <- (match last_opt (items prio) with
              | Some c => if tok_isc c 41 then mret tt
                          else memit W_APP_BALANCE w [(L "data", targ prio)]
              | None => mexn IndexError
              end);
    mret (slice_of prio before)
  end.

(* _gosub_args_to_destination: app_stack.py:24-51; [warned] is
   isinstance(self, MinMaxArgsMixin). *)
Definition gosub_dest (name : str) (warned : bool) (args : list tok) (w : loc) : M dest :=
  do* jd <- (if Nat.ltb 3 (length args) then
               do* _ <- (if warned then mret tt
                         else memit E_APP_ARG_MANY w [(L "app", AStr name); (L "max_args", zn 3)]);
               mret (firstn 2 args ++ [vjoin (excess (skipn 2 args))])
             else mret args);
  match pad3 (map Some jd) with
  | [c; e; Some p] => do* p' <- gosub_prio p w; mret (Dest c e p')
  | _ => mexn AssertionError
  end.

(* for args in (iftrue, iffalse): if args: ... *)
Definition branches (t : sliced) (f : option tok) : list sliced :=
  filter sl_truthy (t :: match f with Some x => [SlTok x] | None => [] end).

Fixpoint mmap {A B} (f : A -> M B) (l : list A) : M (list B) :=
  match l with
  | [] => mret []
  | x :: r => do* y <- f x; do* ys <- mmap f r; mret (y :: ys)
  end.

(* AppBase.__call__: app/base.py:66-74 *)
Definition abase_call (data : tok) (w : loc) : M unit :=
  match check_balance (items data) with
  | Ok _ => mret tt
  | Exn e => if is_value_error e
             then do* s <- mlift (str_of data);
                  memit W_APP_BALANCE w [(L "data", AStr s)]
             else mexn e
  | Hang => ([], Hang)
  end.

(* app(self.data, where=..., jump_destinations=...): application.py:136-138.
   [nested] is App(x, where=where) of ExecIf, whose destinations are lost. *)
Definition app_call (nested : sliced -> M unit) (a : ainfo) (data : tok) (w : loc) : M (list dest) :=
  let name := a_name a in
  let split mn mx :=
    let args := separate_args (SlTok data) 44 false in
    do* _ <- minmax name mn mx args w;
    mret args in
  match a_kind a with
  | APlain | ABackground => do* _ <- abase_call data w; mret []
  | ASet => do* _ <- assign U FT data w; do* _ <- abase_call data w; mret []
  | AArgs ks mn =>
    do* args <- split mn (Some (length ks));
    do* _ <- validate name 1 ks args w;
    do* _ <- nopipe name data args w;
    mret []
  | AGoto =>
    do* args <- split (Some 1%nat) (Some 3%nat);
    do* _ <- nopipe name data args w;
    do* d <- mlift (goto_dest args);
    mret [d]
  | AGosub =>
    do* args <- split (Some 1%nat) (Some 3%nat);
    do* _ <- nopipe name data args w;
    do* d <- gosub_dest name true args w;
    mret [d]
  | AIfStyle => do* _ <- if_args name data w; mret []
  | AGotoIf =>
    do* x <- varcond_args name data w;
    let '(_, t, f) := x in
    mmap (fun br => mlift (goto_dest (separate_args br 44 true))) (branches t f)
  | AGosubIf =>
    do* x <- varcond_args name data w;
    let '(_, t, f) := x in
    mmap (fun br => gosub_dest name false (separate_args br 44 true) w) (branches t f)
  | AExecIf =>
    do* x <- varcond_args name data w;
    let '(_, t, f) := x in
    do* _ <- mmap nested (branches t f);
    mret []
  end.

(* AppLoader.get: application.py:67-80, see func_get about the aliasing. *)
Definition app_get (lower : str) : M ainfo :=
  match lookup lower AT with
  | Some a => do* _ <- mlog (LApp lower); mret a
  | None => match lookup (L "unknown") AT with
            | Some a => do* _ <- mlog (LApp lower); mret a
            | None => mexn NotImplementedError
            end
  end.

(* check_availability: app/base.py:76-82.  For Background the answer depends
   on the earlier uses (builtin.py:42-53): the use is recorded and the message
   derived from the log, see [resolve_bg]. *)
Definition check_availability (a : ainfo) (supplied : str) (w : loc) : M unit :=
  match a_kind a with
  | ABackground => mlog (LBg supplied w)
  | _ =>
    if str_eqb (a_name a) supplied then mret tt
    else if str_eqb (a_name a) (L "Unknown")
    then memit E_APP_MISSING w [(L "app", AStr supplied)]
    else memit W_APP_BAD_CASE w [(L "app", AStr supplied); (L "proper", AStr (a_name a))]
  end.

(* parse_inner: application.py:140-152 *)
Definition has_sub (s : str) : bool := is_infix (L "${") s || is_infix (L "$[") s.
Definition parse_inner (app data : str) (w : loc) : M tok :=
  if has_sub data then
    match parse_variables U FT data w with
    | (l, Exn VarParseError) =>
      let m := do* _ <- memit E_APP_PARSE_ERROR w [(L "app", AStr app); (L "args", AStr data)];
               mret (TS data) in
      (l ++ fst m, snd m)
    | r => r
    end
  else mret (TS data).

(* split_app_data: application.py:154-192.  [None] is the result False;
   otherwise self.app and self.data. *)
Definition unparen (data : str) : str :=
  if startswith (L "(") data && endswith (L ")") data then removelast (tl data) else data.

Definition split_app (raw : tok) (w : loc) : M (option (str * str)) :=
  do* parts <- mlift (vsplit 40 (Some 1%nat) raw);
  do* x <- (match parts with
            | [app; data] => do* s <- mlift (str_of data); mret (app, 40 :: s)
            | _ => match raw with
                   | TS s => do* _ <- (if str_eqb (u_lower U s) (L "noop") then mret tt
                                       else memit W_APP_NEED_PARENS w [(L "app", AStr s)]);
                             mret (raw, L "()")
                   | _ => mexn AttributeError         (* self.raw.lower() *)
                   end
            end);
  match fst x with
  | TS app =>
    if negb (str_eqb (rstrip_p isspace app) app) then
      do* _ <- memit E_APP_WSH w [(L "app", AStr app)]; mret None
    else
      let app' := lstrip_p isspace app in
      do* _ <- (if str_eqb app' app then mret tt
                else memit W_APP_WSH w [(L "app", AStr app)]);
      match app' with
      | [] => do* _ <- memit E_APP_MISSING w [(L "app", AStr (L "(none)"))]; mret None
      | _ => mret (Some (app', unparen (snd x)))
      end
  | _ => mexn AttributeError                          (* app.lower() *)
  end.

(* App(raw, where): application.py:105-138.  The result is jump_destinations.
   The fuel bounds the nesting of ExecIf. *)
Fixpoint app_new (fuel : nat) (raw : sliced) (w : loc) : M (list dest) :=
  match fuel with
  | O => ([], Hang)
  | S k =>
    match raw with
    | SlList _ => mexn AttributeError                 (* list has no split *)
    | SlTok t =>
      do* x <- split_app t w;
      match x with
      | None => mret []
      | Some (app, data) =>
        do* a <- app_get (u_lower U app);
        do* _ <- check_availability a app w;
        do* d <- parse_inner app data w;
        app_call (fun r => do* _ <- app_new k r w; mret tt) a d w
      end
    end
  end.

(* Every nested application uses up a question mark; one more level is needed
   to see that a list of old-style arguments cannot be split. *)
Definition app_fuel (raw : str) : nat := S (S (length (filter (N.eqb 63) raw))).
Definition application (raw : str) (w : loc) : M (list dest) :=
  app_new (app_fuel raw) (SlTok (TS raw)) w.

End WithTables.

(* Background.check_availability with chosen_spelling as state,
   builtin.py:42-53; applied to a log of events this gives the messages. *)
Definition bg_spellings : list str := [L "Background"; L "BackGround"].
Definition bg_use (chosen : option str) (supplied : str) (w : loc) : option str * list msg :=
  let chosen' := match chosen with
                 | None => if smem supplied bg_spellings then Some supplied else None
                 | c => c
                 end in
  let name := match chosen' with Some s => s | None => L "Background" end in
  (chosen', if str_eqb name supplied then []
            else [Msg W_APP_BAD_CASE w None [(L "app", AStr supplied); (L "proper", AStr name)]]).

Fixpoint resolve_bg (chosen : option str) (l : list lev) : option str * list lev :=
  match l with
  | [] => (chosen, [])
  | LBg name w :: r =>
    let '(c, ms) := bg_use chosen name w in
    let '(c', r') := resolve_bg c r in
    (c', map LMsg ms ++ r')
  | e :: r => let '(c', r') := resolve_bg chosen r in (c', e :: r')
  end.
