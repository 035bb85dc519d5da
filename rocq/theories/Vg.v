(* The VoIPGRID comment reader: contrib/commands/vg.py:33-133, on the lines that
   FileformatReader yields.  Its place in the include stack is in VgRead.v, the
   aggregators (vg.py:153-202) are in VgPlan.v. *)
From Verif Require Import Base PyStr Defines FileRd.

(* The loop of voipgrid_comment_split, vg.py:60-85.  [stk] is arr without its
   first element; the result is the length of the data. *)
Fixpoint vg_scan (stk : list N) (s : str) : nat :=
  match s with
  | [] => O
  | c :: r =>
    let top := hd 0 stk in
    if c =? 34 then S (vg_scan (if top =? 34 then tl stk else 34 :: stk) r)
    else if c =? 39 then S (vg_scan (if top =? 39 then tl stk else 39 :: stk) r)
    else if c =? 40 then S (vg_scan (if top =? 34 then stk else 40 :: stk) r)
    else if c =? 41 then S (vg_scan (if top =? 40 then tl stk else stk) r)
    else if c =? 59 then match stk with [] => O | _ => S (vg_scan stk r) end
    else S (vg_scan stk r)
  end.

(* voipgrid_comment_split: vg.py:46-89 *)
Definition vg_split (data : str) (w : loc) : list msg * (str * str) :=
  match data with
  | [] => ([], ([], []))
  | _ => let n := vg_scan [] data in move_middle_space (firstn n data) (skipn n data) w
  end.

Definition starts_blank (s : str) : bool := match s with c :: _ => isblank c | [] => false end.

(* The part of __iter__ that looks at one line: vg.py:101-107 *)
Definition vg_line (w : loc) (s : str) : list msg * (str * str) :=
  match last_opt s with
  | Some c =>
    if isblank c then let (ms, r) := vg_split (rstrip_p isblank s) w in (msg0 W_WSH_EOL w :: ms, r)
    else vg_split s w
  | None => vg_split s w
  end.

(* __iter__: vg.py:91-133.  [prev] is what is kept back. *)
Fixpoint vg_read (prev : option (loc * str * str)) (ls : list (loc * str)) : list msg * list (loc * str * str) :=
  match ls with
  | [] => ([], match prev with Some p => [p] | None => [] end)
  | (w, s) :: r =>
    let (ms, dc) := vg_line w s in
    let (data, comment) := dc in
    match (if starts_blank s then prev else None) with
    | Some (w0, d0, c0) =>
      let (ms', out) := vg_read (Some (w0, d0 ++ data, c0 ++ comment)) r in
      (ms ++ (match d0 with [] => [msg0 W_WSH_BOL w] | _ => [] end) ++ ms', out)
    | None =>
      let done := match prev with Some p => [p] | None => [] end in
      if startswith [35] data then let (ms', out) := vg_read None r in (ms ++ ms', done ++ (w, data, comment) :: out)
      else let (ms', out) := vg_read (Some (w, data, comment)) r in (ms ++ ms', done ++ out)
    end
  end.
