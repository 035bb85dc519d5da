(* The VoIPGRID reader in its place: VoipgridFileReader (vg.py:140-143) under the
   configuration parser, with the stack of open files. *)
From Verif Require Import Base PyStr Utf8 Defines FileRd Config Vg.

(* The layers under VoipgridCommentReader for one line: file.py:91-178 *)
Definition vg_raw (st : ffst) (w : loc) (b : bytes) : W (ffst * str) :=
  do! s <- decode_line w b;
  do! _ <- (ctrl_msgs w s, Ok tt);
  ff_line st w s.

(* What becomes of a line that the comment reader yields: config.py:113-180.  A
   file that is included is opened at once and put on the stack. *)
Definition vg_give (fs : fsys) (p : loc * str * str) : list event * res (list frame) :=
  let '(w, data, comment) := p in
  let (ms, a) := parse_line w data comment in
  let pre := EvLine w data comment :: map EvMsg ms in
  match a with
  | PElem e => (pre ++ [EvElem e], Ok [])
  | PAct PPnone => (pre, Ok [])
  | PAct (PPinclude target must) =>
    let (ms3, r) := do_include fs w target must in
    (pre ++ map EvMsg ms3, let! o := r in Ok (match o with Some f => [f] | None => [] end))
  end.
Definition vg_give_opt (fs : fsys) (prev : option (loc * str * str)) : list event * res (list frame) :=
  match prev with Some p => vg_give fs p | None => ([], Ok []) end.

(* VoipgridCommentReader.__iter__ (vg.py:93-133) over the stack of open files
   (file.py:77-88).  When the last file is over, what was kept back is yielded;
   a file that this includes is opened, but the iteration over the stack is over. *)
Fixpoint vg_loop (fuel : nat) (fs : fsys) (stk : list frame) (ff : ffst) (prev : option (loc * str * str)) : list event * res unit :=
  match fuel with
  | O => ([], Hang)
  | S n =>
    match stk with
    | [] =>
      let (ms, r) := ff_finish ff in
      match r with
      | Ok _ => let (l, g) := vg_give_opt fs prev in (map EvMsg ms ++ l, let! _ := g in Ok tt)
      | Exn e => (map EvMsg ms, Exn e)
      | Hang => (map EvMsg ms, Hang)
      end
    | Frame name no [] :: stk' => vg_loop n fs stk' ff prev
    | Frame name no (b :: bs) :: stk' =>
      let w := Where name (no + 1) b in
      let stk1 := Frame name (no + 1) bs :: stk' in
      let (ms, r) := vg_raw ff w b in
      match r with
      | Exn e => (map EvMsg ms, Exn e)
      | Hang => (map EvMsg ms, Hang)
      | Ok (ff', s) =>
        match (if starts_blank s then prev else None) with
        | Some (w0, d0, c0) =>
          let (ms2, dc) := vg_line w s in
          let ms3 := match d0 with [] => [msg0 W_WSH_BOL w] | _ => [] end in
          let (l, o) := vg_loop n fs stk1 ff' (Some (w0, d0 ++ fst dc, c0 ++ snd dc)) in
          (map EvMsg (ms ++ ms2 ++ ms3) ++ l, o)
        | None =>
          let (l1, g1) := vg_give_opt fs prev in
          match g1 with
          | Exn e => (map EvMsg ms ++ l1, Exn e)
          | Hang => (map EvMsg ms ++ l1, Hang)
          | Ok fr1 =>
            let (ms2, dc) := vg_line w s in
            let (data, comment) := dc in
            if startswith [35] data then
              let (l2, g2) := vg_give fs (w, data, comment) in
              match g2 with
              | Exn e => (map EvMsg ms ++ l1 ++ map EvMsg ms2 ++ l2, Exn e)
              | Hang => (map EvMsg ms ++ l1 ++ map EvMsg ms2 ++ l2, Hang)
              | Ok fr2 =>
                let (l, o) := vg_loop n fs (fr2 ++ fr1 ++ stk1) ff' None in
                (map EvMsg ms ++ l1 ++ map EvMsg ms2 ++ l2 ++ l, o)
              end
            else
              let (l, o) := vg_loop n fs (fr1 ++ stk1) ff' (Some (w, data, comment)) in
              (map EvMsg ms ++ l1 ++ map EvMsg ms2 ++ l, o)
          end
        end
      end
    end
  end.

(* include(filename) of such a parser followed by iteration *)
Definition vg_parse_file (fuel : nat) (fs : fsys) (name : str) : list event * res unit :=
  match open_frame fs name with
  | Ok f => vg_loop fuel fs [f] ff_init None
  | Exn e => ([], Exn e)
  | Hang => ([], Hang)
  end.
