(* asterisklint/configws.py: vertical whitespace checks. *)
From Verif Require Import Base PyStr Defines FileRd Config.

(* VswContext, configws.py:38-42.  A blank is the comment flag and position of
   an EmptyLine. *)
Definition blank : Type := bool * loc.
Record vctx := Vctx { vc_file : str; vc_bof : bool; vc_blanks : list blank; vc_varsets : N }.
Definition vctx_new (w : loc) : vctx := Vctx (w_file w) true [] 0.

Definition ev_blank (b : blank) : event := EvElem (EEmpty (fst b) (snd b)).

(* group_blanks, configws.py:138-145 *)
Fixpoint add_blank (l : list (bool * list blank)) (b : blank) : list (bool * list blank) :=
  match l with
  | [] => [(fst b, [b])]
  | [(c, g)] => if Bool.eqb c (fst b) then [(c, g ++ [b])] else [(c, g); (fst b, [b])]
  | x :: r => x :: add_blank r b
  end.
Definition group_blanks (bs : list blank) : list (bool * list blank) := fold_left add_blank bs [].

(* configws.py:101-105, one group *)
Definition between_events (cls : mcls) (max : nat) (g : bool * list blank) : list event :=
  let (has_comment, bs) := g in
  (if negb has_comment && (max <? length bs)%nat
   then match last_opt bs with Some b => [EvMsg (msg0 cls (snd b))] | None => [] end
   else [])
  ++ map ev_blank bs.

(* flush_blanks, configws.py:78-106 *)
Definition flush_blanks (v : vctx) (w : loc) (cls : mcls) (min max : nat) : list event :=
  let bs := vc_blanks v in
  if (length bs <? min)%nat then EvMsg (msg0 cls w) :: map ev_blank bs
  else match bs with
  | [] => []
  | _ =>
    let grouped := group_blanks bs in
    let '(pre, rest) :=
      if vc_bof v then
        match grouped with
        | (false, (b :: _) as g) :: r =>
          (EvMsg (msg0 W_WSV_BOF (snd b)) :: map ev_blank g, r)
        | _ => ([], grouped)
        end
      else ([], grouped) in
    pre ++ flat_map (between_events cls max) rest
  end.

(* VswContext.handle / handle_nonblank, configws.py:47-76 *)
Definition vctx_handle (v : vctx) (e : elem) : vctx * list event :=
  match e with
  | EEmpty c w => (Vctx (vc_file v) (vc_bof v) (vc_blanks v ++ [(c, w)]) (vc_varsets v), [])
  | ECtx c =>
    let min := if vc_varsets v <=? 2 then 0%nat else 1%nat in
    (Vctx (vc_file v) false [] 0,
     flush_blanks v (c_where c) H_WSV_CTX_BETWEEN min 2 ++ [EvElem e])
  | EVar x =>
    (Vctx (vc_file v) false [] (vc_varsets v + 1),
     flush_blanks v (v_where x) H_WSV_VARSET_BETWEEN 0 1 ++ [EvElem e])
  end.

(* VswContext.handle_eof, configws.py:108-136.  Blanks at the very end are not
   even yielded if report is off. *)
Definition vctx_eof (v : vctx) (report : bool) : list event :=
  match vc_blanks v with
  | [] => []
  | bs =>
    let grouped := group_blanks bs in
    let '(rest, eof_blanks) :=
      match last_opt grouped with
      | Some (false, g) => (removelast grouped, g)
      | _ => (grouped, [])
      end in
    flat_map (between_events H_WSV_CTX_BETWEEN 2) rest
    ++ (match eof_blanks, report with
        | _ :: _, true =>
          map ev_blank eof_blanks
          ++ match last_opt bs with Some b => [EvMsg (msg0 W_WSV_EOF (snd b))] | None => [] end
        | _, _ => []
        end)
  end.

(* the while loop of VswContextStack.handle, configws.py:153-157 *)
Fixpoint vstack_pop (l : list vctx) (file : str) : list event * list vctx :=
  match l with
  | [] => ([], [])
  | v :: r =>
    if str_eqb (vc_file v) file then ([], l)
    else let (evs, l') := vstack_pop r file in (vctx_eof v true ++ evs, l')
  end.

(* VswContextStack.handle, configws.py:149-163 *)
Definition vstack_handle (l : list vctx) (e : elem) : list event * list vctx :=
  let file := w_file (e_where e) in
  let '(evs, l1) :=
    if existsb (fun v => str_eqb (vc_file v) file) l then vstack_pop l file
    else ([], vctx_new (e_where e) :: l) in
  match l1 with
  | v :: r => let (v', evs') := vctx_handle v e in (evs ++ evs', v' :: r)
  | [] => (evs, [])   (* not reached *)
  end.

(* VswContextStack.handle_eof, configws.py:165-171 *)
Fixpoint vstack_eof (l : list vctx) (first : bool) : list event :=
  match l with
  | [] => []
  | v :: r => vctx_eof v first ++ vstack_eof r false
  end.

(* VerticalSpaceWarner.__iter__, configws.py:181-190, as a stream transformer:
   messages raised further down pass through. *)
Fixpoint vsw (l : list vctx) (evs : list event) : list event * list vctx :=
  match evs with
  | [] => ([], l)
  | EvElem e :: r =>
    let (out, l') := vstack_handle l e in
    let (out', l'') := vsw l' r in (out ++ out', l'')
  | ev :: r => let (out', l'') := vsw l r in (ev :: out', l'')
  end.
Definition vsw_stream (s : list event * res unit) : list event * res unit :=
  let (out, l) := vsw [] (fst s) in
  match snd s with
  | Ok tt => (out ++ vstack_eof l true, Ok tt)
  | o => (out, o)
  end.
