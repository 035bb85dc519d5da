(* Independent specification of the vertical whitespace checks (configws.py).
   Uses the element and event types of Config.v, nothing of VSpace.v. *)
From Verif Require Import Base Defines Config.

Definition is_blank (e : elem) : bool := match e with EEmpty _ _ => true | _ => false end.
Definition is_wsv (m : msg) : bool :=
  match m_cls m with
  | W_WSV_BOF | W_WSV_EOF | H_WSV_CTX_BETWEEN | H_WSV_VARSET_BETWEEN => true
  | _ => false
  end.

(* everything but empty lines and vertical whitespace messages *)
Definition essential (ev : event) : bool :=
  match ev with
  | EvElem e => negb (is_blank e)
  | EvMsg m => negb (is_wsv m)
  | EvLine _ _ _ => true
  end.
Definition blank_event (ev : event) : bool :=
  match ev with EvElem e => is_blank e | _ => false end.

(* vertical whitespace messages about one file, in order *)
Definition wsv_of (f : str) (evs : list event) : list msg :=
  flat_map (fun ev => match ev with
    | EvMsg m => if is_wsv m && str_eqb (w_file (m_where m)) f then [m] else []
    | _ => [] end) evs.

Definition elems_of (evs : list event) : list elem :=
  flat_map (fun ev => match ev with EvElem e => [e] | _ => [] end) evs.

(* Maximal runs of lines with / without comment. *)
Definition bline : Type := bool * loc.
Inductive Runs : list bline -> list (bool * list bline) -> Prop :=
| Runs_nil : Runs [] []
| Runs_cons c g rest gs : g <> [] -> Forall (fun b => fst b = c) g -> Runs rest gs ->
    (forall c' g' gs', gs = (c', g') :: gs' -> c' <> c) ->
    Runs (g ++ rest) ((c, g) :: gs).

(* a message at the last line of every too long uncommented run *)
Definition long_msgs (cls : mcls) (max : nat) (gs : list (bool * list bline)) : list msg :=
  flat_map (fun g : bool * list bline =>
    match g with
    | (false, b :: bs) => if (max <? length (b :: bs))%nat then [msg0 cls (snd (last bs b))] else []
    | _ => []
    end) gs.

(* [GapMsgs bof cls max bs ms]: messages for the empty lines bs before an element *)
Inductive GapMsgs (bof : bool) (cls : mcls) (max : nat) (bs : list bline) : list msg -> Prop :=
| GM_bof b g gs : bof = true -> Runs bs ((false, b :: g) :: gs) ->
    GapMsgs bof cls max bs (msg0 W_WSV_BOF (snd b) :: long_msgs cls max gs)
| GM_mid gs : Runs bs gs -> (bof = true -> forall g gs', gs <> (false, g) :: gs') ->
    GapMsgs bof cls max bs (long_msgs cls max gs).

(* [TailMsgs rep bs ms]: messages for the empty lines at the end of the file;
   W_WSV_EOF only if [rep]. *)
Inductive TailMsgs (rep : bool) (bs : list bline) : list msg -> Prop :=
| TM_blank gs b g : Runs bs (gs ++ [(false, b :: g)]) ->
    TailMsgs rep bs (long_msgs H_WSV_CTX_BETWEEN 2 gs
                     ++ if rep then [msg0 W_WSV_EOF (snd (last g b))] else [])
| TM_comment gs : Runs bs gs -> (forall gs' g, gs <> gs' ++ [(false, g)]) ->
    TailMsgs rep bs (long_msgs H_WSV_CTX_BETWEEN 2 gs).

Definition empties (bs : list bline) : list elem := map (fun b => EEmpty (fst b) (snd b)) bs.

(* [FileMsgs bof n es rep ms]: messages for the elements es of one file; bof: at
   the start of the file, n: number of varsets in the current context. *)
Inductive FileMsgs : bool -> N -> list elem -> bool -> list msg -> Prop :=
| FM_tail bof n bs rep ms : TailMsgs rep bs ms -> FileMsgs bof n (empties bs) rep ms
| FM_crowded bof n c es rep ms : 2 < n -> FileMsgs false 0 es rep ms ->
    FileMsgs bof n (ECtx c :: es) rep (msg0 H_WSV_CTX_BETWEEN (c_where c) :: ms)
| FM_ctx bof n bs c es rep g ms : n <= 2 \/ bs <> [] ->
    GapMsgs bof H_WSV_CTX_BETWEEN 2 bs g -> FileMsgs false 0 es rep ms ->
    FileMsgs bof n (empties bs ++ ECtx c :: es) rep (g ++ ms)
| FM_var bof n bs v es rep g ms :
    GapMsgs bof H_WSV_VARSET_BETWEEN 1 bs g -> FileMsgs false (n + 1) es rep ms ->
    FileMsgs bof n (empties bs ++ EVar v :: es) rep (g ++ ms).

(* The elements of a file and of the files it includes. *)
Inductive vtree := VT (name : str) (items : vitems)
with vitems :=
| VNil
| VElem (e : elem) (r : vitems)
| VSub (t : vtree) (r : vitems).

Fixpoint vflat (t : vtree) : list elem :=
  match t with VT _ i => vflat_items i end
with vflat_items (i : vitems) : list elem :=
  match i with
  | VNil => []
  | VElem e r => e :: vflat_items r
  | VSub t r => vflat t ++ vflat_items r
  end.

Fixpoint vnames (t : vtree) : list str :=
  match t with VT n i => n :: vnames_items i end
with vnames_items (i : vitems) : list str :=
  match i with
  | VNil => []
  | VElem _ r => vnames_items r
  | VSub t r => vnames t ++ vnames_items r
  end.

(* Elements belong to their file and every file has an element before its
   first include. *)
Fixpoint vwf (t : vtree) : Prop :=
  match t with VT n i => (exists e r, i = VElem e r) /\ vwf_items n i end
with vwf_items (n : str) (i : vitems) : Prop :=
  match i with
  | VNil => True
  | VElem e r => w_file (e_where e) = n /\ vwf_items n r
  | VSub t r => vwf t /\ vwf_items n r
  end.

(* own elements *)
Fixpoint vown (i : vitems) : list elem :=
  match i with
  | VNil => []
  | VElem e r => e :: vown r
  | VSub _ r => vown r
  end.

(* [Node last later t n es rep]: t has the file n with own elements es; the end
   of that file is checked iff [rep]: an including file has a further element
   ([later]), or the file has the very last element of all ([last]). *)
Definition nonnil {A} (l : list A) : bool := match l with [] => false | _ => true end.
Fixpoint last_own (i : vitems) : bool :=
  match i with
  | VNil => true
  | VElem _ r => last_own r
  | VSub t r => nonnil (vown r) && last_own r
  end.
Inductive Node : bool -> bool -> vtree -> str -> list elem -> bool -> Prop :=
| Node_here last later n i : Node last later (VT n i) n (vown i) (later || (last && last_own i))
| Node_sub last later n i m es rep : NodeI last later i m es rep -> Node last later (VT n i) m es rep
with NodeI : bool -> bool -> vitems -> str -> list elem -> bool -> Prop :=
| NodeI_elem last later e r m es rep : NodeI last later r m es rep -> NodeI last later (VElem e r) m es rep
| NodeI_in last later t r m es rep :
    Node (last && match r with VNil => true | _ => false end) (later || nonnil (vown r)) t m es rep ->
    NodeI last later (VSub t r) m es rep
| NodeI_next last later t r m es rep : NodeI last later r m es rep -> NodeI last later (VSub t r) m es rep.
