(* The web service, from a request to the words of the response: web/wsgi.py. *)
From Verif Require Import Base Utf8 PyStr Defines FileRd Config VarFun AppM Dialplan Check Report.

(* The body of a request: a JSON value as Python has it.  A dict has no key
   twice; of the values that are not used it does not matter what they are. *)
Inductive json := JStr (s : str) | JDict (l : list (str * json)) | JList (l : list json) | JOther.
(* wsgi.multithread, the length of the body if it is given, and the body *)
Record request := Request { rq_threads : bool; rq_length : option N; rq_media : json }.

(* v[k]: of the values only a dict takes a str *)
Definition json_get (k : str) (v : json) : res json :=
  match v with
  | JDict l => match lookup k l with Some x => Ok x | None => Exn KeyError end
  | _ => Exn TypeError
  end.
(* req.media['files'][filename].encode('utf-8'): wsgi.py:120-123 *)
Definition uploaded (v : json) : res bytes :=
  let! f := json_get (L "files") v in
  let! x := json_get web_name f in
  match x with JStr s => utf8_encode s | _ => Exn AttributeError end.

(* The issues of a response: wsgi.py:132-139.  All are about the one file. *)
Record entry := Entry { en_line : N; en_class : str; en_desc : str }.
(* A response with issues; a falcon error with its status; any other exception,
   which is not caught; or none, ever. *)
Inductive answer := Answer (es : list entry) | Refused (status : N) | Failed (e : exn) | Unanswered.

Section Web.
Variable U : uni.
Variable FT : ftable.
Variable AT : atable.
Variable printable : N -> bool.     (* str.isprintable, beyond ASCII *)
Variable fuel : nat.

Section Words.
Variable addr : nat -> N.
Fixpoint entries (k : nat) (ms : list msg) : res (list entry * nat) :=
  match ms with
  | [] => Ok ([], k)
  | m :: r => let! x := words printable addr k m in
              let! y := entries (snd x) r in
              Ok (Entry (w_line (m_where m)) (mname (m_cls m)) (fst x) :: fst y, snd y)
  end.
End Words.

(* The checks before the handler: EnvironmentCheckMiddleware (wsgi.py:58-63),
   max_body (wsgi.py:47-55) with the limit of wsgi.py:108. *)
Definition refused (r : request) : option N :=
  if rq_threads r then Some 400
  else match rq_length r with
       | Some n => if 65536 <? n then Some 413 else None
       | None => None
       end.

(* DialplanCheck.on_post: wsgi.py:109-144.  The messages are forgotten once
   they are collected, before they are formatted; a request that fails before
   that leaves them.  HttpNotImplementedError (NotImplementedError, see
   web_fs) is answered as a bad request. *)
Definition serve (addr : nat -> N) (st : wstate) (r : request) : wstate * answer :=
  match refused r with
  | Some s => (st, Refused s)
  | None =>
    match uploaded (rq_media r) with
    | Exn e => (st, Failed e)
    | Hang => (st, Unanswered)
    | Ok data =>
      let m := web_run U FT AT fuel data in
      let (bg, l) := resolve_bg (ws_bg st) (fst m) in
      let rs := fold_left raised_add (log_msgs l) (ws_raised st) in
      match snd m with
      | Ok _ => (WState [] bg, match entries addr 0 (collect rs) with
                               | Ok p => Answer (fst p)
                               | Exn e => Failed e
                               | Hang => Unanswered
                               end)
      | Exn NotImplementedError => (WState rs bg, Refused 400)
      | Exn e => (WState rs bg, Failed e)
      | Hang => (WState rs bg, Unanswered)
      end
    end
  end.
(* The server after the requests [h]; how things are printed does not matter
   for what is left. *)
Definition after (h : list request) : wstate :=
  fold_left (fun st r => fst (serve (fun _ => 0) st r)) h web_start.
End Web.
