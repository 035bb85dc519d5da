(* Declarative side of C63: a response of the web service, from the requests
   before it and the bytes of the upload. *)
From Coq Require Import Permutation Sorted.
From Verif Require Import Base Defines FileRd Config VarFun AppM Dialplan Check Web Spec_File Spec_Commands Spec_App Spec_Dialplan Spec_Check Spec_Report Spec_Run Spec_Whole.
From Verif Require Spec_Reader Spec_Include.

(* ---- requests ---- *)
Definition KeyOf (l : list (str * json)) (k : str) (v : json) : Prop :=
  exists before after, l = before ++ (k, v) :: after /\ ~ In k (map fst before).
Definition Allowed (r : request) : Prop := rq_threads r = false /\ forall n, rq_length r = Some n -> n <= 65536.
(* The file that is uploaded, as it will be read. *)
Inductive Uploads (r : request) (data : bytes) : Prop :=
| Up_intro top files text : Allowed r -> rq_media r = JDict top -> KeyOf top (L "files") (JDict files) ->
    KeyOf files (L "extensions.conf") (JStr text) -> Utf8 text data -> Uploads r data.
(* There is only this file: any other name is refused. *)
Definition OnlyFile (data : bytes) (fs : fsys) : Prop :=
  fs (L "extensions.conf") = Ok data /\ forall n, n <> L "extensions.conf" -> fs n = Exn NotImplementedError.

Section Tables.
Variable U : uni.
Variable FT : ftable.
Variable AT : atable.
Variable printable : N -> bool.

(* ---- what is left ---- *)

(* A request as the server remembers it: what was said, and whether it came to
   the end. *)
Inductive Run (r : request) : list lev -> bool -> Prop :=
| Rn_none : (forall data, ~ Uploads r data) -> Run r [] false
| Rn_ended data l : Uploads r data -> WholeSays U FT AT (fun _ => false) (web_fs data) (Some []) (L "extensions.conf") l -> Run r l true
| Rn_raised data l e fuel : Uploads r data -> web_run U FT AT fuel data = (l, Exn e) -> Run r l false.
(* After the requests: everything said, for the spelling of Background, and the
   messages since the last request that came to its end. *)
Inductive Left : list request -> list lev -> list msg -> Prop :=
| Lf_start : Left [] [] []
| Lf_ended h r before ms l : Left h before ms -> Run r l true -> Left (h ++ [r]) (before ++ l) []
| Lf_raised h r before ms l new : Left h before ms -> Run r l false -> Messages before l new -> Left (h ++ [r]) (before ++ l) (ms ++ new).

(* The spelling of Background that is kept. *)
Definition Spelling (before : list lev) (ch : option str) : Prop :=
  match ch with
  | Some s => Spec_App.Accepted s /\ Reference before s /\ exists w, In (LBg s w) before
  | None => forall s w, In (LBg s w) before -> ~ Spec_App.Accepted s
  end.
(* The upload asks for a file that was not uploaded: everything before the line
   was read and handled. *)
Definition AsksElsewhere (data : bytes) (l : list lev) : Prop :=
  exists evs h, Spec_Reader.StreamOf (web_fs data) (L "extensions.conf") evs (Exn NotImplementedError)
                /\ StreamSays U FT AT [] evs h l /\ exists js, JumpsOf U h js.
(* A line of the upload that includes a file. *)
Definition Includes (data : bytes) : Prop :=
  exists ls line t must, Spec_Include.Lines data ls /\ In line ls /\ Spec_Include.IncludeLine line t must.

(* ---- the response ---- *)
Definition EntryOf (m : msg) (e : entry) : Prop :=
  en_line e = w_line (m_where m) /\ en_class e = mname (m_cls m) /\ Words printable m (en_desc e).
(* By line, then by class, else as said. *)
Definition InOrder (ms sorted : list msg) : Prop :=
  Permutation sorted ms /\ StronglySorted MsgLe sorted /\
  forall n c, filter (fun m => (w_line (m_where m) =? n) && str_eqb (mname (m_cls m)) c) sorted =
              filter (fun m => (w_line (m_where m) =? n) && str_eqb (mname (m_cls m)) c) ms.
Definition Response (ms : list msg) (es : list entry) : Prop := exists sorted, InOrder ms sorted /\ Forall2 EntryOf sorted es.
(* The messages left over come with the response, as if they were about this
   upload. *)
Inductive Answers (h : list request) (r : request) : list entry -> Prop :=
| An_intro before left l ms es : Left h before left -> Run r l true -> Messages before l ms -> Response (left ++ ms) es -> Answers h r es.
End Tables.
