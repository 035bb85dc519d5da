(* asterisklint/file.py: reading, decoding, line ends and comments. *)
From Verif Require Import Base Utf8 PyStr Defines.

(* Iterating a binary file: the lines including their '\n' (file.py:74). *)
Fixpoint lines_of (b : bytes) : list bytes :=
  match b with
  | [] => []
  | c :: r =>
    if c =? 10 then [c] :: lines_of r
    else match lines_of r with
         | l :: ls => (c :: l) :: ls
         | [] => [[c]]
         end
  end.

(* EncodingReader, file.py:91-102 *)
Definition decode_line (w : loc) (b : bytes) : W str :=
  match utf8_decode b with
  | Ok s => wret s
  | _ => ([msg0 E_FILE_UTF8_BAD w], cp1252_decode b)
  end.

(* NoCtrlReader, file.py:105-121: 0x00-0x1f except \t \n \r *)
Definition is_ctrl (c : N) : bool :=
  (c <? 32) && negb ((c =? 9) || (c =? 10) || (c =? 13)).
Definition ctrl_msgs (w : loc) (s : str) : list msg :=
  if existsb is_ctrl s then [msg0 W_FILE_CTRL_CHAR w] else [].

(* FileformatReader, file.py:124-178.  An entry of [fileinfo] is
   [filename, is_dos, latest_has_lf, last_where] (lines 140,151); the head of
   the list is the end of the Python list.  [ff_dos] is the generator's local
   variable is_dos (line 153). *)
Record ffent := FFent { fe_name : str; fe_dos : option bool; fe_lf : option bool;
                        fe_where : loc }.
Record ffst := FFst { ff_info : list ffent; ff_dos : option bool }.
Definition ff_init : ffst := FFst [] None.

(* file.py:131-135, the message for one popped entry *)
Definition ff_pop1 (e : ffent) : W unit :=
  match fe_dos e, fe_lf e with
  | Some is_dos, Some has_lf =>
    if is_dos && has_lf then ([msg0 W_FILE_DOS_EOFCRLF (fe_where e)], Ok tt)
    else if negb is_dos && negb has_lf then ([msg0 W_FILE_UNIX_NOLF (fe_where e)], Ok tt)
    else wret tt
  | _, _ => wexn AssertionError
  end.

(* _pop_fileinfo, file.py:128-135; [None] pops everything *)
Fixpoint ff_pop (l : list ffent) (stop : option str) : W (list ffent) :=
  match l with
  | [] => wret []
  | e :: r =>
    if (match stop with Some f => str_eqb (fe_name e) f | None => false end)
    then wret l
    else do! _ <- ff_pop1 e; ff_pop r stop
  end.

(* lines 143-153: find the entry of the file this line belongs to *)
Definition ff_enter (st : ffst) (w : loc) : W ffst :=
  match ff_info st with
  | e :: _ =>
    if str_eqb (fe_name e) (w_file w) then wret st
    else if existsb (fun e => str_eqb (fe_name e) (w_file w)) (ff_info st) then
      do! l <- ff_pop (ff_info st) (Some (w_file w));
      match l with
      | e' :: _ => wret (FFst l (fe_dos e'))
      | [] => wexn IndexError
      end
    else wret (FFst (FFent (w_file w) None None w :: ff_info st) None)
  | [] => wret (FFst [FFent (w_file w) None None w] None)
  end.

Definition has_crlf (s : str) : bool := endswith [13; 10] s.
Definition has_lf (s : str) : bool := endswith [10] s.

(* data[0:-n] *)
Definition drop_last (n : nat) (s : str) : str := firstn (length s - n) s.

(* lines 155-176 *)
Definition ff_line (st : ffst) (w : loc) (s : str) : W (ffst * str) :=
  do! st1 <- ff_enter st w;
  match ff_info st1 with
  | [] => wexn IndexError
  | e :: r =>
    let dos := match ff_dos st1 with Some d => d | None => has_crlf s || negb (has_lf s) end in
    let e' := FFent (fe_name e)
                (match ff_dos st1 with Some _ => fe_dos e | None => Some dos end)
                (Some (has_lf s)) w in
    let ms := if dos then
                if has_lf s && negb (has_crlf s) then [msg0 W_FILE_DOS_BARELF w] else []
              else if has_crlf s then [msg0 W_FILE_UNIX_CRLF w] else [] in
    let data := if has_crlf s then drop_last 2 s
                else if has_lf s then drop_last 1 s else s in
    (ms, Ok (FFst (e' :: r) (Some dos), data))
  end.

(* line 178 *)
Definition ff_finish (st : ffst) : W unit :=
  do! _ <- ff_pop (ff_info st) None; wret tt.

(* AsteriskCommentReader, file.py:181-275 *)

(* _move_middle_space_to_comment, file.py:250-262 *)
Definition move_middle_space (data comment : str) (w : loc) : list msg * (str * str) :=
  let ms := match comment, last_opt data with
            | _ :: _, Some c => if isblank c then [] else [msg0 W_WSH_COMMENT w]
            | _, _ => []
            end in
  let data' := rstrip_p isblank data in
  (ms, (data', skipn (length data') data ++ comment)).

(* _simple_comment_split, file.py:205-218 *)
Definition simple_split (data : str) (w : loc) : list msg * (str * str) :=
  match index_of 59 data with
  | None => ([], (data, []))
  | Some i =>
    let before := firstn i data in
    let ms := match last_opt before with
              | Some c => if isblank c then [] else [msg0 W_WSH_COMMENT w]
              | None => []
              end in
    let before' := rstrip_p isblank before in
    (ms, (before', skipn (length before') data))
  end.

(* the loop of _lookback_comment_split, file.py:230-247: returns ''.join(parts)
   and the comment.  [fuel] bounds the number of semicolons (at most len data). *)
Fixpoint lookback (fuel : nat) (data : str) : res (str * str) :=
  match fuel with
  | O => Hang
  | S n =>
    match index_of 59 data with
    | None => Ok (data, [])
    | Some i =>
      let before := firstn i data in
      match last_opt before with
      | Some c =>
        if c =? 92 then
          let! (d, k) := lookback n (skipn (S i) data) in
          Ok (drop_last 1 before ++ 59 :: d, k)
        else Ok (before, skipn i data)
      | None => Ok (before, skipn i data)
      end
    end
  end.

(* asterisk_comment_split, file.py:188-203 *)
Definition comment_split (data : str) (w : loc) : W (str * str) :=
  if memb 92 data then
    match lookback (S (length data)) data with
    | Ok (d, k) => let (ms, r) := move_middle_space d k w in (ms, Ok r)
    | Exn e => wexn e
    | Hang => ([], Hang)
    end
  else let (ms, r) := simple_split data w in (ms, Ok r).

(* AsteriskCommentReader.__iter__, file.py:264-275 *)
Definition comment_line (s : str) (w : loc) : W (str * str) :=
  match last_opt s with
  | Some c =>
    if isblank c then
      do! _ <- ([msg0 W_WSH_EOL w], Ok tt); comment_split (rstrip_p isblank s) w
    else comment_split s w
  | None => comment_split s w
  end.

(* One line through all layers of FileReader (file.py:278-280), in generator
   order: decoding, control characters, line ends, comments. *)
Definition read_line (st : ffst) (w : loc) (b : bytes) : W (ffst * str * str) :=
  do! s <- decode_line w b;
  do! _ <- (ctrl_msgs w s, Ok tt);
  do! (st', s') <- ff_line st w s;
  do! (d, k) <- comment_line s' w;
  wret (st', d, k).

(* FileformatReader.__iter__ over a sequence of lines (file.py:142-178) *)
Fixpoint ff_run (st : ffst) (l : list (loc * str)) : W (ffst * list str) :=
  match l with
  | [] => wret (st, [])
  | (w, s) :: r =>
    do! (st', d) <- ff_line st w s;
    do! (st'', ds) <- ff_run st' r;
    wret (st'', d :: ds)
  end.
Definition ff_file (l : list (loc * str)) : W (list str) :=
  do! (st, ds) <- ff_run ff_init l;
  do! _ <- ff_finish st;
  wret ds.
