(* contrib/convert_dp_104_to_1100.py: rewriting old-style ExecIf.  The collection
   of the issues (lines 39-54) and the rest of the run are in Mutator.v. *)
From Verif Require Import Base PyStr Utf8 Defines Var VarFun AppM Mutator.

(* IfStyleError without the line number: convert_dp_104_to_1100.py:39, 47-54 *)
Record if_issue := IfIssue { ii_app : str; ii_data : tok; ii_cond : tok; ii_args : list tok }.

(* the issue of an E_APP_ARG_IFSTYLE message, app/base.py:276-280 *)
Definition issue_of (app : str) (data : tok) : option if_issue :=
  match separate_args (SlTok data) 63 true with
  | _ :: _ :: _ => None
  | _ => match separate_args (SlTok data) 44 false with
         | c :: a :: more => Some (IfIssue app data c (a :: more))
         | _ => None
         end
  end.

(* ','.join(str(i) for i in l) *)
Fixpoint strs_of (l : list tok) : res (list str) :=
  match l with
  | [] => Ok []
  | t :: r => let! s := str_of t in let! ss := strs_of r in Ok (s :: ss)
  end.

(* process_issue: convert_dp_104_to_1100.py:58-81 *)
Definition cv_line (data cond a : tok) (more : list tok) (line : bytes) : res bytes :=
  let! name := str_of a in
  let! rest := strs_of more in
  let! d := str_of data in
  let! needle := utf8_encode d in
  let! c := str_of cond in
  let! repl := utf8_encode (c ++ [63] ++ name ++ [40] ++ join [44] rest ++ [41]) in
  let out := match needle with [] => repl ++ line | _ => replace_first needle repl line end in
  if str_eqb line out then Exn AssertionError else Ok out.
Definition cv_issue (i : if_issue) (line : bytes) : list bytes * res unit :=
  if str_eqb (ii_app i) (L "ExecIf") then
    match ii_args i with
    | [] => ([], Exn AssertionError)
    | a :: more => match cv_line (ii_data i) (ii_cond i) a more line with
                   | Ok out => ([out], Ok tt)
                   | Exn e => ([], Exn e)
                   | Hang => ([], Hang)
                   end
    end
  else ([], Exn NotImplementedError).
