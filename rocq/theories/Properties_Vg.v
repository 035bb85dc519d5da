(* Final theorems about the VoIPGRID comment reader: C51. *)
From Verif Require Import Base PyStr Defines FileRd Spec_File Vg Spec_Vg Vg_proofs.

(* Where the comment of a line starts: exactly one split satisfies the rules. *)
Theorem C51_comment : forall w s d k l, VgPart w s d k l <-> vg_line w s = (l, (d, k)).
Proof. exact part_iff. Qed.
Print Assumptions C51_comment.

(* Which lines are joined, and what is said about them. *)
Theorem C51_read : forall ls out l, vg_read None ls = (l, out) <-> Unfolds ls out l.
Proof. exact vg_iff. Qed.
Print Assumptions C51_read.

(* Nothing is lost: without comments and trailing blanks the data is the text. *)
Theorem C51_text : forall w s d k l, VgPart w s d k l ->
  exists blanks, s = d ++ k ++ blanks /\ blank_str blanks /\ ~ ends_blank (d ++ k).
Proof. exact part_text. Qed.
Print Assumptions C51_text.

(* ---- Example: semicolons in nested quotes, a continued query, a preprocessor
   line between, a continuation of an empty line. ---- *)
Definition at_line (n : N) : loc := Where (L "f") n [].
Definition vg_lines : list (loc * str) :=
  [(at_line 1, L "readsql=SELECT concat('a;', f(x;y)) ;first "); (at_line 2, L "   FROM t;second"); (at_line 3, L "#include ""x;y"";third");
   (at_line 4, L " a=1"); (at_line 5, L ""); (at_line 6, L "	b=')';2")].
Definition vg_out : list msg * list (loc * str * str) := Eval vm_compute in vg_read None vg_lines.
Example C51_example :
  map (fun m => (m_cls m, w_line (m_where m))) (fst vg_out) =
    [(W_WSH_EOL, 1); (W_WSH_COMMENT, 2); (W_WSH_COMMENT, 3); (W_WSH_COMMENT, 6); (W_WSH_BOL, 6)] /\
  map (fun x => (w_line (fst (fst x)), snd (fst x), snd x)) (snd vg_out) =
    [(1, L "readsql=SELECT concat('a;', f(x;y))   FROM t", L " ;first;second"); (3, L "#include ""x;y""", L ";third");
     (4, L " a=1", []); (5, L "	b=')'", L ";2")] /\
  Unfolds vg_lines (snd vg_out) (fst vg_out).
Proof. split; [vm_compute; reflexivity|]. split; [vm_compute; reflexivity|]. apply C51_read. vm_compute; reflexivity. Qed.

(* In single quotes an opening parenthesis counts: the comment is not found. *)
Example C51_example_quote : vg_line (at_line 1) (L "x='(';y") = ([], (L "x='(';y", [])) /\
  vg_line (at_line 1) (L "x=""("";y") = ([msg0 W_WSH_COMMENT (at_line 1)], (L "x=""(""", L ";y")).
Proof. split; vm_compute; reflexivity. Qed.
