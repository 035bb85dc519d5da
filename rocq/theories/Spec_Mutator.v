(* Independent specification of rewriting a file (C35, C36). *)
From Verif Require Import Base PyStr FileRd Mutator.
From Coq Require Import Sorting.Sorted.

(* The file behind a name, following links. *)
Definition content (d : disk) (p : str) : option bytes :=
  match resolve max_links d p with
  | Some q => match d q with Some (File b _ _ _) => Some b | _ => None end
  | None => None
  end.

Section Spec.
Context {I : Type}.
Variable proc : I -> bytes -> list bytes * res unit.

Definition Ascending (issues : list (N * I)) : Prop := StronglySorted N.lt (map fst issues).

(* [Used issues pre]: [pre] is the longest ascending beginning of [issues]; from
   the first issue on that is not on a later line than the one before it, all
   are forgotten. *)
Definition Used (issues pre : list (N * I)) : Prop :=
  Ascending pre /\ exists rest, issues = pre ++ rest /\
    match rest with
    | [] => True
    | (n, _) :: _ => exists pre' m x, pre = pre' ++ [(m, x)] /\ n <= m
    end.

(* [Edited issues old new]: the lines of [old] that have an issue are replaced
   by what process_issue writes for them, all others are kept. *)
Definition Edited (issues : list (N * I)) (old new : bytes) : Prop :=
  exists outs, List.concat outs = new /\ length outs = length (lines_of old) /\
    forall i line, nth_error (lines_of old) i = Some line ->
      (forall x, In (N.of_nat i, x) issues ->
         snd (proc x line) = Ok tt /\ nth_error outs i = Some (List.concat (fst (proc x line)))) /\
      ((forall x, ~ In (N.of_nat i, x) issues) -> nth_error outs i = Some line).

(* The operations up to the end of writing. *)
Definition writing (o : op) : Prop :=
  match o with
  | OReadlink _ | OMktemp _ | OOpen _ | ORead | OWrite _ _ | OFlush _ _ => True
  | _ => False
  end.
Definition only_writing_fails (tr : trace) : Prop := forall o e, In (o, RFail e) tr -> writing o.

(* Nothing fails, but for readlink on what is not a link. *)
Definition nothing_fails (tr : trace) : Prop :=
  forall o e, In (o, RFail e) tr -> (exists p, o = OReadlink p) /\ e = OSError.

(* What has been handed over to write, and arrived. *)
Fixpoint written (t : str) (tr : trace) : bytes :=
  match tr with
  | [] => []
  | (OWrite t' b, RFail _) :: r => written t r
  | (OWrite t' b, _) :: r => if str_eqb t' t then b ++ written t r else written t r
  | _ :: r => written t r
  end.
(* The model lets a flush that succeeds put the given bytes into the file; that
   is right if they are all the bytes written before, none of which got lost. *)
Definition flush_right (tr : trace) : Prop :=
  forall tr1 t all a tr2, tr = tr1 ++ (OFlush t all, a) :: tr2 ->
    all = written t tr1 /\ forall b e, ~ In (OWrite t b, RFail e) tr1.

(* The name that is written to: the file itself or the target of the link. *)
Definition Target (d : disk) (filename q : str) : Prop := q = filename \/ d filename = Some (Link q).
(* A link whose target text names the file it stands for: an absolute one, or a
   relative one in the working directory. *)
Definition Direct (d : disk) (filename : str) : Prop :=
  forall t, d filename = Some (Link t) -> link_path filename t = t.
End Spec.

(* The first occurrence of a needle. *)
Definition FirstOcc (needle s a b : bytes) : Prop :=
  s = a ++ needle ++ b /\ forall a' b', s = a' ++ needle ++ b' -> (length a <= length a')%nat.
(* The text after the first equals sign has the first occurrence of the pattern
   replaced. *)
Definition Canonised (needle repl line new : bytes) : Prop :=
  exists head tail tail', line = head ++ 61 :: tail /\ ~ In 61 head /\ tail <> [] /\ new = head ++ 61 :: tail' /\
    ((exists a b, FirstOcc needle tail a b /\ tail' = a ++ repl ++ b) \/
     ((forall a b, tail <> a ++ needle ++ b) /\ tail' = tail)).
