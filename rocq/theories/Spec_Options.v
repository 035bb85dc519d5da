(* Declarative side of C73: an option that may be used once. *)
From Verif Require Import Base PyStr.

(* None given: nothing stored; one: its value, the empty one too; more: an error
   that names the second as it was written. *)
Inductive Stored : list (str * str) -> str + option str -> Prop :=
| Sd_none : Stored [] (inr None)
| Sd_one o v : Stored [(o, v)] (inr (Some v))
| Sd_more u o v r : Stored (u :: (o, v) :: r) (inl (o ++ L " appears several times")).
