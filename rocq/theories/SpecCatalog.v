(** What dotted names mean, independently of splitting and joining. *)
From Verif Require Import Base.

(** [spelled c parts s]: the text [s] is the parts written one after the other
    with the character [c] between them, and none of the parts contains [c]. *)
Inductive spelled (c : N) : list pystr -> pystr -> Prop :=
| spelled_one p : ~ In c p -> spelled c [p] p
| spelled_more p ps s : ~ In c p -> spelled c ps s -> spelled c (p :: ps) (p ++ c :: s).
