(** Vocabulary of C121: a series with some members left out. *)
From Coq Require Import List.
Import ListNotations.

(** [coarse] is [fine] without some of its members, the first and the last of
    which are kept. *)
Inductive thinned {A} : list A -> list A -> Prop :=
| thin_last a : thinned [a] [a]
| thin_next a left_out b fine coarse : thinned (b :: fine) (b :: coarse) -> thinned (a :: left_out ++ b :: fine) (a :: b :: coarse).
