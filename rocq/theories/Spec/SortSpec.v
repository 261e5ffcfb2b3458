(** What a stable sort by a comparison function is, independent of any
    algorithm. *)
From Coq Require Import List Sorting.Sorted Sorting.Permutation Bool.
Import ListNotations.

Section Sort.
Context {A : Type} (less : A -> A -> bool).

(** [less] is a strict weak order on the elements satisfying [P]. *)
Definition strict_weak (P : A -> Prop) : Prop :=
  (forall x, P x -> less x x = false) /\
  (forall x y z, P x -> P y -> P z -> less x y = true -> less y z = true -> less x z = true) /\
  (forall x y z, P x -> P y -> P z -> less x y = false -> less y z = false -> less x z = false).

(** [z] lists the elements of [l], none after one it is less than, and elements
    that tie in the order they have in [l]. *)
Definition tie (x y : A) : bool := negb (less x y) && negb (less y x).
Definition stably_sorted (l z : list A) : Prop :=
  Permutation l z /\
  StronglySorted (fun x y => less y x = false) z /\
  (forall x, In x l -> filter (tie x) z = filter (tie x) l).
End Sort.
