(** Vocabulary of C113: the way a price went. *)
From Coq Require Import Reals List.
Import ListNotations.
Open Scope R_scope.

(** The distance travelled: the sum of all moves, up or down. *)
Fixpoint travelled (l : list R) : R :=
  match l with a :: ((b :: _) as t) => Rabs (b - a) + travelled t | _ => 0 end.
(** From the first price to the last. *)
Definition net_move (l : list R) : R := last l 0 - hd 0 l.
(** The index as net move over distance: only for series with a move. *)
Definition net_index (l : list R) : R := 50 + 50 * (net_move l / travelled l).
Definition between (a b c : R) : Prop := a <= b <= c \/ c <= b <= a.
