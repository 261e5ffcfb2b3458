(** Vocabulary of C80: the relative strength index in exact arithmetic. *)
From Coq Require Import Reals.
From Flocq Require Import Core BinarySingleNaN.
From Verif Require Import Go.Outcome Go.Float64 Model.Candle.
Open Scope list_scope.
Open Scope R_scope.

(** Total of the rises, and of the falls, between neighbours. *)
Fixpoint gains (l : list R) : R :=
  match l with a :: ((b :: _) as t) => Rmax 0 (b - a) + gains t | _ => 0 end.
Fixpoint losses (l : list R) : R :=
  match l with a :: ((b :: _) as t) => Rmax 0 (a - b) + losses t | _ => 0 end.
(** The share of the rises in all moves, in percent.  Only for lists with a move. *)
Definition strength (l : list R) : R := 100 * gains l / (gains l + losses l).
Definition real_closes (w : list (candle f64)) : list R := map (fun c => B2R (c_close c)) w.
