(** Vocabulary of C99: how much of an old price is left in an average. *)
From Coq Require Import Reals.
From Verif Require Import Go.Outcome Go.Float64 Model.Candle.
Open Scope list_scope.
Open Scope R_scope.

(** Two series of numbers of the same length, never more than [D] apart, and
    equal from position [k] on. *)
Definition apart_until (D : R) (k : nat) (l l' : list R) : Prop :=
  List.length l = List.length l' /\
  forall i x x', nth_error l i = Some x -> nth_error l' i = Some x' -> Rabs (x - x') <= D /\ ((k <= i)%nat -> x = x').

(** The series [a * x + b * y + d] of two series [x] and [y]. *)
Definition mix (a b d : R) (l l' : list R) : list R :=
  map (fun xy => a * fst xy + b * snd xy + d) (List.combine l l').

(** The weight a price keeps from one candle to the next: in the exponential
    average of [n] candles and in the smoothed one. *)
Definition ema_keep (n : nat) : R := 1 - 2 / (INR n + 1).
Definition smma_keep (n : nat) : R := 1 - 1 / INR n.

Definition ranges (cs : list (candle R)) : list R := map (fun c => c_high c - c_low c) cs.
