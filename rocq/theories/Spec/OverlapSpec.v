(** Vocabulary of C98: books of ordinary numbers. *)
From Coq Require Import List Reals.
From Flocq Require Import Core BinarySingleNaN.
From Verif Require Import Go.Float64 Model.OrderBook Spec.OrderBookSpec Spec.WholeSpec Spec.AccuracySpec.
Open Scope R_scope.

(** Finite numbers, none negative, no price above [P], together at most [V]. *)
Definition sound_side (P V : R) (l : list (row f64)) : Prop :=
  Forall (fun r => (is_finite (price r) = true /\ 0 <= real (price r) <= P) /\ is_finite (volume r) = true /\ 0 <= real (volume r)) l /\
  total_volume (map exact_row l) <= V.
Definition sound_book (P V : R) (ob : book f64) : Prop := sound_side P V (asks ob) /\ sound_side P V (bids ob).
(** Between 2^-400 and 2^400. *)
Definition medium (x : R) : Prop := bpow radix2 (-400) <= x <= bpow radix2 400.
(** The rows of two books, at most 2^40. *)
Definition rows_of (A B : book f64) : nat :=
  length (asks A) + length (bids A) + length (asks B) + length (bids B).
Definition few_rows (A B : book f64) : Prop := INR (rows_of A B) <= bpow radix2 40.
