(** Vocabulary of C89: the same series in a unit 2^k times as small. *)
From Coq Require Import List Reals ZArith.
From Flocq Require Import Core BinarySingleNaN.
From Verif Require Import Go.Float64 Model.Candle Spec.AccuracySpec.
Open Scope R_scope.

(** Both numbers, the second exactly 2^k times the first. *)
Definition times_two_to (k : Z) (x x' : f64) : Prop :=
  is_finite x = true /\ is_finite x' = true /\ real x' = real x * bpow radix2 k.
Definition at_least (e : Z) (x : f64) : Prop := bpow radix2 e <= real x.

(** Closes scaled by 2^k; the other prices are free. *)
Definition closes_scaled (k : Z) (cs cs' : list (candle f64)) : Prop :=
  Forall2 (fun c c' => times_two_to k (c_close c) (c_close c')) cs cs'.
Definition closes_at_least (e : Z) (cs : list (candle f64)) : Prop :=
  Forall (fun c => at_least e (c_close c)) cs.
Definition closes_at_most (e : Z) (cs : list (candle f64)) : Prop :=
  Forall (fun c => Rabs (real (c_close c)) <= bpow radix2 e) cs.
(** Highs and lows scaled by 2^k. *)
Definition ranges_scaled (k : Z) (cs cs' : list (candle f64)) : Prop :=
  Forall2 (fun c c' => times_two_to k (c_high c) (c_high c') /\ times_two_to k (c_low c) (c_low c')) cs cs'.
Definition ranges_at_least (e : Z) (cs : list (candle f64)) : Prop :=
  Forall (fun c => bpow radix2 e <= real (c_high c) - real (c_low c)) cs.

(** The second result is exactly 2^k times the first, unless one overflowed. *)
Definition scales (k : Z) (x x' : f64) : Prop :=
  is_finite x = true -> is_finite x' = true -> real x' = real x * bpow radix2 k.
