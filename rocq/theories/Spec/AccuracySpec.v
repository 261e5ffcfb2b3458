(** Vocabulary of the accuracy properties (C74-C75): the same data in exact
    arithmetic, and "this close". *)
From Coq Require Import Reals.
From Flocq Require Import Core BinarySingleNaN.
From Verif Require Import Go.Outcome Go.Float64 Go.Num Model.Candle.
Open Scope list_scope.
Open Scope R_scope.

Definition real (x : f64) : R := B2R x.
(** The candle with every machine number replaced by its exact value. *)
Definition exact_candle (c : candle f64) : candle R :=
  mkCandle (c_time c) (real (c_open c)) (real (c_high c)) (real (c_low c)) (real (c_close c)) (real (c_volume c)).

(** Finite and of magnitude at most [M]. *)
Definition within_mag (M : R) (x : f64) : Prop := is_finite x = true /\ Rabs (real x) <= M.
(** A scale for the data, far from overflow and from the subnormal numbers. *)
Definition scale (M : R) : Prop := bpow radix2 (-900) <= M <= bpow radix2 900.
(** At most 2^40 elements. *)
Definition few {A} (l : list A) : Prop := INR (List.length l) <= bpow radix2 40.

(** A finite machine number within [e] of the exact number [y]. *)
Definition approx (e : R) (x : f64) (y : R) : Prop := is_finite x = true /\ Rabs (real x - y) <= e.

(** The gap between 1 and the next float64. *)
Definition eps : R := bpow radix2 (-52).
(** Exact total, and total of magnitudes, of machine numbers. *)
Definition total (l : list f64) : R := fold_right Rplus 0 (map real l).
Definition total_mag (l : list f64) : R := fold_right (fun r a => Rabs r + a) 0 (map real l).
(** The machine number is exactly the integer [z]. *)
Definition is_integer (x : f64) (z : Z) : Prop := is_finite x = true /\ real x = IZR z.
Definition Zsum (l : list Z) : Z := fold_right Z.add 0%Z l.
Definition Zmag (l : list Z) : Z := fold_right (fun z a => Z.abs z + a)%Z 0%Z l.
