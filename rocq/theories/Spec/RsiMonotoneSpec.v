(** Vocabulary of C103: the same candles with one close raised. *)
From Coq Require Import List Reals.
From Flocq Require Import BinarySingleNaN.
From Verif Require Import Go.Float64 Model.Candle.
Import ListNotations.

(** [x <= y], unless one of them is not a number. *)
Definition not_above32 (x y : f32) : Prop :=
  is_nan x = false -> is_nan y = false -> is_finite x = true /\ is_finite y = true /\ (B2R x <= B2R y)%R.
(** The two series differ in the candle at index [k] only, and there the close
    of the second is at least that of the first. *)
Definition raised_at (k : nat) (cs cs' : list (candle f64)) : Prop :=
  exists pre c c' post, List.length pre = k /\ cs = pre ++ c :: post /\ cs' = pre ++ c' :: post /\
    f64_le (c_close c) (c_close c') = true.
Definition finite_closes (cs : list (candle f64)) : Prop := Forall (fun c => is_finite (c_close c) = true) cs.
