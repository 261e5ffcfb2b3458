(** Vocabulary of C125: prices that are whole multiples of a power of two. *)
From Coq Require Import List ZArith Reals.
From Flocq Require Import Core BinarySingleNaN.
From Verif Require Import Go.Float64 Model.Candle.
Import ListNotations.
Open Scope Z_scope.

(** The unit 2^e: not below the smallest float64, 2^53 of them not too large. *)
Definition tick (e : Z) : Prop := -1074 <= e <= 970.
(** [x] is [z] units. *)
Definition ticks (e : Z) (x : f64) (z : Z) : Prop := is_finite x = true /\ B2R x = (IZR z * bpow radix2 e)%R.
Definition in_ticks (e : Z) (cs : list (candle f64)) (zs : list Z) : Prop :=
  Forall2 (fun c z => ticks e (c_close c) z) cs zs.

Definition total (l : list Z) : Z := fold_right Z.add 0 l.
(** The sum of the sizes. *)
Definition weight (l : list Z) : Z := total (map Z.abs l).
(** All rises and all falls of a series. *)
Fixpoint rises (l : list Z) : Z :=
  match l with a :: ((b :: _) as t) => Z.max 0 (b - a) + rises t | _ => 0 end.
Fixpoint falls (l : list Z) : Z :=
  match l with a :: ((b :: _) as t) => Z.max 0 (a - b) + falls t | _ => 0 end.

(** The nearest float64, ties to even. *)
Definition nearest (r : R) : R := round radix2 (FLT_exp (-1074) 53) ZnearestE r.
