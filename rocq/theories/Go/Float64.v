(** Go's float64 (IEEE-754 binary64, round to nearest even) and float32, as
    Flocq binary floats with a single NaN. *)
From Coq Require Import ZArith Lia Bool Reals.
From Flocq Require Import Core BinarySingleNaN.
From Verif Require Import Go.Outcome Go.Int64.
Open Scope Z_scope.

Definition f64 : Type := binary_float 53 1024.
Definition f32 : Type := binary_float 24 128.

#[global] Instance prec53 : Prec_gt_0 53 := eq_refl.
#[global] Instance emax1024 : Prec_lt_emax 53 1024 := eq_refl.
#[global] Instance prec24 : Prec_gt_0 24 := eq_refl.
#[global] Instance emax128 : Prec_lt_emax 24 128 := eq_refl.

Definition f64_zero : f64 := B754_zero false.
Definition f64_inf (neg : bool) : f64 := B754_infinity neg.
Definition f64_nan : f64 := B754_nan.
Definition f64_is_nan (x : f64) : bool := is_nan x.
Definition f64_finite (x : f64) : bool := is_finite x.

(** x + y, x - y, x * y, x / y (Go never fuses on amd64). *)
Definition f64_add (x y : f64) : f64 := Bplus mode_NE x y.
Definition f64_sub (x y : f64) : f64 := Bminus mode_NE x y.
Definition f64_mul (x y : f64) : f64 := Bmult mode_NE x y.
Definition f64_div (x y : f64) : f64 := Bdiv mode_NE x y.
(** math.Abs *)
Definition f64_abs (x : f64) : f64 := Babs x.
Definition f64_neg (x : f64) : f64 := Bopp x.

(** x < y, x <= y, x == y: false as soon as an operand is NaN; -0 == +0. *)
Definition f64_lt (x y : f64) : bool := Bltb x y.
Definition f64_le (x y : f64) : bool := Bleb x y.
Definition f64_eq (x y : f64) : bool := Beqb x y.

(** float64(i) for an integer i: nearest even. *)
Definition i2f (z : Z) : f64 := binary_normalize 53 1024 prec53 emax1024 mode_NE z 0 false.

(** int(x) for a float64 x: truncation; out-of-range and NaN give the amd64
    "integer indefinite" value -2^63 (the Go spec leaves it
    implementation-defined). *)
Definition f2i (x : f64) : Z :=
  if is_finite x then
    let t := Btrunc x in
    if (int64_min <=? t) && (t <=? int64_max) then t else int64_min
  else int64_min.

(** math.Min (src/math/dim.go, func min). *)
Definition f64_min (x y : f64) : f64 :=
  match x, y with
  | B754_infinity true, _ | _, B754_infinity true => B754_infinity true
  | B754_nan, _ | _, B754_nan => B754_nan
  | B754_zero sx, B754_zero sy => if sx then x else y
  | _, _ => if f64_lt x y then x else y
  end.

(** math.Max (src/math/dim.go, func max). *)
Definition f64_max (x y : f64) : f64 :=
  match x, y with
  | B754_infinity false, _ | _, B754_infinity false => B754_infinity false
  | B754_nan, _ | _, B754_nan => B754_nan
  | B754_zero sx, B754_zero sy => if sx then y else x
  | _, _ => if f64_lt y x then x else y
  end.

(** float32(x). *)
Definition f64_to_f32 (x : f64) : f32 :=
  match x with
  | B754_zero s => B754_zero s
  | B754_infinity s => B754_infinity s
  | B754_nan => B754_nan
  | B754_finite s m e _ =>
      binary_normalize 24 128 prec24 emax128 mode_NE (cond_Zopp s (Zpos m)) e s
  end.

(** The float64 nearest (ties to even) to the rational [(-1)^s * num / den]. *)
Definition f64_of_ratio (s : bool) (num den : positive) : f64 :=
  SF2B _ (proj1 (Bdiv_correct_aux 53 1024 prec53 emax1024 mode_NE s num 0 false den 0)).

(** The float64 nearest to [(-1)^s * d * 10^e]. *)
Definition f64_of_dec (s : bool) (d : N) (e : Z) : f64 :=
  match d with
  | N0 => B754_zero s
  | Npos p =>
      match e with
      | Z0 => f64_of_ratio s p 1
      | Zpos q => f64_of_ratio s (p * Pos.pow 10 q) 1
      | Zneg q => f64_of_ratio s p (Pos.pow 10 q)
      end
  end.

(** A decimal floating-point constant [m * 10^e] of the source text. *)
Definition f64_const (m e : Z) : f64 :=
  f64_of_dec (m <? 0) (Z.abs_N m) e.

(** math.MaxFloat64 *)
Definition f64_maxfloat : f64 := Bmax_float.
