(** The float operations the library uses, as a record, so that one text of
    the model can be read over float64 (the code) and over the reals (the same
    formulas in exact arithmetic). *)
From Coq Require Import ZArith Reals Bool.
From Flocq Require Import Core.
From Verif Require Import Go.Outcome Go.Int64 Go.Float64 Go.Text.

Class GoFloat (F : Type) : Type := {
  fadd : F -> F -> F;
  fsub : F -> F -> F;
  fmul : F -> F -> F;
  fdiv : F -> F -> F;
  fabs : F -> F;                (* math.Abs *)
  flt : F -> F -> bool;         (* x < y *)
  fle : F -> F -> bool;         (* x <= y *)
  feq : F -> F -> bool;         (* x == y *)
  fofZ : Z -> F;                (* float64(i), and integer constants *)
  fconst : Z -> Z -> F;         (* decimal constant m * 10^e *)
  fround5 : F -> option F       (* strconv.ParseFloat(fmt.Sprintf("%.5f", x), 64); None = error *)
}.

Definition f64_round5 (x : f64) : option f64 :=
  match parse_float (sprintf_f 5 x) with
  | inl y => Some y
  | inr _ => None
  end.

#[global] Instance f64_num : GoFloat f64 := {|
  fadd := f64_add;
  fsub := f64_sub;
  fmul := f64_mul;
  fdiv := f64_div;
  fabs := f64_abs;
  flt := f64_lt;
  fle := f64_le;
  feq := f64_eq;
  fofZ := i2f;
  fconst := f64_const;
  fround5 := f64_round5
|}.

Definition radix10 : radix := Build_radix 10 eq_refl.

(** Exact arithmetic: every operation is the real one; [fround5] rounds to
    the nearest multiple of 10^-5 (ties to even). Division by zero has no
    meaning here: theorems over R guard against it. *)
#[global] Instance R_num : GoFloat R | 100 := {|
  fadd := Rplus;
  fsub := Rminus;
  fmul := Rmult;
  fdiv := Rdiv;
  fabs := Rabs;
  flt := Rlt_bool;
  fle := Rle_bool;
  feq := Req_bool;
  fofZ := IZR;
  fconst := fun m e => (IZR m * bpow radix10 e)%R;
  fround5 := fun x => Some (round radix10 (FIX_exp (-5)) ZnearestE x)
|}.
