(** Go's [int] (64-bit) and [int64] arithmetic on [Z]. *)
From Coq Require Import ZArith Lia Bool.
From Verif Require Import Go.Outcome.
Open Scope Z_scope.

Definition int64_min : Z := - 2 ^ 63.
Definition int64_max : Z := 2 ^ 63 - 1.
Definition in_int64 (z : Z) : Prop := int64_min <= z <= int64_max.

(** Two's-complement wrap-around of the mathematical result. *)
Definition wrap64 (z : Z) : Z := (z + 2 ^ 63) mod 2 ^ 64 - 2 ^ 63.

Lemma wrap64_id z : in_int64 z -> wrap64 z = z.
Proof.
  unfold in_int64, int64_min, int64_max, wrap64; intros H.
  rewrite Z.mod_small; lia.
Qed.

Lemma wrap64_range z : in_int64 (wrap64 z).
Proof.
  unfold in_int64, int64_min, int64_max, wrap64.
  pose proof (Z.mod_pos_bound (z + 2 ^ 63) (2 ^ 64) ltac:(lia)); lia.
Qed.

(** [x / y] and [x % y] on integers: truncated, panic on a zero divisor.
    (The only overflowing quotient, [min / -1], wraps.) *)
Definition idiv (x y : Z) : go Z :=
  if y =? 0 then Panic PDivZero else Ret (wrap64 (Z.quot x y)).
Definition imod (x y : Z) : go Z :=
  if y =? 0 then Panic PDivZero else Ret (Z.rem x y).
