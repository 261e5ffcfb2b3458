(** Order books of whole numbers: books whose prices and volumes float64
    represents without rounding, and the same book read as real numbers. *)
From Coq Require Import List Reals.
From Flocq Require Import Core BinarySingleNaN.
From Verif Require Import Go.Outcome Go.Float64 Model.OrderBook Spec.OrderBookSpec.
Open Scope Z_scope.

Definition exact_row (r : row f64) : row R := mkRow (B2R (price r)) (B2R (volume r)) (B2R (accum r)).
Definition exact_book (ob : book f64) : book R :=
  mkBook (b_time ob) (map exact_row (asks ob)) (map exact_row (bids ob)) (max_depth ob).

(** A finite number that is a whole number, zero or more. *)
Definition whole (x : f64) : Prop := is_finite x = true /\ exists z, 0 <= z /\ B2R x = IZR z.
(** Whole prices and volumes, the side worth and holding at most 2^53. *)
Definition whole_side (l : list (row f64)) : Prop :=
  Forall (fun r => whole (price r) /\ whole (volume r)) l /\
  (value (map exact_row l) <= IZR (2 ^ 53))%R /\ (total_volume (map exact_row l) <= IZR (2 ^ 53))%R.
Definition whole_book (ob : book f64) : Prop := whole_side (asks ob) /\ whole_side (bids ob).

(** What buying the crossing asks and selling into the crossing bids makes:
    a side that lies wholly inside the overlap counts as nothing. *)
Definition overlap_value (la lb : list (row R)) (a0 b0 : R) : R :=
  let over_asks := filter (fun r => Rle_bool (price r) b0) la in
  let over_bids := filter (fun r => Rle_bool a0 (price r)) lb in
  let cost := if existsb (fun r => Rlt_bool b0 (price r)) la then value over_asks else 0%R in
  let gain := if existsb (fun r => Rlt_bool (price r) a0) lb
              then proceeds (total_volume over_asks) (rev over_bids) else 0%R in
  Rabs (cost - gain).
