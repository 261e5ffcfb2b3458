(** Property C81: raising closes never lowers an average; widening candles never
    lowers the volatility.  Model: Model/Indicators.v; vocabulary:
    Spec/MonotoneSpec.v. *)
From Coq Require Import Reals Lra Lia ZArith.
From Flocq Require Import Core BinarySingleNaN.
From Verif Require Import Go.Outcome Go.Int64 Go.Slice Go.Float64 Go.FloatReal Go.Num
  Model.Candle Model.Indicators Spec.AccuracySpec Spec.MonotoneSpec
  Proofs.Monotone Proofs.SmoothedMonotone Props.AccuracyProps.
Open Scope list_scope.
Open Scope R_scope.
Local Notation length := List.length.

(** MovingAverage *)
Theorem C81_moving_average : forall (cs cs' hid hid' : list (candle f64)) n, closes_rise cs cs' ->
  (0 < n <= length cs)%nat -> (Z.of_nat n <= 2 ^ 63)%Z ->
  exists xs xs',
    moving_average (GSlice cs hid) (Z.of_nat n) = Ret (xs, None) /\
    moving_average (GSlice cs' hid') (Z.of_nat n) = Ret (xs', None) /\ Forall2 not_above xs xs'.
Proof. exact ma_monotone. Qed.
(** ExponentialMovingAverage *)
Theorem C81_exponential : forall (cs cs' hid hid' : list (candle f64)) n, closes_rise cs cs' ->
  (0 < n <= length cs)%nat -> (Z.of_nat n <= 2 ^ 63)%Z ->
  exists xs xs',
    exponential_moving_average (GSlice cs hid) (Z.of_nat n) = Ret (xs, None) /\
    exponential_moving_average (GSlice cs' hid') (Z.of_nat n) = Ret (xs', None) /\ Forall2 not_above xs xs'.
Proof. exact ema_monotone. Qed.
(** SmoothedMovingAverage *)
Theorem C81_smoothed : forall (cs cs' hid hid' : list (candle f64)) n, closes_rise cs cs' ->
  (0 < n <= length cs)%nat -> (Z.of_nat n <= 2 ^ 53)%Z ->
  exists xs xs',
    smoothed_moving_average (GSlice cs hid) (Z.of_nat n) = Ret (xs, None) /\
    smoothed_moving_average (GSlice cs' hid') (Z.of_nat n) = Ret (xs', None) /\ Forall2 not_above xs xs'.
Proof. exact smma_monotone. Qed.
(** EWV *)
Theorem C81_volatility : forall (cs cs' : list (candle f64)) (beta : f64), ranges_widen cs cs' ->
  is_finite beta = true -> 0 <= real beta <= 1 -> not_above (ewv cs beta) (ewv cs' beta).
Proof. exact ewv_monotone. Qed.
(** SmoothedMovingAverage owes this to its values being quotients: its step
    ((prev*n - prev) + close)/n alone can fall when prev rises. *)
Theorem C81_single_step_refuted : exists prev prev' close : f64,
  f64_lt prev prev' = true /\
  f64_lt (f64_div (f64_add (f64_sub (f64_mul prev' (i2f 3)) prev') close) (i2f 3))
         (f64_div (f64_add (f64_sub (f64_mul prev (i2f 3)) prev) close) (i2f 3)) = true.
Proof. exists (i2f 6722121904690322), (i2f 6722121904690323), (i2f 0). split; vm_compute; reflexivity. Qed.

Definition closes_of (o : go (list f64 * option err)) : list Z :=
  match o with Ret (l, _) => map f2i l | Panic _ => [] end.
Example C81_example :
  closes_rise [cl 10; cl 20; cl 40; cl 80] [cl 10; cl 30; cl 40; cl 96] /\
  closes_of (moving_average (GSlice [cl 10; cl 20; cl 40; cl 80] []) 2) = [15; 30; 60]%Z /\
  closes_of (moving_average (GSlice [cl 10; cl 30; cl 40; cl 96] []) 2) = [20; 35; 68]%Z /\
  closes_of (smoothed_moving_average (GSlice [cl 10; cl 20; cl 40; cl 80] []) 2) = [15; 27; 53]%Z /\
  closes_of (smoothed_moving_average (GSlice [cl 10; cl 30; cl 40; cl 96] []) 2) = [20; 30; 63]%Z.
Proof.
  split; [repeat (apply Forall2_cons; [vm_compute; reflexivity|]); apply Forall2_nil|]. vm_compute. repeat split.
Qed.

Print Assumptions C81_moving_average.
Print Assumptions C81_exponential.
Print Assumptions C81_smoothed.
Print Assumptions C81_volatility.
Print Assumptions C81_single_step_refuted.
