(** Property C89: changing the unit of the prices by a power of two changes the
    averages and the volatility by exactly that power, and the RSI not at all.
    Model: Model/Indicators.v; vocabulary: Spec/ScaleSpec.v. *)
From Coq Require Import Reals Lra Lia ZArith.
From Flocq Require Import Core BinarySingleNaN.
From Verif Require Import Go.Outcome Go.Int64 Go.Slice Go.Float64 Go.FloatOrder Go.FloatReal Go.FloatError Go.FloatScale Go.Num
  Model.Candle Model.Indicators Spec.IndicatorSpec Spec.AccuracySpec Spec.ScaleSpec
  Proofs.MovingAverage Proofs.Scaling Props.AccuracyProps.
Open Scope list_scope.
Open Scope R_scope.
Local Notation length := List.length.

(** MovingAverage *)
Theorem C89_moving_average : forall k (cs cs' hid hid' : list (candle f64)) n,
  closes_scaled k cs cs' -> closes_at_least (-900) cs -> closes_at_least (-900) cs' ->
  (0 < n <= length cs)%nat -> (Z.of_nat n <= 2 ^ 63)%Z ->
  exists xs xs',
    moving_average (GSlice cs hid) (Z.of_nat n) = Ret (xs, None) /\
    moving_average (GSlice cs' hid') (Z.of_nat n) = Ret (xs', None) /\ Forall2 (scales k) xs xs'.
Proof. exact (fun k cs cs' hid hid' n H A A' => ma_scaling k cs cs' hid hid' n (conj H (conj A A'))). Qed.
(** ExponentialMovingAverage *)
Theorem C89_exponential : forall k (cs cs' hid hid' : list (candle f64)) n,
  closes_scaled k cs cs' -> closes_at_least (-900) cs -> closes_at_least (-900) cs' ->
  (0 < n <= length cs)%nat -> (Z.of_nat n <= 2 ^ 63)%Z ->
  exists xs xs',
    exponential_moving_average (GSlice cs hid) (Z.of_nat n) = Ret (xs, None) /\
    exponential_moving_average (GSlice cs' hid') (Z.of_nat n) = Ret (xs', None) /\ Forall2 (scales k) xs xs'.
Proof. exact (fun k cs cs' hid hid' n H A A' => ema_scaling k cs cs' hid hid' n (conj H (conj A A'))). Qed.
(** SmoothedMovingAverage *)
Theorem C89_smoothed : forall k (cs cs' hid hid' : list (candle f64)) n,
  closes_scaled k cs cs' -> closes_at_least (-900) cs -> closes_at_least (-900) cs' ->
  (0 < n <= length cs)%nat -> (Z.of_nat n <= 2 ^ 63)%Z ->
  exists xs xs',
    smoothed_moving_average (GSlice cs hid) (Z.of_nat n) = Ret (xs, None) /\
    smoothed_moving_average (GSlice cs' hid') (Z.of_nat n) = Ret (xs', None) /\ Forall2 (scales k) xs xs'.
Proof. exact (fun k cs cs' hid hid' n H A A' => smma_scaling k cs cs' hid hid' n (conj H (conj A A'))). Qed.
(** EWV *)
Theorem C89_volatility : forall k (cs cs' : list (candle f64)) (beta : f64),
  ranges_scaled k cs cs' -> ranges_at_least (-900) cs -> ranges_at_least (-900) cs' ->
  is_finite beta = true -> 0 <= real beta <= 1 -> real beta = 0 \/ at_least (-60) beta ->
  scales k (ewv cs beta) (ewv cs' beta).
Proof. exact ewv_scaling. Qed.
(** RSI: the very same result, for every period, panics included. *)
Theorem C89_rsi : forall k (v v' spare spare' : list (candle f64)) period,
  closes_scaled k (v ++ spare) (v' ++ spare') -> length v = length v' ->
  closes_at_most 1000 (v ++ spare) -> closes_at_most 1000 (v' ++ spare') -> (Z.of_nat (length (v ++ spare)) <= 2 ^ 20)%Z ->
  rsi f64_to_f32 (GSlice v spare) period = rsi f64_to_f32 (GSlice v' spare') period.
Proof. exact rsi_scaling. Qed.

(** Ten is not a power of two: quoting the prices in tenths moves the average. *)
Theorem C89_tenths_refuted : exists (a b c : Z) (x x' : f64),
  moving_average (GSlice [cl a; cl b; cl c] []) 3 = Ret ([x], None) /\
  moving_average (GSlice [cl (10 * a); cl (10 * b); cl (10 * c)] []) 3 = Ret ([x'], None) /\
  f64_eq x' (f64_mul (i2f 10) x) = false.
Proof.
  exists 3%Z, 4%Z, 1%Z. eexists. eexists.
  pose proof (@moving_average_spec f64 f64_num [cl 3; cl 4; cl 1] [] 3 ltac:(cbn [List.length]; lia)) as Sp.
  pose proof (@moving_average_spec f64 f64_num [cl (10 * 3); cl (10 * 4); cl (10 * 1)] [] 3 ltac:(cbn [List.length]; lia)) as Sp'.
  split; [exact Sp|]. split; [exact Sp'|]. vm_compute. reflexivity.
Qed.

(** Below the normal range halves get lost: 2^-1074 and 2^-1073. *)
Definition tiny : f64 := @B754_finite 53 1024 false 1 (-1074) eq_refl.
Definition tiny2 : f64 := @B754_finite 53 1024 false 2 (-1074) eq_refl.
Definition close_at (x : f64) : candle f64 := mkCandle 0 (i2f 0) (i2f 0) (i2f 0) x (i2f 0).
Theorem C89_tiny_closes_refuted : exists (cs cs' : list (candle f64)) x x', closes_scaled 1 cs cs' /\
  moving_average (GSlice cs []) 2 = Ret ([x], None) /\ moving_average (GSlice cs' []) 2 = Ret ([x'], None) /\
  ~ scales 1 x x'.
Proof.
  exists [close_at tiny; cl 0], [close_at tiny2; cl 0]. eexists. eexists.
  pose proof (@moving_average_spec f64 f64_num [close_at tiny; cl 0] [] 2 ltac:(cbn [List.length]; lia)) as Sp.
  pose proof (@moving_average_spec f64 f64_num [close_at tiny2; cl 0] [] 2 ltac:(cbn [List.length]; lia)) as Sp'.
  split; [|split; [exact Sp|split; [exact Sp'|]]]. all: clear Sp Sp'.
  - apply Forall2_cons; [|apply Forall2_cons; [|apply Forall2_nil]].
    + split; [reflexivity|]. split; [reflexivity|]. unfold real, close_at, tiny, tiny2. cbn [c_close]. unfold B2R, F2R. cbn [Fnum Fexp cond_Zopp].
      change (bpow radix2 1) with 2. lra.
    + cbn [cl c_close]. split; [reflexivity|]. split; [reflexivity|]. unfold real. rewrite i2f_B2R by (unfold exact_int; lia). lra.
  - set (x := mean_of (window 0 2 (closes [close_at tiny; cl 0]))). set (x' := mean_of (window 0 2 (closes [close_at tiny2; cl 0]))).
    assert (f64_eq x (i2f 0) = true /\ f64_eq x' (i2f 0) = false /\ is_finite x = true /\ is_finite x' = true) as (E & E' & F & F')
      by (vm_compute; repeat split).
    clearbody x x'. intros S. specialize (S F F'). unfold real in S. rewrite f64_eq_xr in E, E' by (now apply finite_not_nan).
    rewrite (i2f_exact_xr 0), xr_finite in E, E' by (assumption || (unfold exact_int; lia)).
    destruct (Req_bool_spec (BinarySingleNaN.B2R x) 0) as [Z|Z]; [|discriminate]. rewrite Z, Rmult_0_l in S. rewrite S in E'.
    rewrite Req_bool_true in E' by reflexivity. discriminate.
Qed.

(** Closes 3, 5, 7, 6 and the same in quarters. *)
Lemma cl_scaled k z z' : (Z.abs z <= 2 ^ 53)%Z -> (Z.abs z' <= 2 ^ 53)%Z -> IZR z' = IZR z * bpow radix2 k ->
  times_two_to k (c_close (cl z)) (c_close (cl z')).
Proof.
  intros H H' E. assert (exact_int z) as X by (unfold exact_int; lia). assert (exact_int z') as X' by (unfold exact_int; lia).
  cbn [cl c_close]. repeat split; [now apply i2f_finite|now apply i2f_finite|]. unfold real. now rewrite !i2f_B2R.
Qed.
Lemma cl_at_least z : (1 <= z <= 2 ^ 53)%Z -> at_least (-900) (c_close (cl z)).
Proof.
  intros H. unfold at_least, real. cbn [cl c_close]. rewrite i2f_B2R by (unfold exact_int; lia).
  apply Rle_trans with 1; [change 1 with (bpow radix2 0); apply bpow_le; lia|apply IZR_le; lia].
Qed.
Example C89_example : closes_scaled 2 [cl 3; cl 5; cl 7; cl 6] [cl 12; cl 20; cl 28; cl 24] /\
  closes_at_least (-900) [cl 3; cl 5; cl 7; cl 6] /\ closes_at_least (-900) [cl 12; cl 20; cl 28; cl 24] /\
  exists x y z x' y' z', moving_average (GSlice [cl 3; cl 5; cl 7; cl 6] []) 2 = Ret ([x; y; z], None) /\
    moving_average (GSlice [cl 12; cl 20; cl 28; cl 24] []) 2 = Ret ([x'; y'; z'], None) /\
    map f2i [x; y; z] = [4; 6; 6]%Z /\ map f2i [x'; y'; z'] = [16; 24; 26]%Z.
Proof.
  split; [|split; [|split]].
  - repeat (apply Forall2_cons; [apply cl_scaled; [lia|lia|cbn; lra]|]). apply Forall2_nil.
  - repeat (apply Forall_cons; [apply cl_at_least; lia|]). apply Forall_nil.
  - repeat (apply Forall_cons; [apply cl_at_least; lia|]). apply Forall_nil.
  - do 6 eexists.
    pose proof (@moving_average_spec f64 f64_num [cl 3; cl 5; cl 7; cl 6] [] 2 ltac:(cbn [List.length]; lia)) as Sp.
    pose proof (@moving_average_spec f64 f64_num [cl 12; cl 20; cl 28; cl 24] [] 2 ltac:(cbn [List.length]; lia)) as Sp'.
    split; [exact Sp|]. split; [exact Sp'|]. split; vm_compute; reflexivity.
Qed.

Lemma cl_at_most z : (Z.abs z <= 2 ^ 53)%Z -> Rabs (real (c_close (cl z))) <= bpow radix2 1000.
Proof.
  intros H. unfold real. cbn [cl c_close]. rewrite i2f_B2R by (unfold exact_int; lia). rewrite <- abs_IZR.
  apply Rle_trans with (IZR (2 ^ 53)); [now apply IZR_le|]. change (IZR (2 ^ 53)) with (bpow radix2 53). apply bpow_le. lia.
Qed.
Definition zigzag (u : Z) : list (candle f64) :=
  [cl u; cl (3 * u); cl (2 * u); cl (7 * u); cl u; cl (4 * u); cl (4 * u); cl (9 * u); cl (5 * u); cl (6 * u); cl (2 * u); cl (8 * u); cl u; cl (3 * u)].
Example C89_rsi_example : closes_scaled 3 (zigzag 1 ++ [cl 5]) (zigzag 8 ++ [cl 40]) /\
  closes_at_most 1000 (zigzag 1 ++ [cl 5]) /\ closes_at_most 1000 (zigzag 8 ++ [cl 40]) /\
  rsi f64_to_f32 (GSlice (zigzag 1) [cl 5]) 14 = Ret ([f64_to_f32 (rsi_value (zigzag 1 ++ [cl 5]))], None) /\
  f2i (rsi_value (zigzag 1 ++ [cl 5])) = 54%Z.
Proof.
  unfold zigzag. cbn [app]. split; [|split; [|split; [|split]]].
  - repeat (apply Forall2_cons; [apply cl_scaled; [lia|lia|cbn; lra]|]). apply Forall2_nil.
  - repeat (apply Forall_cons; [apply cl_at_most; lia|]). apply Forall_nil.
  - repeat (apply Forall_cons; [apply cl_at_most; lia|]). apply Forall_nil.
  - reflexivity.
  - vm_compute. reflexivity.
Qed.

Print Assumptions C89_moving_average.
Print Assumptions C89_exponential.
Print Assumptions C89_smoothed.
Print Assumptions C89_volatility.
Print Assumptions C89_rsi.
Print Assumptions C89_tenths_refuted.
Print Assumptions C89_tiny_closes_refuted.
