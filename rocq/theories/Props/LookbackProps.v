(** Property C106: windowed indicators need only the candles of their windows,
    the recursive ones need them all (indicators/ma.go, rsi.go, ewv.go,
    williams_fractals.go). *)
From Coq Require Import Lia.
From Flocq Require Import BinarySingleNaN.
From Verif Require Import Go.Outcome Go.Int64 Go.Slice Go.Float64 Go.Num
  Model.Candle Model.Indicators Spec.IndicatorSpec Proofs.Lookback Props.IndicatorProps Props.FractalProps.
Open Scope list_scope.
Open Scope Z_scope.
Local Notation length := List.length.

(** Older candles only add values in front. *)
Theorem C106_moving_average : forall (old new spare spare' : list (candle f64)) n, (0 < n <= length new)%nat ->
  exists xs ys, moving_average (GSlice (old ++ new) spare) (Z.of_nat n) = Ret (xs ++ ys, None) /\
    moving_average (GSlice new spare') (Z.of_nat n) = Ret (ys, None) /\ length xs = length old.
Proof. exact ma_lookback. Qed.
Theorem C106_rsi : forall (old new spare : list (candle f64)) period,
  14 <= zlen new -> spare <> [] -> 0 <= period <= zlen new ->
  exists xs ys, rsi f64_to_f32 (GSlice (old ++ new) spare) period = Ret (xs ++ ys, None) /\
    rsi f64_to_f32 (GSlice new spare) period = Ret (ys, None) /\ length xs = length old.
Proof. exact rsi_lookback. Qed.
(** Every report for a candle with two candles of [new] before it is the same. *)
Theorem C106_fractals : forall old new, exists xs ys,
  william_fractals (old ++ new) = Ret (xs ++ ys) /\ william_fractals new = Ret ys /\
  forall fr, In fr xs -> exists i ft, (i < length old + 2)%nat /\ reports (old ++ new) (i, ft) fr.
Proof. exact wf_lookback. Qed.

(** Work in batches: keep the last period-1 candles for the next one. *)
Theorem C106_moving_average_batches : forall (old keep new s1 s2 s3 : list (candle f64)) n,
  (0 < n)%nat -> (length keep = n - 1)%nat -> old <> [] -> new <> [] ->
  exists xs ys, moving_average (GSlice (old ++ keep ++ new) s1) (Z.of_nat n) = Ret (xs ++ ys, None) /\
    moving_average (GSlice (old ++ keep) s2) (Z.of_nat n) = Ret (xs, None) /\
    moving_average (GSlice (keep ++ new) s3) (Z.of_nat n) = Ret (ys, None).
Proof. exact ma_batches. Qed.
Theorem C106_rsi_batches : forall (old keep new spare : list (candle f64)) period,
  14 <= zlen (old ++ keep) -> 14 <= zlen (keep ++ new) -> spare <> [] -> new <> [] -> old <> [] ->
  0 < period -> zlen keep = period - 1 ->
  exists xs ys, rsi f64_to_f32 (GSlice (old ++ keep ++ new) spare) period = Ret (xs ++ ys, None) /\
    rsi f64_to_f32 (GSlice (old ++ keep) (new ++ spare)) period = Ret (xs, None) /\
    rsi f64_to_f32 (GSlice (keep ++ new) spare) period = Ret (ys, None).
Proof. exact rsi_batches. Qed.

(** For the recursive indicators the newest value depends on the oldest candle. *)
Definition newest (o : go (list f64 * option err)) : option f64 :=
  match o with Ret (l, None) => nth_error l (length l - 1) | _ => None end.
Definition newest_lower (a b : option f64) : bool :=
  match a, b with Some x, Some y => f64_lt x y | _, _ => false end.
Lemma newest_lower_ok a b : newest_lower a b = true -> exists x y, a = Some x /\ b = Some y /\ f64_lt x y = true.
Proof. destruct a as [x|], b as [y|]; try discriminate. eauto. Qed.
Theorem C106_exponential_refuted : exists old new n x y, 0 < n <= zlen new /\
  newest (exponential_moving_average (GSlice new []) n) = Some x /\
  newest (exponential_moving_average (GSlice (old ++ new) []) n) = Some y /\ f64_lt x y = true.
Proof.
  exists [at_close 100], (map at_close [3; 1; 2; 4; 6]), 2.
  destruct (newest_lower_ok (newest (exponential_moving_average (GSlice (map at_close [3; 1; 2; 4; 6]) []) 2))
    (newest (exponential_moving_average (GSlice ([at_close 100] ++ map at_close [3; 1; 2; 4; 6]) []) 2))) as (x & y & H); [vm_compute; reflexivity|].
  exists x, y. split; [cbn; lia|exact H].
Qed.
Theorem C106_smoothed_refuted : exists old new n x y, 0 < n <= zlen new /\
  newest (smoothed_moving_average (GSlice new []) n) = Some x /\
  newest (smoothed_moving_average (GSlice (old ++ new) []) n) = Some y /\ f64_lt x y = true.
Proof.
  exists [at_close 100], (map at_close [3; 1; 2; 4; 6]), 2.
  destruct (newest_lower_ok (newest (smoothed_moving_average (GSlice (map at_close [3; 1; 2; 4; 6]) []) 2))
    (newest (smoothed_moving_average (GSlice ([at_close 100] ++ map at_close [3; 1; 2; 4; 6]) []) 2))) as (x & y & H); [vm_compute; reflexivity|].
  exists x, y. split; [cbn; lia|exact H].
Qed.
(** The volatility continues from its last value: a value for the older candles
    is all that is needed of them. *)
Theorem C106_volatility_continues : forall (old new : list (candle f64)) beta,
  ewv (old ++ new) beta =
  fold_left (fun v c => f64_add (f64_mul beta v) (f64_mul (f64_sub (i2f 1) beta) (f64_sub (c_high c) (c_low c)))) new (ewv old beta).
Proof. intros. unfold ewv. apply fold_left_app. Qed.

Definition averages (l : list Z) (n : Z) : option (list Z) :=
  match moving_average (GSlice (map at_close l) []) n with Ret (x, None) => Some (map f2i x) | _ => None end.
Example C106_example :
  averages [2; 4; 6; 8; 10; 12; 14] 3 = Some [4; 6; 8; 10; 12] /\
  averages [2; 4; 6; 8] 3 = Some [4; 6] /\ averages [6; 8; 10; 12; 14] 3 = Some [8; 10; 12].
Proof. repeat split; vm_compute; reflexivity. Qed.
Example C106_example_fractals :
  let old := bars [(1, 5); (2, 6)] in let new := skipn 2 (bars [(1, 5); (2, 6); (3, 9); (0, 8); (1, 7); (2, 9); (3, 12); (4, 7); (5, 6)]) in
  seen_fractals (william_fractals (old ++ new)) = Some [(2, 9, FractalUp); (3, 0, FractalDown); (6, 12, FractalUp)] /\
  seen_fractals (william_fractals new) = Some [(6, 12, FractalUp)].
Proof. cbv zeta. split; vm_compute; reflexivity. Qed.
Example C106_example_rsi :
  let l := map at_close [3; 1; 4; 1; 5; 9; 2; 6; 5; 3; 5; 8; 9; 7; 9; 3; 2; 3] in
  let shown p s := match rsi f64_to_f32 (GSlice p s) 14 with Ret (x, None) => Some (map Btrunc x) | _ => None end in
  shown (firstn 17 l) (skipn 17 l) = Some [57; 52; 47; 52] /\
  shown (firstn 15 l) (skipn 15 l) = Some [57; 52] /\ shown (skipn 2 (firstn 17 l)) (skipn 17 l) = Some [47; 52].
Proof. cbv zeta. repeat split; vm_compute; reflexivity. Qed.

Print Assumptions C106_moving_average.
Print Assumptions C106_rsi.
Print Assumptions C106_fractals.
Print Assumptions C106_moving_average_batches.
Print Assumptions C106_rsi_batches.
Print Assumptions C106_exponential_refuted.
Print Assumptions C106_smoothed_refuted.
Print Assumptions C106_volatility_continues.
