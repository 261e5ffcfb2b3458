(** Property C80: accuracy of indicators/rsi.go.
    Model: Model/Indicators.v; vocabulary: Spec/RsiSpec.v. *)
From Coq Require Import Reals Lra Lia ZArith.
From Flocq Require Import Core BinarySingleNaN.
From Verif Require Import Go.Outcome Go.Int64 Go.Slice Go.Float64 Go.FloatReal Go.FloatError Go.Num
  Model.Candle Model.Indicators Spec.IndicatorSpec Spec.AccuracySpec Spec.RsiSpec Spec.SymmetrySpec
  Proofs.RSI Proofs.RSIError Proofs.Accuracy Props.AccuracyProps.
Open Scope list_scope.
Open Scope R_scope.
Local Notation length := List.length.

(** Some close of the window differs from the one before. *)
Definition moving (w : list (candle f64)) : Prop := 0 < gains (real_closes w) + losses (real_closes w).
(** The float32 [r] is finite and within [e] of [y]. *)
Definition approx32 (e : R) (r : f32) (y : R) : Prop := is_finite r = true /\ Rabs (B2R r - y) <= e.
Definition rsi_error (w : list (candle f64)) : R := 0.000007 + 100 * (3 * INR (length w) + 4) * eps.

(** calculateRSI is within 7e-6 + 100 (3 n + 4) 2^-52 of the share of rises in
    all moves. *)
Theorem C80_window_accuracy : forall w M, scale M -> few w -> Forall (fun c => within_mag M (c_close c)) w -> moving w ->
  approx32 (rsi_error w) (f64_to_f32 (rsi_value w)) (strength (real_closes w)).
Proof.
  intros w M HM Hf Hc Hm. destruct (rsi_near w M HM Hf Hc Hm) as [F E].
  assert (Forall (fun c => is_finite (c_close c) = true) w) as Fc by (eapply Forall_impl; [|exact Hc]; intros c K; apply K).
  unfold rsi_error. rewrite eps_uro.
  replace (100 * (3 * INR (length w) + 4) * (2 * uro)) with (100 * (6 * INR (length w) + 8) * uro) by ring.
  apply to_f32_near; [exact F| |exact E].
  rewrite rsi_value_moves in F |- *. destruct (moves_nn w Fc) as [Nu Nd].
  destruct (nn_div _ _ Nu Nd) as [[K _]|[K _]]; [|now apply rsi_of_nn].
  apply rsi_of_nan in K. destruct (rsi_of_rs _); discriminate.
Qed.
(** RSI: one value per window of period + 1 candles. *)
Theorem C80_rsi_accuracy : forall v spare period out M, scale M -> few (v ++ spare) ->
  Forall (fun c => within_mag M (c_close c)) (v ++ spare) ->
  (1 <= period <= zlen v)%Z -> rsi f64_to_f32 (GSlice v spare) period = Ret (out, None) ->
  exists ws, List.length ws = Z.to_nat (zlen v + 1 - period) /\
    (forall j w, nth_error ws j = Some w -> w = window j (Z.to_nat (period + 1)) (v ++ spare)) /\
    Forall2 (fun r w => moving w -> approx32 (rsi_error w) r (strength (real_closes w))) out ws.
Proof.
  intros v spare period out M HM Hf Hc Hp E.
  destruct (Z.lt_ge_cases (zlen v) 14) as [S|S].
  { unfold rsi in E. cbn [is_nil vis] in E. rewrite (proj2 (Z.ltb_lt _ _) S) in E. discriminate. }
  destruct (rsi_cases f64_to_f32 v spare period S) as (C1 & C2 & C3).
  assert (spare <> []) as Hs.
  { intros ->. rewrite C3 in E by (right; right; split; [lia|reflexivity]). discriminate. }
  rewrite (C2 ltac:(lia) Hs) in E. injection E as <-. clear C1 C2 C3.
  set (n := Z.to_nat (period + 1)). set (k := Z.to_nat (zlen v + 1 - period)).
  exists (map (fun j => window j n (v ++ spare)) (seq 0 k)). split; [now rewrite map_length, seq_length|]. split.
  - intros j w Hj. assert (j < k)%nat as L.
    { assert (nth_error (map (fun j => window j n (v ++ spare)) (seq 0 k)) j <> None) as K by congruence.
      apply nth_error_Some in K. now rewrite map_length, seq_length in K. }
    rewrite nth_error_map, (nth_error_nth' _ 0%nat) in Hj by (now rewrite seq_length).
    rewrite seq_nth in Hj by assumption. injection Hj as <-. reflexivity.
  - induction (seq 0 k) as [|j l IH]; cbn [map]; constructor; [|exact IH]. intros Hm.
    apply (C80_window_accuracy _ M); [exact HM| | |exact Hm].
    + unfold few in *. eapply Rle_trans; [|exact Hf]. apply le_INR. unfold window. rewrite firstn_length, skipn_length. lia.
    + unfold window. apply Forall_firstn, Forall_skipn, Hc.
Qed.

(** Upside down: RSI turns into 100 - RSI, up to the error. *)
Lemma gains_opp l : gains (map Ropp l) = losses l /\ losses (map Ropp l) = gains l.
Proof.
  induction l as [|a [|b l] IH]; try (split; reflexivity). destruct IH as [I1 I2].
  change (map Ropp (a :: b :: l)) with (- a :: - b :: map Ropp l). rewrite !gains_cons, !losses_cons.
  change (- b :: map Ropp l) with (map Ropp (b :: l)). rewrite I1, I2.
  replace (- b - - a) with (a - b) by ring. replace (- a - - b) with (b - a) by ring. split; reflexivity.
Qed.
Lemma flip_closes w : real_closes (map flip_candle w) = map Ropp (real_closes w).
Proof.
  unfold real_closes. rewrite !map_map. apply map_ext. intros c. cbn [flip_candle c_close]. unfold f64_neg. apply B2R_Bopp.
Qed.
Theorem C80_upside_down : forall w M, scale M -> few w -> Forall (fun c => within_mag M (c_close c)) w -> moving w ->
  approx32 (2 * rsi_error w) (f64_to_f32 (rsi_value (map flip_candle w))) (100 - B2R (f64_to_f32 (rsi_value w))).
Proof.
  intros w M HM Hf Hc Hm. destruct (C80_window_accuracy w M HM Hf Hc Hm) as [F1 E1].
  destruct (gains_opp (real_closes w)) as [G1 G2].
  destruct (C80_window_accuracy (map flip_candle w) M HM) as [F2 E2].
  - unfold few in *. now rewrite map_length.
  - apply Forall_map. eapply Forall_impl; [|exact Hc]. intros c [K1 K2]. split; cbn [flip_candle c_close]; unfold f64_neg.
    + now rewrite is_finite_Bopp.
    + unfold real in *. now rewrite B2R_Bopp, Rabs_Ropp.
  - unfold moving in *. rewrite flip_closes, G1, G2. lra.
  - split; [exact F2|]. unfold rsi_error in *. rewrite map_length in E2. unfold strength in *. rewrite flip_closes, G1, G2 in E2.
    unfold moving in Hm. set (g := gains (real_closes w)) in *. set (l := losses (real_closes w)) in *.
    replace (100 * l / (l + g)) with (100 - 100 * g / (g + l)) in E2 by (field; lra).
    apply Rabs_le_inv in E1, E2. apply Rabs_le. lra.
Qed.
(** Closes 1, 2, 1, 4: rises 4, falls 1, index 80. *)
Example C80_example : let w := [cl 1; cl 2; cl 1; cl 4] in
  scale (bpow radix2 2) /\ few w /\ Forall (fun c => within_mag (bpow radix2 2) (c_close c)) w /\ moving w /\
  strength (real_closes w) = 80 /\ rsi_error w <= 0.000008 /\ f2i (rsi_value w) = 80%Z.
Proof.
  cbv zeta.
  assert (real_closes [cl 1; cl 2; cl 1; cl 4] = [1; 2; 1; 4]) as E.
  { unfold real_closes, cl. cbn [map c_close]. rewrite !i2f_B2R by (unfold exact_int; lia). reflexivity. }
  assert (gains [1; 2; 1; 4] = 4) as G. { cbn [gains]. rewrite (Rmax_right 0 (2 - 1)), (Rmax_left 0 (1 - 2)), (Rmax_right 0 (4 - 1)) by lra. lra. }
  assert (losses [1; 2; 1; 4] = 1) as L. { cbn [losses]. rewrite (Rmax_left 0 (1 - 2)), (Rmax_right 0 (2 - 1)), (Rmax_left 0 (1 - 4)) by lra. lra. }
  split; [apply scale_int; lia|]. split; [apply small_few; cbn; lia|]. split; [|split; [|split; [|split]]].
  - change (bpow radix2 2) with 4. repeat (apply Forall_cons; [apply close_mag; [lia|cbn; lra]|]). apply Forall_nil.
  - unfold moving. rewrite E, G, L. lra.
  - unfold strength. rewrite E, G, L. lra.
  - unfold rsi_error. rewrite eps_uro. cbn [length]. change (INR 4) with (1 + 1 + 1 + 1).
    assert (uro <= / 100000000000000). { rewrite uro_val. apply Rinv_le_contravar; [lra|]. apply IZR_le. vm_compute. discriminate. } lra.
  - vm_compute. reflexivity.
Qed.

Print Assumptions C80_window_accuracy.
Print Assumptions C80_rsi_accuracy.
Print Assumptions C80_upside_down.
