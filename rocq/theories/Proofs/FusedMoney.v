(** Fused multiply-add (C97): fees. *)
From Coq Require Import Reals Lra Lia Psatz.
From Flocq Require Import Core BinarySingleNaN.
From Verif Require Import Go.Outcome Go.Float64 Go.FloatReal Go.FloatError Go.Num Model.Entities Model.Fused
  Spec.AccuracySpec Spec.EntitySpec Spec.MoneySpec Proofs.Fma Proofs.Accuracy Proofs.RSIError Proofs.Entities Proofs.MoneyError.
Open Scope list_scope.
Open Scope R_scope.
Local Notation B2R := (@B2R 53 1024).

Lemma eta_normal : eta <= uro * normal.
Proof.
  change eta with (bpow radix2 (-1075)). change uro with (bpow radix2 (-53)). change normal with (bpow radix2 (-1000)).
  rewrite <- bpow_plus. apply bpow_le. lia.
Qed.
Lemma fee_fused_near b (price quantity cost : f64) : ordinary price -> ordinary quantity -> is_finite cost = true ->
  Rabs (B2R cost) <= bpow radix2 900 ->
  let m := B2R price * B2R quantity in
  near (sub_product b cost price quantity) (B2R cost - m) (2 * (2 * uro) * (Rabs (B2R cost) + m)) /\
  near (product_sub b price quantity cost) (m - B2R cost) (2 * (2 * uro) * (Rabs (B2R cost) + m)).
Proof.
  intros Op Oq Fc Bc m. destruct (ordinary_about _ Op) as [[Fp _] Bp]. destruct (ordinary_about _ Oq) as [[Fq _] Bq].
  pose proof lo_pos as L0. pose proof lo_hi as LH. pose proof room_high as RH. pose proof many_ge as M1. pose proof uro_pos as U. pose proof uro_small as Us. pose proof lo_small as Ls.
  assert (0 < hi) as H0 by nra.
  assert (lo * lo <= m <= hi * hi) as Bm by (unfold m; split; apply Rmult_le_compat; lra).
  assert (0 < lo * lo) as LL by (apply Rmult_lt_0_compat; lra).
  assert (4 * (hi * hi) <= huge) as H4.
  { apply Rle_trans with (4 * (hi * hi * many)); [|exact RH]. assert (hi * hi * 1 <= hi * hi * many) by (apply Rmult_le_compat_l; [apply Rmult_le_pos; lra|lra]). lra. }
  assert (4 * Rabs (B2R cost) <= huge) as H5.
  { apply Rle_trans with (4 * bpow radix2 900); [lra|]. change 4 with (bpow radix2 2). change huge with (bpow radix2 1000). rewrite <- bpow_plus. apply bpow_le. lia. }
  assert (2 * normal <= m) as Nm.
  { pose proof room_low as RL. pose proof normal_pos. assert (lo * lo * lo <= lo * lo) by nra. nra. }
  destruct b; [|exact (fee_near price quantity cost Op Oq Fc Bc)]. cbn [sub_product product_sub].
  assert (is_finite (f64_neg price) = true) as Fn by (unfold f64_neg; now rewrite is_finite_Bopp).
  assert (is_finite (f64_neg cost) = true) as Fn' by (unfold f64_neg; now rewrite is_finite_Bopp).
  pose proof (fma_xr (f64_neg price) quantity cost Fn Fq Fc) as X1. pose proof (fma_xr price quantity (f64_neg cost) Fp Fq Fn') as X2.
  unfold f64_neg in X1 at 3. unfold f64_neg in X2 at 3. rewrite B2R_Bopp in X1, X2. fold m in X2.
  replace (- B2R price * B2R quantity + B2R cost) with (B2R cost - m) in X1 by (unfold m; ring).
  replace (m + - B2R cost) with (m - B2R cost) in X2 by ring.
  pose proof (Rabs_pos (B2R cost)) as C0. pose proof eta_normal as En. pose proof normal_pos as Np.
  assert (eta <= uro * m) as Em by nra.
  assert (Rabs (B2R cost - m) <= Rabs (B2R cost) + m) as T1.
  { unfold Rminus. eapply Rle_trans; [apply Rabs_triang|]. rewrite Rabs_Ropp, (Rabs_pos_eq m) by lra. lra. }
  assert (Rabs (m - B2R cost) <= Rabs (B2R cost) + m) as T2 by (rewrite Rabs_minus_sym; exact T1).
  destruct (of_xr _ _ X1) as [F1 E1]; [lra|]. destruct (of_xr _ _ X2) as [F2 E2]; [lra|].
  assert (0 <= uro * (Rabs (B2R cost) + m)) by nra.
  split; (split; [assumption|]).
  - rewrite E1. eapply Rle_trans; [apply rnd_err|]. nra.
  - rewrite E2. eapply Rle_trans; [apply rnd_err|]. nra.
Qed.
