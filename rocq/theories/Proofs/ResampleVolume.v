(** Volumes of a series resampled twice and of the series resampled once. *)
From Coq Require Import Reals Lra Lia Psatz.
From Flocq Require Import Core BinarySingleNaN.
From Verif Require Import Go.Outcome Go.Int64 Go.Slice Go.Float64 Go.FloatOrder Go.FloatReal Go.FloatError Go.Num
  Model.Candle Spec.CandleSpec Spec.AccuracySpec
  Proofs.Lists Proofs.Candle Proofs.CandleThms Proofs.CandleRegular Proofs.CandleMore Proofs.Accuracy.
Open Scope list_scope.
Open Scope R_scope.
Local Notation length := List.length.
Local Notation vols := (map (@c_volume f64)).

Lemma total_app a b : total (a ++ b) = total a + total b.
Proof. unfold total. induction a as [|x a IH]; cbn [app map fold_right]; [ring|]. rewrite IH. ring. Qed.
Lemma mag_app a b : total_mag (a ++ b) = total_mag a + total_mag b.
Proof. unfold total_mag. induction a as [|x a IH]; cbn [app map fold_right]; [ring|]. rewrite IH. ring. Qed.
Lemma mag_nonneg l : 0 <= total_mag l.
Proof. apply sumabs_nonneg. Qed.
Lemma total_le_mag l : Rabs (total l) <= total_mag l.
Proof. apply sumR_le_abs. Qed.

Lemma agg_vol_near (g : candles f64) : g <> [] -> few g -> Forall (fun v => is_finite v = true) (vols g) ->
  total_mag (vols g) <= bpow radix2 900 ->
  approx (0.000006 + (INR (length g) + 1) * (2 * uro) * total_mag (vols g)) (c_volume (agg g)) (total (vols g)).
Proof.
  intros Ng Hf Fv Ht. destruct (agg_summary g Ng) as (_ & _ & _ & _ & R5).
  destruct (fsum_near (vols g)) as [Fs Es].
  - rewrite map_length. exact Hf.
  - exact Fv.
  - exact Ht.
  - fold (fsum (vols g)) in *. pose proof (rounded5_error _ _ R5 Fs) as Ec. destruct (proj1 R5 Fs) as [Fc _].
    split; [exact Fc|].
    change (sumR (map (@B2R 53 1024) (vols g))) with (total (vols g)) in Es.
    change (sumabs (map (@B2R 53 1024) (vols g))) with (total_mag (vols g)) in Es. unfold real.
    pose proof (room g Hf) as Rm. pose proof uro_pos as U. pose proof uro_small as Us.
    pose proof (mag_nonneg (vols g)) as A0. pose proof (total_le_mag (vols g)) as A1.
    change (bpow radix2 (-53)) with uro in Ec.
    rewrite map_length in Es. pose proof (pos_INR (length g)) as P0.
    set (A := total_mag (vols g)) in *. set (T := total (vols g)) in *. set (s := B2R (fsum (vols g))) in *.
    assert (Rabs s <= 2 * A) as Sb.
    { replace s with (T + (s - T)) by ring. eapply Rle_trans; [apply Rabs_triang|].
      assert (INR (length g) * (2 * uro) * A <= / 64 * A) by (apply Rmult_le_compat_r; lra). lra. }
    replace (B2R (c_volume (agg g)) - T) with ((B2R (c_volume (agg g)) - s) + (s - T)) by ring.
    eapply Rle_trans; [apply Rabs_triang|].
    assert (uro * Rabs s <= uro * (2 * A)) by (apply Rmult_le_compat_l; lra). lra.
Qed.

Lemma concat_agg_near (N : R) (gs : list (candles f64)) :
  Forall (fun g => g <> []) gs -> N <= bpow radix2 40 -> INR (length (List.concat gs)) <= N ->
  Forall (fun v => is_finite v = true) (vols (List.concat gs)) ->
  total_mag (vols (List.concat gs)) <= bpow radix2 900 ->
  let E := INR (length gs) * 0.000006 + (N + 1) * (2 * uro) * total_mag (vols (List.concat gs)) in
  Forall (fun v => is_finite v = true) (vols (map agg gs)) /\
  Rabs (total (vols (map agg gs)) - total (vols (List.concat gs))) <= E /\
  total_mag (vols (map agg gs)) <= total_mag (vols (List.concat gs)) + E.
Proof.
  intros Hne HN. induction Hne as [|g gs Hg Hne IH]; intros Hl Fv Ht; cbv zeta.
  { unfold total, total_mag. cbn. pose proof uro_pos. split; [constructor|]. rewrite Rminus_0_r, Rabs_R0. lra. }
  cbn [List.concat] in *. rewrite app_length, plus_INR in Hl. rewrite map_app in *.
  rewrite mag_app in *. rewrite total_app. apply Forall_app in Fv as [Fg Fr].
  pose proof (mag_nonneg (vols g)) as Ag. pose proof (mag_nonneg (vols (List.concat gs))) as Ar.
  pose proof (pos_INR (length g)) as Pg. pose proof (pos_INR (length (List.concat gs))) as Pr.
  destruct IH as (I1 & I2 & I3); [lra|assumption|lra|].
  destruct (agg_vol_near g Hg) as [Ff Fe]; [unfold few; lra|assumption|lra|].
  cbn [map length]. rewrite S_INR.
  change (total (c_volume (agg g) :: vols (map agg gs))) with (real (c_volume (agg g)) + total (vols (map agg gs))).
  change (total_mag (c_volume (agg g) :: vols (map agg gs)))
    with (Rabs (real (c_volume (agg g))) + total_mag (vols (map agg gs))).
  pose proof uro_pos as U. pose proof (total_le_mag (vols g)) as Tg.
  assert ((INR (length g) + 1) * (2 * uro) * total_mag (vols g) <= (N + 1) * (2 * uro) * total_mag (vols g)) as Q.
  { apply Rmult_le_compat_r; [assumption|]. apply Rmult_le_compat_r; lra. }
  split; [constructor; assumption|].
  set (x := real (c_volume (agg g))) in *.
  set (S1 := total (vols (map agg gs))) in *. set (S2 := total (vols (List.concat gs))) in *.
  set (T := total (vols g)) in *. set (M1 := total_mag (vols g)) in *. set (M2 := total_mag (vols (List.concat gs))) in *.
  set (c := (N + 1) * (2 * uro)) in *.
  rewrite Rmult_plus_distr_l. split.
  - replace (x + S1 - (T + S2)) with ((x - T) + (S1 - S2)) by ring.
    eapply Rle_trans; [apply Rabs_triang|]. lra.
  - assert (Rabs x <= M1 + (0.000006 + c * M1)).
    { replace x with (T + (x - T)) by ring. eapply Rle_trans; [apply Rabs_triang|]. lra. }
    lra.
Qed.

Lemma twice_near (gs : list (candles f64)) : gs <> [] -> Forall (fun g => g <> []) gs ->
  few (List.concat gs) -> Forall (fun v => is_finite v = true) (vols (List.concat gs)) ->
  total_mag (vols (List.concat gs)) <= bpow radix2 800 ->
  approx ((INR (length gs) + 2) * 0.000007 + 4 * (INR (length (List.concat gs)) + 1) * (2 * uro) * total_mag (vols (List.concat gs)))
    (c_volume (agg (map agg gs))) (real (c_volume (agg (List.concat gs)))).
Proof.
  intros Hgs Hne Hf Fv Ht.
  assert (bpow radix2 800 <= bpow radix2 899) as B1 by (apply bpow_le; lia).
  assert (bpow radix2 900 = 2 * bpow radix2 899) as B2.
  { change 900%Z with (1 + 899)%Z. rewrite bpow_plus. reflexivity. }
  pose proof (bpow_ge_0 radix2 899) as B0.
  assert (bpow radix2 60 <= bpow radix2 899) as B3 by (apply bpow_le; lia).
  assert (List.concat gs <> []) as Hc.
  { destruct Hne as [|g gs Hg _]; [congruence|]. cbn [List.concat]. destruct g; [congruence|discriminate]. }
  assert (length gs <= length (List.concat gs))%nat as Lg.
  { clear -Hne. induction Hne as [|g gs Hg Hne IH]; [apply le_n|]. cbn [List.concat length]. rewrite app_length.
    destruct g; [congruence|]. cbn [length]. lia. }
  apply le_INR in Lg.
  pose proof (concat_agg_near (INR (length (List.concat gs))) gs Hne Hf (Rle_refl _) Fv ltac:(lra)) as (I1 & I2 & I3).
  cbv zeta in *.
  pose proof (room (List.concat gs) Hf) as Rm. pose proof uro_pos as U. pose proof uro_small as Us.
  pose proof (mag_nonneg (vols (List.concat gs))) as A0.
  pose proof (pos_INR (length gs)) as P0.
  set (n := INR (length (List.concat gs))) in *. set (m := INR (length gs)) in *.
  set (A := total_mag (vols (List.concat gs))) in *.
  assert ((n + 1) * (2 * uro) * A <= / 32 * A) as Q1 by (apply Rmult_le_compat_r; lra).
  assert (n <= bpow radix2 40) as Hn by exact Hf.
  assert (bpow radix2 40 <= bpow radix2 60) as B4 by (apply bpow_le; lia).
  destruct (agg_vol_near (List.concat gs) Hc Hf Fv) as [Fd Ed]; [fold A; lra|].
  destruct (agg_vol_near (map agg gs)) as [Fo Eo].
  - destruct gs; [congruence|discriminate].
  - unfold few. rewrite map_length. fold m. lra.
  - exact I1.
  - lra.
  - split; [exact Fo|]. rewrite map_length in Eo. fold m in Eo. fold n A in Ed.
    set (o := real (c_volume (agg (map agg gs)))) in *. set (d := real (c_volume (agg (List.concat gs)))) in *.
    set (S1 := total (vols (map agg gs))) in *. set (S2 := total (vols (List.concat gs))) in *.
    set (A1 := total_mag (vols (map agg gs))) in *.
    assert (A1 <= 2 * A + m * 0.000006) as HA by lra.
    assert ((m + 1) * (2 * uro) * A1 <= (m + 1) * (2 * uro) * (2 * A + m * 0.000006)) as Q2.
    { apply Rmult_le_compat_l; [|assumption]. apply Rmult_le_pos; lra. }
    assert ((m + 1) * (2 * uro) <= (n + 1) * (2 * uro)) as Q3 by (apply Rmult_le_compat_r; lra).
    assert ((m + 1) * (2 * uro) * (2 * A) <= (n + 1) * (2 * uro) * (2 * A)) as Q4 by (apply Rmult_le_compat_r; lra).
    assert ((m + 1) * (2 * uro) * (m * 0.000006) <= / 32 * (m * 0.000006)) as Q5 by (apply Rmult_le_compat_r; lra).
    replace (o - d) with ((o - S1) + (S1 - S2) + (S2 - d)) by ring.
    eapply Rle_trans; [apply Rabs_triang|]. rewrite (Rabs_minus_sym S2 d).
    eapply Rle_trans; [apply Rplus_le_compat_r, Rabs_triang|]. lra.
Qed.
