(** Volumes of resampled candles in whole lots (for C129). *)
From Coq Require Import List ZArith Reals Lra Lia.
From Flocq Require Import Core BinarySingleNaN.
From Verif Require Import Go.Outcome Go.Int64 Go.Slice Go.Float64 Go.FloatOrder Go.FloatReal Go.Num
  Model.Candle Spec.CandleSpec Spec.AccuracySpec Spec.TickSpec Spec.LotVolumeSpec
  Proofs.Lists Proofs.RoundTrip Proofs.Candle Proofs.CandleThms Proofs.CandleRegular Proofs.CandleMore Proofs.Ticks Proofs.ResampleVolume.
Import ListNotations.
Open Scope list_scope.
Open Scope R_scope.
Notation sum := AccuracySpec.total.

Section Lots.
Variable e : Z.
Hypothesis He : (-5 <= e <= 970)%Z.
Let Ht : tick e. Proof. unfold tick. lia. Qed.

Lemma counts l : Forall (in_lots e) l -> exists zs, Forall2 (ticks e) l zs.
Proof. induction 1 as [|x l (z & Hz) _ (zs & H)]; [exists []; constructor|]. exists (z :: zs). now constructor. Qed.
Lemma counts_sum l zs : Forall2 (ticks e) l zs ->
  sum l = IZR (TickSpec.total zs) * bpow radix2 e /\ total_mag l = IZR (weight zs) * bpow radix2 e.
Proof.
  induction 1 as [|x z l zs (_ & E) _ (IH1 & IH2)]; [split; [unfold sum, TickSpec.total|unfold total_mag, weight]; cbn; ring|].
  change (sum (x :: l)) with (real x + sum l). change (total_mag (x :: l)) with (Rabs (real x) + total_mag l).
  change (TickSpec.total (z :: zs)) with (z + TickSpec.total zs)%Z. rewrite weight_cons, IH1, IH2, !plus_IZR, abs_IZR.
  unfold real. rewrite E, Rabs_mult, (Rabs_pos_eq (bpow radix2 e)) by apply bpow_ge_0. split; ring.
Qed.
Lemma sum_lots l : Forall (in_lots e) l -> total_mag l <= IZR (2 ^ 53) * bpow radix2 e ->
  in_lots e (fsum l) /\ real (fsum l) = sum l.
Proof.
  intros H Hm. destruct (counts l H) as (zs & Hz). destruct (counts_sum l zs Hz) as (E1 & E2).
  rewrite E2 in Hm. apply Rmult_le_reg_r in Hm; [|apply bpow_gt_0]. apply le_IZR in Hm.
  pose proof (sum_ticks e Ht l zs (i2f 0) 0 Hz (ticks_zero e) ltac:(lia)) as T. rewrite Z.add_0_l in T.
  split; [now exists (TickSpec.total zs)|]. unfold real, fsum. rewrite E1. apply T.
Qed.
(** Rounding to five decimals changes nothing. *)
Lemma round_lots x y : in_lots e x -> rounded5 x y -> in_lots e y /\ real y = real x.
Proof.
  intros (z & F & E) (H & _). destruct (H F) as (Fy & Ey).
  assert (B2R y = B2R x) as Q.
  { rewrite Ey. assert (to5 (B2R x) = B2R x) as ->; [|apply round_generic; [apply valid_rnd_N|apply generic_format_B2R]].
    change (to5 (B2R x)) with (round5R (B2R x)). rewrite round5R_eq.
    assert (B2R x * 100000 = IZR (z * 3125 * 2 ^ (e + 5))) as ->.
    { rewrite E, !mult_IZR. change 2%Z with (radix_val radix2) at 1. rewrite IZR_Zpower by lia.
      rewrite bpow_plus. change (bpow radix2 5) with 32. ring. }
    rewrite Znearest_imp with (n := (z * 3125 * 2 ^ (e + 5))%Z) by (rewrite Rminus_diag_eq, Rabs_R0 by reflexivity; lra).
    rewrite !mult_IZR. change 2%Z with (radix_val radix2) at 1. rewrite IZR_Zpower by lia. rewrite E, bpow_plus.
    change (bpow radix2 5) with 32. change (bpow radix10 (-5)) with (/ 100000). field. }
  split; [exists z; split; [exact Fy|now rewrite Q]|exact Q].
Qed.
Lemma group_volume g c : Forall (fun c : candle f64 => in_lots e (c_volume c)) g ->
  total_mag (map c_volume g) <= IZR (2 ^ 53) * bpow radix2 e -> summary g c ->
  in_lots e (c_volume c) /\ real (c_volume c) = sum (map c_volume g).
Proof.
  intros H Hm (_ & _ & _ & _ & R5). destruct (sum_lots (map c_volume g)) as (L & S); [now rewrite Forall_map|exact Hm|].
  destruct (round_lots _ _ L R5) as (L' & S'). split; [exact L'|]. now rewrite S'.
Qed.
Lemma series_app a b : lot_series e (a ++ b) -> lot_series e a /\ lot_series e b.
Proof.
  intros (H & Hm). apply Forall_app in H. rewrite map_app, mag_app in Hm.
  pose proof (mag_nonneg (map c_volume a)). pose proof (mag_nonneg (map c_volume b)).
  split; (split; [apply H|lra]).
Qed.
Lemma groups_volume gs out : lot_series e (List.concat gs) -> Forall2 summary gs out ->
  Forall2 (fun g (c : candle f64) => in_lots e (c_volume c) /\ real (c_volume c) = sum (map c_volume g)) gs out /\
  sum (map c_volume out) = sum (map c_volume (List.concat gs)) /\ lot_series e out /\
  total_mag (map c_volume out) <= total_mag (map c_volume (List.concat gs)).
Proof.
  intros Hl H. induction H as [|g c gs out Hs H IH].
  - split; [constructor|]. split; [reflexivity|]. split; [|apply Rle_refl]. split; [constructor|].
    change (total_mag (map c_volume [])) with 0. apply Rmult_le_pos; [apply IZR_le; lia|apply bpow_ge_0].
  - cbn [List.concat] in *. pose proof Hl as (_ & HM). apply series_app in Hl. destruct Hl as ((G1 & G2) & L).
    destruct (IH L) as (I1 & I2 & (I3 & _) & I4). destruct (group_volume g c G1 G2 Hs) as (V1 & V2).
    assert (total_mag (map c_volume (c :: out)) <= total_mag (map c_volume (g ++ List.concat gs))) as Q.
    { rewrite map_app, mag_app. cbn [map]. change (total_mag (c_volume c :: map c_volume out)) with (Rabs (real (c_volume c)) + total_mag (map c_volume out)).
      rewrite V2. pose proof (total_le_mag (map c_volume g)). lra. }
    split; [constructor; auto|]. split; [|split; [split; [constructor; auto|lra]|exact Q]].
    rewrite map_app, total_app. cbn [map]. change (sum (c_volume c :: map c_volume out)) with (real (c_volume c) + sum (map c_volume out)).
    now rewrite I2, V2.
Qed.
Lemma agg_volume g : g <> [] -> lot_series e g -> in_lots e (c_volume (agg g)) /\ real (c_volume (agg g)) = sum (map c_volume g).
Proof. intros Hg (H1 & H2). apply group_volume; auto. now apply agg_summary. Qed.
End Lots.
