(** Closes in whole ticks (for C125). *)
From Coq Require Import Reals Lra Lia ZArith List Permutation.
From Flocq Require Import Core BinarySingleNaN.
From Verif Require Import Go.Outcome Go.Int64 Go.Slice Go.Float64 Go.FloatOrder Go.FloatReal Go.Num
  Model.Candle Model.Indicators Spec.IndicatorSpec Spec.TickSpec Proofs.MovingAverage.
Import ListNotations.
Open Scope list_scope.
Open Scope Z_scope.
Local Notation length := List.length.

Lemma nearest_rnd r : nearest r = rnd r.
Proof. reflexivity. Qed.

Lemma tick_format e k : tick e -> Z.abs k <= 2 ^ 53 -> generic_format radix2 fexp64 (IZR k * bpow radix2 e).
Proof.
  intros He Hk. unfold fexp64. change (3 - 1024 - 53) with (-1074).
  assert (forall m x, tick x \/ x = 971 -> Z.abs m < 2 ^ 53 -> generic_format radix2 (FLT_exp (-1074) 53) (IZR m * bpow radix2 x)) as K.
  { intros m x Hx Hm. apply generic_format_FLT. exists (Float radix2 m x); [reflexivity| |].
    - simpl. exact Hm.
    - simpl. unfold tick in Hx. lia. }
  destruct (Z.eq_dec (Z.abs k) (2 ^ 53)) as [E|E]; [|apply K; [now left|lia]].
  assert (exists m, k = m * 2 /\ Z.abs m = 2 ^ 52) as (m & -> & Hm).
  { destruct (Z.le_gt_cases 0 k); [exists (2 ^ 52)|exists (- 2 ^ 52)]; lia. }
  replace (IZR (m * 2) * bpow radix2 e)%R with (IZR m * bpow radix2 (e + 1))%R.
  - apply K; [unfold tick in *; lia|lia].
  - rewrite bpow_plus, mult_IZR. change (bpow radix2 1) with 2%R. ring.
Qed.
Lemma tick_small e k : tick e -> Z.abs k <= 2 ^ 53 -> (Rabs (IZR k * bpow radix2 e) < big)%R.
Proof.
  intros He Hk. rewrite Rabs_mult, <- abs_IZR, (Rabs_pos_eq (bpow radix2 e)) by apply bpow_ge_0.
  apply Rle_lt_trans with (bpow radix2 53 * bpow radix2 970)%R.
  - apply Rmult_le_compat; [apply IZR_le; lia|apply bpow_ge_0| |apply bpow_le; unfold tick in He; lia].
    change (bpow radix2 53) with (IZR (2 ^ 53)). now apply IZR_le.
  - rewrite <- bpow_plus. Transparent big. unfold big. Opaque big. apply bpow_lt. lia.
Qed.
Lemma tick_op (z : f64) r e k : is_nan z = false /\ xr z = sat (rnd r) -> tick e -> Z.abs k <= 2 ^ 53 ->
  r = (IZR k * bpow radix2 e)%R -> ticks e z k.
Proof.
  intros [N E] He Hk ->. pose proof (tick_small e k He Hk) as B.
  assert (rnd (IZR k * bpow radix2 e) = IZR k * bpow radix2 e)%R as R by (apply round_generic; [apply valid_rnd_N|now apply tick_format]).
  rewrite R, sat_id in E by now apply Rlt_le.
  assert (is_finite z = true) as F by (apply xr_lt_finite; [exact N|rewrite E; exact B]).
  split; [exact F|]. rewrite <- E. symmetry. now apply xr_finite.
Qed.
Lemma ticks_add e x y a b : tick e -> ticks e x a -> ticks e y b -> Z.abs (a + b) <= 2 ^ 53 -> ticks e (f64_add x y) (a + b).
Proof. intros He (F1 & E1) (F2 & E2) H. apply (tick_op _ _ e _ (add_xr x y F1 F2) He H). rewrite E1, E2, plus_IZR. ring. Qed.
Lemma ticks_sub e x y a b : tick e -> ticks e x a -> ticks e y b -> Z.abs (a - b) <= 2 ^ 53 -> ticks e (f64_sub x y) (a - b).
Proof. intros He (F1 & E1) (F2 & E2) H. apply (tick_op _ _ e _ (sub_xr x y F1 F2) He H). rewrite E1, E2, minus_IZR. ring. Qed.
Lemma ticks_zero e : ticks e (i2f 0) 0.
Proof. split; [reflexivity|]. rewrite i2f_B2R by (unfold exact_int; lia). ring. Qed.

Lemma weight_total l : Z.abs (total l) <= weight l.
Proof. unfold weight. induction l as [|a l IH]; simpl; lia. Qed.
Lemma weight_pos l : 0 <= weight l.
Proof. pose proof (weight_total l). lia. Qed.
Lemma weight_cons z l : weight (z :: l) = Z.abs z + weight l.
Proof. reflexivity. Qed.
Lemma sum_ticks e : tick e -> forall xs zs acc a, Forall2 (ticks e) xs zs -> ticks e acc a -> Z.abs a + weight zs <= 2 ^ 53 ->
  ticks e (fold_left f64_add xs acc) (a + total zs).
Proof.
  intros He xs zs acc a H. revert acc a. induction H as [|x z xs zs Hx H IH]; intros acc a Ha Hw; simpl.
  - now rewrite Z.add_0_r.
  - rewrite weight_cons in Hw. pose proof (weight_pos zs). fold (total zs).
    rewrite Z.add_assoc. apply IH; [apply ticks_add; auto; lia|lia].
Qed.

(** Dividing by the number of candles: one rounding. *)
Lemma exact_len n : 0 < n <= 2 ^ 53 -> exact_int n.
Proof. unfold exact_int. lia. Qed.
Lemma div_len e x a n : tick e -> ticks e x a -> 0 < n <= 2 ^ 53 -> Z.abs a <= 2 ^ 53 ->
  is_finite (f64_div x (i2f n)) = true /\ B2R (f64_div x (i2f n)) = rnd (IZR a * bpow radix2 e / IZR n).
Proof.
  intros He (F & E) Hn Ha. pose proof (exact_len n Hn) as Xn.
  assert (0 < IZR n)%R as Pn by (apply IZR_lt; lia). assert (1 <= IZR n)%R as Pn1 by (apply IZR_le; lia).
  assert (B2R (i2f n) = IZR n) as En by now apply i2f_B2R.
  destruct (div_xr x (i2f n) F (i2f_finite n Xn)) as (N & X); [rewrite En; lra|]. rewrite E, En in X.
  pose proof (tick_small e a He Ha) as B.
  assert (Rabs (rnd (IZR a * bpow radix2 e / IZR n)) < big)%R as Bq.
  { assert (rnd (Rabs (IZR a * bpow radix2 e)) = Rabs (IZR a * bpow radix2 e)) as R.
    { apply round_generic; [apply valid_rnd_N|]. apply generic_format_abs. now apply tick_format. }
    assert (Rabs (IZR a * bpow radix2 e / IZR n) <= Rabs (IZR a * bpow radix2 e))%R as L.
    { unfold Rdiv. rewrite Rabs_mult, (Rabs_pos_eq (/ IZR n)) by (left; now apply Rinv_0_lt_compat).
      rewrite <- (Rmult_1_r (Rabs (IZR a * bpow radix2 e))) at 2. apply Rmult_le_compat_l; [apply Rabs_pos|].
      rewrite <- Rinv_1. apply Rinv_le; lra. }
    apply Rabs_le_inv in L. apply Rle_lt_trans with (Rabs (IZR a * bpow radix2 e)); [|exact B].
    apply Rabs_le. rewrite <- R at 1 2. rewrite <- rnd_opp. split; apply rnd_mono; lra. }
  rewrite sat_id in X by now apply Rlt_le.
  assert (is_finite (f64_div x (i2f n)) = true) as Fq by (apply xr_lt_finite; [exact N|rewrite X; exact Bq]).
  split; [exact Fq|]. rewrite <- X. symmetry. now apply xr_finite.
Qed.
Lemma mean_ticks e xs zs : tick e -> Forall2 (ticks e) xs zs -> weight zs <= 2 ^ 53 -> 0 < Z.of_nat (length xs) <= 2 ^ 53 ->
  is_finite (mean_of xs) = true /\ B2R (mean_of xs) = rnd (IZR (total zs) * bpow radix2 e / IZR (Z.of_nat (length xs))).
Proof.
  intros He H Hw Hn. unfold mean_of, sum_of. cbn [fdiv fadd fofZ f64_num].
  pose proof (sum_ticks e He xs zs (i2f 0) 0 H (ticks_zero e) ltac:(lia)) as K. rewrite Z.add_0_l in K.
  pose proof (weight_total zs). apply (div_len e _ _ _ He K Hn). lia.
Qed.
(** In range. *)
Lemma total_between lo hi l : Forall (fun z => lo <= z <= hi) l -> lo * Z.of_nat (length l) <= total l <= hi * Z.of_nat (length l).
Proof. induction 1 as [|z l H _ IH]; [simpl; lia|]. cbn [List.length total fold_right]. fold (total l). lia. Qed.
Lemma quotient_between lo hi t n (u : R) : 0 < n -> lo * n <= t <= hi * n -> (0 < u)%R -> (IZR lo * u <= IZR t * u / IZR n <= IZR hi * u)%R.
Proof.
  intros Hn (L & U) Hu. apply IZR_le in L, U. rewrite mult_IZR in L, U. apply IZR_lt in Hn.
  split.
  - apply Rmult_le_reg_r with (IZR n); [exact Hn|]. unfold Rdiv. rewrite (Rmult_assoc (IZR t * u)), Rinv_l by lra. nra.
  - apply Rmult_le_reg_r with (IZR n); [exact Hn|]. unfold Rdiv. rewrite (Rmult_assoc (IZR t * u)), Rinv_l by lra. nra.
Qed.

(** The float64 sums of RSI. *)
Lemma rises_pos l : 0 <= rises l.
Proof. induction l as [|a [|b l] IH]; cbn [rises] in *; lia. Qed.
Lemma falls_pos l : 0 <= falls l.
Proof. induction l as [|a [|b l] IH]; cbn [falls] in *; lia. Qed.
Lemma ticks_lt e x y a b : ticks e x a -> ticks e y b -> f64_lt x y = (a <? b).
Proof.
  intros (F1 & E1) (F2 & E2). rewrite f64_lt_xr, !xr_finite, E1, E2 by (try apply finite_not_nan; assumption).
  pose proof (bpow_gt_0 radix2 e). destruct (Z.ltb_spec a b) as [L|L].
  - apply Rlt_bool_true. apply IZR_lt in L. nra.
  - apply Rlt_bool_false. apply IZR_le in L. nra.
Qed.
(** A sum that is 0 has never been added to. *)
Definition counted (e : Z) (x : f64) (u : Z) : Prop := ticks e x u /\ 0 <= u /\ (u = 0 -> x = i2f 0).
Lemma counted_add e x u y d : tick e -> counted e x u -> ticks e y d -> 0 < d -> u + d <= 2 ^ 53 -> counted e (f64_add x y) (u + d).
Proof. intros He (T & P & _) Hy Hd Hs. split; [apply ticks_add; auto; lia|]. split; [lia|]. intros. lia. Qed.
Lemma sums_ticks e : tick e -> forall cs zs c z up u down d, ticks e (c_close c) z -> in_ticks e cs zs ->
  counted e up u -> counted e down d -> u + rises (z :: zs) <= 2 ^ 53 -> d + falls (z :: zs) <= 2 ^ 53 ->
  let r := rsi_sums c cs up down in counted e (fst r) (u + rises (z :: zs)) /\ counted e (snd r) (d + falls (z :: zs)).
Proof.
  intros He. induction cs as [|c' cs IH]; intros zs c z up u down d Hc H Hu Hd Bu Bd; inversion H as [|? z' ? zs' Hc' H']; subst.
  - simpl. rewrite !Z.add_0_r. auto.
  - cbv zeta. cbn [rsi_sums flt fadd fsub f64_num]. rewrite (ticks_lt e _ _ _ _ Hc Hc'), (ticks_lt e _ _ _ _ Hc' Hc).
    change (rises (z :: z' :: zs')) with (Z.max 0 (z' - z) + rises (z' :: zs')) in *.
    change (falls (z :: z' :: zs')) with (Z.max 0 (z - z') + falls (z' :: zs')) in *.
    pose proof (rises_pos (z' :: zs')). pose proof (falls_pos (z' :: zs')). pose proof Hu as (_ & Hu2 & _). pose proof Hd as (_ & Hd2 & _).
    rewrite !Z.add_assoc.
    destruct (Z.ltb_spec z z') as [L|L]; [|destruct (Z.ltb_spec z' z) as [L'|L']].
    + replace (Z.max 0 (z' - z)) with (z' - z) in * by lia. replace (d + Z.max 0 (z - z')) with d by lia.
      apply IH; [exact Hc'|exact H'| |exact Hd|lia|lia]. apply counted_add; [exact He|exact Hu| |lia|lia]. apply ticks_sub; auto. lia.
    + replace (Z.max 0 (z - z')) with (z - z') in * by lia. replace (u + Z.max 0 (z' - z)) with u by lia.
      apply IH; [exact Hc'|exact H'|exact Hu| |lia|lia]. apply counted_add; [exact He|exact Hd| |lia|lia]. apply ticks_sub; auto. lia.
    + replace (u + Z.max 0 (z' - z)) with u by lia. replace (d + Z.max 0 (z - z')) with d by lia.
      apply IH; [exact Hc'|exact H'|exact Hu|exact Hd|lia|lia].
Qed.

(** The quotient of two counts depends on their ratio only. *)
Lemma quotient_count e x y u d : tick e -> counted e x u -> counted e y d -> 0 < u <= 2 ^ 53 -> 0 < d <= 2 ^ 53 ->
  is_finite (f64_div x y) = true /\ B2R (f64_div x y) = rnd (IZR u / IZR d).
Proof.
  intros He ((F1 & E1) & _) ((F2 & E2) & _) Hu Hd. pose proof (bpow_gt_0 radix2 e) as P.
  assert (0 < IZR u)%R as Pu by (apply IZR_lt; lia). assert (0 < IZR d)%R as Pd by (apply IZR_lt; lia).
  destruct (div_xr x y F1 F2) as (N & X); [rewrite E2; nra|].
  replace (B2R x / B2R y)%R with (IZR u / IZR d)%R in X by (rewrite E1, E2; field; lra).
  assert (Rabs (rnd (IZR u / IZR d)) < big)%R as B.
  { rewrite Rabs_pos_eq by (apply rnd_nonneg; left; now apply Rdiv_lt_0_compat).
    apply Rle_lt_trans with (IZR (2 ^ 53)); [|apply pow53_lt_big]. rewrite <- (rnd_int (2 ^ 53)) by (unfold exact_int; lia). apply rnd_mono.
    apply Rmult_le_reg_r with (IZR d); [exact Pd|]. unfold Rdiv. rewrite Rmult_assoc, Rinv_l, Rmult_1_r by lra.
    rewrite <- mult_IZR. apply IZR_le. nia. }
  rewrite sat_id in X by now apply Rlt_le.
  assert (is_finite (f64_div x y) = true) as F by (apply xr_lt_finite; [exact N|rewrite X; exact B]).
  split; [exact F|]. rewrite <- X. symmetry. now apply xr_finite.
Qed.
Lemma rnd_ratio_pos u d : 0 < u <= 2 ^ 53 -> 0 < d <= 2 ^ 53 -> (0 < rnd (IZR u / IZR d))%R.
Proof.
  intros Hu Hd. apply Rlt_le_trans with (bpow radix2 (-53)); [apply bpow_gt_0|].
  assert (rnd (bpow radix2 (-53)) = bpow radix2 (-53)) as <-.
  { apply round_generic; [apply valid_rnd_N|]. apply generic_format_bpow. unfold fexp64, FLT_exp. lia. }
  apply rnd_mono. assert (0 < IZR d)%R as Pd by (apply IZR_lt; lia).
  apply Rmult_le_reg_r with (IZR d); [exact Pd|]. unfold Rdiv. rewrite Rmult_assoc, Rinv_l, Rmult_1_r by lra.
  apply Rle_trans with (bpow radix2 (-53) * bpow radix2 53)%R.
  - apply Rmult_le_compat_l; [apply bpow_ge_0|]. change (bpow radix2 53) with (IZR (2 ^ 53)). apply IZR_le. lia.
  - rewrite <- bpow_plus. change (-53 + 53) with 0. apply IZR_le. lia.
Qed.
Lemma same_ratio e e' x y x' y' u d u' d' : tick e -> tick e' -> counted e x u -> counted e y d -> counted e' x' u' -> counted e' y' d' ->
  u <= 2 ^ 53 -> d <= 2 ^ 53 -> u' <= 2 ^ 53 -> d' <= 2 ^ 53 -> u * d' = u' * d -> (u = 0 <-> u' = 0) -> (d = 0 <-> d' = 0) ->
  f64_div x y = f64_div x' y'.
Proof.
  intros He He' Cx Cy Cx' Cy' B1 B2 B3 B4 Hr Hu Hd.
  destruct (Z.eq_dec u 0) as [Zu|Zu].
  { pose proof Cx as (_ & _ & X). pose proof Cx' as (_ & _ & X'). rewrite (X Zu), (X' (proj1 Hu Zu)).
    destruct (Z.eq_dec d 0) as [Zd|Zd].
    - pose proof Cy as (_ & _ & Y). pose proof Cy' as (_ & _ & Y'). now rewrite (Y Zd), (Y' (proj1 Hd Zd)).
    - assert (forall ee w k, tick ee -> counted ee w k -> 0 < k -> f64_div (i2f 0) w = i2f 0) as K.
      { intros ee w k _ ((F & E) & _) Hk. assert (0 < B2R w)%R as Pw by (rewrite E; apply Rmult_lt_0_compat; [now apply IZR_lt|apply bpow_gt_0]).
        destruct w as [s|s| |[] m ex Hm]; try discriminate; simpl in Pw; try lra.
        - exfalso. pose proof (F2R_lt_0 radix2 (Float radix2 (Z.neg m) ex) ltac:(simpl; lia)). simpl in *. lra.
        - reflexivity. }
      pose proof Cy as (_ & Py & _). pose proof Cy' as (_ & Py' & _).
      rewrite (K e y d He Cy) by lia. now rewrite (K e' y' d' He' Cy') by lia. }
  pose proof Cx as (_ & Px & _). pose proof Cx' as (_ & Px' & _). pose proof Cy as (_ & Py & _). pose proof Cy' as (_ & Py' & _).
  destruct (Z.eq_dec d 0) as [Zd|Zd].
  { pose proof Cy as (_ & _ & Y). pose proof Cy' as (_ & _ & Y'). rewrite (Y Zd), (Y' (proj1 Hd Zd)).
    assert (forall ee w k, counted ee w k -> 0 < k -> f64_div w (i2f 0) = B754_infinity false) as K.
    { intros ee w k ((F & E) & _) Hk. assert (0 < B2R w)%R as Pw by (rewrite E; apply Rmult_lt_0_compat; [now apply IZR_lt|apply bpow_gt_0]).
      destruct w as [s|s| |[] m ex Hm]; try discriminate; simpl in Pw; try lra.
      - exfalso. pose proof (F2R_lt_0 radix2 (Float radix2 (Z.neg m) ex) ltac:(simpl; lia)). simpl in *. lra.
      - reflexivity. }
    rewrite (K e x u), (K e' x' u'); auto; lia. }
  destruct (quotient_count e x y u d He Cx Cy ltac:(lia) ltac:(lia)) as (F & E).
  destruct (quotient_count e' x' y' u' d' He' Cx' Cy' ltac:(lia) ltac:(lia)) as (F' & E').
  pose proof (rnd_ratio_pos u d ltac:(lia) ltac:(lia)) as P.
  assert (IZR u / IZR d = IZR u' / IZR d')%R as Er.
  { apply (f_equal IZR) in Hr. rewrite !mult_IZR in Hr. 
    assert (IZR d <> 0 /\ IZR d' <> 0)%R as (D1 & D2) by (split; apply not_0_IZR; lia).
    apply Rmult_eq_reg_r with (IZR d * IZR d')%R; [|now apply Rmult_integral_contrapositive]. field_simplify; [lra|lra|lra]. }
  rewrite <- Er in E'. rewrite <- E in P.
  assert (forall w : f64, is_finite w = true -> (0 < B2R w)%R -> is_finite_strict w = true) as S.
  { intros [s|s| |s m ex Hm] Fw Pw; try discriminate; [simpl in Pw; lra|reflexivity]. }
  apply B2R_inj; [now apply S|apply S; [exact F'|rewrite E', <- E; exact P]|]. now rewrite E, E'.
Qed.

(** Order. *)
Lemma counted_sign e x u : counted e x u -> is_nan x = false /\ Bsign x = false.
Proof.
  intros ((F & E) & P & Z0). split; [now apply finite_not_nan|]. destruct (Z.eq_dec u 0) as [->|Hu]; [now rewrite Z0|].
  assert (0 < B2R x)%R as Px by (rewrite E; apply Rmult_lt_0_compat; [apply IZR_lt; lia|apply bpow_gt_0]).
  destruct x as [s|s| |[] m ex Hm]; try discriminate; simpl in Px; try lra; [|reflexivity].
  exfalso. pose proof (F2R_lt_0 radix2 (Float radix2 (Z.neg m) ex) ltac:(simpl; lia)). simpl in *. lra.
Qed.
Lemma counted_div e x y u d : tick e -> counted e x u -> counted e y d -> u <= 2 ^ 53 -> d <= 2 ^ 53 -> 0 < u + d ->
  (d = 0 -> f64_div x y = B754_infinity false) /\
  (0 < d -> is_finite (f64_div x y) = true /\ B2R (f64_div x y) = rnd (IZR u / IZR d)).
Proof.
  intros He Cx Cy Bu Bd Pos. pose proof Cx as ((Fx & Ex) & Px & X0). pose proof Cy as ((Fy & Ey) & Py & Y0).
  pose proof (counted_sign _ _ _ Cx) as (_ & Sx). pose proof (counted_sign _ _ _ Cy) as (_ & Sy). pose proof (bpow_gt_0 radix2 e) as Pe.
  split.
  - intros Zd. rewrite (Y0 Zd). assert (0 < B2R x)%R as Px' by (rewrite Ex; apply Rmult_lt_0_compat; [apply IZR_lt; lia|exact Pe]).
    destruct x as [s|s| |s m ex Hm]; try discriminate; simpl in Px'; try lra. cbn in Sx. subst s. reflexivity.
  - intros Hd. destruct (Z.eq_dec u 0) as [Zu|Zu]; [|apply quotient_count with e; auto; lia].
    rewrite (X0 Zu). assert (0 < B2R y)%R as Py' by (rewrite Ey; apply Rmult_lt_0_compat; [apply IZR_lt; lia|exact Pe]).
    destruct y as [s|s| |s m ex Hm]; try discriminate; simpl in Py'; try lra. cbn in Sy. subst s u.
    split; [reflexivity|]. unfold Rdiv. rewrite Rmult_0_l, rnd_0. reflexivity.
Qed.
Lemma ratio_order e e' x y x' y' u d u' d' : tick e -> tick e' -> counted e x u -> counted e y d -> counted e' x' u' -> counted e' y' d' ->
  u <= 2 ^ 53 -> d <= 2 ^ 53 -> u' <= 2 ^ 53 -> d' <= 2 ^ 53 -> 0 < u + d -> 0 < u' + d' -> u * d' <= u' * d ->
  (xr (f64_div x y) <= xr (f64_div x' y'))%R.
Proof.
  intros He He' Cx Cy Cx' Cy' B1 B2 B3 B4 P P' L.
  destruct (counted_div e x y u d He Cx Cy B1 B2 P) as (I & Q). destruct (counted_div e' x' y' u' d' He' Cx' Cy' B3 B4 P') as (I' & Q').
  pose proof Cx as (_ & Px & _). pose proof Cx' as (_ & Px' & _). pose proof Cy as (_ & Py & _). pose proof Cy' as (_ & Py' & _).
  destruct (Z.eq_dec d' 0) as [Z'|Z']; [rewrite (I' Z'); apply xr_range|].
  destruct (Z.eq_dec d 0) as [Z0|Z0]; [subst d; exfalso; nia|].
  destruct (Q ltac:(lia)) as (F & E). destruct (Q' ltac:(lia)) as (F' & E').
  rewrite !xr_finite, E, E' by assumption. apply rnd_mono.
  assert (0 < IZR d)%R by (apply IZR_lt; lia). assert (0 < IZR d')%R by (apply IZR_lt; lia).
  apply IZR_le in L. rewrite !mult_IZR in L.
  apply Rmult_le_reg_r with (IZR d * IZR d')%R; [nra|].
  replace (IZR u / IZR d * (IZR d * IZR d'))%R with (IZR u * IZR d')%R by (field; lra).
  replace (IZR u' / IZR d' * (IZR d * IZR d'))%R with (IZR u' * IZR d)%R by (field; lra). exact L.
Qed.

(** Products, and series that do not move. *)
Lemma ticks_mul e e0 x y a b : tick (e + e0) -> ticks e x a -> ticks e0 y b -> Z.abs (a * b) <= 2 ^ 53 -> ticks (e + e0) (f64_mul x y) (a * b).
Proof.
  intros He (F1 & E1) (F2 & E2) H. apply (tick_op _ _ (e + e0) _ (mul_xr x y F1 F2) He H).
  rewrite E1, E2, mult_IZR, bpow_plus. ring.
Qed.
Lemma ticks_int n : exact_int n -> ticks 0 (i2f n) n.
Proof. intros H. split; [now apply i2f_finite|]. rewrite i2f_B2R by exact H. simpl. ring. Qed.
Lemma ticks_times e x a n : tick e -> ticks e x a -> Z.abs n <= 2 ^ 53 -> Z.abs (a * n) <= 2 ^ 53 -> ticks e (f64_mul x (i2f n)) (a * n).
Proof.
  intros He Hx Hn H. rewrite <- (Z.add_0_r e). apply ticks_mul; rewrite ?Z.add_0_r; auto. apply ticks_int. unfold exact_int. lia.
Qed.
Lemma ticks_part e x a n : tick e -> ticks e x (a * n) -> 0 < n <= 2 ^ 53 -> Z.abs (a * n) <= 2 ^ 53 -> ticks e (f64_div x (i2f n)) a.
Proof.
  intros He Hx Hn H. destruct (div_len e x (a * n) n He Hx Hn H) as (F & E). split; [exact F|]. rewrite E.
  assert (0 < IZR n)%R by (apply IZR_lt; lia).
  replace (IZR (a * n) * bpow radix2 e / IZR n)%R with (IZR a * bpow radix2 e)%R by (rewrite mult_IZR; field; lra).
  apply round_generic; [apply valid_rnd_N|]. apply tick_format; [exact He|]. nia.
Qed.
Lemma ticks_finer e j x k : 0 <= j -> ticks e x k <-> ticks (e - j) x (k * 2 ^ j).
Proof.
  intros Hj. unfold ticks. replace (IZR (k * 2 ^ j) * bpow radix2 (e - j))%R with (IZR k * bpow radix2 e)%R; [tauto|].
  rewrite mult_IZR. change 2 with (radix_val radix2) at 1. rewrite IZR_Zpower by exact Hj. rewrite Rmult_assoc, <- bpow_plus. do 2 f_equal. lia.
Qed.
Lemma iterates_all (P Q : f64 -> Prop) step l : (forall x c, P x -> Q c -> P (step x c)) -> Forall Q l -> forall x, P x ->
  Forall P (iterates step x l).
Proof. intros S H. induction H as [|c l Hc H IH]; intros x Hx; cbn [iterates]; constructor; auto. Qed.
Lemma total_flat k m : total (repeat k m) = k * Z.of_nat m.
Proof. induction m as [|m IH]; [simpl; lia|]. cbn [repeat total fold_right]. fold (total (repeat k m)). lia. Qed.
Lemma weight_flat k m : weight (repeat k m) = Z.abs k * Z.of_nat m.
Proof. induction m as [|m IH]; [unfold weight; simpl; lia|]. cbn [repeat]. rewrite weight_cons. lia. Qed.
Lemma flat_two e k xs : Forall (fun x => ticks e x k) xs -> Forall2 (ticks e) xs (repeat k (length xs)).
Proof. induction 1; cbn [repeat List.length]; constructor; auto. Qed.
(** The first value. *)
Lemma flat_seed e k xs n : tick e -> (0 < n)%nat -> length xs = n -> Z.abs k * Z.of_nat n <= 2 ^ 53 -> Z.of_nat n <= 2 ^ 53 -> Forall (fun x => ticks e x k) xs ->
  ticks e (f64_div (fold_left f64_add xs (i2f 0)) (i2f (Z.of_nat n))) k.
Proof.
  intros He Hn L B Bn H. pose proof (sum_ticks e He xs _ (i2f 0) 0 (flat_two e k xs H) (ticks_zero e)) as K.
  rewrite weight_flat, total_flat, L in K. specialize (K ltac:(lia)). apply ticks_part; auto; lia.
Qed.
Lemma flat_smooth e k x c n : tick e -> 0 < n <= 2 ^ 53 -> Z.abs k * n <= 2 ^ 53 -> ticks e x k -> ticks e c k ->
  ticks e (f64_div (f64_add (f64_sub (f64_mul x (i2f n)) x) c) (i2f n)) k.
Proof.
  intros He Hn B Hx Hc. apply ticks_part; auto; [|nia]. replace (k * n) with (k * n - k + k) by lia.
  apply ticks_add; auto; [|nia]. apply ticks_sub; auto; [|nia]. apply ticks_times; auto; nia.
Qed.
Lemma flat_second e k x c n : tick e -> 0 < n <= 2 ^ 53 -> Z.abs k * n <= 2 ^ 53 -> ticks e x k -> ticks e c k ->
  ticks e (f64_div (f64_add (f64_mul x (f64_sub (i2f n) (i2f 1))) c) (i2f n)) k.
Proof.
  intros He Hn B Hx Hc. apply ticks_part; auto; [|nia]. replace (k * n) with (k * (n - 1) + k) by lia.
  apply ticks_add; auto; [|nia]. rewrite <- (Z.add_0_r e). apply ticks_mul; rewrite ?Z.add_0_r; auto; [|nia].
  apply ticks_sub; [unfold tick; lia|apply ticks_int; unfold exact_int; lia|apply ticks_int; unfold exact_int; lia|lia].
Qed.
(** The weights of EMA when the period is one less than a power of two. *)
Lemma ema_weight j n : 1 <= j -> n + 1 = 2 ^ j -> 0 < n < 2 ^ 53 ->
  ticks (1 - j) (f64_div (i2f 2) (f64_add (i2f n) (i2f 1))) 1 /\
  ticks (1 - j) (f64_sub (i2f 1) (f64_div (i2f 2) (f64_add (i2f n) (i2f 1)))) (2 ^ (j - 1) - 1).
Proof.
  intros Hj E Hn. assert (j <= 53) as Hj2.
  { destruct (Z.le_gt_cases j 53) as [A|A]; [exact A|]. pose proof (Z.pow_lt_mono_r 2 53 j ltac:(lia) ltac:(lia) A). lia. }
  assert (tick (1 - j)) as T by (unfold tick; lia). assert (tick 0) as T0 by (unfold tick; lia).
  assert (ticks 0 (f64_add (i2f n) (i2f 1)) (2 ^ j)) as (Fs & Es).
  { rewrite <- E. apply ticks_add; [exact T0| | |lia]; apply ticks_int; unfold exact_int; lia. }
  assert (2 ^ j = 2 * 2 ^ (j - 1)) as Ep by (rewrite <- Z.pow_succ_r by lia; f_equal; lia).
  assert (ticks (1 - j) (f64_div (i2f 2) (f64_add (i2f n) (i2f 1))) 1) as P.
  { assert (ticks 0 (i2f 2) 2) as (F2 & E2) by (apply ticks_int; unfold exact_int; lia).
    assert (B2R (f64_add (i2f n) (i2f 1)) = bpow radix2 j) as Ej.
    { rewrite Es. rewrite Rmult_1_r. change 2 with (radix_val radix2). apply IZR_Zpower. lia. }
    pose proof (bpow_gt_0 radix2 j) as Pj.
    apply (tick_op _ _ (1 - j) 1 (div_xr _ _ F2 Fs ltac:(rewrite Ej; lra)) T ltac:(lia)).
    rewrite Ej, E2. unfold Zminus. rewrite bpow_plus, bpow_opp. change (bpow radix2 1) with 2%R. change (bpow radix2 0) with 1%R. field. lra. }
  split; [exact P|]. apply ticks_sub; [exact T| |exact P|nia].
  assert (ticks 0 (i2f 1) 1) as O by (apply ticks_int; unfold exact_int; lia).
  apply (ticks_finer 0 (j - 1)) in O; [|lia]. replace (0 - (j - 1)) with (1 - j) in O by lia. now rewrite Z.mul_1_l in O.
Qed.
Lemma flat_ema e k j x c p q : 1 <= j -> tick (e + (1 - j)) -> Z.abs k * 2 ^ (j - 1) <= 2 ^ 53 -> ticks e x k -> ticks e c k ->
  ticks (1 - j) p 1 -> ticks (1 - j) q (2 ^ (j - 1) - 1) -> ticks e (f64_add (f64_mul c p) (f64_mul x q)) k.
Proof.
  intros Hj T B Hx Hc Hp Hq. pose proof (Z.pow_pos_nonneg 2 (j - 1) ltac:(lia) ltac:(lia)).
  apply (ticks_finer e (j - 1)); [lia|]. replace (e - (j - 1)) with (e + (1 - j)) by lia.
  replace (k * 2 ^ (j - 1)) with (k * 1 + k * (2 ^ (j - 1) - 1)) by lia.
  apply ticks_add; [exact T|apply ticks_mul; auto; nia|apply ticks_mul; auto; nia|nia].
Qed.
