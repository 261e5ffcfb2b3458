(** Rounding errors of float64 operations: how far a machine result is from the
    result of the same formula in exact arithmetic. *)
From Coq Require Import ZArith Lia Reals Lra Psatz.
From Flocq Require Import Core BinarySingleNaN Relative Plus_error.
From Verif Require Import Go.Outcome Go.Int64 Go.Float64 Go.FloatOrder Go.FloatReal.
Open Scope R_scope.

(** Unit roundoff and half the smallest subnormal. *)
Definition uro : R := bpow radix2 (-53).
Definition eta : R := bpow radix2 (-1075).

Lemma uro_pos : 0 < uro. Proof. apply bpow_gt_0. Qed.
Lemma eta_pos : 0 < eta. Proof. apply bpow_gt_0. Qed.
Lemma uro_val : uro = / IZR (2 ^ 53).
Proof. unfold uro. cbn [bpow]. f_equal. Qed.
Lemma uro_small : uro <= / 1000000.
Proof. rewrite uro_val. apply Rinv_le_contravar; [lra|]. apply IZR_le. vm_compute. discriminate. Qed.
Lemma u_ro_uro : u_ro radix2 53 = uro.
Proof.
  unfold u_ro, uro. change (- (53) + 1)%Z with (1 + -53)%Z. rewrite bpow_plus, bpow_1.
  change (IZR radix2) with 2. field.
Qed.
Lemma uro_quot : uro / (1 + uro) <= uro.
Proof.
  pose proof uro_pos. apply Rmult_le_reg_r with (1 + uro); [lra|]. unfold Rdiv. rewrite Rmult_assoc, Rinv_l by lra. nra.
Qed.

Lemma rnd_err r : Rabs (rnd r - r) <= uro * Rabs r + eta.
Proof.
  destruct (relative_error_N_FLT'_ex radix2 (3 - 1024 - 53) 53 ltac:(lia) (fun x => negb (Z.even x)) r)
    as (e & h & He & Hh & _ & E).
  unfold rnd, fexp64. rewrite E. rewrite u_ro_uro in He. pose proof uro_quot as Q.
  replace (r * (1 + e) + h - r) with (r * e + h) by ring.
  eapply Rle_trans; [apply Rabs_triang|]. apply Rplus_le_compat.
  - rewrite Rabs_mult, Rmult_comm. apply Rmult_le_compat_r; [apply Rabs_pos|]. lra.
  - eapply Rle_trans; [exact Hh|]. unfold eta.
    change (/ 2) with (bpow radix2 (-1)). rewrite <- bpow_plus. apply bpow_le. lia.
Qed.
Lemma rnd_add_err (x y : f64) : Rabs (rnd (B2R x + B2R y) - (B2R x + B2R y)) <= uro * Rabs (B2R x + B2R y).
Proof.
  destruct (FLT_plus_error_N_ex radix2 (3 - 1024 - 53) 53 (fun x => negb (Z.even x)) (B2R x) (B2R y))
    as (e & He & E); [apply generic_format_B2R|apply generic_format_B2R|].
  unfold rnd, fexp64. rewrite E. rewrite u_ro_uro in He. pose proof uro_quot as Q.
  replace ((B2R x + B2R y) * (1 + e) - (B2R x + B2R y)) with ((B2R x + B2R y) * e) by ring.
  rewrite Rabs_mult, Rmult_comm. apply Rmult_le_compat_r; [apply Rabs_pos|]. lra.
Qed.

(** Magnitudes below 2^1000 never overflow in one operation. *)
Definition huge : R := bpow radix2 1000.
Lemma huge_ge1 : 1 <= huge.
Proof. unfold huge. change 1 with (bpow radix2 0). apply bpow_le. lia. Qed.
Lemma huge_lt_big : 4 * huge < big.
Proof.
  change big with (bpow radix2 1024). unfold huge.
  change 4 with (bpow radix2 2). rewrite <- bpow_plus. apply bpow_lt. lia.
Qed.
Global Opaque huge.

(** [x] is a finite machine number within [e] of [y]. *)
Definition near (x : f64) (y e : R) : Prop := is_finite x = true /\ Rabs (B2R x - y) <= e.

Lemma near_abs x y e : near x y e -> Rabs (B2R x) <= Rabs y + e.
Proof. intros [_ H]. replace (B2R x) with (y + (B2R x - y)) by ring. eapply Rle_trans; [apply Rabs_triang|]. lra. Qed.
Lemma near_nonneg x y e : near x y e -> 0 <= e.
Proof. intros [_ H]. eapply Rle_trans; [apply Rabs_pos|exact H]. Qed.
Lemma near_weaken x y e e' : near x y e -> e <= e' -> near x y e'.
Proof. intros [H1 H2] L. split; [assumption|lra]. Qed.
Lemma near_refl x : is_finite x = true -> near x (B2R x) 0.
Proof. intros H. split; [assumption|]. rewrite Rminus_diag_eq by reflexivity. rewrite Rabs_R0. lra. Qed.
Lemma near_int z : exact_int z -> near (i2f z) (IZR z) 0.
Proof. intros H. pose proof (near_refl (i2f z) (i2f_finite z H)) as K. now rewrite i2f_B2R in K. Qed.

Lemma small_rnd r : Rabs r <= huge -> Rabs (rnd r) < big.
Proof.
  intros H. pose proof (rnd_err r) as E. pose proof uro_pos. pose proof uro_small. pose proof huge_ge1. pose proof huge_lt_big.
  assert (eta <= 1) by (unfold eta; change 1 with (bpow radix2 0); apply bpow_le; lia).
  replace (rnd r) with (r + (rnd r - r)) by ring. pose proof (Rabs_triang r (rnd r - r)). pose proof (Rabs_pos r). nra.
Qed.
Lemma of_xr z r : is_nan z = false /\ xr z = sat (rnd r) -> Rabs r <= huge -> is_finite z = true /\ B2R z = rnd r.
Proof.
  intros [N E] H. pose proof (small_rnd r H) as S. rewrite sat_id in E by lra.
  assert (is_finite z = true) as F by (apply xr_lt_finite; [assumption|now rewrite E]).
  split; [assumption|]. now rewrite <- xr_finite.
Qed.

Lemma near_add x X e1 y Y e2 : near x X e1 -> near y Y e2 -> Rabs X + e1 + Rabs Y + e2 <= huge ->
  near (f64_add x y) (X + Y) (e1 + e2 + uro * (Rabs (X + Y) + e1 + e2)).
Proof.
  intros [Fx Hx] [Fy Hy] H. pose proof (near_abs x X e1 (conj Fx Hx)). pose proof (near_abs y Y e2 (conj Fy Hy)).
  pose proof uro_pos. pose proof (Rabs_triang (B2R x) (B2R y)) as T.
  destruct (of_xr (f64_add x y) (B2R x + B2R y) (add_xr x y Fx Fy)) as [F E]; [lra|].
  split; [assumption|]. rewrite E. pose proof (rnd_add_err x y) as R.
  assert (Rabs (B2R x + B2R y - (X + Y)) <= e1 + e2) as D.
  { replace (B2R x + B2R y - (X + Y)) with ((B2R x - X) + (B2R y - Y)) by ring.
    eapply Rle_trans; [apply Rabs_triang|]. lra. }
  replace (rnd (B2R x + B2R y) - (X + Y)) with ((rnd (B2R x + B2R y) - (B2R x + B2R y)) + (B2R x + B2R y - (X + Y))) by ring.
  eapply Rle_trans; [apply Rabs_triang|].
  assert (Rabs (B2R x + B2R y) <= Rabs (X + Y) + (e1 + e2)).
  { replace (B2R x + B2R y) with (X + Y + (B2R x + B2R y - (X + Y))) by ring. eapply Rle_trans; [apply Rabs_triang|]. lra. }
  nra.
Qed.
Lemma near_sub x X e1 y Y e2 : near x X e1 -> near y Y e2 -> Rabs X + e1 + Rabs Y + e2 <= huge ->
  near (f64_sub x y) (X - Y) (e1 + e2 + uro * (Rabs (X - Y) + e1 + e2) + eta).
Proof.
  intros [Fx Hx] [Fy Hy] H. pose proof (near_abs x X e1 (conj Fx Hx)). pose proof (near_abs y Y e2 (conj Fy Hy)).
  pose proof uro_pos. pose proof (Rabs_triang (B2R x) (- B2R y)) as T. rewrite Rabs_Ropp in T.
  destruct (of_xr (f64_sub x y) (B2R x - B2R y) (sub_xr x y Fx Fy)) as [F E].
  { unfold Rminus. lra. }
  split; [assumption|]. rewrite E. pose proof (rnd_err (B2R x - B2R y)) as R.
  assert (Rabs (B2R x - B2R y - (X - Y)) <= e1 + e2) as D.
  { replace (B2R x - B2R y - (X - Y)) with ((B2R x - X) + - (B2R y - Y)) by ring.
    eapply Rle_trans; [apply Rabs_triang|]. rewrite Rabs_Ropp. lra. }
  replace (rnd (B2R x - B2R y) - (X - Y)) with ((rnd (B2R x - B2R y) - (B2R x - B2R y)) + (B2R x - B2R y - (X - Y))) by ring.
  eapply Rle_trans; [apply Rabs_triang|].
  assert (Rabs (B2R x - B2R y) <= Rabs (X - Y) + (e1 + e2)).
  { replace (B2R x - B2R y) with (X - Y + (B2R x - B2R y - (X - Y))) by ring. eapply Rle_trans; [apply Rabs_triang|]. lra. }
  nra.
Qed.
Lemma near_mul x X e1 y Y e2 : near x X e1 -> near y Y e2 -> (Rabs X + e1) * (Rabs Y + e2) <= huge ->
  near (f64_mul x y) (X * Y)
    (let d := e1 * Rabs Y + e2 * Rabs X + e1 * e2 in d + uro * (Rabs (X * Y) + d) + eta).
Proof.
  intros Nx Ny H. pose proof (near_abs x X e1 Nx). pose proof (near_abs y Y e2 Ny).
  pose proof (near_nonneg x X e1 Nx). pose proof (near_nonneg y Y e2 Ny). destruct Nx as [Fx Hx], Ny as [Fy Hy].
  pose proof uro_pos. pose proof (Rabs_pos X). pose proof (Rabs_pos Y). pose proof (Rabs_pos (B2R x)). pose proof (Rabs_pos (B2R y)).
  destruct (of_xr (f64_mul x y) (B2R x * B2R y) (mul_xr x y Fx Fy)) as [F E].
  { rewrite Rabs_mult. eapply Rle_trans; [|exact H]. apply Rmult_le_compat; assumption. }
  split; [assumption|]. rewrite E. pose proof (rnd_err (B2R x * B2R y)) as R.
  cbv zeta. set (d := e1 * Rabs Y + e2 * Rabs X + e1 * e2).
  assert (Rabs (B2R x * B2R y - X * Y) <= d) as D.
  { replace (B2R x * B2R y - X * Y) with ((B2R x - X) * Y + (B2R y - Y) * X + (B2R x - X) * (B2R y - Y)) by ring.
    eapply Rle_trans; [apply Rabs_triang|]. unfold d. apply Rplus_le_compat.
    - eapply Rle_trans; [apply Rabs_triang|]. rewrite !Rabs_mult.
      apply Rplus_le_compat; (apply Rmult_le_compat_r; [apply Rabs_pos|assumption]).
    - rewrite Rabs_mult. apply Rmult_le_compat; try apply Rabs_pos; assumption. }
  replace (rnd (B2R x * B2R y) - X * Y) with ((rnd (B2R x * B2R y) - (B2R x * B2R y)) + (B2R x * B2R y - X * Y)) by ring.
  eapply Rle_trans; [apply Rabs_triang|].
  assert (Rabs (B2R x * B2R y) <= Rabs (X * Y) + d).
  { replace (B2R x * B2R y) with (X * Y + (B2R x * B2R y - X * Y)) by ring. eapply Rle_trans; [apply Rabs_triang|]. lra. }
  nra.
Qed.
(** Division by a positive exact integer. *)
Lemma near_div_int x X e n : near x X e -> (1 <= n)%Z -> exact_int n -> Rabs X + e <= huge ->
  near (f64_div x (i2f n)) (X / IZR n) ((e + uro * (Rabs X + e)) / IZR n + eta).
Proof.
  intros Nx Hn En H. pose proof (near_abs x X e Nx). pose proof (near_nonneg x X e Nx). destruct Nx as [Fx Hx].
  pose proof uro_pos. assert (1 <= IZR n) as N1 by (now apply (IZR_le 1)).
  pose proof (i2f_finite n En) as Fn. pose proof (i2f_B2R n En) as Bn.
  assert (forall a, Rabs (a / IZR n) = Rabs a / IZR n) as Ab.
  { intros a. unfold Rdiv. rewrite Rabs_mult, Rabs_inv, (Rabs_pos_eq (IZR n)) by lra. reflexivity. }
  assert (0 < / IZR n <= 1) as Ni.
  { split; [apply Rinv_0_lt_compat; lra|]. rewrite <- Rinv_1. apply Rinv_le_contravar; lra. }
  destruct (of_xr (f64_div x (i2f n)) (B2R x / IZR n)) as [F E].
  { rewrite <- Bn. apply div_xr; auto. rewrite Bn. lra. }
  { rewrite Ab. unfold Rdiv. pose proof (Rabs_pos (B2R x)). nra. }
  split; [assumption|]. rewrite E. pose proof (rnd_err (B2R x / IZR n)) as R. rewrite Ab in R.
  replace (rnd (B2R x / IZR n) - X / IZR n) with ((rnd (B2R x / IZR n) - B2R x / IZR n) + (B2R x - X) / IZR n) by (field; lra).
  eapply Rle_trans; [apply Rabs_triang|]. rewrite Ab. unfold Rdiv in *.
  assert (Rabs (B2R x) * / IZR n <= (Rabs X + e) * / IZR n) by (apply Rmult_le_compat_r; lra).
  assert (Rabs (B2R x - X) * / IZR n <= e * / IZR n) by (apply Rmult_le_compat_r; lra).
  nra.
Qed.

(** ** Sums *)
Definition sumR (l : list R) : R := fold_right Rplus 0 l.
Definition sumabs (l : list R) : R := fold_right (fun x a => Rabs x + a) 0 l.
Lemma sumabs_nonneg l : 0 <= sumabs l.
Proof. induction l as [|x l IH]; cbn [sumabs fold_right]; [lra|]. pose proof (Rabs_pos x). fold (sumabs l). lra. Qed.
Lemma sumR_le_abs l : Rabs (sumR l) <= sumabs l.
Proof.
  induction l as [|x l IH]; cbn [sumR sumabs fold_right]; [rewrite Rabs_R0; lra|]. fold (sumR l) (sumabs l).
  eapply Rle_trans; [apply Rabs_triang|]. lra.
Qed.
Lemma sumabs_bound m l : List.Forall (fun x => Rabs x <= m) l -> sumabs l <= INR (List.length l) * m.
Proof.
  intros H. induction H as [|x l Hx H IH]; cbn [sumabs fold_right List.length]; [simpl; lra|].
  fold (sumabs l). rewrite S_INR. lra.
Qed.

Lemma pow_uro_ge1 k : 1 <= (1 + uro) ^ k.
Proof. apply pow_R1_Rle. pose proof uro_pos. lra. Qed.
(** (1+u)^k - 1 <= k * 2^-52 while k <= 2^52. *)
Lemma pow_uro k : INR k * (2 * uro) <= 1 -> (1 + uro) ^ k <= 1 + INR k * (2 * uro).
Proof.
  pose proof uro_pos as U. induction k as [|k IH]; intros H; [simpl; lra|].
  rewrite S_INR in *. pose proof (pos_INR k). cbn [pow]. specialize (IH ltac:(nra)). nra.
Qed.

(** A left-to-right machine sum. *)
Lemma sum_near (l : list f64) : forall a : f64, is_finite a = true -> List.Forall (fun x : f64 => is_finite x = true) l ->
  (1 + uro) ^ List.length l * (Rabs (B2R a) + sumabs (List.map (@B2R 53 1024) l)) <= huge ->
  near (List.fold_left f64_add l a) (B2R a + sumR (List.map (@B2R 53 1024) l))
    (((1 + uro) ^ List.length l - 1) * (Rabs (B2R a) + sumabs (List.map (@B2R 53 1024) l))).
Proof.
  pose proof uro_pos as U.
  induction l as [|x l IH]; intros a Fa Fl H.
  - cbn [List.fold_left List.map sumR sumabs fold_right List.length pow]. pose proof (near_refl a Fa) as K.
    rewrite !Rplus_0_r. eapply near_weaken; [exact K|]. lra.
  - inversion Fl as [|? ? Fx Fl']; subst. cbn [List.fold_left List.map sumR sumabs fold_right List.length pow] in *.
    fold (sumR (List.map (@B2R 53 1024) l)) in *. fold (sumabs (List.map (@B2R 53 1024) l)) in *.
    set (SA := sumabs (List.map (@B2R 53 1024) l)) in *. set (SR := sumR (List.map (@B2R 53 1024) l)) in *.
    set (P := (1 + uro) ^ List.length l) in *.
    assert (1 <= P) as P1 by apply pow_uro_ge1. assert (0 <= SA) as SA0 by apply sumabs_nonneg.
    pose proof (Rabs_pos (B2R a)) as A0. pose proof (Rabs_pos (B2R x)) as X0.
    assert (Rabs (B2R a) + Rabs (B2R x) <= (1 + uro) * P * (Rabs (B2R a) + (Rabs (B2R x) + SA))) as Hs.
    { assert (1 <= (1 + uro) * P) by nra. nra. }
    destruct (of_xr (f64_add a x) (B2R a + B2R x) (add_xr a x Fa Fx)) as [F1 E1].
    { pose proof (Rabs_triang (B2R a) (B2R x)). lra. }
    pose proof (rnd_add_err a x) as Er. rewrite <- E1 in Er. pose proof (Rabs_triang (B2R a) (B2R x)) as Tr.
    assert (Rabs (B2R (f64_add a x)) <= (1 + uro) * (Rabs (B2R a) + Rabs (B2R x))) as Hb.
    { replace (B2R (f64_add a x)) with ((B2R a + B2R x) + (B2R (f64_add a x) - (B2R a + B2R x))) by ring.
      eapply Rle_trans; [apply Rabs_triang|]. nra. }
    destruct (IH (f64_add a x) F1 Fl') as [F2 E2].
    { fold SA P. eapply Rle_trans; [|exact H]. 
      replace ((1 + uro) * P * (Rabs (B2R a) + (Rabs (B2R x) + SA))) with (P * ((1 + uro) * (Rabs (B2R a) + Rabs (B2R x)) + (1 + uro) * SA)) by ring.
      apply Rmult_le_compat_l; [lra|]. nra. }
    fold SA SR P in E2. split; [exact F2|].
    replace (B2R (List.fold_left f64_add l (f64_add a x)) - (B2R a + (B2R x + SR)))
      with ((B2R (List.fold_left f64_add l (f64_add a x)) - (B2R (f64_add a x) + SR)) + (B2R (f64_add a x) - (B2R a + B2R x))) by ring.
    eapply Rle_trans; [apply Rabs_triang|].
    assert ((P - 1) * (Rabs (B2R (f64_add a x)) + SA) <= (P - 1) * ((1 + uro) * (Rabs (B2R a) + Rabs (B2R x)) + SA)) as G1.
    { apply Rmult_le_compat_l; lra. }
    assert (uro * Rabs (B2R a + B2R x) <= uro * (Rabs (B2R a) + Rabs (B2R x))) as G2 by (apply Rmult_le_compat_l; lra).
    assert (0 <= uro * P * SA) as G3 by (apply Rmult_le_pos; [apply Rmult_le_pos; lra|lra]).
    replace (((1 + uro) * P - 1) * (Rabs (B2R a) + (Rabs (B2R x) + SA)))
      with ((P - 1) * ((1 + uro) * (Rabs (B2R a) + Rabs (B2R x)) + SA) + uro * (Rabs (B2R a) + Rabs (B2R x)) + uro * P * SA) by ring.
    lra.
Qed.

(** Sums of integers are exact while all absolute values add up to at most 2^53. *)
Lemma add_int x y : exact_int x -> exact_int y -> exact_int (x + y) ->
  is_finite (f64_add (i2f x) (i2f y)) = true /\ B2R (f64_add (i2f x) (i2f y)) = IZR (x + y).
Proof.
  intros Hx Hy Hs. pose proof (i2f_finite x Hx) as Fx. pose proof (i2f_finite y Hy) as Fy.
  destruct (add_xr (i2f x) (i2f y) Fx Fy) as [N E].
  rewrite !i2f_B2R, <- plus_IZR, rnd_int, sat_id in E by (assumption || (apply Rlt_le; now apply exact_lt_big)).
  assert (is_finite (f64_add (i2f x) (i2f y)) = true) as F.
  { apply xr_lt_finite; [assumption|]. rewrite E. now apply exact_lt_big. }
  split; [assumption|]. rewrite <- E. symmetry. now apply xr_finite.
Qed.
