(** C96: float64 positions under arbitrary histories, with partial closes. *)
From Coq Require Import Reals Lra Lia String List.
From Flocq Require Import Core BinarySingleNaN Relative.
From Verif Require Import Go.Outcome Go.Float64 Go.FloatReal Go.FloatError Go.Num Model.Asset Model.Pair Model.Entities
  Spec.AccuracySpec Spec.EntitySpec Spec.MoneySpec Spec.LedgerSpec Proofs.Entities.
Import ListNotations.
Open Scope list_scope.
Open Scope R_scope.

(** *** One operation *)
Lemma rnd_rel r : exists d h, Rabs d <= uro /\ Rabs h <= eta /\ rnd r = r * (1 + d) + h.
Proof.
  destruct (relative_error_N_FLT'_ex radix2 (3 - 1024 - 53) 53 ltac:(lia) (fun x => negb (Z.even x)) r)
    as (e & h & He & Hh & _ & E).
  exists e, h. rewrite u_ro_uro in He. pose proof uro_quot. split; [lra|]. split; [|exact E].
  unfold eta. replace (bpow radix2 (-1075)) with (/ 2 * bpow radix2 (-1074)); [exact Hh|].
  change (-1074)%Z with (1 + -1075)%Z. rewrite bpow_plus. change (bpow radix2 1) with 2. field.
Qed.
Lemma mul_rel x y : is_finite x = true -> is_finite y = true -> Rabs (B2R x * B2R y) <= huge ->
  is_finite (f64_mul x y) = true /\ exists d h, Rabs d <= uro /\ Rabs h <= eta /\ B2R (f64_mul x y) = B2R x * B2R y * (1 + d) + h.
Proof.
  intros Fx Fy H. destruct (of_xr _ _ (mul_xr x y Fx Fy) H) as [F E]. split; [exact F|]. rewrite E. apply rnd_rel.
Qed.
Lemma div_rel x y : is_finite x = true -> is_finite y = true -> B2R y <> 0 -> Rabs (B2R x / B2R y) <= huge ->
  is_finite (f64_div x y) = true /\ exists d h, Rabs d <= uro /\ Rabs h <= eta /\ B2R (f64_div x y) = B2R x / B2R y * (1 + d) + h.
Proof.
  intros Fx Fy N H. destruct (of_xr _ _ (div_xr x y Fx Fy N) H) as [F E]. split; [exact F|]. rewrite E. apply rnd_rel.
Qed.
Lemma plus_rel r : Rabs (rnd r - r) <= uro * Rabs r -> exists d, Rabs d <= uro /\ rnd r = r * (1 + d).
Proof.
  intros H. destruct (Req_dec r 0) as [-> |N].
  - exists 0. rewrite Rabs_R0 in *. pose proof uro_pos. split; [lra|]. rewrite Rmult_0_r, Rminus_0_r in H.
    rewrite Rmult_0_l. destruct (Req_dec (rnd 0) 0) as [E|N]; [exact E|]. apply Rabs_pos_lt in N. lra.
  - exists ((rnd r - r) / r). split; [|field; exact N]. unfold Rdiv. rewrite Rabs_mult, Rabs_inv.
    apply Rabs_pos_lt in N. apply Rmult_le_reg_r with (Rabs r); [exact N|]. rewrite Rmult_assoc, Rinv_l by lra. lra.
Qed.
Lemma add_rel x y : is_finite x = true -> is_finite y = true -> Rabs (B2R x + B2R y) <= huge ->
  is_finite (f64_add x y) = true /\ B2R (f64_add x y) = rnd (B2R x + B2R y) /\
  exists d, Rabs d <= uro /\ B2R (f64_add x y) = (B2R x + B2R y) * (1 + d).
Proof.
  intros Fx Fy H. destruct (of_xr _ _ (add_xr x y Fx Fy) H) as [F E]. split; [exact F|]. split; [exact E|]. rewrite E.
  apply plus_rel, rnd_add_err.
Qed.
Lemma rnd_sub_err (x y : f64) : Rabs (rnd (B2R x - B2R y) - (B2R x - B2R y)) <= uro * Rabs (B2R x - B2R y).
Proof.
  pose proof (rnd_add_err x (Bopp y)) as H. rewrite B2R_Bopp in H. exact H.
Qed.
Lemma sub_rel x y : is_finite x = true -> is_finite y = true -> Rabs (B2R x - B2R y) <= huge ->
  is_finite (f64_sub x y) = true /\ B2R (f64_sub x y) = rnd (B2R x - B2R y) /\
  exists d, Rabs d <= uro /\ B2R (f64_sub x y) = (B2R x - B2R y) * (1 + d).
Proof.
  intros Fx Fy H. destruct (of_xr _ _ (sub_xr x y Fx Fy) H) as [F E]. split; [exact F|]. split; [exact E|]. rewrite E.
  apply plus_rel, rnd_sub_err.
Qed.

(** *** Quantities lie on a grid, so what is left is never tiny *)
Definition grid (r : R) : Prop := exists n : Z, r = IZR n * bpow radix2 (-253).
Lemma grid_format r : grid r <-> generic_format radix2 (FIX_exp (-253)) r.
Proof.
  split.
  - intros [n ->]. apply generic_format_FIX. exists (Float radix2 n (-253)); reflexivity.
  - intros H. apply FIX_format_generic in H. destruct H as [f -> E]. exists (Fnum f). unfold F2R. now rewrite E.
Qed.
Lemma grid_rnd r : grid r -> grid (rnd r).
Proof. rewrite !grid_format. intros H. apply generic_round_generic; [apply FIX_exp_valid|apply fexp_correct; reflexivity|apply valid_rnd_N|exact H]. Qed.
Lemma grid_add r s : grid r -> grid s -> grid (r + s).
Proof. intros [n ->] [k ->]. exists (n + k)%Z. rewrite plus_IZR. ring. Qed.
Lemma grid_sub r s : grid r -> grid s -> grid (r - s).
Proof. intros [n ->] [k ->]. exists (n - k)%Z. rewrite minus_IZR. ring. Qed.
Lemma grid_moderate x : moderate x -> grid (B2R x).
Proof.
  intros (_ & L & _). apply grid_format. unfold real in L. apply (generic_inclusion_mag radix2 (SpecFloat.fexp 53 1024)).
  - intros N. unfold FIX_exp, SpecFloat.fexp, SpecFloat.emin. assert (-200 < mag radix2 (B2R x))%Z; [|lia].
    apply mag_gt_bpow. rewrite Rabs_pos_eq; [exact L|]. pose proof (bpow_gt_0 radix2 (-200)). lra.
  - apply generic_format_B2R.
Qed.
Lemma grid_pos r : grid r -> 0 < r -> bpow radix2 (-253) <= r.
Proof.
  intros [n ->] H. pose proof (bpow_gt_0 radix2 (-253)) as B.
  assert (0 < n)%Z as N. { apply lt_IZR. destruct (Rlt_or_le 0 (IZR n)) as [L|L]; [exact L|]. nra. }
  assert (1 <= IZR n) by (apply IZR_le; lia). nra.
Qed.

(** *** The two formulas for the open price, in exact arithmetic with
    perturbations *)
Lemma compound a k d : Rabs (a - 1) <= k * uro -> 0 <= k <= 10 -> Rabs d <= uro -> Rabs (a * (1 + d) - 1) <= (k + 1.01) * uro.
Proof.
  intros A K D. pose proof uro_pos. pose proof uro_small. replace (a * (1 + d) - 1) with ((a - 1) + (1 + (a - 1)) * d) by ring.
  eapply Rle_trans; [apply Rabs_triang|]. rewrite Rabs_mult.
  assert (Rabs (1 + (a - 1)) <= 1.01).
  { eapply Rle_trans; [apply Rabs_triang|]. rewrite Rabs_R1. nra. }
  pose proof (Rabs_pos d). pose proof (Rabs_pos (1 + (a - 1))). nra.
Qed.
Lemma two_factors d e : Rabs d <= uro -> Rabs e <= uro -> Rabs ((1 + d) * (1 + e) - 1) <= 2.01 * uro.
Proof.
  intros D E. pose proof uro_pos. eapply Rle_trans; [apply (compound _ 1); [|lra|exact E]|lra].
  replace (1 + d - 1) with d by ring. lra.
Qed.
Lemma three_factors d e f : Rabs d <= uro -> Rabs e <= uro -> Rabs f <= uro -> Rabs ((1 + d) * (1 + e) * (1 + f) - 1) <= 3.02 * uro.
Proof. intros D E F. pose proof uro_pos. eapply Rle_trans; [apply (compound _ 2.01); [now apply two_factors|lra|exact F]|lra]. Qed.
Lemma one_plus d : Rabs d <= uro -> Rabs (1 + d - 1) <= 1 * uro.
Proof. intros H. replace (1 + d - 1) with d by ring. lra. Qed.
Lemma near_one a k : Rabs (a - 1) <= k * uro -> 0 <= k <= 10 -> Rabs a <= 1.01.
Proof.
  intros A K. pose proof uro_pos. pose proof uro_small. replace a with (1 + (a - 1)) by ring.
  eapply Rle_trans; [apply Rabs_triang|]. rewrite Rabs_R1. nra.
Qed.
Lemma mult_bound x y a b : Rabs x <= a -> Rabs y <= b -> Rabs (x * y) <= a * b.
Proof. intros H1 H2. rewrite Rabs_mult. apply Rmult_le_compat; auto using Rabs_pos. Qed.
Lemma abs_sum x y a b : Rabs x <= a -> Rabs y <= b -> Rabs (x + y) <= a + b.
Proof. intros H1 H2. eapply Rle_trans; [apply Rabs_triang|]. lra. Qed.

Lemma add_value v m T d1 h1 d2 h2 d3 h3 d4 h4 d5 :
  Rabs d1 <= uro -> Rabs d2 <= uro -> Rabs d3 <= uro -> Rabs d4 <= uro -> Rabs d5 <= uro ->
  Rabs h1 <= eta -> Rabs h2 <= eta -> Rabs h3 <= eta -> Rabs h4 <= eta -> 0 < T -> 0 < m ->
  8 * eta * (1 + T) <= uro * m ->
  Rabs (((v * (1 + d1) + h1) / T * (1 + d2) + h2 + ((m * (1 + d3) + h3) / T * (1 + d4) + h4)) * (1 + d5) * T - (v + m)) <=
    6 * uro * (Rabs v + m).
Proof.
  intros D1 D2 D3 D4 D5 H1 H2 H3 H4 HT Hm HE.
  assert (Rabs ((1 + d1) * (1 + d2) * (1 + d5) - 1) <= 4 * uro) as A.
  { pose proof uro_pos. eapply Rle_trans; [apply three_factors; assumption|lra]. }
  assert (Rabs ((1 + d3) * (1 + d4) * (1 + d5) - 1) <= 4 * uro) as B.
  { pose proof uro_pos. eapply Rle_trans; [apply three_factors; assumption|lra]. }
  set (a := (1 + d1) * (1 + d2) * (1 + d5)) in *. set (b := (1 + d3) * (1 + d4) * (1 + d5)) in *.
  set (r := (h1 * (1 + d2) + h2 * T + h3 * (1 + d4) + h4 * T) * (1 + d5)).
  replace (_ - (v + m)) with (v * (a - 1) + m * (b - 1) + r) by (unfold a, b, r; field; lra).
  pose proof (near_one _ 1 (one_plus d2 D2) ltac:(lra)) as N2. pose proof (near_one _ 1 (one_plus d4 D4) ltac:(lra)) as N4.
  pose proof (near_one _ 1 (one_plus d5 D5) ltac:(lra)) as N5. pose proof eta_pos. pose proof uro_pos.
  assert (Rabs T <= T) as AT by (rewrite Rabs_pos_eq; lra).
  assert (Rabs r <= (eta * 1.01 + eta * T + eta * 1.01 + eta * T) * 1.01) as R.
  { unfold r. apply mult_bound; [|exact N5]. apply abs_sum; [apply abs_sum; [apply abs_sum|]|]; apply mult_bound; assumption. }
  assert (Rabs r <= uro * m) as R2 by nra.
  assert (Rabs (v * (a - 1)) <= Rabs v * (4 * uro)) as V1 by (apply mult_bound; [lra|exact A]).
  assert (Rabs (m * (b - 1)) <= m * (4 * uro)) as V2 by (apply mult_bound; [rewrite Rabs_pos_eq; lra|exact B]).
  eapply Rle_trans; [apply abs_sum; [apply abs_sum; [exact V1|exact V2]|exact R2]|].
  pose proof (Rabs_pos v). nra.
Qed.
Lemma sub_value P Q p q T d1 h1 d2 h2 d3 d4 h4 d5 h5 :
  Rabs d1 <= uro -> Rabs d2 <= uro -> Rabs d3 <= uro -> Rabs d4 <= uro -> Rabs d5 <= uro ->
  Rabs h1 <= eta -> Rabs h2 <= eta -> Rabs h4 <= eta -> Rabs h5 <= eta -> 0 < T -> 0 < Q -> 0 < p -> 0 < q ->
  8 * eta * (p * Q + Q + 1 + T) <= uro * (p * q) / 4 ->
  Rabs ((((P - (p * (q / Q * (1 + d1) + h1) * (1 + d2) + h2)) * (1 + d3) * Q * (1 + d4) + h4) / T * (1 + d5) + h5) * T - (P * Q - p * q)) <=
    6 * uro * (Rabs (P * Q) + p * q).
Proof.
  intros D1 D2 D3 D4 D5 H1 H2 H4 H5 HT HQ Hp Hq HE.
  assert (Rabs ((1 + d3) * (1 + d4) * (1 + d5) - 1) <= 3.02 * uro) as A.
  { pose proof uro_pos. eapply Rle_trans; [apply three_factors; assumption|lra]. }
  assert (Rabs ((1 + d3) * (1 + d4) * (1 + d5) * (1 + d1) * (1 + d2) - 1) <= 5.04 * uro) as B.
  { pose proof uro_pos. eapply Rle_trans; [apply (compound _ 4.03); [|lra|exact D2]|lra]. eapply Rle_trans; [apply (compound _ 3.02); [exact A|lra|exact D1]|lra]. }
  set (a := (1 + d3) * (1 + d4) * (1 + d5)) in *. set (b := a * (1 + d1) * (1 + d2)) in *.
  set (r := - ((p * h1 * Q * (1 + d2) + h2 * Q) * a) + h4 * (1 + d5) + h5 * T).
  replace (_ - (P * Q - p * q)) with (P * Q * (a - 1) + - (p * q) * (b - 1) + r) by (unfold b, r, a; field; lra).
  pose proof (near_one _ 1 (one_plus d2 D2) ltac:(lra)) as N2. pose proof (near_one _ _ A ltac:(lra)) as Na.
  pose proof (near_one _ 1 (one_plus d5 D5) ltac:(lra)) as N5. pose proof eta_pos. pose proof uro_pos.
  assert (Rabs T <= T) as AT by (rewrite Rabs_pos_eq; lra). assert (Rabs Q <= Q) as AQ by (rewrite Rabs_pos_eq; lra).
  assert (Rabs p <= p) as Ap by (rewrite Rabs_pos_eq; lra).
  assert (Rabs r <= (p * eta * Q * 1.01 + eta * Q) * 1.01 + eta * 1.01 + eta * T) as R.
  { unfold r. apply abs_sum; [apply abs_sum|].
    - rewrite Rabs_Ropp. apply mult_bound; [|exact Na]. apply abs_sum; repeat apply mult_bound; assumption.
    - apply mult_bound; assumption.
    - apply mult_bound; assumption. }
  assert (0 < p * q) by now apply Rmult_lt_0_compat. assert (0 < p * Q) by now apply Rmult_lt_0_compat.
  assert (Rabs r <= uro * (p * q) / 4) as R2.
  { eapply Rle_trans; [exact R|]. eapply Rle_trans; [|exact HE].
    replace (p * eta * Q * 1.01) with (eta * (p * Q) * 1.01) by ring. nra. }
  assert (Rabs (P * Q * (a - 1)) <= Rabs (P * Q) * (3.02 * uro)) as V1 by (apply mult_bound; [lra|exact A]).
  assert (Rabs (- (p * q) * (b - 1)) <= p * q * (5.04 * uro)) as V2 by (apply mult_bound; [rewrite Rabs_Ropp, Rabs_pos_eq; lra|exact B]).
  eapply Rle_trans; [apply abs_sum; [apply abs_sum; [exact V1|exact V2]|exact R2]|].
  pose proof (Rabs_pos (P * Q)). nra.
Qed.

(** *** Magnitudes *)
Definition bd (x : R) (a : Z) : Prop := Rabs x <= bpow radix2 a.
Lemma bd_le x a b : bd x a -> (a <= b)%Z -> bd x b.
Proof. unfold bd. intros H L. eapply Rle_trans; [exact H|]. now apply bpow_le. Qed.
Lemma bd_mul x y a b : bd x a -> bd y b -> bd (x * y) (a + b).
Proof. unfold bd. intros H1 H2. rewrite bpow_plus. now apply mult_bound. Qed.
Lemma bd_add x y a : bd x a -> bd y a -> bd (x + y) (a + 1).
Proof. unfold bd. intros H1 H2. rewrite bpow_plus. change (bpow radix2 1) with 2. eapply Rle_trans; [apply abs_sum; eassumption|lra]. Qed.
Lemma bd_sub x y a : bd x a -> bd y a -> bd (x - y) (a + 1).
Proof. intros H1 H2. apply (bd_add x (- y)); [exact H1|]. unfold bd. now rewrite Rabs_Ropp. Qed.
Lemma bd_div x T a b : bd x a -> bpow radix2 (- b) <= T -> bd (x / T) (a + b).
Proof.
  unfold bd. intros H1 H2. pose proof (bpow_gt_0 radix2 (- b)). unfold Rdiv. rewrite bpow_plus. apply mult_bound; [exact H1|].
  rewrite Rabs_pos_eq by (left; apply Rinv_0_lt_compat; lra). replace b with (- - b)%Z by lia. rewrite bpow_opp.
  apply Rinv_le_contravar; assumption.
Qed.
Lemma bd_rel x d h a : bd x a -> (-900 <= a)%Z -> Rabs d <= uro -> Rabs h <= eta -> bd (x * (1 + d) + h) (a + 1).
Proof.
  unfold bd. intros H L D E. pose proof (near_one _ 1 (one_plus d D) ltac:(lra)) as N.
  eapply Rle_trans; [apply abs_sum; [apply mult_bound; [exact H|exact N]|exact E]|].
  rewrite bpow_plus. change (bpow radix2 1) with 2. assert (eta <= bpow radix2 (-905)) by (unfold eta; apply bpow_le; lia).
  assert (bpow radix2 (-905) <= bpow radix2 (-5) * bpow radix2 a).
  { rewrite <- bpow_plus. apply bpow_le. lia. }
  assert (bpow radix2 (-5) = / 32) as E5 by (simpl; lra). rewrite E5 in *. pose proof (bpow_gt_0 radix2 a). lra.
Qed.
Lemma bd_one x d a : bd x a -> Rabs d <= uro -> bd (x * (1 + d)) (a + 1).
Proof.
  unfold bd. intros H D. pose proof (near_one _ 1 (one_plus d D) ltac:(lra)) as N.
  eapply Rle_trans; [apply mult_bound; [exact H|exact N]|]. rewrite bpow_plus. change (bpow radix2 1) with 2.
  pose proof (bpow_gt_0 radix2 a). lra.
Qed.
Lemma bd_huge x a : bd x a -> (a <= 1000)%Z -> Rabs x <= huge.
Proof. intros H L. change huge with (bpow radix2 1000). eapply bd_le; eassumption. Qed.

(** *** The books beside a position *)
Definition led (k : nat) (S Gq V G : R) (p : position f64) : Prop :=
  let Q := B2R (ps_quantity p) in let P := B2R (ps_open_price p) in
  is_finite (ps_quantity p) = true /\ is_finite (ps_open_price p) = true /\ 0 < Q /\ grid Q /\
  Rabs (Q - S) <= INR k * (2 * uro) * Gq /\ Rabs S <= Gq /\ 0 < Gq <= (INR k + 1) * bpow radix2 200 /\
  Rabs (P * Q - V) <= 8 * INR k * uro * G /\ Rabs V <= G /\ 0 < G <= (INR k + 1) * bpow radix2 400.
Definition few_trades (k : nat) : Prop := INR k + 1 <= bpow radix2 20.

Lemma few_uro k : few_trades k -> 0 <= INR k * uro <= / 1000000.
Proof.
  unfold few_trades. intros H. pose proof (pos_INR k). pose proof uro_pos. split; [nra|].
  apply Rle_trans with (bpow radix2 20 * uro); [nra|]. unfold uro. rewrite <- bpow_plus.
  change (bpow radix2 (20 + -53)) with (/ IZR (2 ^ 33)). apply Rinv_le_contravar; [lra|]. apply IZR_le. vm_compute. discriminate.
Qed.
Lemma few_pow k x a : few_trades k -> 0 < x <= (INR k + 1) * bpow radix2 a -> x <= bpow radix2 (20 + a).
Proof.
  unfold few_trades. intros H [_ L]. rewrite bpow_plus. eapply Rle_trans; [exact L|].
  apply Rmult_le_compat_r; [left; apply bpow_gt_0|exact H].
Qed.
Lemma led_bounds k S Gq V G p : few_trades k -> led k S Gq V G p ->
  bd (B2R (ps_quantity p)) 221 /\ bpow radix2 (-253) <= B2R (ps_quantity p) /\
  bd (B2R (ps_open_price p) * B2R (ps_quantity p)) 421 /\ bd (B2R (ps_open_price p)) 674 /\
  Rabs (B2R (ps_open_price p) * B2R (ps_quantity p)) <= 1.001 * G /\ B2R (ps_quantity p) <= 1.001 * Gq.
Proof.
  intros Fk (FQ & FP & HQ & GQ & EQ & AS & BG & EV & AV & BV). pose proof (few_uro k Fk) as Ku.
  pose proof (few_pow k Gq 200 Fk BG) as B1. pose proof (few_pow k G 400 Fk BV) as B2.
  change (20 + 200)%Z with 220%Z in B1. change (20 + 400)%Z with 420%Z in B2.
  set (Q := B2R (ps_quantity p)) in *. set (P := B2R (ps_open_price p)) in *.
  assert (Q <= 1.001 * Gq) as Q1.
  { assert (Q - S <= INR k * (2 * uro) * Gq) by (eapply Rle_trans; [apply Rle_abs|exact EQ]).
    assert (S <= Gq) by (eapply Rle_trans; [apply Rle_abs|exact AS]).
    replace (INR k * (2 * uro) * Gq) with (2 * (INR k * uro) * Gq) in * by ring. nra. }
  assert (Rabs (P * Q) <= 1.001 * G) as V1.
  { replace (P * Q) with (V + (P * Q - V)) by ring. eapply Rle_trans; [apply abs_sum; [exact AV|exact EV]|].
    replace (8 * INR k * uro * G) with (8 * (INR k * uro) * G) by ring. nra. }
  pose proof (grid_pos Q GQ HQ) as Q2.
  assert (bd (P * Q) 421) as V2.
  { unfold bd. change 421%Z with (420 + 1)%Z. rewrite bpow_plus. change (bpow radix2 1) with 2. pose proof (bpow_gt_0 radix2 420). lra. }
  split. { unfold bd. rewrite Rabs_pos_eq by lra. change 221%Z with (220 + 1)%Z. rewrite bpow_plus. change (bpow radix2 1) with 2. pose proof (bpow_gt_0 radix2 220). lra. }
  split; [exact Q2|]. split; [exact V2|]. split; [|split; assumption].
  replace P with (P * Q / Q) by (field; lra). apply (bd_div _ _ 421 253); assumption.
Qed.
Lemma moderate_facts x : moderate x -> is_finite x = true /\ bpow radix2 (-200) <= B2R x /\ bd (B2R x) 200 /\ 0 < B2R x.
Proof.
  intros (F & L & U). unfold real in *. pose proof (bpow_gt_0 radix2 (-200)). split; [exact F|]. split; [exact L|].
  split; [|lra]. unfold bd. rewrite Rabs_pos_eq by lra. exact U.
Qed.
Lemma product_low x y : moderate x -> moderate y -> bpow radix2 (-400) <= B2R x * B2R y <= bpow radix2 400.
Proof.
  intros Hx Hy. destruct (moderate_facts x Hx) as (_ & L1 & U1 & P1), (moderate_facts y Hy) as (_ & L2 & U2 & P2).
  unfold bd in *. rewrite Rabs_pos_eq in U1, U2 by lra. pose proof (bpow_gt_0 radix2 (-200)). split.
  - change (-400)%Z with (-200 + -200)%Z. rewrite bpow_plus. apply Rmult_le_compat; lra.
  - change 400%Z with (200 + 200)%Z. rewrite bpow_plus. apply Rmult_le_compat; lra.
Qed.
(** The books after one more trade, from the two facts about it. *)
Lemma led_next k S Gq V G (p p' : position f64) s q m : few_trades (Datatypes.S k) -> led k S Gq V G p ->
  s = 1 \/ s = -1 -> 0 < q <= bpow radix2 200 -> 0 < m <= bpow radix2 400 ->
  is_finite (ps_quantity p') = true -> is_finite (ps_open_price p') = true ->
  0 < B2R (ps_quantity p') -> grid (B2R (ps_quantity p')) ->
  (exists d, Rabs d <= uro /\ B2R (ps_quantity p') = (B2R (ps_quantity p) + s * q) * (1 + d)) ->
  Rabs (B2R (ps_open_price p') * B2R (ps_quantity p') - (B2R (ps_open_price p) * B2R (ps_quantity p) + s * m)) <=
    6 * uro * (Rabs (B2R (ps_open_price p) * B2R (ps_quantity p)) + m) ->
  led (Datatypes.S k) (S + s * q) (Gq + q) (V + s * m) (G + m) p'.
Proof.
  intros Fk L Hs Bq Bm F1 F2 HQ' GQ' (d & D & EQ') EP'.
  assert (few_trades k) as Fk0. { unfold few_trades in *. rewrite S_INR in Fk. lra. }
  destruct (led_bounds k S Gq V G p Fk0 L) as (_ & _ & _ & _ & AV1 & Q1).
  destruct L as (FQ & FP & HQ & GQ & EQ & AS & BG & EV & AV & BV). pose proof (few_uro k Fk0) as Ku. pose proof (pos_INR k) as Pk.
  assert (forall x, 0 < x -> Rabs (s * x) <= x) as As.
  { intros x Hx. destruct Hs as [-> | ->]; [rewrite Rabs_pos_eq; lra|]. replace (-1 * x) with (- x) by ring. rewrite Rabs_Ropp, Rabs_pos_eq; lra. }
  set (Q := B2R (ps_quantity p)) in *. set (P := B2R (ps_open_price p)) in *.
  set (Q' := B2R (ps_quantity p')) in *. set (P' := B2R (ps_open_price p')) in *. pose proof uro_pos as U.
  unfold led. cbv zeta. fold Q' P'. split; [exact F1|]. split; [exact F2|]. split; [exact HQ'|]. split; [exact GQ'|]. rewrite S_INR.
  split; [|split; [|split; [|split; [|split]]]].
  - rewrite EQ'. replace ((Q + s * q) * (1 + d) - (S + s * q)) with ((Q - S) + (Q + s * q) * d) by ring.
    assert (Rabs ((Q + s * q) * d) <= (1.001 * Gq + q) * uro).
    { apply mult_bound; [|exact D]. apply abs_sum; [rewrite Rabs_pos_eq; lra|apply As; lra]. }
    eapply Rle_trans; [apply abs_sum; eassumption|].
    assert (0 <= INR k * (2 * uro) * q) by (apply Rmult_le_pos; [apply Rmult_le_pos; lra|lra]). nra.
  - apply abs_sum; [exact AS|apply As; lra].
  - lra.
  - replace (P' * Q' - (V + s * m)) with ((P' * Q' - (P * Q + s * m)) + (P * Q - V)) by ring.
    eapply Rle_trans; [apply abs_sum; [exact EP'|exact EV]|].
    assert (0 <= 8 * INR k * uro * m) by (repeat apply Rmult_le_pos; lra). nra.
  - apply abs_sum; [exact AV|apply As; lra].
  - lra.
Qed.

Lemma eta_small T m : 0 <= T <= bpow radix2 430 -> bpow radix2 (-400) <= m -> 8 * eta * T <= uro * m / 4.
Proof.
  intros HT Hm. apply Rle_trans with (bpow radix2 3 * bpow radix2 (-1075) * bpow radix2 430).
  - change (bpow radix2 3) with 8. fold eta. pose proof eta_pos. nra.
  - apply Rle_trans with (bpow radix2 (-53) * bpow radix2 (-400) * bpow radix2 (-2)).
    + rewrite <- !bpow_plus. apply bpow_le. lia.
    + fold uro. change (bpow radix2 (-2)) with (/ 4). pose proof uro_pos. nra.
Qed.
Lemma one_bd a : (0 <= a)%Z -> bd 1 a.
Proof. intros H. unfold bd. rewrite Rabs_R1. change 1 with (bpow radix2 0). now apply bpow_le. Qed.

Lemma led_add k S Gq V G (p : position f64) t : few_trades (Datatypes.S k) -> led k S Gq V G p -> moderate_trade t ->
  led (Datatypes.S k) (S + real (t_quantity t)) (Gq + real (t_quantity t))
    (V + real (t_price t) * real (t_quantity t)) (G + real (t_price t) * real (t_quantity t)) (pos_add p t).
Proof.
  intros Fk L [Mp Mq]. assert (few_trades k) as Fk0. { unfold few_trades in *. rewrite S_INR in Fk. lra. }
  destruct (led_bounds k S Gq V G p Fk0 L) as (BQ & LQ & BPQ & BP & _ & _). pose proof L as (FQ & FP & HQ & GQ & _).
  destruct (moderate_facts _ Mp) as (Fp & Lp & Up & Pp). destruct (moderate_facts _ Mq) as (Fq & Lq & Uq & Pq).
  pose proof (product_low _ _ Mp Mq) as [Lm Um]. pose proof (grid_moderate _ Mq) as Gq1. unfold real.
  set (q := t_quantity t) in *. set (pr := t_price t) in *. set (Q := ps_quantity p) in *. set (P := ps_open_price p) in *.
  pose proof (bpow_gt_0 radix2 (-400)).
  pose proof (bd_le _ _ 221 Uq ltac:(lia)) as Uq'.
  destruct (add_rel Q q FQ Fq (bd_huge _ _ (bd_add _ _ _ BQ Uq') ltac:(lia))) as (FT & RT & d0 & D0 & ET).
  set (T := f64_add Q q) in *.
  assert (grid (B2R T)) as GT by (rewrite RT; apply grid_rnd; now apply grid_add).
  assert (0 < B2R T) as PT.
  { rewrite ET. pose proof uro_small. apply Rmult_lt_0_compat; [lra|]. assert (- d0 <= uro) by (eapply Rle_trans; [apply Rle_abs|now rewrite Rabs_Ropp]). lra. }
  pose proof (grid_pos _ GT PT) as LT.
  assert (bd (B2R T) 223) as BT by (rewrite ET; change 223%Z with (221 + 1 + 1)%Z; apply bd_one; [now apply bd_add|exact D0]).
  destruct (mul_rel P Q FP FQ (bd_huge _ _ BPQ ltac:(lia))) as (F1 & d1 & h1 & D1 & H1 & E1).
  assert (bd (B2R (f64_mul P Q)) 422) as B1 by (rewrite E1; apply (bd_rel _ _ _ 421); [exact BPQ|lia|exact D1|exact H1]).
  assert (bd (B2R (f64_mul P Q) / B2R T) 675) as B1' by (apply (bd_div _ _ 422 253); [exact B1|exact LT]).
  destruct (div_rel (f64_mul P Q) T F1 FT ltac:(lra) (bd_huge _ _ B1' ltac:(lia))) as (F2 & d2 & h2 & D2 & H2 & E2).
  assert (bd (B2R pr * B2R q) 400) as Bm by (apply (bd_mul _ _ 200 200); assumption).
  destruct (mul_rel pr q Fp Fq (bd_huge _ _ Bm ltac:(lia))) as (F3 & d3 & h3 & D3 & H3 & E3).
  assert (bd (B2R (f64_mul pr q)) 422) as B3.
  { rewrite E3. apply (bd_rel _ _ _ 421); [apply (bd_le _ 400); [exact Bm|lia]|lia|exact D3|exact H3]. }
  assert (bd (B2R (f64_mul pr q) / B2R T) 675) as B3' by (apply (bd_div _ _ 422 253); [exact B3|exact LT]).
  destruct (div_rel (f64_mul pr q) T F3 FT ltac:(lra) (bd_huge _ _ B3' ltac:(lia))) as (F4 & d4 & h4 & D4 & H4 & E4).
  assert (bd (B2R (f64_div (f64_mul P Q) T)) 676) as B2 by (rewrite E2; apply (bd_rel _ _ _ 675); [exact B1'|lia|exact D2|exact H2]).
  assert (bd (B2R (f64_div (f64_mul pr q) T)) 676) as B4 by (rewrite E4; apply (bd_rel _ _ _ 675); [exact B3'|lia|exact D4|exact H4]).
  destruct (add_rel _ _ F2 F4 (bd_huge _ _ (bd_add _ _ _ B2 B4) ltac:(lia))) as (F5 & _ & d5 & D5 & E5).
  replace (S + B2R q) with (S + 1 * B2R q) by ring. replace (V + B2R pr * B2R q) with (V + 1 * (B2R pr * B2R q)) by ring.
  apply (led_next k S Gq V G p); [exact Fk|exact L|now left| | |exact FT|exact F5|exact PT|exact GT| |].
  - split; [exact Pq|]. unfold bd in Uq. rewrite Rabs_pos_eq in Uq by lra. exact Uq.
  - split; [lra|exact Um].
  - exists d0. split; [exact D0|]. rewrite Rmult_1_l. exact ET.
  - change (ps_open_price (pos_add p t)) with (f64_add (f64_div (f64_mul P Q) T) (f64_div (f64_mul pr q) T)).
    change (ps_quantity (pos_add p t)) with T. fold P Q. rewrite Rmult_1_l. rewrite E5, E2, E4, E1, E3.
    apply add_value; try assumption; [lra|]. assert (1 + B2R T <= bpow radix2 430) as BT1.
    { pose proof (bd_add _ _ _ (one_bd 223 ltac:(lia)) BT) as X. unfold bd in X. rewrite Rabs_pos_eq in X by lra.
      eapply Rle_trans; [exact X|]. apply bpow_le. lia. }
    pose proof (eta_small (1 + B2R T) (B2R pr * B2R q) ltac:(lra) Lm). pose proof uro_pos. nra.
Qed.

Lemma led_sub k S Gq V G (p : position f64) t : few_trades (Datatypes.S k) -> led k S Gq V G p -> moderate_trade t ->
  f64_lt (f64_sub (ps_quantity p) (t_quantity t)) (f64_const (-1) (-4)) = false ->
  f64_le (f64_sub (ps_quantity p) (t_quantity t)) (i2f 0) = false ->
  led (Datatypes.S k) (S - real (t_quantity t)) (Gq + real (t_quantity t))
    (V - real (t_price t) * real (t_quantity t)) (G + real (t_price t) * real (t_quantity t)) (fst (pos_substract p t)).
Proof.
  intros Fk L [Mp Mq] C1 C2. assert (few_trades k) as Fk0. { unfold few_trades in *. rewrite S_INR in Fk. lra. }
  destruct (led_bounds k S Gq V G p Fk0 L) as (BQ & LQ & BPQ & BP & _ & _). pose proof L as (FQ & FP & HQ & GQ & _).
  destruct (moderate_facts _ Mp) as (Fp & Lp & Up & Pp). destruct (moderate_facts _ Mq) as (Fq & Lq & Uq & Pq).
  pose proof (product_low _ _ Mp Mq) as [Lm Um]. pose proof (grid_moderate _ Mq) as Gq1. unfold real.
  assert (fst (pos_substract p t) = mkPosition (ps_id p) (ps_type p) (ps_pair p) (ps_open p) (ps_take_profit p) (ps_stop_loss p)
    (f64_div (f64_mul (f64_sub (ps_open_price p) (f64_mul (t_price t) (f64_div (t_quantity t) (ps_quantity p)))) (ps_quantity p))
      (f64_sub (ps_quantity p) (t_quantity t))) (ps_close_price p) (f64_sub (ps_quantity p) (t_quantity t)) (ps_profit p) (ps_open_time p)
    (ps_close_time p) (ps_trades p ++ [t_id t]) (ps_execution_id p) (ps_data p)) as Es.
  { unfold pos_substract. cbv zeta. cbn [flt fle fsub fmul fdiv fconst f64_num].
    match goal with |- context [if ?b && ?c then _ else _] => replace c with false by (symmetry; exact C1) end. rewrite andb_false_r.
    match goal with |- context [if ?b then _ else _] => replace b with false by (symmetry; exact C2) end. reflexivity. }
  rewrite Es. clear Es C1.
  set (q := t_quantity t) in *. set (pr := t_price t) in *. set (Q := ps_quantity p) in *. set (P := ps_open_price p) in *.
  pose proof (bpow_gt_0 radix2 (-400)).
  pose proof (bd_le _ _ 221 Uq ltac:(lia)) as Uq'.
  destruct (sub_rel Q q FQ Fq (bd_huge _ _ (bd_sub _ _ _ BQ Uq') ltac:(lia))) as (FT & RT & d0 & D0 & ET).
  set (T := f64_sub Q q) in *.
  assert (grid (B2R T)) as GT by (rewrite RT; apply grid_rnd; now apply grid_sub).
  assert (0 < B2R T) as PT.
  { rewrite f64_le_xr in C2; [|destruct T; try discriminate FT; reflexivity|reflexivity]. rewrite i2f_exact_xr in C2 by (unfold exact_int; lia).
    rewrite xr_finite in C2 by exact FT. destruct (Rle_bool_spec (B2R T) 0) as [L1|L1]; [discriminate|exact L1]. }
  pose proof (grid_pos _ GT PT) as LT.
  assert (bd (B2R T) 223) as BT by (rewrite ET; change 223%Z with (221 + 1 + 1)%Z; apply bd_one; [now apply bd_sub|exact D0]).
  assert (bd (B2R q / B2R Q) 453) as B1 by (apply (bd_div _ _ 200 253); [exact Uq|exact LQ]).
  destruct (div_rel q Q Fq FQ ltac:(lra) (bd_huge _ _ B1 ltac:(lia))) as (F1 & d1 & h1 & D1 & H1 & E1).
  assert (bd (B2R (f64_div q Q)) 454) as B1' by (rewrite E1; apply (bd_rel _ _ _ 453); [exact B1|lia|exact D1|exact H1]).
  pose proof (bd_mul _ _ _ _ Up B1') as B2. change (200 + 454)%Z with 654%Z in B2.
  destruct (mul_rel pr (f64_div q Q) Fp F1 (bd_huge _ _ B2 ltac:(lia))) as (F2 & d2 & h2 & D2 & H2 & E2).
  assert (bd (B2R (f64_mul pr (f64_div q Q))) 674) as B2'.
  { rewrite E2. apply (bd_le _ 655); [|lia]. apply (bd_rel _ _ _ 654); [exact B2|lia|exact D2|exact H2]. }
  destruct (sub_rel P _ FP F2 (bd_huge _ _ (bd_sub _ _ _ BP B2') ltac:(lia))) as (F3 & _ & d3 & D3 & E3).
  set (w := f64_sub P (f64_mul pr (f64_div q Q))) in *.
  assert (bd (B2R w) 676) as B3 by (rewrite E3; change 676%Z with (674 + 1 + 1)%Z; apply bd_one; [now apply bd_sub|exact D3]).
  assert (bd (B2R w * B2R Q) 423) as B4.
  { rewrite E3, E2, E1. set (r := B2R q / B2R Q * (1 + d1) + h1). set (s := B2R pr * r * (1 + d2) + h2).
    assert (bd (h1 * B2R Q) 201) as X1.
    { apply (bd_le _ (-1075 + 221)); [|lia]. apply bd_mul; [exact H1|exact BQ]. }
    assert (bd (h2 * B2R Q) 403) as X2.
    { apply (bd_le _ (-1075 + 221)); [|lia]. apply bd_mul; [exact H2|exact BQ]. }
    assert (bd (r * B2R Q) 202) as X3.
    { replace (r * B2R Q) with (B2R q * (1 + d1) + h1 * B2R Q) by (unfold r; field; lra).
      apply (bd_add _ _ 201); [apply (bd_one _ _ 200); assumption|exact X1]. }
    assert (bd (s * B2R Q) 404) as X4.
    { replace (s * B2R Q) with (B2R pr * (r * B2R Q) * (1 + d2) + h2 * B2R Q) by (unfold s; ring).
      apply (bd_add _ _ 403); [|exact X2]. apply (bd_one _ _ 402); [|exact D2]. apply (bd_mul _ _ 200 202); assumption. }
    replace ((B2R P - s) * (1 + d3) * B2R Q) with ((B2R P * B2R Q - s * B2R Q) * (1 + d3)) by ring.
    apply (bd_one _ _ 422); [|exact D3]. apply (bd_sub _ _ 421); [exact BPQ|]. apply (bd_le _ 404); [exact X4|lia]. }
  destruct (mul_rel w Q F3 FQ (bd_huge _ _ B4 ltac:(lia))) as (F4 & d4 & h4 & D4 & H4 & E4).
  assert (bd (B2R (f64_mul w Q)) 424) as B4' by (rewrite E4; apply (bd_rel _ _ _ 423); [exact B4|lia|exact D4|exact H4]).
  assert (bd (B2R (f64_mul w Q) / B2R T) 677) as B5 by (apply (bd_div _ _ 424 253); [exact B4'|exact LT]).
  destruct (div_rel (f64_mul w Q) T F4 FT ltac:(lra) (bd_huge _ _ B5 ltac:(lia))) as (F5 & d5 & h5 & D5 & H5 & E5).
  replace (S - B2R q) with (S + -1 * B2R q) by ring. replace (V - B2R pr * B2R q) with (V + -1 * (B2R pr * B2R q)) by ring.
  apply (led_next k S Gq V G p); cbn [ps_quantity ps_open_price]; [exact Fk|exact L|now right| | |exact FT|exact F5|exact PT|exact GT| |].
  - split; [exact Pq|]. unfold bd in Uq. rewrite Rabs_pos_eq in Uq by lra. exact Uq.
  - split; [lra|exact Um].
  - exists d0. split; [exact D0|]. fold Q. rewrite ET. ring.
  - fold P Q. rewrite E5, E4, E3, E2, E1. replace (B2R P * B2R Q + -1 * (B2R pr * B2R q)) with (B2R P * B2R Q - B2R pr * B2R q) by ring.
    apply sub_value; try assumption. apply eta_small; [|exact Lm].
    assert (0 < B2R pr * B2R Q) by now apply Rmult_lt_0_compat. split; [lra|].
    pose proof (bd_mul _ _ _ _ Up BQ) as Y1. unfold bd in Y1, BQ, BT. rewrite Rabs_pos_eq in Y1, BQ, BT by lra.
    assert (bpow radix2 (200 + 221) <= bpow radix2 428) by (apply bpow_le; lia).
    assert (bpow radix2 221 <= bpow radix2 428) by (apply bpow_le; lia).
    assert (bpow radix2 223 <= bpow radix2 428) by (apply bpow_le; lia).
    assert (1 <= bpow radix2 428) by (change 1 with (bpow radix2 0); apply bpow_le; lia).
    replace (bpow radix2 430) with (4 * bpow radix2 428); [lra|]. change 4 with (bpow radix2 2). rewrite <- bpow_plus. reflexivity.
Qed.

(** *** Whole histories *)
Definition spent (a : string) (ts : list (trade f64)) : R :=
  fold_right (fun t s => (if String.eqb (t_action t) a then real (t_price t) * real (t_quantity t)
                          else - (real (t_price t) * real (t_quantity t))) + s) 0 ts.
Definition opens_with (ty a : string) : Prop := ty = "long"%string /\ a = "buy"%string \/ ty = "short"%string /\ a = "sell"%string.
Lemma grow_action ty a x : opens_with ty a -> increases ty x -> String.eqb x a = true.
Proof. intros [[-> ->]|[-> ->]] [[E ->]|[E ->]]; try discriminate; reflexivity. Qed.
Lemma shrink_action ty a x : opens_with ty a -> reduces ty x -> String.eqb x a = false.
Proof. intros [[-> ->]|[-> ->]] [[E ->]|[E ->]]; try discriminate; reflexivity. Qed.
Lemma few_less j k : (j <= k)%nat -> few_trades k -> few_trades j.
Proof. unfold few_trades. intros L H. apply le_INR in L. lra. Qed.

Lemma led_history a ts : forall k S Gq V G (p : position f64), opens_with (ps_type p) a -> few_trades (k + List.length ts) ->
  led k S Gq V G p -> Forall moderate_trade ts -> ps_open (modify_all p ts) = true ->
  exists kept, recorded (ps_pair p) (ps_type p) (ps_quantity p) ts kept /\
    ps_trades (modify_all p ts) = ps_trades p ++ map t_id kept /\
    Forall (fun t => increases (ps_type p) (t_action t) \/ reduces (ps_type p) (t_action t)) kept /\
    ps_type (modify_all p ts) = ps_type p /\ ps_pair (modify_all p ts) = ps_pair p /\
    led (k + List.length kept) (S + held a kept) (Gq + bought kept) (V + spent a kept) (G + worth kept) (modify_all p ts) /\
    (List.length kept <= List.length ts)%nat /\ Forall moderate_trade kept.
Proof.
  induction ts as [|t ts IH]; intros k S Gq V G p Ow Fk L M Op.
  - exists []. cbn [modify_all map List.length held bought spent worth fold_right]. rewrite app_nil_r, !Rplus_0_r.
    rewrite Nat.add_0_r. split; [constructor|]. split; [reflexivity|]. split; [constructor|]. split; [reflexivity|]. split; [reflexivity|].
    split; [exact L|]. split; [lia|constructor].
  - cbn [modify_all] in Op |- *. inversion M as [|? ? Mt Mts]; subst. destruct (modify_fixed p t) as (Fp & Fty & _). cbv zeta in Fp, Fty.
    assert (fst (modify p t) = p -> no_effect (ps_pair p) (ps_type p) (ps_quantity p) t ->
      exists kept, recorded (ps_pair p) (ps_type p) (ps_quantity p) (t :: ts) kept /\
        ps_trades (modify_all (fst (modify p t)) ts) = ps_trades p ++ map t_id kept /\
        Forall (fun t => increases (ps_type p) (t_action t) \/ reduces (ps_type p) (t_action t)) kept /\
        ps_type (modify_all (fst (modify p t)) ts) = ps_type p /\ ps_pair (modify_all (fst (modify p t)) ts) = ps_pair p /\
        led (k + List.length kept) (S + held a kept) (Gq + bought kept) (V + spent a kept) (G + worth kept) (modify_all (fst (modify p t)) ts) /\
        (List.length kept <= List.length (t :: ts))%nat /\ Forall moderate_trade kept) as Skip.
    { intros E Ne. rewrite E in *. destruct (IH k S Gq V G p Ow) as (kept & K1 & K2 & K3 & K4 & K5 & K6 & K7 & K8); try assumption.
      { eapply few_less; [|exact Fk]. cbn [List.length]. lia. }
      exists kept. split; [now apply rec_skip|]. cbn [List.length]. repeat (split; [assumption|]). split; [lia|assumption]. }
    destruct (pair_dec (ps_pair p) (t_pair t)) as [E|E].
    2:{ apply Skip; [now rewrite modify_other_pair by assumption|]. left. congruence. }
    destruct (inc_or_red (ps_type p) (t_action t)) as [H|[H|[H1 H2]]].
    + rewrite modify_increase in Op |- * by assumption. cbn [fst] in *.
      destruct (IH (Datatypes.S k) (S + real (t_quantity t)) (Gq + real (t_quantity t))
        (V + real (t_price t) * real (t_quantity t)) (G + real (t_price t) * real (t_quantity t)) (pos_add p t) Ow) as (kept & K1 & K2 & K3 & K4 & K5 & K6 & K7 & K8).
      { eapply few_less; [|exact Fk]. cbn [List.length]. lia. }
      { apply led_add; [|exact L|exact Mt]. eapply few_less; [|exact Fk]. cbn [List.length]. lia. }
      { exact Mts. }
      { exact Op. }
      exists (t :: kept). split.
      { eapply rec_keep; [apply te_grow; [congruence|exact H]|]. exact K1. }
      split. { rewrite K2. cbn [pos_add ps_trades map]. now rewrite <- app_assoc. }
      split. { constructor; [now left|exact K3]. }
      split; [exact K4|]. split; [exact K5|]. split; [|split; [cbn [List.length]; lia|now constructor]].
      cbn [held bought spent worth fold_right List.length]. rewrite (grow_action _ a _ Ow H).
      fold (held a kept) (bought kept) (spent a kept) (worth kept). rewrite <- !Rplus_assoc.
      replace (k + Datatypes.S (List.length kept))%nat with (Datatypes.S k + List.length kept)%nat by lia. exact K6.
    + rewrite modify_reduce in Op |- * by assumption. cbn [fst] in *.
      destruct (substract_f64 p t) as (C1 & C2 & C3). cbv zeta in C1, C2, C3.
      destruct (f64_lt (f64_sub (ps_quantity p) (t_quantity t)) (f64_const (-1) (-4))) eqn:T1.
      { specialize (C1 eq_refl). rewrite modify_reduce in Skip by assumption. cbn [fst] in Skip. apply Skip; [now rewrite C1|].
        right. right. split; assumption. }
      destruct (f64_le (f64_sub (ps_quantity p) (t_quantity t)) (i2f 0)) eqn:T2.
      { destruct (C2 eq_refl eq_refl) as (C & _). rewrite (modify_all_closed _ ts C) in Op. discriminate. }
      pose proof (led_sub k S Gq V G p t) as L1.
      assert (ps_type (fst (pos_substract p t)) = ps_type p /\ ps_pair (fst (pos_substract p t)) = ps_pair p /\
        ps_quantity (fst (pos_substract p t)) = f64_sub (ps_quantity p) (t_quantity t) /\
        ps_trades (fst (pos_substract p t)) = ps_trades p ++ [t_id t]) as (X1 & X2 & X3 & X4).
      { destruct (modify_fixed p t) as (Y1 & Y2 & _). rewrite modify_reduce in Y1, Y2 by assumption. cbn [fst] in Y1, Y2.
        split; [exact Y2|]. split; [exact Y1|]. destruct (C3 eq_refl eq_refl) as (Z1 & Z2 & Z3 & _). split; assumption. }
      destruct (IH (Datatypes.S k) (S - real (t_quantity t)) (Gq + real (t_quantity t))
        (V - real (t_price t) * real (t_quantity t)) (G + real (t_price t) * real (t_quantity t)) (fst (pos_substract p t)))
        as (kept & K1 & K2 & K3 & K4 & K5 & K6 & K7 & K8).
      { now rewrite X1. }
      { eapply few_less; [|exact Fk]. cbn [List.length]. lia. }
      { apply L1; [|exact L|exact Mt|exact T1|exact T2]. eapply few_less; [|exact Fk]. cbn [List.length]. lia. }
      { exact Mts. }
      { exact Op. }
      rewrite X1, X2, X3 in *. exists (t :: kept). split.
      { eapply rec_keep; [apply te_shrink; [congruence|exact H|exact T1|exact T2]|]. exact K1. }
      split. { rewrite K2, X4. cbn [map]. now rewrite <- app_assoc. }
      split. { constructor; [now right|exact K3]. }
      split; [exact K4|]. split; [exact K5|]. split; [|split; [cbn [List.length]; lia|now constructor]].
      cbn [held bought spent worth fold_right List.length]. rewrite (shrink_action _ a _ Ow H).
      fold (held a kept) (bought kept) (spent a kept) (worth kept).
      replace (k + Datatypes.S (List.length kept))%nat with (Datatypes.S k + List.length kept)%nat by lia.
      replace (S + (- real (t_quantity t) + held a kept)) with (S - real (t_quantity t) + held a kept) by ring.
      replace (V + (- (real (t_price t) * real (t_quantity t)) + spent a kept)) with (V - real (t_price t) * real (t_quantity t) + spent a kept) by ring.
      rewrite <- !Rplus_assoc. exact K6.
    + apply Skip; [now rewrite modify_unknown by assumption|]. right. left. split; assumption.
Qed.

Lemma spent_received a ty ts : opens_with ty a -> Forall (fun t => increases ty (t_action t) \/ reduces ty (t_action t)) ts ->
  spent a ts = if String.eqb a "buy" then - received ts else received ts.
Proof.
  intros Ow H. induction H as [|t ts Ht H IH]; cbn [spent received fold_right].
  - destruct (String.eqb a "buy"); ring.
  - fold (spent a ts) (received ts). rewrite IH. destruct Ow as [[-> ->]|[-> ->]].
    + cbn [String.eqb Ascii.eqb Bool.eqb]. destruct (String.eqb (t_action t) "buy"); ring.
    + change (String.eqb "sell" "buy") with false. cbv iota.
      destruct Ht as [[[E _]|[_ ->]]|[[E _]|[_ ->]]]; try discriminate E; cbn [String.eqb Ascii.eqb Bool.eqb]; ring.
Qed.
Lemma opening (id : string) (t0 : trade f64) : t_action t0 = "buy"%string \/ t_action t0 = "sell"%string ->
  opens_with (ps_type (new_position id t0)) (t_action t0).
Proof. intros [E|E]; unfold new_position; cbn [ps_type]; rewrite E; [left|right]; split; reflexivity. Qed.
Lemma led_new id (t0 : trade f64) : moderate_trade t0 ->
  led 0 (real (t_quantity t0)) (real (t_quantity t0)) (real (t_price t0) * real (t_quantity t0))
    (real (t_price t0) * real (t_quantity t0)) (new_position id t0).
Proof.
  intros [Mp Mq]. destruct (moderate_facts _ Mp) as (Fp & Lp & Up & Pp). destruct (moderate_facts _ Mq) as (Fq & Lq & Uq & Pq).
  destruct (product_low _ _ Mp Mq) as [Lm Um]. pose proof (bpow_gt_0 radix2 (-400)). unfold led, real, new_position. cbn [ps_quantity ps_open_price INR].
  split; [exact Fq|]. split; [exact Fp|]. split; [exact Pq|]. split; [now apply grid_moderate|].
  split; [rewrite Rminus_diag_eq, Rabs_R0 by reflexivity; lra|]. split; [rewrite Rabs_pos_eq; lra|].
  split; [unfold bd in Uq; rewrite Rabs_pos_eq in Uq by lra; lra|].
  split; [rewrite Rminus_diag_eq, Rabs_R0 by reflexivity; lra|]. split; [rewrite Rabs_pos_eq; lra|lra].
Qed.

Lemma balance id t0 ts : t_action t0 = "buy"%string \/ t_action t0 = "sell"%string -> Forall moderate_trade (t0 :: ts) ->
  INR (List.length (t0 :: ts)) <= bpow radix2 20 -> ps_open (modify_all (new_position id t0) ts) = true ->
  let p := modify_all (new_position id t0) ts in
  exists kept, recorded (t_pair t0) (ps_type p) (t_quantity t0) ts kept /\ ps_trades p = map t_id (t0 :: kept) /\
    opens_with (ps_type p) (t_action t0) /\ ps_pair p = t_pair t0 /\ Forall moderate_trade (t0 :: kept) /\
    (List.length kept <= List.length ts)%nat /\ few_trades (List.length kept) /\
    led (List.length kept) (held (t_action t0) (t0 :: kept)) (bought (t0 :: kept))
      (if String.eqb (t_action t0) "buy" then - received (t0 :: kept) else received (t0 :: kept)) (worth (t0 :: kept)) p.
Proof.
  intros A M K Op p. inversion M as [|? ? M0 Ms]; subst. pose proof (opening id t0 A) as Ow.
  assert (few_trades (0 + List.length ts)) as Fk.
  { unfold few_trades. cbn [Nat.add]. cbn [List.length] in K. rewrite S_INR in K. lra. }
  destruct (led_history (t_action t0) ts 0 _ _ _ _ (new_position id t0) Ow Fk (led_new id t0 M0) Ms Op)
    as (kept & K1 & K2 & K3 & K4 & K5 & K6 & K7 & K8).
  fold p in K2, K4, K5, K6. exists kept. rewrite K4. split; [exact K1|]. split; [exact K2|]. split; [exact Ow|]. split; [exact K5|].
  split; [now constructor|]. split; [exact K7|]. split; [eapply few_less; [|exact Fk]; exact K7|].
  assert (Forall (fun t => increases (ps_type (new_position id t0)) (t_action t) \/ reduces (ps_type (new_position id t0)) (t_action t)) (t0 :: kept)) as K9.
  { constructor; [|exact K3]. left. destruct Ow as [[E1 E2]|[E1 E2]]; rewrite E1, E2; [left|right]; split; reflexivity. }
  rewrite <- (spent_received _ _ _ Ow K9). cbn [held bought spent worth fold_right]. rewrite String.eqb_refl. exact K6.
Qed.

Lemma gain_near c d d' h P Q V S Gq G (k : nat) : few_trades k -> 0 <= c -> 0 < Q <= 1.001 * Gq -> Rabs (P * Q) <= 1.001 * G -> 0 < G ->
  Rabs d <= uro -> Rabs d' <= uro -> Rabs h <= eta -> 8 * eta <= uro * G / 4 ->
  Rabs (Q - S) <= INR k * (2 * uro) * Gq -> Rabs (P * Q - V) <= 8 * INR k * uro * G ->
  Rabs ((c - P) * (1 + d) * Q * (1 + d') + h - (c * S - V)) <= 8 * (INR k + 1) * uro * (c * Gq + G).
Proof.
  intros Fk Hc HQ HV HG D D' H HE EQ EV. pose proof (two_factors d d' D D') as A. set (a := (1 + d) * (1 + d')) in *.
  replace ((c - P) * (1 + d) * Q * (1 + d') + h - (c * S - V)) with
    ((c * Q - P * Q) * (a - 1) + h + c * (Q - S) + - (P * Q - V)) by (unfold a; ring).
  pose proof uro_pos as U. pose proof eta_pos as Et. pose proof (pos_INR k) as Kp.
  assert (0 <= c * Q <= 1.001 * (c * Gq)) as C1 by nra.
  assert (Rabs ((c * Q - P * Q) * (a - 1)) <= (1.001 * (c * Gq) + 1.001 * G) * (2.01 * uro)) as X1.
  { apply mult_bound; [|exact A]. replace (c * Q - P * Q) with (c * Q + - (P * Q)) by ring.
    apply abs_sum; [rewrite Rabs_pos_eq; lra|now rewrite Rabs_Ropp]. }
  assert (Rabs (c * (Q - S)) <= c * (INR k * (2 * uro) * Gq)) as X2 by (apply mult_bound; [rewrite Rabs_pos_eq; lra|exact EQ]).
  assert (Rabs (- (P * Q - V)) <= 8 * INR k * uro * G) as X3 by now rewrite Rabs_Ropp.
  eapply Rle_trans; [apply abs_sum; [apply abs_sum; [apply abs_sum; [exact X1|exact H]|exact X2]|exact X3]|].
  assert (0 <= INR k * uro * (c * Gq)) by (apply Rmult_le_pos; [now apply Rmult_le_pos; lra|lra]).
  assert (0 <= uro * (c * Gq)) by (apply Rmult_le_pos; lra). assert (0 < uro * G) by now apply Rmult_lt_0_compat.
  replace (c * (INR k * (2 * uro) * Gq)) with (2 * (INR k * uro * (c * Gq))) by ring.
  replace (8 * (INR k + 1) * uro * (c * Gq + G)) with
    (8 * (INR k * uro * (c * Gq)) + 8 * INR k * uro * G + 8 * (uro * (c * Gq)) + 8 * (uro * G)) by ring.
  replace ((1.001 * (c * Gq) + 1.001 * G) * (2.01 * uro)) with (1.001 * 2.01 * (uro * (c * Gq)) + 1.001 * 2.01 * (uro * G)) by ring. lra.
Qed.
Lemma unrealized_near (p : position f64) a k S Gq V G c : opens_with (ps_type p) a -> few_trades k -> led k S Gq V G p ->
  bpow radix2 (-400) <= G -> moderate c ->
  is_finite (unrealized_profit p c) = true /\
  Rabs (real (unrealized_profit p c) - (if String.eqb a "buy" then real c * S - V else V - real c * S)) <=
    8 * (INR k + 1) * uro * (real c * Gq + G).
Proof.
  intros Ow Fk L LG Mc. destruct (led_bounds k S Gq V G p Fk L) as (BQ & LQ & BPQ & BP & AV & Q1).
  destruct L as (FQ & FP & HQ & GQ & EQ & AS & BG & EV & _ & BV). destruct (moderate_facts _ Mc) as (Fc & Lc & Uc & Pc).
  unfold real. set (Q := ps_quantity p) in *. set (P := ps_open_price p) in *. pose proof (bd_le _ _ 674 Uc ltac:(lia)) as Uc'.
  assert (8 * eta <= uro * G / 4) as HE.
  { pose proof (eta_small 1 G) as X. rewrite Rmult_1_r in X. apply X; [|exact LG]. split; [lra|].
    change 1 with (bpow radix2 0). apply bpow_le. lia. }
  assert (bd (B2R c - B2R P) 675) as B1 by now apply (bd_sub _ _ 674).
  assert (bd (B2R P - B2R c) 675) as B1' by now apply (bd_sub _ _ 674).
  destruct Ow as [[Ty ->]|[Ty ->]]; unfold unrealized_profit; rewrite Ty; cbn [String.eqb Ascii.eqb Bool.eqb LongPosition];
    cbn [fsub fmul f64_num]; fold P Q.
  - change (String.eqb LongPosition LongPosition) with true. cbv iota.
    destruct (sub_rel c P Fc FP (bd_huge _ _ B1 ltac:(lia))) as (F1 & _ & d & D & E1).
    assert (bd (B2R (f64_sub c P) * B2R Q) 897) as B2.
    { rewrite E1. apply (bd_mul _ _ 676 221); [apply (bd_one _ _ 675); assumption|exact BQ]. }
    destruct (mul_rel _ Q F1 FQ (bd_huge _ _ B2 ltac:(lia))) as (F2 & d' & h & D' & H & E2).
    split; [exact F2|]. rewrite E2, E1. apply (gain_near _ d d' h (B2R P) (B2R Q) V S Gq G k); try assumption; lra.
  - change (String.eqb ShortPosition LongPosition) with false. cbv iota.
    destruct (sub_rel P c FP Fc (bd_huge _ _ B1' ltac:(lia))) as (F1 & _ & d & D & E1).
    assert (bd (B2R (f64_sub P c) * B2R Q) 897) as B2.
    { rewrite E1. apply (bd_mul _ _ 676 221); [apply (bd_one _ _ 675); assumption|exact BQ]. }
    destruct (mul_rel _ Q F1 FQ (bd_huge _ _ B2 ltac:(lia))) as (F2 & d' & h & D' & H & E2).
    split; [exact F2|]. rewrite E2, E1.
    replace ((B2R P - B2R c) * (1 + d) * B2R Q * (1 + d') + h - (V - B2R c * S)) with
      (- ((B2R c - B2R P) * (1 + d) * B2R Q * (1 + d') + - h - (B2R c * S - V))) by ring. rewrite Rabs_Ropp.
    apply (gain_near _ d d' (- h) (B2R P) (B2R Q) V S Gq G k); try assumption; try lra. now rewrite Rabs_Ropp.
Qed.

(** *** Whole quantities are exact *)
Lemma int_result (x : f64) (r : R) n : is_nan x = false /\ xr x = sat (rnd r) -> r = IZR n -> exact_int n -> is_integer x n.
Proof.
  intros H -> E. destruct (of_xr x (IZR n) H) as [F X].
  - rewrite <- abs_IZR. change huge with (bpow radix2 1000). apply Rle_trans with (IZR (2 ^ 53)); [apply IZR_le; unfold exact_int in E; lia|].
    change (IZR (2 ^ 53)) with (bpow radix2 53). apply bpow_le. lia.
  - split; [exact F|]. unfold real. rewrite X. now apply rnd_int.
Qed.
Lemma whole_history a ts : forall (p : position f64) z B, opens_with (ps_type p) a -> is_integer (ps_quantity p) z ->
  (Z.abs z <= B)%Z -> Forall (fun t => whole (t_quantity t)) ts -> IZR B + bought ts <= IZR (2 ^ 53) ->
  ps_open (modify_all p ts) = true -> forall kept, recorded (ps_pair p) (ps_type p) (ps_quantity p) ts kept ->
  exists z', is_integer (ps_quantity (modify_all p ts)) z' /\ IZR z' = IZR z + held a kept.
Proof.
  induction ts as [|t ts IH]; intros p z B Ow Iz Bz W Bd Op kept Rk.
  - inversion Rk; subst. exists z. split; [exact Iz|]. cbn [held fold_right]. ring.
  - inversion W as [|? ? (n & Pn & In) Ws]; subst. cbn [modify_all] in Op |- *. cbn [bought fold_right] in Bd. fold (bought ts) in Bd.
    assert (0 <= bought ts) as Pb.
    { clear - Ws. induction Ws as [|u us (m & Pm & _ & Em) H IH]; cbn [bought fold_right]; [lra|]. fold (bought us). rewrite Em.
      assert (0 <= IZR m) by (apply IZR_le; lia). lra. }
    pose proof In as [Fn En]. rewrite En in Bd. assert (0 < IZR n) as Pn' by (apply IZR_lt; lia).
    assert (IZR (B + n) + bought ts <= IZR (2 ^ 53)) as Bd1 by (rewrite plus_IZR; lra).
    assert (B + n <= 2 ^ 53)%Z as Bn by (apply le_IZR; lra).
    pose proof Iz as [Fz Ez]. unfold real in Ez, En.
    destruct (modify_fixed p t) as (Y1 & Y2 & _). cbv zeta in Y1, Y2.
    inversion Rk as [|? ? ? ? Ne Rk'|? q' ? ? kept' Te Rk']; subst.
    + assert (fst (modify p t) = p) as E.
      { destruct Ne as [N|[[N1 N2]|[N1 N2]]].
        - now rewrite modify_other_pair by congruence.
        - destruct (pair_dec (ps_pair p) (t_pair t)); [now rewrite modify_unknown by assumption|now rewrite modify_other_pair by assumption].
        - destruct (pair_dec (ps_pair p) (t_pair t)); [|now rewrite modify_other_pair by assumption].
          rewrite modify_reduce by assumption. cbn [fst]. destruct (substract_f64 p t) as (C1 & _). now rewrite (C1 N2). }
      rewrite E in *. apply (IH p z B); try assumption. lra.
    + inversion Te; subst.
      * rewrite modify_increase in Op, Y1, Y2 |- * by congruence. cbn [fst] in *.
        destruct (IH (pos_add p t) (z + n)%Z (B + n)%Z) with (kept := kept') as (z' & I' & E'); try assumption.
        -- apply (int_result _ (B2R (ps_quantity p) + B2R (t_quantity t))); [now apply add_xr|rewrite Ez, En, plus_IZR; reflexivity|unfold exact_int; lia].
        -- lia.
        -- exists z'. split; [exact I'|]. rewrite E', plus_IZR. cbn [held fold_right]. fold (held a kept').
           match goal with H : increases _ _ |- _ => rewrite (grow_action _ a _ Ow H) end. unfold real. rewrite En. ring.
      * rewrite modify_reduce in Op, Y1, Y2 |- * by congruence. cbn [fst] in *.
        destruct (substract_f64 p t) as (_ & _ & C3). destruct C3 as (_ & X3 & _); [assumption|assumption|].
        destruct (IH (fst (pos_substract p t)) (z - n)%Z (B + n)%Z) with (kept := kept') as (z' & I' & E'); try assumption.
        -- now rewrite Y2.
        -- rewrite X3. apply (int_result _ (B2R (ps_quantity p) - B2R (t_quantity t))); [now apply sub_xr|rewrite Ez, En, minus_IZR; reflexivity|unfold exact_int; lia].
        -- lia.
        -- now rewrite Y1, Y2, X3.
        -- exists z'. split; [exact I'|]. rewrite E', minus_IZR. cbn [held fold_right]. fold (held a kept').
           match goal with H : reduces _ _ |- _ => rewrite (shrink_action _ a _ Ow H) end. unfold real. rewrite En. ring.
      * exfalso. rewrite modify_reduce in Op by congruence. cbn [fst] in Op.
        destruct (substract_f64 p t) as (_ & C2 & _). destruct C2 as (C & _); [assumption|assumption|].
        rewrite (modify_all_closed _ ts C) in Op. discriminate.
Qed.
Lemma exact_close (p : position f64) t z : is_integer (ps_quantity p) z -> is_integer (t_quantity t) z -> exact_int z ->
  t_pair t = ps_pair p -> reduces (ps_type p) (t_action t) -> ps_open (fst (modify p t)) = false.
Proof.
  intros [F1 E1] [F2 E2] X Ep R. rewrite modify_reduce by congruence. cbn [fst]. unfold real in *.
  assert (is_integer (f64_sub (ps_quantity p) (t_quantity t)) 0) as [F E].
  { apply (int_result _ (B2R (ps_quantity p) - B2R (t_quantity t))); [now apply sub_xr|rewrite E1, E2; ring|unfold exact_int; lia]. }
  unfold real in E. set (T := f64_sub (ps_quantity p) (t_quantity t)) in *.
  assert (is_nan T = false) as Nn by (destruct T; try discriminate F; reflexivity).
  destruct (substract_f64 p t) as (_ & C2 & _). fold T in C2. apply C2.
  - destruct (f64_lt T (f64_const (-1) (-4))) eqn:L; [|reflexivity]. apply below_tiny in L.
    rewrite f64_lt_xr, i2f_exact_xr, xr_finite in L by (assumption || reflexivity || (unfold exact_int; lia)). rewrite E in L.
    destruct (Rlt_bool_spec 0 0); [lra|discriminate].
  - rewrite f64_le_xr, i2f_exact_xr, xr_finite by (assumption || reflexivity || (unfold exact_int; lia)). rewrite E.
    apply Rle_bool_true. lra.
Qed.
