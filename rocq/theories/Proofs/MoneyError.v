(** Relative errors of the position arithmetic: all quantities are positive, so
    every rounding is a factor between 1/(1+u) and 1+u. *)
From Coq Require Import Reals Lra Lia Psatz.
From Flocq Require Import Core Relative BinarySingleNaN.
From Verif Require Import Go.Outcome Go.Float64 Go.FloatReal Go.FloatError Go.Num
  Model.Pair Model.Entities Spec.AccuracySpec Spec.EntitySpec Spec.MoneySpec Proofs.Accuracy Proofs.RSIError Proofs.Entities.
Open Scope list_scope.
Open Scope R_scope.
Local Notation length := List.length.
Local Notation B2R := (@B2R 53 1024).

Local Notation w := (1 + uro).
(** [x] is [X] up to [k] roundings. *)
Definition rel (k : nat) (x X : R) : Prop := 0 < X /\ X <= x * w ^ k /\ x <= X * w ^ k.

Lemma wk k : 1 <= w ^ k. Proof. apply pow_uro_ge1. Qed.
Lemma rel_pos k x X : rel k x X -> 0 < x.
Proof. intros (P & L & _). pose proof (wk k). destruct (Rlt_le_dec 0 x); [assumption|]. nra. Qed.
Lemma rel_refl x : 0 < x -> rel 0 x x.
Proof. intros H. split; [exact H|]. simpl. lra. Qed.
Lemma rel_weaken j k x X : (j <= k)%nat -> rel j x X -> rel k x X.
Proof.
  intros H R. pose proof (rel_pos _ _ _ R) as Px. destruct R as (P & L & U). split; [exact P|].
  assert (w ^ j <= w ^ k) as M by (apply Rle_pow; [pose proof uro_pos; lra|exact H]). pose proof (wk j). split; nra.
Qed.
Lemma rel_trans j k x y z : rel j x y -> rel k y z -> rel (j + k) x z.
Proof.
  intros R1 R2. pose proof (rel_pos _ _ _ R1). destruct R1 as (P1 & L1 & U1). destruct R2 as (P2 & L2 & U2).
  split; [exact P2|]. rewrite pow_add. pose proof (wk j). pose proof (wk k). split; nra.
Qed.
Lemma rel_mul j k x X y Y : rel j x X -> rel k y Y -> rel (j + k) (x * y) (X * Y).
Proof.
  intros R1 R2. pose proof (rel_pos _ _ _ R1). pose proof (rel_pos _ _ _ R2).
  destruct R1 as (P1 & L1 & U1). destruct R2 as (P2 & L2 & U2). rewrite <- ?pow_add.
  split; [now apply Rmult_lt_0_compat|]. rewrite pow_add. pose proof (wk j). pose proof (wk k).
  split.
  - replace (x * y * (w ^ j * w ^ k)) with ((x * w ^ j) * (y * w ^ k)) by ring. apply Rmult_le_compat; lra.
  - replace (X * Y * (w ^ j * w ^ k)) with ((X * w ^ j) * (Y * w ^ k)) by ring. apply Rmult_le_compat; lra.
Qed.
Lemma rel_inv k y Y : rel k y Y -> rel k (/ y) (/ Y).
Proof.
  intros R. pose proof (rel_pos _ _ _ R) as Py. destruct R as (P & L & U). pose proof (wk k) as W.
  split; [now apply Rinv_0_lt_compat|]. split.
  - apply Rmult_le_reg_r with (Y * y); [nra|]. replace (/ Y * (Y * y)) with y by (field; lra).
    replace (/ y * w ^ k * (Y * y)) with (Y * w ^ k) by (field; lra). exact U.
  - apply Rmult_le_reg_r with (Y * y); [nra|]. replace (/ y * (Y * y)) with Y by (field; lra).
    replace (/ Y * w ^ k * (Y * y)) with (y * w ^ k) by (field; lra). exact L.
Qed.
Lemma rel_div j k x X y Y : rel j x X -> rel k y Y -> rel (j + k) (x / y) (X / Y).
Proof. intros R1 R2. apply rel_mul; [exact R1|now apply rel_inv]. Qed.
Lemma rel_add k x X y Y : rel k x X -> rel k y Y -> rel k (x + y) (X + Y).
Proof. intros (P1 & L1 & U1) (P2 & L2 & U2). split; [lra|]. split; lra. Qed.

Definition normal : R := bpow radix2 (-1000).
Lemma normal_pos : 0 < normal. Proof. apply bpow_gt_0. Qed.
Lemma rnd_rel r : normal <= r -> rel 1 (rnd r) r.
Proof.
  intros H. pose proof normal_pos as P. pose proof uro_pos as U.
  destruct (relative_error_N_FLX'_ex radix2 53 ltac:(lia) (fun x => negb (Z.even x)) r) as (e & He & E).
  rewrite <- (round_FLT_FLX radix2 (3 - 1024 - 53)) in E.
  2:{ rewrite Rabs_pos_eq by lra. apply Rle_trans with normal; [|exact H]. apply bpow_le. lia. }
  change (round radix2 (FLT_exp (3 - 1024 - 53) 53) (Znearest (fun x => negb (Z.even x))) r) with (rnd r) in E.
  rewrite E. rewrite u_ro_uro in He. apply Rabs_le_inv in He.
  assert (uro / w * w = uro) as K by (field; lra). set (d := uro / w) in *.
  assert (d <= uro) as Dd by (unfold d; apply uro_quot).
  split; [lra|]. cbn [pow]. rewrite Rmult_1_r. split.
  - assert (1 <= (1 + e) * w); [|nra]. assert ((1 - d) * w <= (1 + e) * w) by (apply Rmult_le_compat_r; lra). lra.
  - apply Rmult_le_compat_l; lra.
Qed.
Global Opaque normal.

(** Finite, and [X] up to [k] roundings. *)
Definition about (k : nat) (x : f64) (X : R) : Prop := is_finite x = true /\ rel k (B2R x) X.
Definition countable (k : nat) : Prop := INR k * (2 * uro) <= / 2.
Lemma countable_le j k : (j <= k)%nat -> countable k -> countable j.
Proof. intros H C. apply le_INR in H. unfold countable in *. pose proof uro_pos. nra. Qed.
Lemma countable_pow k : countable k -> w ^ k <= 2.
Proof. intros C. unfold countable in C. pose proof (pow_uro k ltac:(lra)). lra. Qed.
(** The bound of the statement. *)
Lemma rel_err k x X : countable k -> rel k x X -> Rabs (x - X) <= INR k * (2 * uro) * X.
Proof.
  intros C R. pose proof (rel_pos _ _ _ R) as P. destruct R as (PX & L & U). unfold countable in C.
  pose proof (pow_uro k ltac:(lra)) as W. pose proof (wk k) as W1. pose proof (pos_INR k) as K. pose proof uro_pos as Up.
  set (d := INR k * (2 * uro)) in *. assert (0 <= d) as D by (unfold d; nra). apply Rabs_le. split; [|nra].
  assert (X * (1 - d) <= x); [|lra].
  apply Rmult_le_reg_r with (w ^ k); [lra|]. apply Rle_trans with X; [|exact L].
  assert ((1 - d) * w ^ k <= 1); [|nra]. nra.
Qed.

Lemma about_op (z : f64) r k X : is_nan z = false -> xr z = sat (rnd r) -> countable k -> rel k r X ->
  2 * normal <= X -> 4 * X <= huge -> about (k + 1) z X.
Proof.
  intros N E C R L H. pose proof (rel_pos _ _ _ R) as Pr. pose proof (countable_pow k C) as W. pose proof (wk k).
  pose proof normal_pos as Np. pose proof huge_lt_big as Hb.
  assert (normal <= r) as Ln by (destruct R as (_ & R1 & _); nra).
  pose proof (rnd_rel r Ln) as Rr. pose proof (rel_pos _ _ _ Rr) as P1.
  assert (rnd r <= huge) as B.
  { destruct R as (_ & _ & R2). destruct Rr as (_ & _ & R4). cbn [pow] in R4. pose proof uro_small. pose proof uro_pos. nra. }
  rewrite sat_id in E by (rewrite Rabs_pos_eq; lra).
  assert (is_finite z = true) as F by (apply xr_lt_finite; [exact N|]; rewrite E, Rabs_pos_eq; lra).
  split; [exact F|]. rewrite <- xr_finite by exact F. rewrite E. rewrite Nat.add_comm. apply (rel_trans 1 k _ r); assumption.
Qed.
Lemma about_mul j k x X y Y : about j x X -> about k y Y -> countable (j + k) -> 2 * normal <= X * Y -> 4 * (X * Y) <= huge ->
  about (j + k + 1) (f64_mul x y) (X * Y).
Proof.
  intros [Fx Rx] [Fy Ry] C L H. destruct (mul_xr x y Fx Fy) as [N E].
  apply (about_op _ (B2R x * B2R y)); auto. now apply rel_mul.
Qed.
Lemma about_div j k x X y Y : about j x X -> about k y Y -> countable (j + k) -> 2 * normal <= X / Y -> 4 * (X / Y) <= huge ->
  about (j + k + 1) (f64_div x y) (X / Y).
Proof.
  intros [Fx Rx] [Fy Ry] C L H. pose proof (rel_pos _ _ _ Ry). destruct (div_xr x y Fx Fy ltac:(lra)) as [N E].
  apply (about_op _ (B2R x / B2R y)); auto. now apply rel_div.
Qed.
Lemma about_add k x X y Y : about k x X -> about k y Y -> countable k -> 2 * normal <= X + Y -> 4 * (X + Y) <= huge ->
  about (k + 1) (f64_add x y) (X + Y).
Proof.
  intros [Fx Rx] [Fy Ry] C L H. destruct (add_xr x y Fx Fy) as [N E].
  apply (about_op _ (B2R x + B2R y)); auto. now apply rel_add.
Qed.
Lemma about_weaken j k x X : (j <= k)%nat -> about j x X -> about k x X.
Proof. intros H [F R]. split; [exact F|now apply (rel_weaken j)]. Qed.

(** *** Positions that only grow *)
Definition lo : R := bpow radix2 (-300).
Definition hi : R := bpow radix2 300.
Definition many : R := bpow radix2 21.
Lemma lo_pos : 0 < lo. Proof. apply bpow_gt_0. Qed.
Lemma lo_hi : lo * hi = 1. Proof. unfold lo, hi. rewrite <- bpow_plus. reflexivity. Qed.
Lemma many_ge : 1 <= many. Proof. change 1 with (bpow radix2 0). apply bpow_le. lia. Qed.
Lemma lo_small : lo <= / 4. Proof. change (/ 4) with (bpow radix2 (-2)). apply bpow_le. lia. Qed.
Lemma room_low : 2 * normal * many <= lo * lo * lo.
Proof.
  change 2 with (bpow radix2 1). change normal with (bpow radix2 (-1000)). unfold lo, many. rewrite <- !bpow_plus. apply bpow_le. lia.
Qed.
Lemma room_high : 4 * (hi * hi * many) <= huge.
Proof.
  change 4 with (bpow radix2 2). change huge with (bpow radix2 1000). unfold hi, many. rewrite <- !bpow_plus. apply bpow_le. lia.
Qed.
Lemma room_high3 : 16 * (many * (hi * hi)) <= huge.
Proof.
  change 16 with (bpow radix2 4). change huge with (bpow radix2 1000). unfold hi, many. rewrite <- !bpow_plus. apply bpow_le. lia.
Qed.
Lemma ordinary_about x : ordinary x -> about 0 x (B2R x) /\ lo <= B2R x <= hi.
Proof.
  intros [F [L U]]. pose proof lo_pos. split; [|split; assumption]. split; [exact F|]. apply rel_refl. unfold real in L. change (bpow radix2 (-300)) with lo in L. lra.
Qed.
Global Opaque lo hi many.

(** The position holds quantity S worth W, after k additions. *)
Definition holds (k : nat) (S W : R) (p : position f64) : Prop :=
  about k (ps_quantity p) S /\ about (k * (k + 3)) (ps_open_price p) (W / S) /\
  lo <= S <= (INR k + 1) * hi /\ lo * S <= W <= hi * S.

Lemma count_bound k : INR k <= bpow radix2 20 -> countable (k * (k + 3) + 3 * k + 10).
Proof.
  intros H. unfold countable. rewrite !plus_INR, !mult_INR, plus_INR.
  replace (INR 3) with 3 by (cbn; lra). replace (INR 10) with 10 by (cbn; lra).
  assert (0 <= INR k) by apply pos_INR. change (bpow radix2 20) with 1048576 in H.
  rewrite uro_val. change (IZR (2 ^ 53)) with 9007199254740992. lra || nra.
Qed.

Lemma add_holds k S W p t : INR k + 1 <= bpow radix2 20 -> holds k S W p -> ordinary_trade t ->
  holds (k + 1) (S + B2R (t_quantity t)) (W + B2R (t_price t) * B2R (t_quantity t)) (@pos_add f64 f64_num p t).
Proof.
  intros Hk (HQ & HP & HS & HW) [Op Oq]. pose proof (Nat.le_0_l (k * (k + 3))) as Kk. pose proof (count_bound k ltac:(lra)) as C. pose proof (pos_INR k) as K0.
  destruct (ordinary_about _ Op) as [Ap Bp]. destruct (ordinary_about _ Oq) as [Aq Bq].
  set (pr := B2R (t_price t)) in *. set (q := B2R (t_quantity t)) in *.
  pose proof lo_pos as L0. pose proof lo_hi as LH. pose proof many_ge as M1. pose proof lo_small as Ls. pose proof room_low as RL. pose proof room_high as RH.
  pose proof normal_pos as Np.
  assert (0 < hi) as H0 by nra. assert (4 <= hi) as H4 by nra.
  assert (0 < S) as S0 by lra. assert (0 < W) as W0 by nra. assert (0 < q) as q0 by lra. assert (0 < pr) as p0 by lra.
  assert (INR k + 2 <= many) as Km.
  { change many with (2 * bpow radix2 20). change (bpow radix2 20) with 1048576 in *. lra. }
  assert (S + q <= many * hi) as ST by nra.
  assert (forall Z, lo * lo <= Z <= hi * (S + q) -> 2 * normal <= Z / (S + q) /\ 4 * (Z / (S + q)) <= huge) as Div.
  { intros Z [Z1 Z2]. split.
    - apply Rmult_le_reg_r with (S + q); [lra|]. replace (Z / (S + q) * (S + q)) with Z by (field; lra).
      apply Rle_trans with (2 * normal * (many * hi)); [apply Rmult_le_compat_l; lra|].
      apply Rle_trans with (lo * lo * lo * hi); [nra|]. replace (lo * lo * lo * hi) with (lo * lo * (lo * hi)) by ring. rewrite LH. lra.
    - apply Rle_trans with (4 * hi); [|nra]. apply Rmult_le_compat_l; [lra|].
      apply Rmult_le_reg_r with (S + q); [lra|]. replace (Z / (S + q) * (S + q)) with Z by (field; lra). exact Z2. }
  assert (forall Z, lo * lo <= Z <= hi * (many * hi) -> 2 * normal <= Z /\ 4 * Z <= huge) as Mul.
  { intros Z [Z1 Z2]. split; [|nra]. apply Rle_trans with (lo * lo); [|exact Z1]. nra. }
  assert (lo * lo <= W <= hi * S) as BW by (split; nra).
  assert (lo * lo <= pr * q <= hi * q) as Bpq by (split; nra).
  (* total quantity *)
  assert (about (k + 1) (f64_add (ps_quantity p) (t_quantity t)) (S + q)) as AT.
  { apply about_add; [exact HQ|exact (about_weaken 0 k _ _ ltac:(lia) Aq)|(eapply countable_le; [|exact C]; lia)|nra|nra]. }
  (* the two products *)
  assert (about (k * (k + 3) + k + 1) (f64_mul (ps_open_price p) (ps_quantity p)) W) as A1.
  { replace W with (W / S * S) by (field; lra). apply about_mul; [exact HP|exact HQ|(eapply countable_le; [|exact C]; lia)| |];
    replace (W / S * S) with W by (field; lra); apply Mul; split; nra. }
  assert (about 1 (f64_mul (t_price t) (t_quantity t)) (pr * q)) as A2.
  { apply (about_mul 0 0); [exact Ap|exact Aq|(eapply countable_le; [|exact C]; lia)| |]; apply Mul; split; nra. }
  (* the quotients *)
  assert (about (k * (k + 3) + 2 * k + 3) (f64_div (f64_mul (ps_open_price p) (ps_quantity p)) (f64_add (ps_quantity p) (t_quantity t))) (W / (S + q))) as A3.
  { replace (k * (k + 3) + 2 * k + 3)%nat with (k * (k + 3) + k + 1 + (k + 1) + 1)%nat by lia.
    apply about_div; [exact A1|exact AT|(eapply countable_le; [|exact C]; lia)| |]; apply Div; split; nra. }
  assert (about (k * (k + 3) + 2 * k + 3) (f64_div (f64_mul (t_price t) (t_quantity t)) (f64_add (ps_quantity p) (t_quantity t))) (pr * q / (S + q))) as A4.
  { apply (about_weaken (1 + (k + 1) + 1)); [lia|].
    apply about_div; [exact A2|exact AT|(eapply countable_le; [|exact C]; lia)| |]; apply Div; split; nra. }
  split; [exact AT|]. split; [|split].
  - replace ((k + 1) * (k + 1 + 3))%nat with (k * (k + 3) + 2 * k + 3 + 1)%nat by lia.
    replace ((W + pr * q) / (S + q)) with (W / (S + q) + pr * q / (S + q)) by (field; lra).
    apply about_add; [exact A3|exact A4|(eapply countable_le; [|exact C]; lia)| |];
    replace (W / (S + q) + pr * q / (S + q)) with ((W + pr * q) / (S + q)) by (field; lra); apply Div; split; nra.
  - rewrite plus_INR. change (INR 1) with 1. split; nra.
  - split; nra.
Qed.

Lemma about_near k x X : countable k -> about k x X -> near x X (INR k * (2 * uro) * X).
Proof. intros C [F R]. split; [exact F|now apply rel_err]. Qed.

(** (c - P) * Q and (P - c) * Q *)
Lemma gain_near k S W p c : INR k <= bpow radix2 20 -> holds k S W p -> ordinary c ->
  let e := 2 * (INR k + 2) * (INR k + 2) * (2 * uro) * (B2R c * S + W) in
  near (f64_mul (f64_sub c (ps_open_price p)) (ps_quantity p)) (B2R c * S - W) e /\
  near (f64_mul (f64_sub (ps_open_price p) c) (ps_quantity p)) (W - B2R c * S) e.
Proof.
  intros Hk (HQ & HP & HS & HW) Oc. pose proof (count_bound k Hk) as C. pose proof (Nat.le_0_l (k * (k + 3))) as Kk.
  destruct (ordinary_about _ Oc) as [[Fc _] Bc]. set (x := B2R c) in *. intros e.
  pose proof lo_pos as L0. pose proof lo_hi as LH. pose proof many_ge as M1. pose proof room_low as RL. pose proof room_high as RH.
  pose proof normal_pos as Np. pose proof (pos_INR k) as K0. pose proof uro_pos as U. pose proof uro_small as Us. pose proof lo_small as Ls.
  assert (0 < hi) as H0 by nra. assert (0 < S) as S0 by lra.
  assert (lo <= W / S <= hi) as BA.
  { split; apply Rmult_le_reg_r with S; try lra; replace (W / S * S) with W by (field; lra); lra. }
  set (A := W / S) in *. assert (A * S = W) as EA by (unfold A; field; lra).
  assert (countable (k * (k + 3))) as C1 by (eapply countable_le; [|exact C]; lia).
  assert (countable k) as C2 by (eapply countable_le; [|exact C]; lia).
  pose proof (about_near _ _ _ C1 HP) as NP. pose proof (about_near _ _ _ C2 HQ) as NQ.
  unfold countable in C1. rewrite mult_INR, plus_INR in C1, NP. change (INR 3) with (1 + 1 + 1) in *. 
  set (a := INR k * (INR k + (1 + 1 + 1)) * (2 * uro)) in *. set (b := INR k * (2 * uro)) in *.
  assert (0 <= b) as Pb by (unfold b; apply Rmult_le_pos; lra). assert (0 <= a) as Pa by (unfold a; apply Rmult_le_pos; [apply Rmult_le_pos; lra|lra]).
  assert (b <= / 4) as Bb.
  { change (bpow radix2 20) with 1048576 in Hk. unfold b. rewrite uro_val. change (IZR (2 ^ 53)) with 9007199254740992. lra. }
  assert (eta <= uro * (lo * lo)) as Et.
  { change eta with (bpow radix2 (-1075)). change uro with (bpow radix2 (-53)). change lo with (bpow radix2 (-300)). rewrite <- !bpow_plus. apply bpow_le. lia. }
  pose proof eta_pos as E0.
  set (D := x + A). assert (2 * lo <= D <= 2 * hi) as BD by (unfold D; lra).
  assert (eta <= uro * D) as Et1 by (apply Rle_trans with (uro * (lo * lo)); [exact Et|apply Rmult_le_compat_l; [lra|]; nra]).
  assert (eta <= uro * (D * S)) as Et2 by (apply Rle_trans with (uro * (lo * lo)); [exact Et|apply Rmult_le_compat_l; [lra|]; nra]).
  assert (INR k + 1 <= many) as Km.
  { change many with (2 * bpow radix2 20). change (bpow radix2 20) with 1048576 in *. lra. }
  assert (S <= many * hi) as SB by nra.
  assert (4 <= hi) as H4 by nra.
  assert (x + 0 + A + a * A <= huge) as R1.
  { assert (a * A <= A) by (rewrite <- (Rmult_1_l A) at 2; apply Rmult_le_compat_r; lra).
    assert (hi <= hi * hi * many) by nra. lra. }
  assert (Rabs (x - A) <= D) as Dab by (apply Rabs_le; unfold D; lra).
  assert (x * S - W = (x - A) * S) as E1 by (rewrite <- EA; ring).
  assert (W - x * S = (A - x) * S) as E2 by (rewrite <- EA; ring).
  assert (e = 2 * (INR k + 2) * (INR k + 2) * (2 * uro) * (D * S)) as Ee by (unfold e, D; rewrite <- EA; ring).
  assert (forall z Z, near z Z ((a + 4 * uro) * D) -> Rabs Z <= D ->
    near (f64_mul z (ps_quantity p)) (Z * S) e) as Fin.
  { intros z Z Nz Bz. eapply near_weaken; [apply near_mul; [exact Nz|exact NQ|]|].
    - rewrite (Rabs_pos_eq S) by lra. pose proof (Rabs_pos Z) as Z0.
      assert (0 <= (a + 4 * uro) * D <= D) as B1.
      { split; [apply Rmult_le_pos; lra|]. rewrite <- (Rmult_1_l D) at 2. apply Rmult_le_compat_r; lra. }
      assert (0 <= b * S <= S) as B2.
      { split; [apply Rmult_le_pos; lra|]. rewrite <- (Rmult_1_l S) at 2. apply Rmult_le_compat_r; lra. }
      apply Rle_trans with (2 * D * (2 * S)); [apply Rmult_le_compat; lra|].
      assert (D * S <= 2 * hi * (many * hi)) by (apply Rmult_le_compat; lra). 
      pose proof room_high3. lra.
    - cbv zeta. rewrite (Rabs_pos_eq S) by lra. rewrite Rabs_mult, (Rabs_pos_eq S) by lra.
      assert (0 < D * S) as DS by (apply Rmult_lt_0_compat; lra). set (X := D * S) in *.
      assert (Rabs Z * S <= X) as ZX by (unfold X; apply Rmult_le_compat_r; lra).
      assert ((a + 4 * uro) * D * S + b * S * Rabs Z + (a + 4 * uro) * D * (b * S) <= (/ 4 * 5 * a + 5 * uro + b) * X) as Bd.
      { replace ((a + 4 * uro) * D * S) with ((a + 4 * uro) * X) by (unfold X; ring).
        replace ((a + 4 * uro) * D * (b * S)) with ((a + 4 * uro) * b * X) by (unfold X; ring).
        replace (b * S * Rabs Z) with (b * (Rabs Z * S)) by ring.
        assert (b * (Rabs Z * S) <= b * X) by (apply Rmult_le_compat_l; lra).
        assert ((a + 4 * uro) * b * X <= (a + 4 * uro) * / 4 * X) by (apply Rmult_le_compat_r; [lra|apply Rmult_le_compat_l; lra]). lra. }
      set (d := (a + 4 * uro) * D * S + b * S * Rabs Z + (a + 4 * uro) * D * (b * S)) in *.
      assert (d <= X) as dX.
      { apply Rle_trans with ((/ 4 * 5 * a + 5 * uro + b) * X); [exact Bd|]. rewrite <- (Rmult_1_l X) at 2. apply Rmult_le_compat_r; lra. }
      assert (uro * (Rabs Z * S + d) <= uro * (2 * X)) by (apply Rmult_le_compat_l; lra).
      apply Rle_trans with ((/ 4 * 5 * a + 8 * uro + b) * X); [lra|]. rewrite Ee. apply Rmult_le_compat_r; [lra|].
      unfold a, b. assert (0 <= INR k * uro) by (apply Rmult_le_pos; lra). assert (0 <= INR k * (INR k * uro)) by (apply Rmult_le_pos; lra). lra. }
  assert (a * A + uro * (D + a * A) + eta <= (a + 4 * uro) * D) as Fe.
  { assert (0 < A <= D) as AD by (unfold D; lra).
    assert (a * A <= a * D) by (apply Rmult_le_compat_l; lra).
    assert (a * A <= D) by (apply Rle_trans with (1 * A); [apply Rmult_le_compat_r; lra|lra]).
    assert (uro * (D + a * A) <= uro * (2 * D)) by (apply Rmult_le_compat_l; lra). lra. }
  split; [rewrite E1|rewrite E2]; apply Fin.
  - eapply near_weaken; [apply near_sub; [exact (near_refl c Fc)|exact NP|]|].
    + fold x. rewrite (Rabs_pos_eq x), (Rabs_pos_eq A) by lra. lra.
    + fold x. assert (uro * (Rabs (x - A) + 0 + a * A) <= uro * (D + a * A)) by (apply Rmult_le_compat_l; lra). lra.
  - exact Dab.
  - eapply near_weaken; [apply near_sub; [exact NP|exact (near_refl c Fc)|]|].
    + fold x. rewrite (Rabs_pos_eq x), (Rabs_pos_eq A) by lra. lra.
    + fold x. rewrite Rabs_minus_sym. assert (uro * (Rabs (x - A) + a * A + 0) <= uro * (D + a * A)) by (apply Rmult_le_compat_l; lra). lra.
  - now rewrite Rabs_minus_sym.
Qed.

Lemma new_holds id t0 : ordinary_trade t0 ->
  holds 0 (B2R (t_quantity t0)) (B2R (t_price t0) * B2R (t_quantity t0)) (@new_position f64 f64_num id t0).
Proof.
  intros [Op Oq]. destruct (ordinary_about _ Op) as [Ap Bp]. destruct (ordinary_about _ Oq) as [Aq Bq]. pose proof lo_pos as L0.
  split; [exact Aq|]. split; [|split].
  - replace (B2R (t_price t0) * B2R (t_quantity t0) / B2R (t_quantity t0)) with (B2R (t_price t0)) by (field; lra). exact Ap.
  - change (INR 0) with 0. lra.
  - split; apply Rmult_le_compat_r; lra.
Qed.
Lemma grow_holds ts : forall k S W p, INR (k + length ts) <= bpow radix2 20 -> holds k S W p -> Forall ordinary_trade ts ->
  Forall (fun t => ps_pair p = t_pair t /\ increases (ps_type p) (t_action t)) ts ->
  let p' := @modify_all f64 f64_num p ts in
  holds (k + length ts) (S + bought ts) (W + worth ts) p' /\ ps_type p' = ps_type p /\ ps_pair p' = ps_pair p /\ ps_open p' = ps_open p.
Proof.
  induction ts as [|t ts IH]; intros k S W p Hk Hp Ho Hw.
  - cbn. rewrite Nat.add_0_r, !Rplus_0_r. auto.
  - inversion Ho as [|? ? O1 O2]; subst. inversion Hw as [|? ? [P1 I1] W2]; subst. cbn [modify_all].
    rewrite modify_increase by assumption. cbn [fst]. cbn [List.length] in Hk.
    assert (INR k + 1 <= bpow radix2 20) as Hk1.
    { eapply Rle_trans; [|exact Hk]. rewrite <- S_INR. apply le_INR. lia. }
    destruct (IH (k + 1)%nat _ _ (pos_add p t) ltac:(rewrite <- Nat.add_assoc; exact Hk) (add_holds k S W p t Hk1 Hp O1) O2) as (H1 & H2 & H3 & H4).
    { eapply Forall_impl; [|exact W2]. intros x Hx. exact Hx. }
    cbn [bought worth fold_right List.length]. fold (bought ts) (worth ts). unfold real.
    rewrite <- Nat.add_assoc, !Rplus_assoc in H1. auto.
Qed.

(** One rounding of a product minus a number. *)
Lemma fee_near (price quantity cost : f64) : ordinary price -> ordinary quantity -> is_finite cost = true ->
  Rabs (B2R cost) <= bpow radix2 900 ->
  let m := B2R price * B2R quantity in
  near (f64_sub cost (f64_mul price quantity)) (B2R cost - m) (2 * (2 * uro) * (Rabs (B2R cost) + m)) /\
  near (f64_sub (f64_mul price quantity) cost) (m - B2R cost) (2 * (2 * uro) * (Rabs (B2R cost) + m)).
Proof.
  intros Op Oq Fc Bc m. destruct (ordinary_about _ Op) as [[Fp _] Bp]. destruct (ordinary_about _ Oq) as [[Fq _] Bq].
  pose proof lo_pos as L0. pose proof lo_hi as LH. pose proof room_high as RH. pose proof many_ge as M1. pose proof uro_pos as U. pose proof uro_small as Us. pose proof lo_small as Ls.
  assert (0 < hi) as H0 by nra.
  assert (lo * lo <= m <= hi * hi) as Bm by (unfold m; split; apply Rmult_le_compat; lra).
  assert (0 < lo * lo) as LL by (apply Rmult_lt_0_compat; lra).
  assert (4 * (hi * hi) <= huge) as H4.
  { apply Rle_trans with (4 * (hi * hi * many)); [|exact RH]. assert (hi * hi * 1 <= hi * hi * many) by (apply Rmult_le_compat_l; [apply Rmult_le_pos; lra|lra]). lra. }
  assert (4 * Rabs (B2R cost) <= huge) as H5.
  { apply Rle_trans with (4 * bpow radix2 900); [lra|]. change 4 with (bpow radix2 2). change huge with (bpow radix2 1000). rewrite <- bpow_plus. apply bpow_le. lia. }
  assert (2 * normal <= m) as Nm.
  { pose proof room_low as RL. pose proof normal_pos. assert (lo * lo * lo <= lo * lo) by nra. nra. }
  assert (near (f64_mul price quantity) m (uro * m)) as NM.
  { destruct (of_xr _ _ (mul_xr price quantity Fp Fq)) as [F E]; [fold m; rewrite Rabs_pos_eq; lra|]. fold m in E.
    split; [exact F|]. rewrite E. pose proof (rnd_rel m ltac:(pose proof normal_pos; lra)) as (_ & R1 & R2).
    cbn [pow] in R1, R2. rewrite Rmult_1_r in R1, R2. apply Rabs_le. split; [|lra].
    assert (m <= rnd m + uro * rnd m) by lra. nra. }
  pose proof (Rabs_pos (B2R cost)) as C0. 
  destruct NM as [FM EM]. set (r := f64_mul price quantity) in *.
  assert (Rabs (B2R r) <= m + uro * m) as Br.
  { replace (B2R r) with (m + (B2R r - m)) by ring. eapply Rle_trans; [apply Rabs_triang|]. rewrite (Rabs_pos_eq m); lra. }
  assert (uro * m <= / 1000 * m) as Um by (apply Rmult_le_compat_r; lra).
  assert (uro * (uro * m) <= / 1000 * (uro * m)) as Uum.
  { apply Rmult_le_compat_r; [apply Rmult_le_pos; lra|lra]. }
  assert (0 <= uro * Rabs (B2R cost)) as Uc by (apply Rmult_le_pos; lra).
  assert (0 <= uro * m) as Um0 by (apply Rmult_le_pos; lra).
  assert (forall a b, Rabs (a - b) <= Rabs a + Rabs b) as Tr.
  { intros a b. unfold Rminus. eapply Rle_trans; [apply Rabs_triang|]. rewrite Rabs_Ropp. lra. }
  pose proof (Tr (B2R cost) (B2R r)) as T1. pose proof (Tr (B2R r) (B2R cost)) as T2.
  destruct (sub_rel cost r Fc FM ltac:(lra)) as [F1 E1]. destruct (sub_rel r cost FM Fc ltac:(lra)) as [F2 E2].
  assert (uro * Rabs (B2R cost - B2R r) <= uro * (Rabs (B2R cost) + (m + uro * m))) as B1 by (apply Rmult_le_compat_l; lra).
  assert (uro * Rabs (B2R r - B2R cost) <= uro * (Rabs (B2R cost) + (m + uro * m))) as B2 by (apply Rmult_le_compat_l; lra).
  split; (split; [assumption|]).
  - replace (B2R (f64_sub cost r) - (B2R cost - m)) with ((B2R (f64_sub cost r) - (B2R cost - B2R r)) - (B2R r - m)) by ring.
    eapply Rle_trans; [apply Tr|]. lra.
  - replace (B2R (f64_sub r cost) - (m - B2R cost)) with ((B2R (f64_sub r cost) - (B2R r - B2R cost)) + (B2R r - m)) by ring.
    eapply Rle_trans; [apply Rabs_triang|]. lra.
Qed.

Lemma nonzero (x : f64) : is_finite x = true -> B2R x <> 0 -> f64_eq x (i2f 0) = false.
Proof.
  intros F H. assert (is_nan x = false) as N by (now destruct x). assert (is_nan (i2f 0) = false) as N0 by reflexivity.
  rewrite (f64_eq_xr x (i2f 0) N N0). apply Req_bool_false.
  rewrite xr_finite by assumption. change (xr (i2f 0)) with 0. exact H.
Qed.
Lemma about_nonzero k x X : about k x X -> f64_eq x (i2f 0) = false.
Proof. intros [F R]. apply nonzero; [exact F|]. apply rel_pos in R. lra. Qed.
Lemma product_about (x y : f64) : ordinary x -> ordinary y -> about 1 (f64_mul x y) (B2R x * B2R y).
Proof.
  intros Ox Oy. destruct (ordinary_about _ Ox) as [Ax Bx]. destruct (ordinary_about _ Oy) as [Ay By].
  pose proof lo_pos as L0. pose proof lo_hi as LH. pose proof room_high as RH. pose proof many_ge as M1. pose proof lo_small as Ls. pose proof room_low as RL. pose proof normal_pos.
  assert (0 < hi) as H0 by nra.
  assert (lo * lo <= B2R x * B2R y <= hi * hi) as Bm by (split; apply Rmult_le_compat; lra).
  assert (hi * hi * 1 <= hi * hi * many) by (apply Rmult_le_compat_l; [apply Rmult_le_pos; lra|lra]).
  assert (lo * lo * lo <= lo * lo) by nra.
  apply (about_mul 0 0); auto; [|nra|nra]. unfold countable. cbn. lra.
Qed.
Lemma quotient_about (x y : f64) : ordinary x -> ordinary y -> about 1 (f64_div x y) (B2R x / B2R y).
Proof.
  intros Ox Oy. destruct (ordinary_about _ Ox) as [Ax Bx]. destruct (ordinary_about _ Oy) as [Ay By].
  pose proof lo_pos as L0. pose proof lo_hi as LH. pose proof room_high as RH. pose proof many_ge as M1. pose proof lo_small as Ls. pose proof room_low as RL. pose proof normal_pos.
  assert (0 < hi) as H0 by nra.
  assert (/ hi <= / B2R y <= / lo) as By' by (split; apply Rinv_le; lra).
  assert (lo * lo <= B2R x / B2R y <= hi * hi) as Bm.
  { assert (/ hi = lo) as E1 by (apply (Rmult_eq_reg_r hi); [rewrite Rinv_l by lra; lra|lra]).
    assert (/ lo = hi) as E2 by (apply (Rmult_eq_reg_r lo); [rewrite Rinv_l by lra; lra|lra]).
    rewrite E1, E2 in By'.
    unfold Rdiv. split; apply Rmult_le_compat; lra. }
  assert (hi * hi * 1 <= hi * hi * many) by (apply Rmult_le_compat_l; [apply Rmult_le_pos; lra|lra]).
  assert (lo * lo * lo <= lo * lo) by nra.
  apply (about_div 0 0); auto; [|nra|nra]. unfold countable. cbn. lra.
Qed.
