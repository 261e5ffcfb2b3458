(** C112: the digits chosen by [shortest]. *)
From Coq Require Import ZArith NArith Lia Lra Bool Reals List String Ascii.
From Flocq Require Import Core BinarySingleNaN.
From Verif Require Import Go.Outcome Go.Int64 Go.Float64 Go.FloatOrder Go.FloatReal Go.Text Go.Num
  Spec.DecimalSpec Spec.ShortestSpec Proofs.DecNum Proofs.Lex Proofs.RoundTrip.
Open Scope R_scope.

Local Notation b10 := (bpow radix10).

Lemma b10_pow e : powerRZ 10 e = b10 e.
Proof. rewrite bpow_powerRZ. reflexivity. Qed.
Lemma b10_int k : (0 <= k)%Z -> b10 k = IZR (10 ^ k).
Proof. intros H. rewrite <- IZR_Zpower by assumption. reflexivity. Qed.

(** ** Decimals on a grid *)
(** Multiples of [10^(dp-n)] suffice to reach a number below [10^dp] from
    wherever a decimal of [n] digits is. *)
Lemma grid_between v dp k r' : (1 <= k)%Z -> b10 (dp - 1) <= v -> 0 < r' -> has_digits k r' ->
  exists M, (r' <= IZR M * b10 (dp - k) <= v) \/ (v <= IZR M * b10 (dp - k) /\ IZR M * b10 (dp - k) <= r').
Proof.
  intros Hk Hv Hr (N & e & HN & E). rewrite b10_pow in E.
  destruct (Z_le_gt_dec (dp - k) e) as [L|L].
  - exists (N * 10 ^ (e - (dp - k)))%Z.
    assert (IZR (N * 10 ^ (e - (dp - k))) * b10 (dp - k) = r') as ->.
    { rewrite mult_IZR, <- b10_int by lia. rewrite Rmult_assoc, <- bpow_plus. rewrite E. do 2 f_equal. lia. }
    destruct (Rle_dec r' v); [left; lra|right; lra].
  - exists (10 ^ (k - 1))%Z. left.
    assert (IZR (10 ^ (k - 1)) * b10 (dp - k) = b10 (dp - 1)) as ->.
    { rewrite <- b10_int by lia. rewrite <- bpow_plus. f_equal. lia. }
    split; [|exact Hv]. rewrite E. apply Rle_trans with (b10 k * b10 (dp - 1 - k)).
    + apply Rmult_le_compat; [|apply bpow_ge_0| |apply bpow_le; lia].
      * apply Rmult_le_reg_r with (b10 e); [apply bpow_gt_0|]. rewrite Rmult_0_l. lra.
      * rewrite b10_int by lia. apply IZR_le. lia.
    + rewrite <- bpow_plus. right. f_equal. lia.
Qed.

Lemma rnd_pos_arg r v : 0 < v -> rnd r = v -> 0 < r.
Proof.
  intros Hv H. destruct (Rlt_le_dec 0 r) as [|L]; [assumption|exfalso].
  apply rnd_mono in L. rewrite rnd_0 in L. lra.
Qed.
Lemma rnd_squeeze a b v : rnd v = v -> rnd a = v -> a <= b <= v \/ (v <= b /\ b <= a) -> rnd b = v.
Proof.
  intros Hv Ha [[H1 H2]|[H1 H2]]; apply rnd_mono in H1, H2; lra.
Qed.

Section Grid.
Variables (v : R) (dp k : Z).
Hypothesis (Hk : (1 <= k)%Z) (Hlo : b10 (dp - 1) <= v) (Hhi : v < b10 dp) (Hv : rnd v = v).
Let g := b10 (dp - k).
Let q := Zfloor (v / g).
Let down := IZR q * g.
Let up := IZR (q + 1) * g.

Lemma g_pos : 0 < g. Proof. apply bpow_gt_0. Qed.
Lemma v_pos : 0 < v. Proof. pose proof (bpow_gt_0 radix10 (dp - 1)). lra. Qed.
Lemma v_scaled : v = v / g * g.
Proof. field. pose proof g_pos. lra. Qed.
Lemma down_le : down <= v < up.
Proof.
  pose proof g_pos. unfold down, up, q. pose proof (Zfloor_lb (v / g)). pose proof (Zfloor_ub (v / g)).
  rewrite plus_IZR. pose proof v_scaled as E. split; [rewrite E at 2|rewrite E at 1]; [apply Rmult_le_compat_r|apply Rmult_lt_compat_r]; lra.
Qed.
Lemma q_range : (10 ^ (k - 1) <= q < 10 ^ k)%Z.
Proof.
  pose proof g_pos. unfold q. split.
  - apply Zfloor_lub. rewrite <- b10_int by lia. apply Rmult_le_reg_r with g; [assumption|].
    rewrite <- v_scaled. unfold g. rewrite <- bpow_plus. replace (k - 1 + (dp - k))%Z with (dp - 1)%Z by lia. exact Hlo.
  - apply lt_IZR. rewrite <- b10_int by lia. apply Rle_lt_trans with (v / g); [apply Zfloor_lb|].
    apply Rmult_lt_reg_r with g; [assumption|]. rewrite <- v_scaled. unfold g. rewrite <- bpow_plus.
    replace (k + (dp - k))%Z with dp by lia. exact Hhi.
Qed.
Lemma down_digits : has_digits k down.
Proof.
  exists q, (dp - k)%Z. pose proof q_range. assert (0 < 10 ^ (k - 1))%Z by (apply Z.pow_pos_nonneg; lia).
  split; [lia|]. now rewrite b10_pow.
Qed.
Lemma up_digits : has_digits k up.
Proof.
  pose proof q_range as [Q1 Q2]. assert (0 < 10 ^ (k - 1))%Z by (apply Z.pow_pos_nonneg; lia).
  destruct (Z.eq_dec (q + 1) (10 ^ k)) as [E|E].
  - exists 1%Z, dp. split; [change (Z.abs 1) with (10 ^ 0)%Z; apply Z.pow_lt_mono_r; lia|].
    unfold up, g. rewrite E, <- b10_int, <- bpow_plus, b10_pow by lia. rewrite Rmult_1_l. f_equal. lia.
  - exists (q + 1)%Z, (dp - k)%Z. split; [lia|]. now rewrite b10_pow.
Qed.

(** A decimal of [k] digits that is read as [v] has [down] or [up] between it
    and [v]. *)
Lemma grid_hit r' : has_digits k r' -> rnd r' = v ->
  (rnd down = v /\ r' <= down) \/ (rnd up = v /\ up <= r') \/ (rnd down = v /\ down = v).
Proof.
  intros D H. pose proof (rnd_pos_arg _ _ v_pos H) as P. pose proof g_pos as G.
  destruct (grid_between v dp k r' Hk Hlo P D) as [M [[M1 M2]|[M1 M2]]]; fold g in M1, M2.
  - left. assert (IZR M * g <= down) as L.
    { apply Rmult_le_compat_r; [lra|]. apply IZR_le. apply Zfloor_lub.
      apply Rmult_le_reg_r with g; [assumption|]. rewrite <- v_scaled. exact M2. }
    pose proof down_le as [D1 _]. split; [|lra]. apply (rnd_squeeze r' down v Hv H). left. lra.
  - destruct (Req_dec v down) as [E|E].
    + right; right. rewrite <- E. auto.
    + right; left. assert (up <= IZR M * g) as L.
      { apply Rmult_le_compat_r; [lra|]. apply IZR_le.
        assert (q < M)%Z; [|lia]. apply lt_IZR. apply Rmult_lt_reg_r with g; [assumption|]. fold down.
        pose proof down_le. lra. }
      pose proof down_le as [_ D1]. split; [|lra]. apply (rnd_squeeze r' up v Hv H). right. lra.
Qed.

(** What is chosen. *)
Definition chosen (d : Z) : Prop :=
  (rnd down = v /\ rnd up <> v /\ d = q) \/ (rnd down <> v /\ rnd up = v /\ d = (q + 1)%Z) \/
  (rnd down = v /\ rnd up = v /\
     (d = q /\ 2 * v <= down + up /\ (2 * v = down + up -> Z.even q = true) \/
      d = (q + 1)%Z /\ down + up <= 2 * v /\ (2 * v = down + up -> Z.even (q + 1) = true))).

Lemma up_down : up = down + g.
Proof. unfold up, down. rewrite plus_IZR. ring. Qed.

Lemma even_double z : Z.even z = true -> exists n, z = (2 * n)%Z.
Proof. intros H. apply Z.even_spec in H. destruct H as [n ->]. now exists n. Qed.

Lemma chosen_reads d : chosen d -> rnd (IZR d * g) = v.
Proof. intros [(A & _ & ->)|[(_ & A & ->)|(A & B & [(-> & _)|(-> & _)])]]; assumption. Qed.
Lemma chosen_digits d : chosen d -> has_digits k (IZR d * g).
Proof. intros [(_ & _ & ->)|[(_ & _ & ->)|(_ & _ & [(-> & _)|(-> & _)])]]; apply down_digits || apply up_digits. Qed.

Lemma chosen_nearest d r' : chosen d -> has_digits k r' -> rnd r' = v -> Rabs (IZR d * g - v) <= Rabs (r' - v).
Proof.
  intros C D H. pose proof down_le as [L1 L2]. pose proof up_down as U. pose proof g_pos as G.
  pose proof (grid_hit r' D H) as K.
  assert (Rabs (down - v) = v - down) as A1 by (rewrite Rabs_minus_sym; apply Rabs_pos_eq; lra).
  assert (Rabs (up - v) = up - v) as A2 by (apply Rabs_pos_eq; lra).
  assert (Rabs (r' - v) >= v - r' /\ Rabs (r' - v) >= r' - v /\ Rabs (r' - v) >= 0) as (A3 & A4 & A5).
  { unfold Rabs. destruct (Rcase_abs _); lra. }
  destruct C as [(B1 & B2 & ->)|[(B1 & B2 & ->)|(B1 & B2 & [(-> & B3 & _)|(-> & B3 & _)])]]; fold down up;
    rewrite ?A1, ?A2; destruct K as [[K1 K2]|[[K1 K2]|[K1 K2]]]; try contradiction; try lra.
Qed.

Lemma chosen_tie d r' : chosen d -> has_digits k r' -> rnd r' = v ->
  Rabs (IZR d * g - v) = Rabs (r' - v) -> r' <> IZR d * g ->
  exists n, IZR d * g = 2 * IZR n * Rabs (IZR d * g - r').
Proof.
  intros C D H T Ne. pose proof down_le as [L1 L2]. pose proof up_down as U. pose proof g_pos as G.
  pose proof (grid_hit r' D H) as K.
  set (r := IZR d * g) in *.
  assert (r' = 2 * v - r) as E.
  { unfold Rabs in T. destruct (Rcase_abs (r - v)), (Rcase_abs (r' - v)); lra. }
  assert (r = down \/ r = up) as R.
  { unfold r, down, up. destruct C as [(_ & _ & ->)|[(_ & _ & ->)|(_ & _ & [(-> & _)|(-> & _)])]]; auto. }
  assert (r = down -> d = q) as Rd.
  { intros Hd. apply eq_IZR. apply Rmult_eq_reg_r with g; [exact Hd|lra]. }
  assert (r = up -> d = (q + 1)%Z) as Ru.
  { intros Hd. apply eq_IZR. apply Rmult_eq_reg_r with g; [exact Hd|lra]. }
  destruct R as [R|R].
  - specialize (Rd R). subst d.
    destruct K as [[K1 K2]|[[K1 K2]|[K1 K2]]]; try lra.
    destruct C as [(B1 & B2 & _)|[(B1 & B2 & B3)|(B1 & B2 & [(_ & B3 & B4)|(B0 & _)])]]; try contradiction; try lia.
    assert (2 * v = down + up) as T2 by lra. destruct (even_double _ (B4 T2)) as [n En].
    exists n. replace (r - r') with (- g) by lra. rewrite Rabs_Ropp, Rabs_pos_eq by lra.
    unfold r. rewrite En, mult_IZR. reflexivity.
  - specialize (Ru R). subst d.
    destruct K as [[K1 K2]|[[K1 K2]|[K1 K2]]]; try lra.
    + destruct C as [(B1 & B2 & B3)|[(B1 & B2 & B3)|(B1 & B2 & [(B0 & _)|(_ & B3 & B4)])]]; try contradiction; try lia.
      assert (2 * v = down + up) as T2 by lra. destruct (even_double _ (B4 T2)) as [n En].
      exists n. replace (r - r') with g by lra. rewrite Rabs_pos_eq by lra.
      unfold r. rewrite En, mult_IZR. reflexivity.
    + (* down = v is read as v: then it would have been chosen *)
      destruct C as [(B1 & B2 & B3)|[(B1 & B2 & B3)|(B1 & B2 & [(B0 & _)|(_ & B3 & B4)])]]; try contradiction; try lia. lra.
Qed.

(** Nothing with [k] digits is read as [v] unless [down] or [up] is. *)
Lemma none_read : rnd down <> v -> rnd up <> v -> forall r', has_digits k r' -> rnd r' <> v.
Proof. intros A B r' D H. destruct (grid_hit r' D H) as [[K _]|[[K _]|[K _]]]; contradiction. Qed.
End Grid.

(** ** Seventeen digits are enough *)
Lemma grid_gap v dp : 0 < v -> b10 (dp - 1) <= v -> rnd v = v -> b10 (dp - 17) < (succ radix2 fexp64 v - pred radix2 fexp64 v) / 2.
Proof.
  intros Pv Hlo Hv. assert (Valid_exp fexp64) as VE by (apply FLT_exp_valid; reflexivity).
  assert (b10 (dp - 17) < v * bpow radix2 (-53)) as S.
  { replace (dp - 17)%Z with (dp - 1 + (-16))%Z by lia. rewrite bpow_plus.
    apply Rlt_le_trans with (b10 (dp - 1) * bpow radix2 (-53)).
    - apply Rmult_lt_compat_l; [apply bpow_gt_0|].
      change (-16)%Z with (- (16))%Z. change (-53)%Z with (- (53))%Z. rewrite !bpow_opp.
      apply Rinv_lt_contravar; [apply Rmult_lt_0_compat; apply bpow_gt_0|].
      rewrite <- !IZR_Zpower by lia. apply IZR_lt. reflexivity.
    - apply Rmult_le_compat_r; [apply bpow_ge_0|assumption]. }
  rewrite succ_eq_pos by lra. rewrite pred_eq_pos by lra. unfold pred_pos.
  destruct (Req_bool_spec v (bpow radix2 (mag radix2 v - 1))) as [E|E].
  - assert (2 * (v * bpow radix2 (-53)) <= ulp radix2 fexp64 v) as U.
    { rewrite ulp_neq_0 by lra. unfold cexp. rewrite E at 1. rewrite <- bpow_plus.
      change 2 with (bpow radix2 1). rewrite <- bpow_plus. apply bpow_le. unfold fexp64, FLT_exp. lia. }
    pose proof (bpow_ge_0 radix2 (fexp64 (mag radix2 v - 1))). lra.
  - pose proof (ulp_FLT_gt radix2 (3 - 1024 - 53) 53 v) as U. rewrite Rabs_pos_eq in U by lra.
    change (FLT_exp (3 - 1024 - 53) 53) with fexp64 in U. change (- (53))%Z with (-53)%Z in U. lra.
Qed.

Lemma seventeen v dp : b10 (dp - 1) <= v -> v < b10 dp -> rnd v = v ->
  let g := b10 (dp - 17) in let q := Zfloor (v / g) in
  rnd (IZR q * g) = v \/ rnd (IZR (q + 1) * g) = v.
Proof.
  intros Hlo Hhi Hv. cbv zeta. assert (Valid_exp fexp64) as VE by (apply FLT_exp_valid; reflexivity).
  pose proof (v_pos v dp Hlo) as Pv. pose proof (down_le v dp 17) as [L1 L2].
  pose proof (up_down v dp 17) as U.
  set (down := IZR (Zfloor (v / b10 (dp - 17))) * b10 (dp - 17)) in *.
  set (up := IZR (Zfloor (v / b10 (dp - 17)) + 1) * b10 (dp - 17)) in *.
  pose proof (grid_gap v dp Pv Hlo Hv) as G.
  assert (generic_format radix2 fexp64 v) as Fv.
  { rewrite <- Hv. apply generic_format_round; [assumption|apply valid_rnd_N]. }
  destruct (Rlt_le_dec ((v + pred radix2 fexp64 v) / 2) down) as [H|H].
  - left. apply Rle_antisym; [apply Rle_trans with (rnd v); [now apply rnd_mono|lra]|].
    apply round_N_ge_midp; assumption.
  - right. apply Rle_antisym; [|apply Rle_trans with (rnd v); [lra|apply rnd_mono; lra]].
    apply round_N_le_midp; try assumption. lra.
Qed.

(** ** The position of the point *)
Lemma find_scale_correct f : forall k num den, (0 < num)%N -> (num < 10 * den)%N ->
  (den <= num * 10 ^ N.of_nat f)%N ->
  exists j, find_scale f k num den = (k + j)%nat /\ (den <= num * 10 ^ N.of_nat j < 10 * den)%N.
Proof.
  induction f as [|f IH]; intros k num den H0 H1 H2; cbn [find_scale].
  - exists 0%nat. split; [lia|]. change (10 ^ N.of_nat 0)%N with 1%N in *. lia.
  - destruct (N.leb_spec den num) as [L|L].
    + exists 0%nat. split; [lia|]. change (10 ^ N.of_nat 0)%N with 1%N. lia.
    + destruct (IH (S k) (10 * num)%N den ltac:(lia) ltac:(lia)) as (j & E & J).
      { rewrite Nat2N.inj_succ, N.pow_succ_r' in H2. lia. }
      exists (S j). split; [lia|]. rewrite Nat2N.inj_succ, N.pow_succ_r'. lia.
Qed.

Lemma dec_point_correct num den : (0 < num)%N -> (0 < den)%N -> (den <= num * 10 ^ 400)%N ->
  let v := IZR (Z.of_N num) / IZR (Z.of_N den) in
  b10 (dec_point num den - 1) <= v < b10 (dec_point num den).
Proof.
  intros Hn Hd H. cbv zeta. set (v := IZR (Z.of_N num) / IZR (Z.of_N den)).
  assert (0 < IZR (Z.of_N den)) as Pd by (apply (IZR_lt 0); lia).
  assert (v * IZR (Z.of_N den) = IZR (Z.of_N num)) as Ev by (unfold v; field; lra).
  unfold dec_point. destruct (N.leb_spec den num) as [L|L].
  - set (a := (num / den)%N). assert (0 < a)%N as Pa.
    { apply N.div_str_pos. lia. }
    pose proof (num_digits_bound a) as U. pose proof (num_digits_lower a Pa) as W. pose proof (num_digits_pos a) as P.
    set (nd := num_digits a) in *.
    assert (10 ^ N.of_nat (nd - 1) * den <= num)%N as W1.
    { apply N.le_trans with (a * den)%N; [apply N.mul_le_mono_r, W|]. rewrite N.mul_comm. apply N.mul_div_le. lia. }
    assert (num < 10 ^ N.of_nat nd * den)%N as U1.
    { pose proof (N.mul_succ_div_gt num den ltac:(lia)) as K. fold a in K. nia. }
    split; apply Rmult_le_reg_r with (IZR (Z.of_N den)) || apply Rmult_lt_reg_r with (IZR (Z.of_N den)); try assumption;
      rewrite Ev, b10_int, <- mult_IZR by lia.
    + apply IZR_le. replace (Z.of_nat nd - 1)%Z with (Z.of_nat (nd - 1)) by lia.
      apply N2Z.inj_le in W1. rewrite N2Z.inj_mul, N2Z.inj_pow, nat_N_Z in W1. exact W1.
    + apply IZR_lt. apply N2Z.inj_lt in U1. rewrite N2Z.inj_mul, N2Z.inj_pow, nat_N_Z in U1. exact U1.
  - destruct (find_scale_correct 400 0 num den Hn ltac:(lia) H) as (j & E & J1 & J2). rewrite E.
    assert (v * b10 (Z.of_nat j) * IZR (Z.of_N den) = IZR (Z.of_N (num * 10 ^ N.of_nat j))) as Ej.
    { rewrite N2Z.inj_mul, N2Z.inj_pow, nat_N_Z, mult_IZR, b10_int, <- Ev by lia. simpl (Z.of_N 10). ring. }
    replace (1 - Z.of_nat (0 + j) - 1)%Z with (- Z.of_nat j)%Z by lia.
    replace (1 - Z.of_nat (0 + j))%Z with (- Z.of_nat j + 1)%Z by lia.
    assert (0 < b10 (Z.of_nat j)) as Pj by apply bpow_gt_0.
    apply N2Z.inj_le in J1. apply IZR_le in J1. apply N2Z.inj_lt in J2. apply IZR_lt in J2. rewrite <- Ej in J1, J2.
    rewrite N2Z.inj_mul, mult_IZR in J2. simpl (IZR (Z.of_N 10)) in J2.
    assert (1 <= v * b10 (Z.of_nat j) < 10) as [K1 K2].
    { split; [apply Rmult_le_reg_r with (IZR (Z.of_N den))|apply Rmult_lt_reg_r with (IZR (Z.of_N den))]; lra. }
    rewrite bpow_plus, bpow_opp. change (b10 1) with 10. split.
    + apply Rmult_le_reg_r with (b10 (Z.of_nat j)); [assumption|]. rewrite Rinv_l by lra. exact K1.
    + apply Rmult_lt_reg_r with (b10 (Z.of_nat j)); [assumption|].
      replace (/ b10 (Z.of_nat j) * 10 * b10 (Z.of_nat j)) with 10 by (field; lra). exact K2.
Qed.

Lemma pow2_enough m e : (-1074 <= e)%Z -> (pow2_den e <= pow2_num m e * 10 ^ 400)%N.
Proof.
  intros H. assert (1 <= pow2_num m e)%N by (pose proof (pow2_num_pos m e); lia).
  apply N.le_trans with (1 * 10 ^ 400)%N; [|apply N.mul_le_mono_r; assumption].
  apply N.le_trans with (2 ^ 1074)%N; [|vm_compute; discriminate].
  destruct e as [|p|p]; unfold pow2_den; [vm_compute; discriminate|vm_compute; discriminate|apply N.pow_le_mono_r; lia].
Qed.

(** ** One attempt, and the search *)
Section Search.
Variables (s : bool) (m : positive) (e : Z) (B : SpecFloat.bounded 53 1024 m e = true).
Let x := B754_finite s m e B : f64.
Let v := IZR (Zpos m) * bpow radix2 e.
Let num := pow2_num m e.
Let den := pow2_den e.
Let dp := dec_point num den.

Lemma v_value : IZR (Z.of_N num) / IZR (Z.of_N den) = v.
Proof. apply pow2_value. Qed.
Lemma e_low : (-1074 <= e)%Z.
Proof.
  assert (SpecFloat.canonical_mantissa 53 1024 m e = true) as K by (exact (proj1 (proj1 (andb_true_iff _ _) B))).
  unfold SpecFloat.canonical_mantissa in K. apply Zeq_bool_eq in K. unfold SpecFloat.fexp, SpecFloat.emin in K. lia.
Qed.
Lemma v_point : b10 (dp - 1) <= v < b10 dp.
Proof.
  pose proof (dec_point_correct num den (pow2_num_pos m e) (pow2_den_pos e) (pow2_enough m e e_low)) as H.
  cbv zeta in H. rewrite v_value in H. exact H.
Qed.
Lemma v_positive : 0 < v.
Proof. apply Rmult_lt_0_compat; [apply (IZR_lt 0); lia|apply bpow_gt_0]. Qed.
Lemma v_rnd : rnd v = v.
Proof.
  pose proof (rnd_B2R (B754_finite false m e B)) as H. now rewrite B2R_finite_signed in H.
Qed.
Lemma v_big : v < big.
Proof.
  pose proof (B2R_lt_big (B754_finite false m e B) eq_refl) as H. rewrite B2R_finite_signed in H. simpl in H.
  fold v in H. rewrite Rabs_pos_eq in H by (pose proof v_positive; lra). exact H.
Qed.

Lemma back_iff d e10 : back s x d e10 = true <-> rnd (decR d e10) = v.
Proof.
  destruct (f64_of_dec_spec s d e10) as (A & Bs & C). unfold back. rewrite f64_eq_xr by (auto; reflexivity).
  rewrite (xr_finite x eq_refl), C. unfold x at 1. rewrite B2R_finite_signed. fold v.
  pose proof v_positive as Pv. pose proof v_big as Bv. pose proof (rnd_nonneg _ (decR_nonneg d e10)) as Pr.
  assert (rnd (signed s (decR d e10)) = signed s (rnd (decR d e10))) as -> by (destruct s; [apply rnd_opp|reflexivity]).
  assert (sat (signed s (rnd (decR d e10))) = signed s (sat (rnd (decR d e10)))) as ->.
  { destruct s; [|reflexivity]. simpl. destruct (Rle_dec big (rnd (decR d e10))) as [L|L].
    - rewrite sat_lo, sat_hi by lra. reflexivity.
    - rewrite !sat_id; [reflexivity| |]; rewrite ?Rabs_Ropp, Rabs_pos_eq; lra. }
  assert (sat (rnd (decR d e10)) = v <-> rnd (decR d e10) = v) as K.
  { destruct (Rle_dec big (rnd (decR d e10))) as [L|L].
    - rewrite sat_hi by assumption. lra.
    - rewrite sat_id by (rewrite Rabs_pos_eq; lra). tauto. }
  rewrite <- K. destruct (Req_bool_spec (signed s (sat (rnd (decR d e10)))) (signed s v)) as [E|E]; split; intros H; auto; try discriminate.
  - destruct s; simpl in E; lra.
  - rewrite H in E. contradiction.
Qed.

Section Attempt.
Variable n : nat.
Let k := Z.of_nat n.
Hypothesis Hn : (1 <= n)%nat.
Let g := b10 (dp - k).
Let num' := match Z.of_nat n - dp with Zpos p => (num * 10 ^ Npos p)%N | _ => num end%Z.
Let den' := match Z.of_nat n - dp with Zneg p => (den * 10 ^ Npos p)%N | _ => den end%Z.

Lemma den'_pos : (0 < den')%N.
Proof. unfold den'. pose proof (pow2_den_pos e) as P. fold den in P. destruct (Z.of_nat n - dp)%Z as [|p|p]; try assumption.
  apply N.mul_pos_pos; [assumption|]. apply N.neq_0_lt_0, N.pow_nonzero. lia.
Qed.
Lemma scaled_value : IZR (Z.of_N num') / IZR (Z.of_N den') = v / g.
Proof.
  rewrite <- v_value. pose proof (pow2_den_pos e) as P. fold den in P.
  assert (IZR (Z.of_N den) <> 0) by (apply not_0_IZR; lia).
  unfold num', den', g, k. replace (dp - Z.of_nat n)%Z with (- (Z.of_nat n - dp))%Z by lia.
  destruct (Z.of_nat n - dp)%Z as [|p|p].
  - simpl. field. assumption.
  - rewrite bpow_opp, b10_int by lia. rewrite N2Z.inj_mul, N2Z.inj_pow, mult_IZR. simpl Z.of_N.
    assert (IZR (10 ^ Zpos p) <> 0) by (apply not_0_IZR, Z.pow_nonzero; lia). field. auto.
  - change (- Zneg p)%Z with (Zpos p). rewrite b10_int by lia. rewrite N2Z.inj_mul, N2Z.inj_pow, mult_IZR. simpl Z.of_N.
    assert (IZR (10 ^ Zpos p) <> 0) by (apply not_0_IZR, Z.pow_nonzero; lia). field. auto.
Qed.
Lemma scaled_floor : Z.of_N (num' / den') = Zfloor (v / g).
Proof.
  rewrite <- scaled_value. symmetry. destruct (N_div_mod_R num' den' den'_pos) as [E [B1 B2]].
  apply Zfloor_imp. rewrite plus_IZR, E. lra.
Qed.

Lemma try_some d : try_digits s x num den dp n = Some d -> chosen v dp k (Z.of_N d).
Proof.
  unfold try_digits. cbv zeta. fold num' den'.
  assert (- (Z.of_nat n - dp) = dp - k)%Z as -> by (unfold k; lia).
  pose proof (back_iff (num' / den') (dp - k)) as D. pose proof (back_iff (num' / den' + 1) (dp - k)) as U.
  unfold decR in D, U. rewrite N2Z.inj_add in U. rewrite scaled_floor in D, U. fold g in D, U. change (Z.of_N 1) with 1%Z in U.
  unfold chosen. fold g.
  destruct (back s x (num' / den') (dp - k)), (back s x (num' / den' + 1) (dp - k)); intros H; try discriminate;
    injection H as <-.
  - right; right. split; [apply D; reflexivity|]. split; [apply U; reflexivity|].
    destruct (N_div_mod_R num' den' den'_pos) as [E [B1 B2]]. rewrite scaled_value, scaled_floor in E.
    set (q := Zfloor (v / g)) in *. set (rem := (num' mod den')%N) in *.
    assert (0 < IZR (Z.of_N den')) as Pd by (apply (IZR_lt 0); pose proof den'_pos; lia).
    assert (0 < g) as Pg by apply bpow_gt_0.
    set (f := IZR (Z.of_N rem) / IZR (Z.of_N den')) in *.
    assert (v = IZR q * g + f * g) as Ev.
    { rewrite <- Rmult_plus_distr_r, <- E. field. lra. }
    assert (2 * f * IZR (Z.of_N den') = IZR (Z.of_N (2 * rem))) as Ef.
    { rewrite N2Z.inj_mul, mult_IZR. simpl (IZR (Z.of_N 2)). unfold f. field. lra. }
    assert (forall a b : R, a * IZR (Z.of_N den') <= b * IZR (Z.of_N den') -> a <= b) as Cn.
    { intros a b. apply Rmult_le_reg_r. assumption. }
    assert (Z.even q = N.even (num' / den')) as Ev2.
    { unfold q. rewrite <- scaled_floor. destruct (num' / den')%N as [|[]]; reflexivity. }
    unfold round_ratio. fold rem. rewrite plus_IZR.
    destruct (N.compare_spec (2 * rem) den') as [L|L|L].
    + assert (2 * f = 1) as F2. { apply Rmult_eq_reg_r with (IZR (Z.of_N den')); [|lra]. rewrite Ef, L. ring. }
      destruct (N.even (num' / den')) eqn:Q.
      * left. rewrite scaled_floor. fold q. split; [reflexivity|]. split; [nra|]. intros _. now rewrite Ev2.
      * right. rewrite N2Z.inj_add, scaled_floor. fold q. split; [reflexivity|]. split; [nra|].
        intros _. change (Z.of_N 1) with 1%Z in *. rewrite Z.add_1_r, Z.even_succ, <- Z.negb_even, Ev2. reflexivity.
    + assert (2 * f < 1) as F2. { apply Rmult_lt_reg_r with (IZR (Z.of_N den')); [lra|]. rewrite Ef, Rmult_1_l. apply IZR_lt. lia. }
      left. rewrite scaled_floor. fold q. split; [reflexivity|]. split; [nra|]. intros T. exfalso. nra.
    + assert (1 < 2 * f) as F2. { apply Rmult_lt_reg_r with (IZR (Z.of_N den')); [lra|]. rewrite Ef, Rmult_1_l. apply IZR_lt. lia. }
      right. rewrite N2Z.inj_add, scaled_floor. fold q. split; [reflexivity|]. split; [nra|]. intros T. exfalso. nra.
  - left. rewrite scaled_floor. split; [apply D; reflexivity|]. split; [|reflexivity]. intros K. apply U in K. discriminate.
  - right; left. rewrite N2Z.inj_add, scaled_floor. split; [|split; [apply U; reflexivity|reflexivity]]. intros K. apply D in K. discriminate.
Qed.

Lemma try_none : try_digits s x num den dp n = None ->
  rnd (IZR (Zfloor (v / g)) * g) <> v /\ rnd (IZR (Zfloor (v / g) + 1) * g) <> v.
Proof.
  unfold try_digits. cbv zeta. fold num' den'.
  assert (- (Z.of_nat n - dp) = dp - k)%Z as -> by (unfold k; lia).
  pose proof (back_iff (num' / den') (dp - k)) as D. pose proof (back_iff (num' / den' + 1) (dp - k)) as U.
  unfold decR in D, U. rewrite N2Z.inj_add in U. rewrite scaled_floor in D, U. fold g in D, U. change (Z.of_N 1) with 1%Z in U.
  destruct (back s x (num' / den') (dp - k)), (back s x (num' / den' + 1) (dp - k)); intros H; try discriminate.
  split; intros K; [apply D in K|apply U in K]; discriminate.
Qed.
End Attempt.

Lemma search_spec f : forall n, (1 <= n)%nat -> (n + f = 18)%nat ->
  (forall j r', (1 <= j < n)%nat -> has_digits (Z.of_nat j) r' -> rnd r' <> v) ->
  exists d n', search_digits f n s x num den dp = Some (d, dp - Z.of_nat n')%Z /\ (1 <= n' <= 17)%nat /\
    chosen v dp (Z.of_nat n') (Z.of_N d) /\
    (forall j r', (1 <= j < n')%nat -> has_digits (Z.of_nat j) r' -> rnd r' <> v).
Proof.
  pose proof v_point as [P1 P2]. pose proof v_rnd as Rv.
  induction f as [|f IH]; intros n Hn Hf Hno; cbn [search_digits].
  - exfalso. assert (n = 18%nat) as -> by lia.
    pose proof (down_digits v dp 17 ltac:(lia) P1 P2) as D. pose proof (up_digits v dp 17 ltac:(lia) P1 P2) as U.
    destruct (seventeen v dp P1 P2 Rv) as [K|K]; apply (Hno 17%nat _ ltac:(lia)) in K; auto.
  - destruct (try_digits s x num den dp n) as [d|] eqn:T.
    + apply (try_some n Hn) in T. pose proof (chosen_reads v dp _ _ T) as Rd.
      assert (back s x d (dp - Z.of_nat n) = true) as -> by now apply back_iff.
      exists d, n. split; [reflexivity|]. split; [lia|]. split; [exact T|exact Hno].
    + apply (try_none n Hn) in T. destruct T as [T1 T2]. apply IH; [lia|lia|].
      intros j r' Hj D K. destruct (Nat.eq_dec j n) as [->|Ne]; [|apply (Hno j r'); auto; lia].
      exact (none_read v dp (Z.of_nat n) ltac:(lia) P1 Rv T1 T2 r' D K).
Qed.
End Search.

Lemma strip_zeros_bound f : forall d e, (0 < d)%N -> (d <= 10 ^ N.of_nat f)%N ->
  let '(d', e') := strip_zeros f d e in (d' mod 10 <> 0)%N /\ (d' <= d)%N.
Proof.
  induction f as [|f IH]; intros d e H0 H; cbn [strip_zeros].
  - change (10 ^ N.of_nat 0)%N with 1%N in H. assert (d = 1%N) as -> by lia. split; [discriminate|lia].
  - destruct (N.eqb_spec (d mod 10) 0) as [E|E]; [|split; [exact E|lia]].
    pose proof (N.div_mod d 10 ltac:(lia)) as DM. rewrite E, N.add_0_r in DM.
    rewrite Nat2N.inj_succ, N.pow_succ_r' in H.
    specialize (IH (d / 10)%N (e + 1)%Z ltac:(lia) ltac:(lia)).
    destruct (strip_zeros f (d / 10) (e + 1)) as [d' e']. split; [apply IH|]. destruct IH. lia.
Qed.

Lemma nearest_rnd r : nearest r = rnd r.
Proof. reflexivity. Qed.

Lemma no_digits r : has_digits 0 r -> r = 0.
Proof. intros (n & e & H & ->). change (10 ^ 0)%Z with 1%Z in H. assert (n = 0%Z) as -> by lia. apply Rmult_0_l. Qed.

Lemma chosen_shortest v dp k d : (1 <= k)%Z -> b10 (dp - 1) <= v -> v < b10 dp -> rnd v = v -> chosen v dp k d ->
  (forall j r', (1 <= j < k)%Z -> has_digits j r' -> rnd r' <> v) ->
  shortest_for v k (IZR d * b10 (dp - k)).
Proof.
  intros Hk Hlo Hhi Hv C Hno. pose proof (v_pos v dp Hlo) as Pv. unfold shortest_for, read_as.
  split; [exact (chosen_reads v dp k d C)|]. split; [lia|].
  split; [exact (chosen_digits v dp k Hk Hlo Hhi d C)|]. split; [|split].
  - intros j r' Hj D H. destruct (Z_le_gt_dec k j) as [|L]; [assumption|exfalso].
    destruct (Z.eq_dec j 0) as [->|Ne].
    + apply no_digits in D. subst r'. rewrite nearest_rnd, rnd_0 in H. lra.
    + apply (Hno j r'); auto; lia.
  - intros r' D H. exact (chosen_nearest v dp k Hk Hlo Hv d r' C D H).
  - intros r' D H T Ne. exact (chosen_tie v dp k Hk Hlo Hv d r' C D H T Ne).
Qed.

Lemma digits_of d e : (0 < d)%N -> has_digits (Z.of_nat (num_digits d)) (decR d e).
Proof.
  intros H. exists (Z.of_N d), e. rewrite b10_pow. split; [|reflexivity].
  rewrite Z.abs_eq by lia. pose proof (num_digits_bound d) as U. apply N2Z.inj_lt in U. rewrite N2Z.inj_pow, nat_N_Z in U. exact U.
Qed.

Lemma num_digits_le d n : (1 <= n)%nat -> (d < 10 ^ N.of_nat n)%N -> (num_digits d <= n)%nat.
Proof.
  intros Hn H. destruct (N.eq_dec d 0) as [->|Ne]; [exact Hn|].
  pose proof (num_digits_lower d ltac:(lia)) as L. pose proof (num_digits_pos d).
  destruct (Nat.le_gt_cases (num_digits d) n) as [|G]; [assumption|exfalso].
  assert (10 ^ N.of_nat n <= 10 ^ N.of_nat (num_digits d - 1))%N by (apply N.pow_le_mono_r; lia). lia.
Qed.

(** The digits that are printed. *)
Theorem shortest_spec s m e (B : SpecFloat.bounded 53 1024 m e = true) :
  let v := IZR (Zpos m) * bpow radix2 e in
  let '(d, e10) := shortest s m e (B754_finite s m e B) in
  (d mod 10 <> 0)%N /\ (num_digits d <= 17)%nat /\ shortest_for v (Z.of_nat (num_digits d)) (decR d e10).
Proof.
  cbv zeta. pose proof (v_point m e B) as [P1 P2]. pose proof (v_rnd m e B) as Rv.
  set (v := IZR (Zpos m) * bpow radix2 e) in *.
  destruct (search_spec s m e B 17 1 ltac:(lia) eq_refl ltac:(intros; lia)) as (d & n & E & Hn & C & Hno).
  fold v in C, Hno. unfold shortest. rewrite E.
  set (dp := dec_point (pow2_num m e) (pow2_den e)) in *.
  assert (shortest_for v (Z.of_nat n) (IZR (Z.of_N d) * b10 (dp - Z.of_nat n))) as S.
  { apply chosen_shortest; auto; [lia|]. intros j r' Hj D. apply (Hno (Z.to_nat j)); [lia|]. now rewrite Z2Nat.id by lia. }
  pose proof (q_range v dp (Z.of_nat n) ltac:(lia) P1 P2) as [Q1 Q2].
  assert (0 < d /\ d <= 10 ^ N.of_nat n)%N as [D1 D2].
  { assert (0 < 10 ^ (Z.of_nat n - 1))%Z by (apply Z.pow_pos_nonneg; lia).
    assert (0 < Z.of_N d <= 10 ^ Z.of_nat n)%Z as K.
    { destruct C as [(_ & _ & ->)|[(_ & _ & ->)|(_ & _ & [(-> & _)|(-> & _)])]]; lia. }
    split; [lia|]. apply N2Z.inj_le. rewrite N2Z.inj_pow, nat_N_Z. apply K. }
  pose proof (strip_zeros_value (num_digits d) d (dp - Z.of_nat n)) as V.
  pose proof (strip_zeros_bound (num_digits d) d (dp - Z.of_nat n) D1 (N.lt_le_incl _ _ (num_digits_bound d))) as W.
  destruct (strip_zeros (num_digits d) d (dp - Z.of_nat n)) as [d' e']. destruct V as [V1 V2]. destruct W as [W1 W2].
  specialize (V2 D1). change (IZR (Z.of_N d) * b10 (dp - Z.of_nat n)) with (decR d (dp - Z.of_nat n)) in S. rewrite <- V1 in S.
  assert (num_digits d' <= n)%nat as L1.
  { apply num_digits_le; [lia|]. apply N.le_lt_trans with (if (d =? 10 ^ N.of_nat n)%N then (d' : N) else d); destruct (N.eqb_spec d (10 ^ N.of_nat n)) as [K|K]; try lia.
    destruct (N.eq_dec d' d) as [->|]; [|lia]. exfalso. apply W1. rewrite K.
    replace (N.of_nat n) with (N.succ (N.of_nat (n - 1))) by lia. rewrite N.pow_succ_r', N.mul_comm. apply N.mod_mul. lia. }
  assert (n <= num_digits d')%nat as L2.
  { destruct S as (S1 & _ & _ & S2 & _). specialize (S2 (Z.of_nat (num_digits d')) (decR d' e') ltac:(lia) (digits_of d' e' V2) S1). lia. }
  assert (num_digits d' = n) as -> by lia. split; [exact W1|]. split; [lia|exact S].
Qed.

(** The definition leaves no choice. *)
Lemma has_digits_opp k r : has_digits k r -> has_digits k (- r).
Proof. intros (n & e & H & ->). exists (- n)%Z, e. split; [lia|]. rewrite opp_IZR. ring. Qed.

Theorem shortest_for_unique v k r k' r' : shortest_for v k r -> shortest_for v k' r' -> k = k' /\ r = r'.
Proof.
  intros (A1 & A2 & A3 & A4 & A5 & A6) (B1 & B2 & B3 & B4 & B5 & B6).
  assert (k = k') as <-. { specialize (A4 k' r' B2 B3 B1). specialize (B4 k r A2 A3 A1). lia. }
  split; [reflexivity|]. destruct (Req_dec r' r) as [|Ne]; [auto|exfalso].
  pose proof (A5 r' B3 B1). pose proof (B5 r A3 A1). assert (Rabs (r - v) = Rabs (r' - v)) as T by lra.
  destruct (A6 r' B3 B1 T Ne) as [n N]. destruct (B6 r A3 A1 (eq_sym T) (not_eq_sym Ne)) as [n' N'].
  rewrite Rabs_minus_sym in N'. set (h := Rabs (r - r')) in *.
  assert (0 < h) as Ph by (apply Rabs_pos_lt; lra).
  assert (r - r' = h \/ r - r' = - h) as K. { unfold h, Rabs. destruct (Rcase_abs _); lra. }
  assert (IZR (2 * (n - n')) = 1 \/ IZR (2 * (n - n')) = -1) as Q.
  { rewrite mult_IZR, minus_IZR. destruct K as [K|K]; [left|right]; apply Rmult_eq_reg_r with h; lra. }
  destruct Q as [Q|Q]; apply eq_IZR in Q; lia.
Qed.

Lemma shortest_for_opp v k r : shortest_for v k r -> shortest_for (- v) k (- r).
Proof.
  assert (forall a b, read_as (- a) b -> read_as a (- b)) as RO.
  { intros a b. unfold read_as. rewrite !nearest_rnd. intros H. rewrite rnd_opp, H. lra. }
  intros (A1 & A2 & A3 & A4 & A5 & A6). unfold shortest_for.
  split; [apply RO; now rewrite !Ropp_involutive|]. split; [assumption|]. split; [now apply has_digits_opp|]. split; [|split].
  - intros j r' Hj D H. apply (A4 j (- r')); auto. now apply has_digits_opp.
  - intros r' D H. specialize (A5 (- r') (has_digits_opp _ _ D) (RO _ _ H)).
    replace (- r - - v) with (- (r - v)) by lra. replace (r' - - v) with (- (- r' - v)) by lra. now rewrite !Rabs_Ropp.
  - intros r' D H T Ne. destruct (A6 (- r') (has_digits_opp _ _ D) (RO _ _ H)) as [n N].
    + replace (- r - - v) with (- (r - v)) in T by lra. replace (r' - - v) with (- (- r' - v)) in T by lra. now rewrite !Rabs_Ropp in T.
    + intros K. apply Ne. lra.
    + exists (- n)%Z. rewrite opp_IZR. replace (- r - r') with (- (r - - r')) by lra. rewrite Rabs_Ropp.
      rewrite N at 1. ring.
Qed.
