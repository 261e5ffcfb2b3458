(** The recurrence of SmoothedMovingAverage computes prev*n - prev, which is not
    monotone in an arbitrary machine number prev.  It is monotone on the values
    that occur, because they are themselves rounded quotients by n. *)
From Coq Require Import Reals Lra Lia Psatz.
From Flocq Require Import Core BinarySingleNaN.
From Verif Require Import Go.Outcome Go.Int64 Go.Slice Go.Float64 Go.FloatOrder Go.FloatReal Go.FloatError Go.FloatScale Go.Num
  Model.Candle Model.Indicators Spec.IndicatorSpec Spec.MonotoneSpec Proofs.MovingAverage Proofs.Accuracy Proofs.Monotone.
Open Scope list_scope.
Open Scope R_scope.
Local Notation length := List.length.
Local Notation B2R := (@B2R 53 1024).
Local Notation fmt := (generic_format radix2 fexp64).
Local Notation up := (Ulp.succ radix2 fexp64).
Local Notation down := (Ulp.pred radix2 fexp64).
Local Notation gap := (Ulp.ulp radix2 fexp64).
Local Instance valid64 : Valid_exp fexp64.
Proof. apply FLT_exp_valid. reflexivity. Qed.

Lemma fmt_rnd r : fmt (rnd r). Proof. apply generic_format_round; [exact valid64|apply valid_rnd_N]. Qed.
Lemma rnd_fmt r : fmt r -> rnd r = r. Proof. apply round_generic, valid_rnd_N. Qed.
Lemma gap_pos y : 0 < y -> 0 < gap y.
Proof. intros H. rewrite ulp_neq_0 by lra. apply bpow_gt_0. Qed.
Lemma up_pos y : 0 < y -> up y = y + gap y.
Proof. intros H. apply succ_eq_pos. lra. Qed.
(** The gap below is the gap above, or half of it at a power of two. *)
Lemma down_pos y : 0 < y -> y - down y = gap y \/ 2 * (y - down y) = gap y /\ exists e, y = bpow radix2 e.
Proof.
  intros H. rewrite pred_eq_pos by lra. unfold pred_pos.
  destruct (Req_bool_spec y (bpow radix2 (Raux.mag radix2 y - 1))) as [E|E]; [|left; lra].
  rewrite ulp_neq_0 in * by lra. unfold cexp.
  set (e := Raux.mag radix2 y : Z) in *. replace (y - (y - bpow radix2 (fexp64 (e - 1)))) with (bpow radix2 (fexp64 (e - 1))) by ring.
  assert (fexp64 (e - 1) = fexp64 e \/ fexp64 e = fexp64 (e - 1) + 1)%Z as [L|L] by (unfold fexp64, FLT_exp; lia).
  - left. now rewrite L.
  - right. split; [|eexists; exact E]. rewrite L, bpow_plus_1. reflexivity.
Qed.
Lemma near_up y q : 0 < y -> fmt y -> rnd q = y -> q <= y + gap y / 2.
Proof.
  intros H F E. destruct (Rle_lt_dec q (y + gap y / 2)) as [L|L]; [exact L|].
  pose proof (round_N_ge_midp radix2 fexp64 (fun x => negb (Z.even x)) (up y) q (generic_format_succ radix2 fexp64 y F)) as K.
  rewrite (pred_succ radix2 fexp64 y F) in K. pose proof (up_pos y H) as U. rewrite U in K. pose proof (gap_pos y H).
  specialize (K ltac:(lra)). change (Znearest (fun x : Z => negb (Z.even x))) with ZnearestE in K. fold (rnd q) in K. lra.
Qed.
Lemma near_down y q : fmt y -> rnd q = y -> y <> 0 -> (y + down y) / 2 <= q.
Proof.
  intros F E Hy. destruct (Rle_lt_dec ((y + down y) / 2) q) as [L|L]; [exact L|].
  pose proof (round_N_le_midp radix2 fexp64 (fun x => negb (Z.even x)) (down y) q (generic_format_pred radix2 fexp64 y F)) as K.
  rewrite (succ_pred radix2 fexp64 y F) in K. specialize (K ltac:(lra)). change (Znearest (fun x : Z => negb (Z.even x))) with ZnearestE in K. fold (rnd q) in K.
  pose proof (pred_lt_id radix2 fexp64 y Hy). lra.
Qed.
Lemma fmt_multiple y : 0 < y -> fmt y -> exists m : Z, y = IZR m * gap y.
Proof.
  intros H F. exists (Ztrunc (scaled_mantissa radix2 fexp64 y)). rewrite ulp_neq_0 by lra. exact F.
Qed.

Section Quotients.
Variable N : Z.
Hypothesis HN : (3 <= N <= 2 ^ 53)%Z.
Let n := IZR N.
Lemma n3 : 3 <= n. Proof. apply IZR_le. lia. Qed.

(** Distinct machine products are further apart than the factors. *)
Lemma spread p p' : 0 < p -> p < p' -> fmt p -> rnd (n * p) < rnd (n * p') ->
  p' - p <= rnd (n * p') - rnd (n * p).
Proof.
  intros P L F. set (y := rnd (n * p)). set (y' := rnd (n * p')). intros Ly. pose proof n3 as N3.
  assert (p <= y) as Py by (unfold y; rewrite <- (rnd_fmt p F) at 1; apply rnd_mono; nra).
  assert (fmt y) as Fy by apply fmt_rnd. assert (fmt y') as Fy' by apply fmt_rnd.
  pose proof (near_down y (n * p) Fy eq_refl ltac:(lra)) as D. pose proof (near_up y' (n * p') ltac:(lra) Fy' eq_refl) as U.
  assert (y - down y <= gap y) as D1 by (pose proof (gap_pos y ltac:(lra)); destruct (down_pos y ltac:(lra)) as [K|[K _]]; lra).
  assert (gap y' <= 2 * (y' - down y')) as D2 by (pose proof (gap_pos y' ltac:(lra)); destruct (down_pos y' ltac:(lra)) as [K|[K _]]; lra).
  pose proof (succ_le_lt radix2 fexp64 y y' Fy Fy' Ly) as S. rewrite up_pos in S by lra.
  pose proof (pred_ge_gt radix2 fexp64 y y' Fy Fy' Ly) as S'. nra.
Qed.

Lemma half_off m k : IZR m = IZR k + / 2 -> False.
Proof.
  intros H. assert (IZR (2 * m) = IZR (2 * k + 1)) as E by (rewrite plus_IZR, !mult_IZR; lra). apply eq_IZR in E. lia.
Qed.

(** Products of distinct rounded quotients stay distinct. *)
Lemma separate s s' : 0 < s -> fmt s -> fmt s' -> 0 < rnd (s / n) -> rnd (s / n) < rnd (s' / n) ->
  rnd (n * rnd (s / n)) < rnd (n * rnd (s' / n)).
Proof.
  intros Ps Fs Fs'. set (p := rnd (s / n)). set (p' := rnd (s' / n)). intros P L. pose proof n3 as N3.
  assert (fmt p) as Fp by apply fmt_rnd. assert (fmt p') as Fp' by apply fmt_rnd.
  destruct (Rle_lt_or_eq_dec (rnd (n * p)) (rnd (n * p'))) as [|Ey]; [apply rnd_mono; nra|assumption|exfalso].
  set (y := rnd (n * p)) in *. symmetry in Ey.
  assert (fmt y) as Fy by apply fmt_rnd.
  assert (p <= y) as Py by (unfold y; rewrite <- (rnd_fmt p Fp) at 1; apply rnd_mono; nra).
  assert (0 < y) as Y0 by lra. assert (0 < p') as P' by lra.
  pose proof (near_down y (n * p) Fy eq_refl ltac:(lra)) as Qd. pose proof (near_up y (n * p') Y0 Fy Ey) as Qu.
  pose proof (down_pos y Y0) as Dy. pose proof (down_pos p P) as Dp. pose proof (down_pos p' P') as Dp'.
  pose proof (succ_le_lt radix2 fexp64 p p' Fp Fp' L) as Lu. rewrite up_pos in Lu by lra.
  pose proof (pred_ge_gt radix2 fexp64 p p' Fp Fp' L) as Ld.
  pose proof (near_up p (s / n) P Fp eq_refl) as Su. pose proof (near_down p (s / n) Fp eq_refl ltac:(lra)) as Sd.
  pose proof (near_up p' (s' / n) P' Fp' eq_refl) as Su'. pose proof (near_down p' (s' / n) Fp' eq_refl ltac:(lra)) as Sd'.
  assert (s / n * n = s) as E1 by (field; lra). assert (s' / n * n = s') as E2 by (field; lra).
  set (t := s / n) in *. set (t' := s' / n) in *.
  pose proof (gap_pos y Y0) as G. pose proof (gap_pos p P) as g. pose proof (gap_pos p' P') as g'.
  destruct (fmt_multiple y Y0 Fy) as [my My]. destruct (fmt_multiple p P Fp) as [mp Mp]. destruct (fmt_multiple p' P' Fp') as [mp' Mp'].
  assert (s < s') as Ls.
  { rewrite <- E1, <- E2. destruct (Rlt_le_dec t t') as [K|K]; [nra|]. apply rnd_mono in K. fold p p' in K || idtac. unfold p, p' in L. lra. }
  assert (n * t = s) as E1' by lra. assert (n * t' = s') as E2' by lra. clear E1 E2.
  (* s' is not above y *)
  assert (s' <= y) as S1.
  { destruct (Rle_lt_dec s' y) as [K|K]; [exact K|exfalso].
    pose proof (succ_le_lt radix2 fexp64 y s' Fy Fs' K) as K1. rewrite up_pos in K1 by lra.
    assert (s' <= n * p' + n * gap p' / 2) as K2 by nra.
    destruct Dp' as [Ed|[Ed [e Ee]]].
    - assert (y - down y <= gap y) as Dy' by (destruct Dy as [K3|[K3 _]]; lra).
      assert (n * gap p' <= n * (p' - p)) as K3 by (apply Rmult_le_compat_l; lra).
      assert (n * gap p' = gap y) as Eg by lra. assert (n * p' = y + gap y / 2) as Ep by lra.
      apply (half_off mp' my). apply Rmult_eq_reg_r with (n * gap p'); [|nra].
      replace (IZR mp' * (n * gap p')) with (n * (IZR mp' * gap p')) by ring. rewrite <- Mp', Ep, Rmult_plus_distr_r, Eg, <- My. lra.
    - assert (fmt (n * p')) as Fq.
      { rewrite Ee. change (n * bpow radix2 e) with (F2R (Float radix2 N e)).
        assert (-1074 <= e)%Z as He.
        { rewrite Ee in Fp'. apply generic_format_bpow_inv in Fp'; [|exact valid64]. unfold fexp64, FLT_exp in Fp'. lia. }
        destruct (Z.eq_dec N (2 ^ 53)) as [->|Hne].
        - replace (F2R (Float radix2 (2 ^ 53) e)) with (bpow radix2 (53 + e)).
          + apply generic_format_FLT_bpow; [reflexivity|lia].
          + rewrite bpow_plus. reflexivity.
        - apply generic_format_FLT. exists (Float radix2 N e); [reflexivity| |exact He].
          cbn [Fnum]. change (Zpower radix2 53) with (2 ^ 53)%Z. lia. }
      rewrite (rnd_fmt _ Fq) in Ey.
      assert (n * (p' - down p') <= n * (p' - p)) as K3 by (apply Rmult_le_compat_l; lra).
      assert (n * gap p' = 2 * (n * (p' - down p'))) as K4 by (rewrite <- Ed; ring).
      destruct Dy as [K5|[K5 _]]; lra. }
  assert (s < y) as S2 by lra.
  pose proof (pred_ge_gt radix2 fexp64 s y Fs Fy S2) as S3.
  assert (n * (p - down p) <= n * gap p) as K0 by (apply Rmult_le_compat_l; [lra|]; destruct Dp as [K3|[K3 _]]; lra).
  assert (y - down y <= n * (p - down p)) as K1 by nra.
  assert (n * p + n * gap p / 2 <= s') as K2 by nra.
  assert (n * gap p = y - down y) as Eg by lra. assert (n * p = y - (y - down y) / 2) as Ep by lra.
  assert (exists k : Z, y = IZR k * (y - down y)) as [k Ek].
  { destruct Dy as [K3|[K3 _]]; [exists my; now rewrite K3|exists (my * 2)%Z]. rewrite mult_IZR, Rmult_assoc, K3. exact My. }
  apply (half_off mp (k - 1)). rewrite minus_IZR. apply Rmult_eq_reg_r with (n * gap p); [|nra].
  replace (IZR mp * (n * gap p)) with (n * (IZR mp * gap p)) by ring.
  rewrite <- Mp, Ep, Eg, Rmult_plus_distr_r, Rmult_minus_distr_r, <- Ek. lra.
Qed.
End Quotients.

Lemma fmt_double p : fmt p -> fmt (2 * p).
Proof.
  intros F. apply FLT_format_generic in F; [|reflexivity]. destruct F as [[m e] E Hm He].
  apply generic_format_FLT. exists (Float radix2 m (e + 1)); [|exact Hm|cbn [Fexp] in *; lia].
  rewrite E. unfold F2R. cbn [Fnum Fexp]. rewrite bpow_plus_1. change (IZR radix2) with 2. ring.
Qed.

Section Remainders.
Variable N : Z.
Hypothesis HN : (1 <= N <= 2 ^ 53)%Z.
Local Notation n := (IZR N).
(** prev*n - prev before its own rounding, when prev is the rounded s/n. *)
Definition rest (s : R) : R := rnd (n * rnd (s / n)) - rnd (s / n).
Lemma n1 : 1 <= n. Proof. apply IZR_le. lia. Qed.
Lemma quot_mono s s' : s <= s' -> rnd (s / n) <= rnd (s' / n).
Proof.
  intros H. pose proof n1. apply rnd_mono. unfold Rdiv. apply Rmult_le_compat_r; [|exact H]. left. apply Rinv_0_lt_compat. lra.
Qed.
Lemma rest_opp s : rest (- s) = - rest s.
Proof.
  unfold rest. pose proof n1. replace (- s / n) with (- (s / n)) by (field; lra). rewrite rnd_opp.
  replace (n * - rnd (s / n)) with (- (n * rnd (s / n))) by ring. rewrite rnd_opp. ring.
Qed.
Lemma rest_0 : rest 0 = 0.
Proof. pose proof (rest_opp 0) as H. rewrite Ropp_0 in H. lra. Qed.
Lemma quot_0 : rnd (0 / n) = 0.
Proof. unfold Rdiv. rewrite Rmult_0_l. apply rnd_0. Qed.
Lemma rest_nonneg s : 0 <= s -> 0 <= rest s.
Proof.
  intros H. pose proof n1. pose proof (quot_mono 0 s H) as Q. rewrite quot_0 in Q. unfold rest.
  assert (rnd (s / n) <= rnd (n * rnd (s / n))); [|lra].
  rewrite <- (rnd_fmt (rnd (s / n)) (fmt_rnd _)) at 1. apply rnd_mono. nra.
Qed.
Lemma rest_mono_pos s s' : 0 <= s -> s <= s' -> fmt s -> fmt s' -> rest s <= rest s'.
Proof.
  intros Hs Hs' F F'. pose proof (quot_mono 0 s Hs) as Q. pose proof (quot_mono s s' Hs') as Q'. rewrite quot_0 in Q.
  destruct (Z.eq_dec N 1) as [E1|H1].
  { assert (forall r, rest r = 0) as K; [|rewrite !K; lra]. intros r. unfold rest. rewrite E1, Rmult_1_l, (rnd_fmt (rnd _) (fmt_rnd _)). ring. }
  destruct (Z.eq_dec N 2) as [E2|H2].
  { assert (forall r, rest r = rnd (r / n)) as K; [|rewrite !K; exact Q'].
    intros r. unfold rest. rewrite E2. rewrite (rnd_fmt (2 * _)) by apply fmt_double, fmt_rnd. ring. }
  destruct (Rle_lt_or_eq_dec _ _ Q) as [P|P]; [|unfold rest at 1; rewrite <- P, Rmult_0_r, rnd_0, Rminus_0_r; apply rest_nonneg; lra].
  destruct (Rle_lt_or_eq_dec _ _ Q') as [P'|P']; [|unfold rest; rewrite P'; lra].
  assert (0 < s) as S0.
  { destruct (Rle_lt_or_eq_dec _ _ Hs) as [K|K]; [exact K|]. rewrite <- K, quot_0 in P. lra. }
  assert (3 <= N <= 2 ^ 53)%Z as HN3 by lia.
  pose proof (separate N HN3 s s' S0 F F' P P') as Sp.
  pose proof (spread N HN3 _ _ P P' (fmt_rnd _) Sp) as K. unfold rest. lra.
Qed.
Lemma rest_mono s s' : s <= s' -> fmt s -> fmt s' -> rest s <= rest s'.
Proof.
  intros H F F'. destruct (Rle_lt_dec 0 s) as [P|P]; [now apply rest_mono_pos|].
  destruct (Rle_lt_dec 0 s') as [P'|P'].
  - pose proof (rest_nonneg s' P'). pose proof (rest_nonneg (- s) ltac:(lra)) as K. rewrite rest_opp in K. lra.
  - pose proof (rest_mono_pos (- s') (- s) ltac:(lra) ltac:(lra) (generic_format_opp _ _ _ F') (generic_format_opp _ _ _ F)) as K.
    rewrite !rest_opp in K. lra.
Qed.
End Remainders.

(** *** The series *)
(** Both values are quotients by the period, of dividends in order. *)
Definition quotients (N : Z) (x x' : f64) : Prop :=
  exists s s', x = f64_div s (i2f N) /\ x' = f64_div s' (i2f N) /\ grows s s'.
Lemma quotients_grow N x x' : (1 <= N <= 2 ^ 53)%Z -> quotients N x x' -> grows x x'.
Proof.
  intros H (s & s' & -> & -> & G). destruct (count_pos N ltac:(lia)) as [F P].
  apply grows_div; [exact F|apply Rlt_le_trans with 1; [lra|exact P]|exact G].
Qed.
Lemma fmt_B2R (x : f64) : fmt (B2R x).
Proof. apply generic_format_B2R. Qed.
Lemma sat_value (z : f64) r : is_finite z = true -> xr z = sat r -> B2R z = r.
Proof.
  intros F X. rewrite xr_finite in X by exact F. pose proof (B2R_lt_big z F) as B. apply Rabs_def2 in B.
  destruct (Rle_lt_dec r (- big)) as [L|L]; [rewrite sat_lo in X by exact L; lra|].
  destruct (Rle_lt_dec big r) as [U|U]; [rewrite sat_hi in X by exact U; lra|].
  rewrite sat_id in X by (apply Rabs_le; lra). exact X.
Qed.
Lemma later_grows N x x' c c' : (1 <= N <= 2 ^ 53)%Z -> quotients N x x' -> grows c c' ->
  quotients N (@smma_later f64 f64_num N x c) (@smma_later f64 f64_num N x' c').
Proof.
  intros H Q Hc. unfold smma_later. cbn [fdiv fadd fsub fmul fofZ f64_num].
  eexists. eexists. split; [reflexivity|]. split; [reflexivity|]. apply grows_add; [|exact Hc].
  destruct Q as (s & s' & Ex & Ex' & G). intros F F'.
  assert (exact_int N) as E by (unfold exact_int; lia). pose proof (IZR_le 1 N ltac:(lia)) as N1.
  assert (forall (a b : f64), b = f64_div a (i2f N) -> is_finite (f64_sub (f64_mul b (i2f N)) b) = true ->
    is_finite a = true /\ B2R (f64_sub (f64_mul b (i2f N)) b) = rnd (rest N (B2R a))) as V.
  { intros a b Eb Fb. destruct (sub_operands _ _ Fb) as [Fm Fq]. rewrite Eb in Fq. pose proof (div_operands _ _ Fq) as Fa.
    split; [exact Fa|].
    assert (B2R (i2f N) <> 0) as Nz by (rewrite (i2f_B2R N E); lra).
    destruct (div_xr a (i2f N) Fa (i2f_finite N E) Nz) as [_ X]. apply sat_value in X; [|exact Fq]. rewrite <- Eb in X, Fq.
    destruct (mul_xr b (i2f N) Fq (i2f_finite N E)) as [_ X2]. apply sat_value in X2; [|exact Fm].
    destruct (sub_xr (f64_mul b (i2f N)) b Fm Fq) as [_ X3]. apply sat_value in X3; [|exact Fb].
    rewrite X3, X2, X, (i2f_B2R N E). unfold rest. now rewrite (Rmult_comm (IZR N)). }
  destruct (V s x Ex F) as [Fs Vx]. destruct (V s' x' Ex' F') as [Fs' Vx']. rewrite Vx, Vx'.
  apply rnd_mono, rest_mono; [exact H|now apply G|apply fmt_B2R|apply fmt_B2R].
Qed.
Lemma second_grows N x x' c c' : (1 <= N <= 2 ^ 53)%Z -> grows x x' -> grows c c' ->
  quotients N (@smma_second f64 f64_num N x c) (@smma_second f64 f64_num N x' c').
Proof.
  intros H Hx Hc. unfold smma_second. cbn [fdiv fadd fsub fmul fofZ f64_num].
  eexists. eexists. split; [reflexivity|]. split; [reflexivity|]. apply grows_add; [|exact Hc]. apply grows_mul; [|exact Hx].
  assert (exact_int N) as E by (unfold exact_int; lia). assert (exact_int 1) as E1 by (unfold exact_int; lia).
  assert (exact_int (N - 1)) as E2 by (unfold exact_int; lia).
  destruct (sub_xr (i2f N) (i2f 1) (i2f_finite N E) (i2f_finite 1 E1)) as [Nn X].
  rewrite (i2f_B2R N E), (i2f_B2R 1 E1), <- minus_IZR, (rnd_int _ E2) in X.
  pose proof (exact_lt_big _ E2) as B. rewrite sat_id in X by lra.
  rewrite <- xr_finite; [rewrite X; apply IZR_le; lia|]. apply xr_lt_finite; [exact Nn|]. now rewrite X.
Qed.

Lemma smma_monotone (cs cs' hid hid' : list (candle f64)) n : closes_rise cs cs' ->
  (0 < n <= length cs)%nat -> (Z.of_nat n <= 2 ^ 53)%Z ->
  exists xs xs',
    smoothed_moving_average (GSlice cs hid) (Z.of_nat n) = Ret (xs, None) /\
    smoothed_moving_average (GSlice cs' hid') (Z.of_nat n) = Ret (xs', None) /\ Forall2 not_above xs xs'.
Proof.
  intros H Hn Hb. pose proof (Forall2_len _ _ _ H) as L. eexists. eexists.
  rewrite (@smma_spec f64 f64_num cs hid n Hn), (@smma_spec f64 f64_num cs' hid' n) by lia.
  split; [reflexivity|]. split; [reflexivity|]. apply grows_all. apply closes_grow in H.
  set (N := Z.of_nat n) in *. assert (1 <= N <= 2 ^ 53)%Z as HN by lia.
  pose proof (Forall2_skipn _ _ _ H n) as Hs.
  assert (quotients N (fdiv (@sum_of f64 f64_num (firstn n (closes cs))) (fofZ N)) (fdiv (@sum_of f64 f64_num (firstn n (closes cs'))) (fofZ N))) as Q0.
  { eexists. eexists. split; [reflexivity|]. split; [reflexivity|]. now apply grows_sum, Forall2_firstn. }
  pose proof (quotients_grow N _ _ HN Q0) as G0. constructor; [exact G0|].
  inversion Hs as [|c c' l l' Hc Hl E1 E2]; [constructor|].
  pose proof (second_grows N _ _ c c' HN G0 Hc) as Q1. constructor; [now apply (quotients_grow N)|].
  revert Q1. generalize (@smma_second f64 f64_num N (fdiv (sum_of (firstn n (closes cs))) (fofZ N)) c) as a.
  generalize (@smma_second f64 f64_num N (fdiv (sum_of (firstn n (closes cs'))) (fofZ N)) c') as a'.
  clear - Hl HN. induction Hl as [|d d' l l' Hd _ IH]; intros a' a Q; cbn [iterates]; constructor.
  - apply (quotients_grow N); [exact HN|]. now apply later_grows.
  - apply IH. now apply later_grows.
Qed.
