(** float64 arithmetic and multiplication by powers of two. *)
From Coq Require Import ZArith Lia Lra Bool Reals Psatz.
From Flocq Require Import Core BinarySingleNaN Plus_error Mult_error.
From Verif Require Import Go.Outcome Go.Int64 Go.Float64 Go.FloatOrder Go.FloatReal Go.FloatError.
Open Scope R_scope.
Local Notation B2R := (@B2R 53 1024).
Local Notation pow2 := (bpow radix2).
Local Notation fmt := (generic_format radix2 fexp64).

Local Instance prec_pos53 : Prec_gt_0 53.
Proof. reflexivity. Qed.

Lemma fmt_B2R (x : f64) : fmt (B2R x).
Proof. apply generic_format_B2R. Qed.
Lemma rnd_format r : fmt r -> rnd r = r.
Proof. apply round_generic, valid_rnd_N. Qed.
Lemma fmt_pow e : (-1074 <= e)%Z -> fmt (pow2 e).
Proof. intros H. apply generic_format_FLT_bpow; [reflexivity|lia]. Qed.
Lemma rnd_pow e : (-1074 <= e)%Z -> rnd (pow2 e) = pow2 e.
Proof. intros H. now apply rnd_format, fmt_pow. Qed.
Lemma rnd_ge_pow e r : (-1074 <= e)%Z -> pow2 e <= r -> pow2 e <= rnd r.
Proof. intros H L. rewrite <- rnd_pow by assumption. now apply rnd_mono. Qed.

Lemma pow2_mult a b : pow2 a * pow2 b = pow2 (a + b).
Proof. symmetry. apply bpow_plus. Qed.
Lemma pow2_pos e : 0 < pow2 e. Proof. apply bpow_gt_0. Qed.
Lemma pow2_le a b : (a <= b)%Z -> pow2 a <= pow2 b. Proof. apply bpow_le. Qed.

(** ** Rounding *)

Lemma flx_scale r k : round radix2 (FLX_exp 53) ZnearestE (r * pow2 k) = round radix2 (FLX_exp 53) ZnearestE r * pow2 k.
Proof.
  destruct (Req_dec r 0) as [->|N]; [rewrite Rmult_0_l, round_0 by apply valid_rnd_N; ring|].
  unfold round, F2R, scaled_mantissa, cexp. cbn [Fnum Fexp]. rewrite mag_mult_bpow by assumption.
  unfold FLX_exp. replace (mag radix2 r + k - 53)%Z with ((mag radix2 r - 53) + k)%Z by lia.
  rewrite Rmult_assoc, pow2_mult. replace (k + - (mag radix2 r - 53 + k))%Z with (- (mag radix2 r - 53))%Z by lia.
  rewrite <- pow2_mult. ring.
Qed.
Definition normal (r : R) : Prop := r = 0 \/ pow2 (-1022) <= Rabs r.
Lemma rnd_scale r k : normal r -> normal (r * pow2 k) -> rnd (r * pow2 k) = rnd r * pow2 k.
Proof.
  intros [->|H] H'; [rewrite Rmult_0_l, rnd_0; ring|]. pose proof (pow2_pos (-1022)) as P. pose proof (pow2_pos k) as Pk.
  destruct H' as [H'|H'].
  { apply Rmult_integral in H' as [H'|H']; [|lra]. rewrite H', Rabs_R0 in H. lra. }
  unfold rnd, fexp64. rewrite !round_FLT_FLX by assumption. apply flx_scale.
Qed.
Lemma scaled_sum_aux x y k : fmt x -> fmt y -> fmt (x * pow2 k) -> fmt (y * pow2 k) -> (0 <= k)%Z ->
  rnd ((x + y) * pow2 k) = rnd (x + y) * pow2 k.
Proof.
  intros Fx Fy Fx' Fy' K. destruct (Rle_lt_dec (pow2 (-1022)) (Rabs (x + y))) as [L|L].
  - apply rnd_scale; right; [assumption|]. rewrite Rabs_mult, (Rabs_pos_eq (pow2 k)) by apply bpow_ge_0.
    assert (1 <= pow2 k) by (change 1 with (pow2 0); now apply pow2_le). pose proof (Rabs_pos (x + y)). nra.
  - assert (fmt (x + y)) as F.
    { apply FLT_format_plus_small; [reflexivity|assumption|assumption|]. left. eapply Rlt_trans; [exact L|]. apply bpow_lt. lia. }
    rewrite (rnd_format (x + y)) by assumption. apply rnd_format. now apply mult_bpow_pos_exact_FLT.
Qed.
Lemma scaled_sum x y k : fmt x -> fmt y -> fmt (x * pow2 k) -> fmt (y * pow2 k) ->
  rnd ((x + y) * pow2 k) = rnd (x + y) * pow2 k.
Proof.
  intros Fx Fy Fx' Fy'. destruct (Z_le_gt_dec 0 k) as [K|K]; [now apply scaled_sum_aux|].
  assert (forall z, z * pow2 k * pow2 (- k) = z) as E.
  { intros z. rewrite Rmult_assoc, pow2_mult. replace (k + - k)%Z with 0%Z by lia. change (pow2 0) with 1. ring. }
  pose proof (scaled_sum_aux (x * pow2 k) (y * pow2 k) (- k) Fx' Fy') as S. rewrite !E in S.
  specialize (S Fx Fy ltac:(lia)). rewrite <- Rmult_plus_distr_r, E in S. rewrite S.
  rewrite Rmult_assoc, pow2_mult. replace (- k + k)%Z with 0%Z by lia. change (pow2 0) with 1. ring.
Qed.

(** ** Operations with a finite result *)

Lemma finite_op (z : f64) r : is_nan z = false /\ xr z = sat (rnd r) -> is_finite z = true -> B2R z = rnd r.
Proof.
  intros [_ X] F. rewrite xr_finite in X by assumption. pose proof (B2R_lt_big z F) as B.
  pose proof big_pos. unfold sat in X. apply Rabs_def2 in B. revert X. unfold Rmax, Rmin.
  destruct (Rle_dec (rnd r) big), (Rle_dec (- big) _); intros; lra.
Qed.
Lemma add_operands (x y : f64) : is_finite (f64_add x y) = true -> is_finite x = true /\ is_finite y = true.
Proof. destruct x as [?|[|]| |? ? ? ?]; destruct y as [?|[|]| |? ? ? ?]; intros H; try (split; reflexivity); discriminate H. Qed.
Lemma sub_operands (x y : f64) : is_finite (f64_sub x y) = true -> is_finite x = true /\ is_finite y = true.
Proof. destruct x as [?|[|]| |? ? ? ?]; destruct y as [?|[|]| |? ? ? ?]; intros H; try (split; reflexivity); discriminate H. Qed.
Lemma mul_operands (x y : f64) : is_finite (f64_mul x y) = true -> is_finite x = true /\ is_finite y = true.
Proof. destruct x as [?|[|]| |? ? ? ?]; destruct y as [?|[|]| |? ? ? ?]; intros H; try (split; reflexivity); discriminate H. Qed.
Lemma div_operands (x y : f64) : is_finite (f64_div x y) = true -> is_finite x = true.
Proof. destruct x as [?|[|]| |? ? ? ?]; destruct y as [?|[|]| |? ? ? ?]; intros H; try reflexivity; discriminate H. Qed.
Lemma add_value x y : is_finite (f64_add x y) = true -> B2R (f64_add x y) = rnd (B2R x + B2R y).
Proof. intros F. destruct (add_operands x y F) as [Fx Fy]. apply finite_op; [now apply add_xr|assumption]. Qed.
Lemma sub_value x y : is_finite (f64_sub x y) = true -> B2R (f64_sub x y) = rnd (B2R x - B2R y).
Proof. intros F. destruct (sub_operands x y F) as [Fx Fy]. apply finite_op; [now apply sub_xr|assumption]. Qed.
Lemma mul_value x y : is_finite (f64_mul x y) = true -> B2R (f64_mul x y) = rnd (B2R x * B2R y).
Proof. intros F. destruct (mul_operands x y F) as [Fx Fy]. apply finite_op; [now apply mul_xr|assumption]. Qed.
Lemma div_value x y : is_finite y = true -> B2R y <> 0 -> is_finite (f64_div x y) = true -> B2R (f64_div x y) = rnd (B2R x / B2R y).
Proof. intros Fy N F. pose proof (div_operands x y F) as Fx. apply finite_op; [now apply div_xr|assumption]. Qed.

(** ** Two computations, one on numbers 2^k times as large *)
Section Scale.
Variable k : Z.

(** Unless one of the two overflowed. *)
Definition sc (x x' : f64) : Prop := is_finite x = true -> is_finite x' = true -> B2R x' = B2R x * pow2 k.
(** Non-negative; at least 2^e. *)
Definition scz (x x' : f64) : Prop := is_finite x = true -> is_finite x' = true ->
  B2R x' = B2R x * pow2 k /\ 0 <= B2R x /\ 0 <= B2R x'.
Definition scp (e : Z) (x x' : f64) : Prop := is_finite x = true -> is_finite x' = true ->
  B2R x' = B2R x * pow2 k /\ pow2 e <= B2R x /\ pow2 e <= B2R x'.

Lemma scz_sc x x' : scz x x' -> sc x x'. Proof. intros H F F'. exact (proj1 (H F F')). Qed.
Lemma scp_scz e x x' : scp e x x' -> scz x x'.
Proof. intros H F F'. destruct (H F F') as (A & B & C). pose proof (pow2_pos e). repeat split; [exact A|lra|lra]. Qed.
Lemma scp_weaken e e' x x' : (e' <= e)%Z -> scp e x x' -> scp e' x x'.
Proof. intros L H F F'. destruct (H F F') as (A & B & C). pose proof (pow2_le e' e L). repeat split; [exact A|lra|lra]. Qed.

Lemma sc_add x x' y y' : sc x x' -> sc y y' -> sc (f64_add x y) (f64_add x' y').
Proof.
  intros Hx Hy F F'. destruct (add_operands x y F) as [Fx Fy]. destruct (add_operands x' y' F') as [Fx' Fy'].
  rewrite !add_value by assumption. rewrite (Hx Fx Fx'), (Hy Fy Fy'), <- Rmult_plus_distr_r.
  apply scaled_sum; try apply fmt_B2R; [rewrite <- (Hx Fx Fx')|rewrite <- (Hy Fy Fy')]; apply fmt_B2R.
Qed.
Lemma fmt_neg x : fmt x -> fmt (- x). Proof. apply generic_format_opp. Qed.
Lemma sc_sub x x' y y' : sc x x' -> sc y y' -> sc (f64_sub x y) (f64_sub x' y').
Proof.
  intros Hx Hy F F'. destruct (sub_operands x y F) as [Fx Fy]. destruct (sub_operands x' y' F') as [Fx' Fy'].
  rewrite !sub_value by assumption. rewrite (Hx Fx Fx'), (Hy Fy Fy').
  replace (B2R x * pow2 k - B2R y * pow2 k) with ((B2R x + - B2R y) * pow2 k) by ring. unfold Rminus.
  apply scaled_sum; try apply fmt_neg; try apply fmt_B2R; [rewrite <- (Hx Fx Fx'); apply fmt_B2R|].
  replace (- B2R y * pow2 k) with (- (B2R y * pow2 k)) by ring. rewrite <- (Hy Fy Fy'). apply fmt_neg, fmt_B2R.
Qed.
Lemma scz_add x x' y y' : scz x x' -> scz y y' -> scz (f64_add x y) (f64_add x' y').
Proof.
  intros Hx Hy F F'. pose proof (sc_add _ _ _ _ (scz_sc _ _ Hx) (scz_sc _ _ Hy) F F') as E.
  destruct (add_operands x y F) as [Fx Fy]. destruct (add_operands x' y' F') as [Fx' Fy'].
  destruct (Hx Fx Fx') as (_ & A & B). destruct (Hy Fy Fy') as (_ & C & D). split; [exact E|].
  rewrite !add_value by assumption. split; apply rnd_nonneg; lra.
Qed.
Lemma scp_add_l e x x' y y' : (-1074 <= e)%Z -> scp e x x' -> scz y y' -> scp e (f64_add x y) (f64_add x' y').
Proof.
  intros He Hx Hy F F'. pose proof (sc_add _ _ _ _ (scz_sc _ _ (scp_scz _ _ _ Hx)) (scz_sc _ _ Hy) F F') as E.
  destruct (add_operands x y F) as [Fx Fy]. destruct (add_operands x' y' F') as [Fx' Fy'].
  destruct (Hx Fx Fx') as (_ & A & B). destruct (Hy Fy Fy') as (_ & C & D). split; [exact E|].
  rewrite !add_value by assumption. split; apply rnd_ge_pow; try assumption; lra.
Qed.
Lemma scp_add_r e x x' y y' : (-1074 <= e)%Z -> scz x x' -> scp e y y' -> scp e (f64_add x y) (f64_add x' y').
Proof.
  intros He Hx Hy F F'. pose proof (sc_add _ _ _ _ (scz_sc _ _ Hx) (scz_sc _ _ (scp_scz _ _ _ Hy)) F F') as E.
  destruct (add_operands x y F) as [Fx Fy]. destruct (add_operands x' y' F') as [Fx' Fy'].
  destruct (Hx Fx Fx') as (_ & A & B). destruct (Hy Fy Fy') as (_ & C & D). split; [exact E|].
  rewrite !add_value by assumption. split; apply rnd_ge_pow; try assumption; lra.
Qed.
Lemma normal_ge r : pow2 (-1022) <= r -> normal r.
Proof. intros H. right. rewrite Rabs_pos_eq; [assumption|]. pose proof (pow2_pos (-1022)). lra. Qed.

(** Products with the same factor. *)
Lemma prod_ge e g x c : pow2 e <= x -> pow2 g <= c -> pow2 (e + g) <= x * c.
Proof. intros A B. rewrite <- pow2_mult. pose proof (pow2_pos e). pose proof (pow2_pos g). apply Rmult_le_compat; lra. Qed.
Lemma scp_mul e g x x' c : (-1022 <= e + g)%Z -> scp e x x' -> pow2 g <= B2R c ->
  scp (e + g) (f64_mul x c) (f64_mul x' c).
Proof.
  intros He Hx Hc F F'. destruct (mul_operands x c F) as [Fx Fc]. destruct (mul_operands x' c F') as [Fx' _].
  destruct (Hx Fx Fx') as (E & A & B). rewrite !mul_value by assumption.
  pose proof (prod_ge _ _ _ _ A Hc) as A'. pose proof (prod_ge _ _ _ _ B Hc) as B'.
  pose proof (pow2_le (-1022) (e + g) He) as L.
  split; [|split; apply rnd_ge_pow; try assumption; lia].
  rewrite E in *. replace (B2R x * pow2 k * B2R c) with (B2R x * B2R c * pow2 k) in * by ring.
  apply rnd_scale; apply normal_ge; lra.
Qed.
Lemma scz_mul_zero x x' c : B2R c = 0 -> scz (f64_mul x c) (f64_mul x' c).
Proof.
  intros Hc F F'. rewrite !mul_value by assumption. rewrite Hc, !Rmult_0_r, rnd_0. repeat split; lra.
Qed.
Lemma mul_comm_value x y : is_finite (f64_mul x y) = true -> is_finite (f64_mul y x) = true /\ B2R (f64_mul x y) = B2R (f64_mul y x).
Proof.
  intros F. destruct (mul_operands x y F) as [Fx Fy]. destruct (mul_xr x y Fx Fy) as [N X]. destruct (mul_xr y x Fy Fx) as [N' X'].
  rewrite (Rmult_comm (B2R y)) in X'.
  assert (is_finite (f64_mul y x) = true) as F'.
  { apply xr_lt_finite; [assumption|]. rewrite X', <- X, xr_finite by assumption. now apply B2R_lt_big. }
  split; [exact F'|]. rewrite !mul_value by assumption. now rewrite Rmult_comm.
Qed.
Lemma scp_mul_l e g x x' c : (-1022 <= e + g)%Z -> scp e x x' -> pow2 g <= B2R c ->
  scp (e + g) (f64_mul c x) (f64_mul c x').
Proof.
  intros He Hx Hc F F'. destruct (mul_comm_value c x F) as [G ->]. destruct (mul_comm_value c x' F') as [G' ->].
  now apply (scp_mul e g).
Qed.
Lemma scz_mul_zero_l x x' c : B2R c = 0 -> scz (f64_mul c x) (f64_mul c x').
Proof.
  intros Hc F F'. rewrite !mul_value by assumption. rewrite Hc, !Rmult_0_l, rnd_0. repeat split; lra.
Qed.
Lemma scp_div e g x x' c : (-1022 <= e - g)%Z -> scp e x x' -> is_finite c = true -> 0 < B2R c <= pow2 g ->
  scp (e - g) (f64_div x c) (f64_div x' c).
Proof.
  intros He Hx Fc Hc F F'. pose proof (div_operands x c F) as Fx. pose proof (div_operands x' c F') as Fx'.
  destruct (Hx Fx Fx') as (E & A & B). rewrite !div_value by (assumption || lra).
  assert (pow2 (- g) <= / B2R c) as I.
  { rewrite bpow_opp. apply Rinv_le; lra. }
  pose proof (prod_ge _ _ _ _ A I) as A'. pose proof (prod_ge _ _ _ _ B I) as B'. fold (B2R x / B2R c) in A'. fold (B2R x' / B2R c) in B'.
  pose proof (pow2_le (-1022) (e + - g) ltac:(lia)) as L. replace (e + - g)%Z with (e - g)%Z in * by lia.
  split; [|split; apply rnd_ge_pow; try assumption; lia].
  rewrite E in *. replace (B2R x * pow2 k / B2R c) with (B2R x / B2R c * pow2 k) in * by (unfold Rdiv; ring).
  apply rnd_scale; apply normal_ge; lra.
Qed.
End Scale.
