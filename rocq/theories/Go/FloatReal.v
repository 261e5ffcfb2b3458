(** float64 values as (saturated) reals: comparisons and operations. *)
From Coq Require Import ZArith Lia Lra Bool Reals.
From Flocq Require Import Core BinarySingleNaN.
From Verif Require Import Go.Outcome Go.Int64 Go.Float64 Go.FloatOrder.
Open Scope R_scope.

Definition big : R := bpow radix2 1024.

Lemma big_pos : 0 < big.
Proof. apply bpow_gt_0. Qed.
Lemma pow53_lt_big : IZR (2 ^ 53) < big.
Proof. change (IZR (2 ^ 53)) with (bpow radix2 53). apply bpow_lt. lia. Qed.
Global Opaque big.

(** The real value, infinities being +-2^1024. *)
Definition xr (x : f64) : R :=
  match x with
  | B754_infinity s => if s then - big else big
  | _ => B2R x
  end.

Definition fexp64 := FLT_exp (3 - 1024 - 53) 53.
(** Rounding to nearest even at binary64, without overflow. *)
Definition rnd (r : R) : R := round radix2 fexp64 ZnearestE r.

(** Clamp to [-2^1024, 2^1024]. *)
Definition sat (r : R) : R := Rmax (- big) (Rmin r big).

Lemma sat_mono r s : r <= s -> sat r <= sat s.
Proof. intros H. unfold sat. apply Rle_max_compat_l, Rle_min_compat_r, H. Qed.
Lemma sat_id r : Rabs r <= big -> sat r = r.
Proof.
  intros H. apply Rabs_le_inv in H. unfold sat.
  rewrite Rmin_left by lra. apply Rmax_right; lra.
Qed.
Lemma sat_hi r : big <= r -> sat r = big.
Proof. intros H. pose proof big_pos. unfold sat. rewrite Rmin_right by lra. apply Rmax_right; lra. Qed.
Lemma sat_lo r : r <= - big -> sat r = - big.
Proof. intros H. pose proof big_pos. unfold sat. rewrite Rmin_left by lra. apply Rmax_left; lra. Qed.

Lemma rnd_mono r s : r <= s -> rnd r <= rnd s.
Proof. apply round_le; [apply FLT_exp_valid; reflexivity|apply valid_rnd_N]. Qed.
Lemma rnd_0 : rnd 0 = 0.
Proof. apply round_0, valid_rnd_N. Qed.
Lemma rnd_nonneg r : 0 <= r -> 0 <= rnd r.
Proof. intros H. rewrite <- rnd_0. now apply rnd_mono. Qed.
Lemma rnd_opp r : rnd (- r) = - rnd r.
Proof. apply round_NE_opp. Qed.

Lemma B2R_lt_big (x : f64) : is_finite x = true -> Rabs (B2R x) < big.
Proof. intros _. apply (abs_B2R_lt_emax 53 1024 x). Qed.

Lemma xr_finite x : is_finite x = true -> xr x = B2R x.
Proof. destruct x; try discriminate; reflexivity. Qed.

Lemma xr_range x : - big <= xr x <= big.
Proof.
  pose proof big_pos.
  destruct x as [s|s| |s m e B]; try (simpl; lra).
  - simpl; destruct s; lra.
  - pose proof (B2R_lt_big (B754_finite s m e B) eq_refl) as H1.
    apply Rabs_def2 in H1. unfold xr. lra.
Qed.

Lemma f64_lt_xr x y : is_nan x = false -> is_nan y = false ->
  f64_lt x y = Rlt_bool (xr x) (xr y).
Proof.
  intros Hx Hy. pose proof big_pos as Hb.
  assert (forall z : f64, is_finite z = true -> - big < B2R z < big) as Hf.
  { intros z Hz. pose proof (B2R_lt_big z Hz) as H1. apply Rabs_def2 in H1. lra. }
  destruct (is_finite x) eqn:Fx, (is_finite y) eqn:Fy.
  - unfold f64_lt. rewrite Bltb_correct by assumption. now rewrite !xr_finite by assumption.
  - destruct y as [|s| |]; try discriminate. rewrite (xr_finite x) by assumption.
    specialize (Hf x Fx).
    destruct s; simpl xr.
    + rewrite Rlt_bool_false by lra. destruct x as [s'|s'| |s' m e B]; try discriminate; destruct s'; reflexivity.
    + rewrite Rlt_bool_true by lra. destruct x as [s'|s'| |s' m e B]; try discriminate; destruct s'; reflexivity.
  - destruct x as [|s| |]; try discriminate. rewrite (xr_finite y) by assumption.
    specialize (Hf y Fy).
    destruct s; simpl xr.
    + rewrite Rlt_bool_true by lra. destruct y as [s'|s'| |s' m e B]; try discriminate; destruct s'; reflexivity.
    + rewrite Rlt_bool_false by lra. destruct y as [s'|s'| |s' m e B]; try discriminate; destruct s'; reflexivity.
  - destruct x as [|s| |]; try discriminate. destruct y as [|s'| |]; try discriminate.
    destruct s, s'; simpl xr; [rewrite Rlt_bool_false by lra|rewrite Rlt_bool_true by lra|
      rewrite Rlt_bool_false by lra|rewrite Rlt_bool_false by lra]; reflexivity.
Qed.

Lemma key_lt_xr x y : is_nan x = false -> is_nan y = false ->
  (key x < key y)%Z <-> xr x < xr y.
Proof.
  intros Hx Hy. pose proof (f64_lt_key x y Hx Hy) as H1.
  rewrite f64_lt_xr in H1 by assumption.
  destruct (Rlt_bool_spec (xr x) (xr y)); split; intros; try lra;
    destruct (Z.ltb_spec (key x) (key y)); try discriminate; try lia; lra.
Qed.
Lemma key_le_xr x y : is_nan x = false -> is_nan y = false ->
  (key x <= key y)%Z <-> xr x <= xr y.
Proof.
  intros Hx Hy. pose proof (key_lt_xr y x Hy Hx) as [H1 H2].
  split; intros H.
  - destruct (Rle_or_lt (xr x) (xr y)) as [|L]; [assumption|]. specialize (H2 L). lia.
  - destruct (Z_le_gt_dec (key x) (key y)) as [|G]; [assumption|].
    assert (key y < key x)%Z as L by lia. specialize (H1 L). lra.
Qed.
Lemma key_eq_xr x y : is_nan x = false -> is_nan y = false ->
  key x = key y <-> xr x = xr y.
Proof.
  intros Hx Hy. pose proof (key_le_xr x y Hx Hy) as [A B]. pose proof (key_le_xr y x Hy Hx) as [C D].
  split; intros H.
  - assert (key x <= key y)%Z by lia. assert (key y <= key x)%Z by lia. specialize (A H0). specialize (C H1). lra.
  - assert (xr x <= xr y) by lra. assert (xr y <= xr x) by lra. specialize (B H0). specialize (D H1). lia.
Qed.

Lemma f64_le_xr x y : is_nan x = false -> is_nan y = false ->
  f64_le x y = Rle_bool (xr x) (xr y).
Proof.
  intros Hx Hy. rewrite f64_le_key by assumption. pose proof (key_le_xr x y Hx Hy) as [A B].
  destruct (Z.leb_spec (key x) (key y)) as [L|L].
  - rewrite Rle_bool_true; auto.
  - rewrite Rle_bool_false; auto. apply Rnot_le_lt. intros K. specialize (B K). lia.
Qed.
Lemma f64_eq_xr x y : is_nan x = false -> is_nan y = false ->
  f64_eq x y = Req_bool (xr x) (xr y).
Proof.
  intros Hx Hy. rewrite f64_eq_key by assumption. pose proof (key_eq_xr x y Hx Hy) as [A B].
  destruct (Z.eqb_spec (key x) (key y)) as [L|L].
  - rewrite Req_bool_true; auto.
  - rewrite Req_bool_false; auto.
Qed.

(** ** Operations *)

Lemma finite_not_nan (x : f64) : is_finite x = true -> is_nan x = false.
Proof. destruct x; try discriminate; reflexivity. Qed.

Lemma overflow_sf (z : f64) s :
  B2SF z = binary_overflow 53 1024 mode_NE s -> z = B754_infinity s.
Proof.
  intros H. unfold binary_overflow in H; simpl in H.
  apply B2SF_inj. rewrite H. reflexivity.
Qed.

Lemma sign_neg_le (x : f64) : Bsign x = true -> B2R x <= 0.
Proof.
  destruct x as [s|s| |s m e B]; simpl; intros H; try lra.
  subst s. apply F2R_le_0. simpl. lia.
Qed.
Lemma sign_pos_ge (x : f64) : is_nan x = false -> Bsign x = false -> 0 <= B2R x.
Proof.
  destruct x as [s|s| |s m e B]; simpl; intros Hn H; try lra.
  subst s. apply F2R_ge_0. simpl. lia.
Qed.

Lemma rnd_fexp r : round radix2 (SpecFloat.fexp 53 1024) (round_mode mode_NE) r = rnd r.
Proof. reflexivity. Qed.

(** Common shape of the Flocq correctness statements. *)
Lemma op_xr (z : f64) (r : R) (s : bool) :
  (if Rlt_bool (Rabs (rnd r)) (bpow radix2 1024)
   then B2R z = rnd r /\ is_finite z = true
   else B2SF z = binary_overflow 53 1024 mode_NE s /\ (if s then r <= 0 else 0 <= r)) ->
  is_nan z = false /\ xr z = sat (rnd r).
Proof.
  change (bpow radix2 1024) with big.
  destruct (Rlt_bool_spec (Rabs (rnd r)) big) as [L|L].
  - intros [H1 H2]. split; [now apply finite_not_nan|]. rewrite xr_finite by assumption.
    rewrite sat_id by lra. assumption.
  - intros [H1 H2]. apply overflow_sf in H1. subst z. split; [reflexivity|]. simpl.
    destruct s.
    + assert (rnd r <= 0) by (rewrite <- rnd_0; now apply rnd_mono).
      rewrite Rabs_left1 in L by assumption. rewrite sat_lo by lra. reflexivity.
    + assert (0 <= rnd r) by (now apply rnd_nonneg).
      rewrite Rabs_pos_eq in L by assumption. rewrite sat_hi by lra. reflexivity.
Qed.

Lemma add_xr x y : is_finite x = true -> is_finite y = true ->
  is_nan (f64_add x y) = false /\ xr (f64_add x y) = sat (rnd (B2R x + B2R y)).
Proof.
  intros Hx Hy. pose proof (Bplus_correct 53 1024 prec53 emax1024 mode_NE x y Hx Hy) as C.
  rewrite rnd_fexp in C. apply (op_xr _ _ (Bsign x)).
  change (Bplus mode_NE x y) with (f64_add x y) in C.
  destruct (Rlt_bool _ _); [tauto|]. destruct C as [C1 C2]. split; [exact C1|].
  destruct (Bsign x) eqn:Sx.
  - pose proof (sign_neg_le x Sx). pose proof (sign_neg_le y (eq_sym C2)). lra.
  - pose proof (sign_pos_ge x (finite_not_nan x Hx) Sx).
    pose proof (sign_pos_ge y (finite_not_nan y Hy) (eq_sym C2)). lra.
Qed.

Lemma sub_xr x y : is_finite x = true -> is_finite y = true ->
  is_nan (f64_sub x y) = false /\ xr (f64_sub x y) = sat (rnd (B2R x - B2R y)).
Proof.
  intros Hx Hy. pose proof (Bminus_correct 53 1024 prec53 emax1024 mode_NE x y Hx Hy) as C.
  rewrite rnd_fexp in C. apply (op_xr _ _ (Bsign x)).
  change (Bminus mode_NE x y) with (f64_sub x y) in C.
  destruct (Rlt_bool _ _); [tauto|]. destruct C as [C1 C2]. split; [exact C1|].
  assert (Bsign y = negb (Bsign x)) as C3 by (rewrite C2; now destruct (Bsign y)).
  destruct (Bsign x) eqn:Sx; simpl in C3.
  - pose proof (sign_neg_le x Sx). pose proof (sign_pos_ge y (finite_not_nan y Hy) C3). lra.
  - pose proof (sign_pos_ge x (finite_not_nan x Hx) Sx).
    pose proof (sign_neg_le y C3). lra.
Qed.

Lemma mul_xr x y : is_finite x = true -> is_finite y = true ->
  is_nan (f64_mul x y) = false /\ xr (f64_mul x y) = sat (rnd (B2R x * B2R y)).
Proof.
  intros Hx Hy. pose proof (Bmult_correct 53 1024 prec53 emax1024 mode_NE x y) as C.
  rewrite rnd_fexp in C. apply (op_xr _ _ (xorb (Bsign x) (Bsign y))).
  change (Bmult mode_NE x y) with (f64_mul x y) in C. rewrite Hx, Hy in C.
  destruct (Rlt_bool _ _); [tauto|]. split; [exact C|].
  destruct (Bsign x) eqn:Sx, (Bsign y) eqn:Sy; simpl;
  repeat match goal with
  | H : Bsign ?z = true |- _ => apply sign_neg_le in H
  | H : Bsign ?z = false |- _ => apply sign_pos_ge in H; [|now apply finite_not_nan]
  end; nra.
Qed.

Lemma div_xr x y : is_finite x = true -> is_finite y = true -> B2R y <> 0 ->
  is_nan (f64_div x y) = false /\ xr (f64_div x y) = sat (rnd (B2R x / B2R y)).
Proof.
  intros Hx Hy Hz. pose proof (Bdiv_correct 53 1024 prec53 emax1024 mode_NE x y Hz) as C.
  rewrite rnd_fexp in C. apply (op_xr _ _ (xorb (Bsign x) (Bsign y))).
  change (Bdiv mode_NE x y) with (f64_div x y) in C. rewrite Hx in C.
  destruct (Rlt_bool _ _); [tauto|]. split; [exact C|].
  assert (forall a b, b <> 0 -> 0 <= a -> 0 < b -> 0 <= a / b) as Hd.
  { intros. apply Rmult_le_pos; [assumption|]. left. now apply Rinv_0_lt_compat. }
  destruct (Bsign x) eqn:Sx, (Bsign y) eqn:Sy; simpl;
  repeat match goal with
  | H : Bsign ?z = true |- _ => apply sign_neg_le in H
  | H : Bsign ?z = false |- _ => apply sign_pos_ge in H; [|now apply finite_not_nan]
  end.
  - replace (B2R x / B2R y) with ((- B2R x) / (- B2R y)) by (field; assumption). apply Hd; lra.
  - assert (0 <= (- B2R x) / B2R y) as H by (apply Hd; lra).
    replace (- B2R x / B2R y) with (- (B2R x / B2R y)) in H by (field; assumption). lra.
  - assert (0 <= (B2R x) / (- B2R y)) as H by (apply Hd; lra).
    replace (B2R x / - B2R y) with (- (B2R x / B2R y)) in H by (field; assumption). lra.
  - apply Hd; lra.
Qed.

Lemma i2f_xr z : is_nan (i2f z) = false /\ xr (i2f z) = sat (rnd (IZR z)).
Proof.
  unfold i2f.
  pose proof (binary_normalize_correct 53 1024 prec53 emax1024 mode_NE z 0 false) as C.
  cbv beta zeta in C. rewrite rnd_fexp in C.
  replace (F2R {| Fnum := z; Fexp := 0 |}) with (IZR z) in C
    by (unfold F2R; cbn [Fnum Fexp bpow]; lra).
  apply (op_xr _ _ (z <? 0)%Z).
  destruct (Rlt_bool _ _); [tauto|].
  assert (Rlt_bool (IZR z) 0 = (z <? 0)%Z) as E.
  { destruct (Z.ltb_spec z 0).
    - apply Rlt_bool_true. now apply (IZR_lt z 0).
    - apply Rlt_bool_false. now apply (IZR_le 0 z). }
  rewrite E in C. split; [exact C|].
  destruct (Z.ltb_spec z 0); [apply (IZR_le z 0)|apply (IZR_le 0 z)]; lia.
Qed.

(** ** Integers that are exactly representable *)

Definition exact_int (z : Z) : Prop := (- 2 ^ 53 <= z <= 2 ^ 53)%Z.

Lemma exact_int_format z : exact_int z -> generic_format radix2 fexp64 (IZR z).
Proof.
  intros [H1 H2]. unfold fexp64.
  destruct (Z.eq_dec (Z.abs z) (2 ^ 53)) as [E|E].
  - assert (IZR z = (if (z <? 0)%Z then -1 else 1) * bpow radix2 53)%R as ->.
    { replace (bpow radix2 53) with (IZR (2 ^ 53)) by reflexivity.
      destruct (Z.ltb_spec z 0).
      - assert (z = - 2 ^ 53)%Z by lia. subst z. rewrite opp_IZR. lra.
      - assert (z = 2 ^ 53)%Z by lia. subst z. lra. }
    destruct (z <? 0)%Z.
    + replace (-1 * bpow radix2 53)%R with (- bpow radix2 53)%R by lra.
      apply generic_format_opp, generic_format_bpow. unfold FLT_exp; lia.
    + rewrite Rmult_1_l. apply generic_format_bpow. unfold FLT_exp; lia.
  - apply generic_format_FLT. exists (Float radix2 z 0); simpl; try lia.
    unfold F2R; simpl. lra.
Qed.

Lemma rnd_int z : exact_int z -> rnd (IZR z) = IZR z.
Proof. intros H. apply round_generic; [apply valid_rnd_N|now apply exact_int_format]. Qed.


Lemma exact_lt_big z : exact_int z -> Rabs (IZR z) < big.
Proof.
  intros H. apply Rle_lt_trans with (IZR (2 ^ 53)); [|apply pow53_lt_big].
  rewrite <- abs_IZR. apply IZR_le. unfold exact_int in H. lia.
Qed.

Lemma i2f_exact_xr z : exact_int z -> xr (i2f z) = IZR z.
Proof.
  intros H. rewrite (proj2 (i2f_xr z)), rnd_int by assumption.
  apply sat_id. apply Rlt_le. now apply exact_lt_big.
Qed.

Lemma xr_lt_finite x : is_nan x = false -> Rabs (xr x) < big -> is_finite x = true.
Proof.
  intros Hn H. destruct x as [s|s| |s m e B]; try discriminate; try reflexivity.
  exfalso. simpl in H. pose proof big_pos. destruct s; unfold Rabs in H; destruct (Rcase_abs _); lra.
Qed.

Lemma i2f_finite z : exact_int z -> is_finite (i2f z) = true.
Proof.
  intros H. apply xr_lt_finite; [apply i2f_xr|]. rewrite i2f_exact_xr by assumption.
  now apply exact_lt_big.
Qed.
Lemma i2f_B2R z : exact_int z -> B2R (i2f z) = IZR z.
Proof. intros H. rewrite <- xr_finite by now apply i2f_finite. now apply i2f_exact_xr. Qed.

Lemma i2f_mono z1 z2 : (z1 <= z2)%Z -> xr (i2f z1) <= xr (i2f z2).
Proof.
  intros H. rewrite !(proj2 (i2f_xr _)). apply sat_mono, rnd_mono. now apply IZR_le.
Qed.

(** Truncation. *)
Lemma Btrunc_int (x : f64) z : B2R x = IZR z -> Btrunc x = z.
Proof.
  intros H. apply eq_IZR. rewrite (Btrunc_correct 53 1024 emax1024).
  rewrite H. apply round_generic; [apply valid_rnd_ZR|].
  apply generic_format_FIX. exists (Float radix2 z 0); [unfold F2R; simpl; lra|reflexivity].
Qed.

Lemma f2i_of_xr x z : is_nan x = false -> exact_int z -> xr x = IZR z -> f2i x = z.
Proof.
  intros Hn Hz H.
  assert (is_finite x = true) as F.
  { apply xr_lt_finite; [assumption|]. rewrite H. now apply exact_lt_big. }
  unfold f2i. rewrite F. rewrite (Btrunc_int x z) by (rewrite <- xr_finite; assumption).
  unfold exact_int in Hz. unfold int64_min, int64_max.
  destruct (Z.leb_spec (-2 ^ 63) z), (Z.leb_spec z (2 ^ 63 - 1)); simpl; lia.
Qed.

Lemma f2i_i2f z : exact_int z -> f2i (i2f z) = z.
Proof. intros H. apply f2i_of_xr; [apply i2f_xr|assumption|now apply i2f_exact_xr]. Qed.

Lemma f64_min_xr x y : is_nan x = false -> is_nan y = false ->
  is_nan (f64_min x y) = false /\ xr (f64_min x y) = Rmin (xr x) (xr y).
Proof.
  intros Hx Hy. pose proof (f64_lt_xr x y Hx Hy) as L.
  pose proof (xr_range x) as Rx. pose proof (xr_range y) as Ry.
  assert (is_nan (if f64_lt x y then x else y) = false /\
          xr (if f64_lt x y then x else y) = Rmin (xr x) (xr y)) as G.
  { rewrite L. destruct (Rlt_bool_spec (xr x) (xr y)).
    - rewrite Rmin_left by lra. auto.
    - rewrite Rmin_right by lra. auto. }
  destruct x as [sx|[]| |sx mx ex Bx]; try discriminate;
  destruct y as [sy|[]| |sy my ey By]; try discriminate; try exact G;
    try (split; [reflexivity|]; unfold f64_min; cbn [xr] in *; try rewrite Rmin_left by lra; try rewrite Rmin_right by lra; reflexivity).
  - destruct sx; split; try reflexivity; simpl; rewrite Rmin_left by lra; reflexivity.
Qed.

Lemma f64_max_xr x y : is_nan x = false -> is_nan y = false ->
  is_nan (f64_max x y) = false /\ xr (f64_max x y) = Rmax (xr x) (xr y).
Proof.
  intros Hx Hy. pose proof (f64_lt_xr y x Hy Hx) as L.
  pose proof (xr_range x) as Rx. pose proof (xr_range y) as Ry.
  assert (is_nan (if f64_lt y x then x else y) = false /\
          xr (if f64_lt y x then x else y) = Rmax (xr x) (xr y)) as G.
  { rewrite L. destruct (Rlt_bool_spec (xr y) (xr x)).
    - rewrite Rmax_left by lra. auto.
    - rewrite Rmax_right by lra. auto. }
  destruct x as [sx|[]| |sx mx ex Bx]; try discriminate;
  destruct y as [sy|[]| |sy my ey By]; try discriminate; try exact G;
    try (split; [reflexivity|]; unfold f64_max; cbn [xr] in *; try rewrite Rmax_left by lra; try rewrite Rmax_right by lra; reflexivity).
  - destruct sx; split; try reflexivity; simpl; rewrite Rmax_left by lra; reflexivity.
Qed.

Lemma f64_abs_xr x : is_nan x = false ->
  is_nan (f64_abs x) = false /\ xr (f64_abs x) = Rabs (xr x).
Proof.
  intros Hx. pose proof big_pos. destruct x as [s|s| |s m e B]; try discriminate.
  - split; [reflexivity|]. simpl. now rewrite Rabs_R0.
  - split; [reflexivity|]. simpl. destruct s; [rewrite Rabs_left|rewrite Rabs_pos_eq]; lra.
  - split; [reflexivity|]. unfold xr. unfold f64_abs. rewrite B2R_Babs. reflexivity.
Qed.

Lemma IZR_Rmin a b : Rmin (IZR a) (IZR b) = IZR (Z.min a b).
Proof.
  destruct (Z.le_gt_cases a b) as [H|H].
  - rewrite Z.min_l by assumption. apply Rmin_left. now apply IZR_le.
  - rewrite Z.min_r by lia. apply Rmin_right. apply IZR_le. lia.
Qed.
Lemma IZR_Rmax a b : Rmax (IZR a) (IZR b) = IZR (Z.max a b).
Proof.
  destruct (Z.le_gt_cases a b) as [H|H].
  - rewrite Z.max_r by assumption. apply Rmax_right. now apply IZR_le.
  - rewrite Z.max_l by lia. apply Rmax_left. apply IZR_le. lia.
Qed.

(** int(math.Min(float64(a), float64(b))) = min(a, b) *)
Lemma f2i_min a b : exact_int a -> exact_int b ->
  f2i (f64_min (i2f a) (i2f b)) = Z.min a b.
Proof.
  intros Ha Hb. destruct (f64_min_xr (i2f a) (i2f b) (proj1 (i2f_xr a)) (proj1 (i2f_xr b))) as [H1 H2].
  apply f2i_of_xr; [assumption| |].
  - unfold exact_int in *; lia.
  - rewrite H2, !i2f_exact_xr by assumption. apply IZR_Rmin.
Qed.
Lemma f2i_max a b : exact_int a -> exact_int b ->
  f2i (f64_max (i2f a) (i2f b)) = Z.max a b.
Proof.
  intros Ha Hb. destruct (f64_max_xr (i2f a) (i2f b) (proj1 (i2f_xr a)) (proj1 (i2f_xr b))) as [H1 H2].
  apply f2i_of_xr; [assumption| |].
  - unfold exact_int in *; lia.
  - rewrite H2, !i2f_exact_xr by assumption. apply IZR_Rmax.
Qed.
(** int(math.Abs(float64(a))) = |a| *)
Lemma f2i_abs a : exact_int a -> f2i (f64_abs (i2f a)) = Z.abs a.
Proof.
  intros Ha. destruct (f64_abs_xr (i2f a) (proj1 (i2f_xr a))) as [H1 H2].
  apply f2i_of_xr; [assumption| |].
  - unfold exact_int in *; lia.
  - rewrite H2, i2f_exact_xr by assumption. now rewrite abs_IZR.
Qed.

(** A length and an arbitrary depth: float64 conversion is monotone, so the
    minimum is right even when the depth itself is not exact. *)
Lemma f2i_min_depth len depth : (0 <= len <= 2 ^ 53)%Z -> (0 <= depth)%Z ->
  f2i (f64_min (i2f len) (i2f depth)) = Z.min len depth.
Proof.
  intros Hl Hd. assert (exact_int len) as El by (unfold exact_int; lia).
  destruct (Z.le_gt_cases depth (2 ^ 53)) as [H|H].
  { apply f2i_min; [assumption|]. unfold exact_int; lia. }
  destruct (f64_min_xr (i2f len) (i2f depth) (proj1 (i2f_xr len)) (proj1 (i2f_xr depth))) as [H1 H2].
  rewrite Z.min_l by lia. apply f2i_of_xr; [assumption|assumption|].
  rewrite H2, Rmin_left; [now apply i2f_exact_xr|]. apply i2f_mono. lia.
Qed.
Lemma f2i_neg x : is_nan x = false -> xr x <= -1 -> (f2i x < 0)%Z.
Proof.
  intros Hn H. unfold f2i. destruct (is_finite x) eqn:F; [|reflexivity].
  rewrite xr_finite in H by assumption.
  assert (Btrunc x <= -1)%Z as G.
  { apply le_IZR. rewrite (Btrunc_correct 53 1024 emax1024).
    rewrite <- (round_generic radix2 (FIX_exp 0) Ztrunc (IZR (-1))).
    - apply round_le; [apply FIX_exp_valid|apply valid_rnd_ZR|assumption].
    - apply generic_format_FIX. exists (Float radix2 (-1) 0); [unfold F2R; simpl; lra|reflexivity]. }
  destruct (_ && _); [lia|unfold int64_min; lia].
Qed.
Lemma f2i_min_neg len depth : (0 <= len)%Z -> (depth < 0)%Z ->
  (f2i (f64_min (i2f len) (i2f depth)) < 0)%Z.
Proof.
  intros Hl Hd.
  destruct (f64_min_xr (i2f len) (i2f depth) (proj1 (i2f_xr len)) (proj1 (i2f_xr depth))) as [H1 H2].
  apply f2i_neg; [assumption|]. rewrite H2.
  apply Rle_trans with (xr (i2f depth)); [apply Rmin_r|].
  apply Rle_trans with (xr (i2f (-1))); [apply i2f_mono; lia|].
  rewrite i2f_exact_xr by (unfold exact_int; lia). lra.
Qed.
