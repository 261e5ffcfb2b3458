(** The float64 nearest to a decimal: value, sign, dependence on the rational
    only. *)
From Coq Require Import ZArith NArith Lia Lra Bool Reals.
From Flocq Require Import Core BinarySingleNaN.
From Verif Require Import Go.Outcome Go.Int64 Go.Float64 Go.FloatOrder Go.FloatReal Go.Text Go.Num.
Open Scope R_scope.

Definition signed (s : bool) (r : R) : R := if s then - r else r.

Lemma f64_of_ratio_spec s num den :
  let z := f64_of_ratio s num den in
  is_nan z = false /\ Bsign z = s /\ xr z = sat (rnd (signed s (IZR (Zpos num) / IZR (Zpos den)))).
Proof.
  cbv zeta. unfold f64_of_ratio.
  pose proof (proj2 (Bdiv_correct_aux 53 1024 prec53 emax1024 mode_NE s num 0 false den 0)) as C.
  cbv zeta in C.
  set (sf := let '(mz, ez, lz) := _ in _) in *.
  enough (forall V, is_nan (SF2B sf V : f64) = false /\ Bsign (SF2B sf V : f64) = s /\
    xr (SF2B sf V) = sat (rnd (signed s (IZR (Zpos num) / IZR (Zpos den))))) as G by exact (G _).
  intros V.
  rewrite xorb_false_r in C. rewrite rnd_fexp in C.
  replace (F2R {| Fnum := cond_Zopp s (Zpos num); Fexp := 0 |} /
           F2R {| Fnum := cond_Zopp false (Zpos den); Fexp := 0 |})
    with (signed s (IZR (Zpos num) / IZR (Zpos den))) in C.
  2:{ unfold F2R. cbn [Fnum Fexp bpow cond_Zopp]. rewrite !Rmult_1_r.
      destruct s; simpl; [|reflexivity].
      change (IZR (Z.neg num)) with (IZR (- Zpos num)). rewrite opp_IZR. unfold Rdiv. ring. }
  set (r := signed s _) in *.
  assert (if s then r <= 0 else 0 <= r) as Hs.
  { assert (0 <= IZR (Zpos num) / IZR (Zpos den)) as P.
    { apply Rmult_le_pos; [apply (IZR_le 0); lia|]. left. apply Rinv_0_lt_compat. apply (IZR_lt 0); lia. }
    unfold r; destruct s; simpl; lra. }
  assert (is_nan (SF2B sf V) = false /\ xr (SF2B sf V) = sat (rnd r)) as [H1 H2].
  { apply (op_xr _ _ s). destruct (Rlt_bool _ _).
    - rewrite B2R_SF2B, is_finite_SF2B. tauto.
    - rewrite B2SF_SF2B. auto. }
  split; [exact H1|]. split; [|exact H2].
  rewrite Bsign_SF2B. destruct (Rlt_bool _ _); [tauto|]. rewrite C. reflexivity.
Qed.

(** The real number written [d * 10^e]. *)
Definition decR (d : N) (e : Z) : R := IZR (Z.of_N d) * bpow radix10 e.

Lemma decR_nonneg d e : 0 <= decR d e.
Proof. apply Rmult_le_pos; [apply (IZR_le 0); lia|apply bpow_ge_0]. Qed.
Lemma decR_pos p e : 0 < decR (Npos p) e.
Proof. apply Rmult_lt_0_compat; [apply (IZR_lt 0); lia|apply bpow_gt_0]. Qed.

Lemma bpow10_pos q : bpow radix10 (Zpos q) = IZR (Zpos (10 ^ q)).
Proof. rewrite <- IZR_Zpower by lia. f_equal. simpl radix_val. rewrite Pos2Z.inj_pow. reflexivity. Qed.
Lemma bpow10_neg q : bpow radix10 (Zneg q) = / IZR (Zpos (10 ^ q)).
Proof. change (Zneg q) with (- Zpos q)%Z. rewrite bpow_opp, bpow10_pos. reflexivity. Qed.

Lemma f64_of_dec_spec s d e :
  let z := f64_of_dec s d e in
  is_nan z = false /\ Bsign z = s /\ xr z = sat (rnd (signed s (decR d e))).
Proof.
  cbv zeta. unfold f64_of_dec, decR. destruct d as [|p].
  - split; [reflexivity|split; [reflexivity|]].
    simpl Z.of_N. rewrite Rmult_0_l.
    assert (signed s 0 = 0) as -> by (destruct s; simpl; lra).
    rewrite rnd_0, sat_id; [reflexivity|]. rewrite Rabs_R0. apply Rlt_le, big_pos.
  - destruct e as [|q|q].
    + destruct (f64_of_ratio_spec s p 1) as (H1 & H2 & H3). rewrite H3. split; [exact H1|split; [exact H2|]].
      do 2 f_equal. simpl. unfold Rdiv. now rewrite Rinv_1.
    + destruct (f64_of_ratio_spec s (p * 10 ^ q) 1) as (H1 & H2 & H3). rewrite H3. split; [exact H1|split; [exact H2|]].
      do 3 f_equal. rewrite bpow10_pos, Pos2Z.inj_mul, mult_IZR. simpl. field.
    + destruct (f64_of_ratio_spec s p (10 ^ q)) as (H1 & H2 & H3). rewrite H3. split; [exact H1|split; [exact H2|]].
      do 3 f_equal. rewrite bpow10_neg. reflexivity.
Qed.

(** A float64 is determined by its value and sign. *)
Lemma xr_sign_inj (x y : f64) : is_nan x = false -> is_nan y = false ->
  xr x = xr y -> Bsign x = Bsign y -> x = y.
Proof.
  intros Nx Ny H S. pose proof big_pos as Hb.
  assert (forall z : f64, is_finite z = true -> - big < xr z < big) as Hf.
  { intros z Hz. rewrite xr_finite by assumption. pose proof (B2R_lt_big z Hz) as H1. apply Rabs_def2 in H1. lra. }
  destruct (is_finite x) eqn:Fx, (is_finite y) eqn:Fy.
  - apply B2R_Bsign_inj; auto. now rewrite <- !xr_finite.
  - specialize (Hf x Fx). rewrite H in Hf. destruct y as [|[]| |]; try discriminate; simpl in Hf; lra.
  - specialize (Hf y Fy). rewrite <- H in Hf. destruct x as [|[]| |]; try discriminate; simpl in Hf; lra.
  - destruct x as [|s| |], y as [|s'| |]; try discriminate. simpl in S. now subst.
Qed.

(** Equal decimals give equal floats. *)
Lemma f64_of_dec_eq s d e d' e' : decR d e = decR d' e' -> f64_of_dec s d e = f64_of_dec s d' e'.
Proof.
  intros H. destruct (f64_of_dec_spec s d e) as (A & B & C). destruct (f64_of_dec_spec s d' e') as (A' & B' & C').
  apply xr_sign_inj; auto; [now rewrite C, C', H|now rewrite B, B'].
Qed.

Lemma rnd_B2R (x : f64) : rnd (B2R x) = B2R x.
Proof. apply round_generic; [apply valid_rnd_N|apply (generic_format_B2R 53 1024 x)]. Qed.

(** A decimal whose value is that of [x] gives [x]. *)
Lemma f64_of_dec_exact (x : f64) s d e : is_finite x = true -> Bsign x = s ->
  B2R x = signed s (decR d e) -> f64_of_dec s d e = x.
Proof.
  intros F S H. destruct (f64_of_dec_spec s d e) as (A & B & C).
  apply xr_sign_inj; auto using finite_not_nan; [|now rewrite B].
  rewrite C, <- H, rnd_B2R, xr_finite by assumption. apply sat_id. apply Rlt_le. now apply B2R_lt_big.
Qed.

(** Read-back by [==] is equality. *)
Lemma f64_of_dec_back (x : f64) s d e : is_finite x = true -> Bsign x = s ->
  f64_eq (f64_of_dec s d e) x = true -> f64_of_dec s d e = x.
Proof.
  intros F S H. destruct (f64_of_dec_spec s d e) as (A & B & C).
  rewrite f64_eq_xr in H; auto using finite_not_nan.
  apply xr_sign_inj; auto using finite_not_nan; [|now rewrite B].
  destruct (Req_bool_spec (xr (f64_of_dec s d e)) (xr x)); [assumption|discriminate].
Qed.

(** ** Values of mantissa/exponent pairs *)

Lemma pow2_value m e : IZR (Z.of_N (pow2_num m e)) / IZR (Z.of_N (pow2_den e)) = IZR (Zpos m) * bpow radix2 e.
Proof.
  destruct e as [|p|p]; unfold pow2_num, pow2_den.
  - simpl. field.
  - rewrite N2Z.inj_mul, N2Z.inj_pow, mult_IZR. simpl Z.of_N.
    change (IZR (2 ^ Zpos p)) with (IZR (Zpower radix2 (Zpos p))). rewrite IZR_Zpower by lia. field.
  - rewrite N2Z.inj_pow. simpl Z.of_N. change (Zneg p) with (- Zpos p)%Z. rewrite bpow_opp.
    change (IZR (2 ^ Zpos p)) with (IZR (Zpower radix2 (Zpos p))). rewrite IZR_Zpower by lia. reflexivity.
Qed.
Lemma pow2_den_pos e : (0 < pow2_den e)%N.
Proof. destruct e as [|p|p]; simpl; try lia. Qed.
Lemma pow2_num_pos m e : (0 < pow2_num m e)%N.
Proof. destruct e as [|p|p]; simpl; lia. Qed.

Lemma B2R_finite_signed s m e B : B2R (B754_finite s m e B : f64) = signed s (IZR (Zpos m) * bpow radix2 e).
Proof.
  unfold B2R, F2R. cbn [Fnum Fexp]. destruct s; simpl; [|reflexivity].
  change (IZR (Z.neg m)) with (IZR (- Zpos m)). rewrite opp_IZR. ring.
Qed.

Lemma N_div_mod_R n d : (0 < d)%N ->
  IZR (Z.of_N n) / IZR (Z.of_N d) = IZR (Z.of_N (n / d)) + IZR (Z.of_N (n mod d)) / IZR (Z.of_N d) /\
  0 <= IZR (Z.of_N (n mod d)) / IZR (Z.of_N d) < 1.
Proof.
  intros H. assert (0 < IZR (Z.of_N d)) as Hd by (apply (IZR_lt 0); lia).
  split.
  - rewrite (N.div_mod n d) at 1 by lia. rewrite N2Z.inj_add, N2Z.inj_mul, plus_IZR, mult_IZR. field. lra.
  - pose proof (N.mod_lt n d ltac:(lia)). split.
    + apply Rmult_le_pos; [apply (IZR_le 0); apply N2Z.is_nonneg|]. left. now apply Rinv_0_lt_compat.
    + apply Rmult_lt_reg_r with (IZR (Z.of_N d)); [assumption|].
      unfold Rdiv. rewrite Rmult_assoc, Rinv_l, Rmult_1_l, Rmult_1_r by lra. apply IZR_lt. lia.
Qed.

(** [round_ratio] is rounding to the nearest integer, ties to even. *)
Lemma round_ratio_spec n d : (0 < d)%N ->
  Z.of_N (round_ratio n d) = ZnearestE (IZR (Z.of_N n) / IZR (Z.of_N d)).
Proof.
  intros H. destruct (N_div_mod_R n d H) as [E [B1 B2]].
  set (q := (n / d)%N) in *. set (f := IZR (Z.of_N (n mod d)) / IZR (Z.of_N d)) in *.
  assert (0 < IZR (Z.of_N d)) as Hd by (apply (IZR_lt 0); lia).
  assert (Zfloor (IZR (Z.of_N n) / IZR (Z.of_N d)) = Z.of_N q) as Fl.
  { apply Zfloor_imp. rewrite plus_IZR. rewrite E. lra. }
  assert (f * 2 * IZR (Z.of_N d) = IZR (Z.of_N (2 * (n mod d)))) as Ef.
  { unfold f. rewrite N2Z.inj_mul, mult_IZR. simpl. field. lra. }
  assert (IZR (Z.of_N n) / IZR (Z.of_N d) - IZR (Zfloor (IZR (Z.of_N n) / IZR (Z.of_N d))) = f) as Ed.
  { rewrite Fl, E. lra. }
  unfold Znearest. rewrite Ed, Fl.
  assert (f <> 0 -> Zceil (IZR (Z.of_N n) / IZR (Z.of_N d)) = (Z.of_N q + 1)%Z) as Ce.
  { intros Hf. rewrite Zceil_floor_neq; rewrite Fl; [reflexivity|]. rewrite E. lra. }
  unfold round_ratio. fold q. destruct (N.compare_spec (2 * (n mod d)) d) as [L|L|L].
  - assert (f = / 2) as ->.
    { rewrite L in Ef. assert (f * 2 = 1); [|lra]. apply Rmult_eq_reg_r with (IZR (Z.of_N d)); lra. }
    rewrite Rcompare_Eq by reflexivity. rewrite Ce by lra.
    replace (Z.even (Z.of_N q)) with (N.even q) by (destruct q as [|[]]; reflexivity).
    destruct (N.even q); simpl; lia.
  - assert (f < / 2) as L2.
    { assert (IZR (Z.of_N (2 * (n mod d))) < IZR (Z.of_N d)) as L3 by (apply IZR_lt; lia).
      rewrite <- Ef in L3. nra. }
    rewrite Rcompare_Lt by assumption. reflexivity.
  - assert (/ 2 < f) as L2.
    { assert (IZR (Z.of_N d) < IZR (Z.of_N (2 * (n mod d)))) as L3 by (apply IZR_lt; lia).
      rewrite <- Ef in L3. nra. }
    rewrite Rcompare_Gt by assumption. rewrite Ce by lra. lia.
Qed.
