(** Rounding through text, and the exact round trip of %v. *)
From Coq Require Import ZArith NArith Lia Lra Bool Reals List String Ascii.
From Flocq Require Import Core BinarySingleNaN.
From Verif Require Import Go.Outcome Go.Int64 Go.Float64 Go.FloatOrder Go.FloatReal Go.Text Go.Num Proofs.DecNum Proofs.Lex.
Open Scope R_scope.

(** Rounding a real to five decimals. *)
Definition round5R (r : R) : R := round radix10 (FIX_exp (-5)) ZnearestE r.

Lemma round5R_eq r : round5R r = IZR (ZnearestE (r * 100000)) * bpow radix10 (-5).
Proof.
  unfold round5R, round, F2R, scaled_mantissa, cexp, FIX_exp. cbn [Fnum Fexp].
  do 3 f_equal.
Qed.
Lemma round5R_opp r : round5R (- r) = - round5R r.
Proof. apply round_NE_opp. Qed.
Lemma round5R_0 : round5R 0 = 0.
Proof. apply round_0, valid_rnd_N. Qed.
Lemma round5R_signed s r : round5R (signed s r) = signed s (round5R r).
Proof. destruct s; simpl; [apply round5R_opp|reflexivity]. Qed.
Lemma round5R_err r : Rabs (round5R r - r) <= / 200000.
Proof.
  pose proof (error_le_half_ulp radix10 (FIX_exp (-5)) (fun x => negb (Z.even x)) r) as H.
  rewrite ulp_FIX in H. replace (/ 2 * bpow radix10 (-5)) with (/ 200000) in H by (simpl; field). exact H.
Qed.
Lemma round5R_mono r s : r <= s -> round5R r <= round5R s.
Proof. apply round_le; [apply FIX_exp_valid|apply valid_rnd_N]. Qed.
Lemma round5R_int z : round5R (IZR z) = IZR z.
Proof.
  apply round_generic; [apply valid_rnd_N|]. apply generic_format_FIX.
  exists (Float radix10 (z * 100000) (-5)); [|reflexivity].
  unfold F2R. cbn [Fnum Fexp]. rewrite mult_IZR. simpl. field.
Qed.

Lemma sprintf_digits m e :
  decR (round_ratio (pow2_num m e * 10 ^ N.of_nat 5) (pow2_den e)) (-5)
  = round5R (IZR (Zpos m) * bpow radix2 e).
Proof.
  unfold decR. rewrite round_ratio_spec by apply pow2_den_pos.
  rewrite round5R_eq. do 3 f_equal.
  rewrite <- pow2_value, N2Z.inj_mul, mult_IZR. change (Z.of_N (10 ^ N.of_nat 5)) with 100000%Z.
  field. apply not_0_IZR. pose proof (pow2_den_pos e). lia.
Qed.

Lemma not_inf_xr (x : f64) : Rabs (xr x) < big -> not_inf x = true.
Proof.
  pose proof big_pos. destruct x as [s|s| |s m e B]; try reflexivity. simpl.
  intros L. destruct s; unfold Rabs in L; destruct (Rcase_abs _); lra.
Qed.

Lemma pow54_lt_big : bpow radix2 54 < big.
Proof. change big with (bpow radix2 1024). apply bpow_lt. lia. Qed.

Lemma rnd_small r : Rabs r <= bpow radix2 54 -> Rabs (rnd r) < big.
Proof.
  intros H. apply Rle_lt_trans with (bpow radix2 54); [|apply pow54_lt_big].
  apply Rabs_le_inv in H.
  assert (rnd (bpow radix2 54) = bpow radix2 54) as E.
  { apply round_generic; [apply valid_rnd_N|]. apply generic_format_bpow. unfold fexp64, FLT_exp. lia. }
  pose proof (rnd_mono r (bpow radix2 54) ltac:(lra)) as H1.
  pose proof (rnd_mono (- bpow radix2 54) r ltac:(lra)) as H2. rewrite rnd_opp in H2.
  rewrite E in H1, H2. apply Rabs_le. lra.
Qed.

Lemma finite_int_or_small (x : f64) : is_finite x = true ->
  (exists z, B2R x = IZR z) \/ Rabs (B2R x) < bpow radix2 53.
Proof.
  destruct x as [s|s| |s m e B]; try discriminate; intros _.
  - left. now exists 0%Z.
  - pose proof (canonical_bounded 53 1024 s m e B) as C. unfold canonical, cexp in C. cbn [Fexp] in C.
    change (F2R {| Fnum := cond_Zopp s (Z.pos m); Fexp := e |}) with (B2R (B754_finite s m e B : f64)) in C.
    set (x := B754_finite s m e B) in *.
    destruct (Z_lt_le_dec e 0) as [L|L].
    + right. unfold SpecFloat.fexp in C.
      apply Rlt_le_trans with (bpow radix2 (mag radix2 (B2R x))); [apply bpow_mag_gt|].
      apply bpow_le. lia.
    + left. exists (cond_Zopp s (Zpos m) * 2 ^ e)%Z. unfold x, B2R, F2R. cbn [Fnum Fexp].
      rewrite mult_IZR. f_equal. symmetry. apply (IZR_Zpower radix2). assumption.
Qed.

(** strconv.ParseFloat(fmt.Sprintf("%.5f", x), 64): never an error. *)
Lemma round5_finite (x : f64) : is_finite x = true ->
  exists y, f64_round5 x = Some y /\ is_finite y = true /\ Bsign y = Bsign x /\
    B2R y = rnd (round5R (B2R x)).
Proof.
  intros F.
  assert (exists n, sprintf_f 5 x = (sign_str (Bsign x) ++ dec (n / 10 ^ N.of_nat 5) ++
            ("." ++ fixdig 5 (n mod 10 ^ N.of_nat 5)))%string /\
          signed (Bsign x) (decR n (-5)) = round5R (B2R x)) as (n & E1 & E2).
  { destruct x as [s|s| |s m e B]; try discriminate.
    - exists 0%N. split; [reflexivity|]. simpl Bsign. simpl B2R. rewrite round5R_0.
      unfold decR. simpl Z.of_N. rewrite Rmult_0_l. destruct s; simpl; lra.
    - eexists. split; [reflexivity|]. rewrite sprintf_digits. simpl Bsign.
      rewrite B2R_finite_signed, round5R_signed. reflexivity. }
  destruct (f64_of_dec_spec (Bsign x) n (-5)) as (A & B & C).
  rewrite E2 in C.
  assert (Rabs (rnd (round5R (B2R x))) < big) as L.
  { destruct (finite_int_or_small x F) as [[z Hz]|S].
    - rewrite Hz, round5R_int, <- Hz, rnd_B2R. now apply B2R_lt_big.
    - apply rnd_small. pose proof (round5R_err (B2R x)) as Er.
      apply Rabs_le_inv in Er. apply Rabs_def2 in S. apply Rabs_le.
      assert (bpow radix2 53 + 1 <= bpow radix2 54).
      { simpl. lra. }
      lra. }
  rewrite sat_id in C by lra.
  exists (f64_of_dec (Bsign x) n (-5)).
  assert (is_finite (f64_of_dec (Bsign x) n (-5)) = true) as Fy.
  { apply xr_lt_finite; [assumption|]. now rewrite C. }
  split; [|split; [assumption|split; [assumption|]]].
  - unfold f64_round5. rewrite E1.
    pose proof (parse_fixed (Bsign x) 5 n) as P. change (- Z.of_nat 5)%Z with (-5)%Z in P.
    rewrite P; [reflexivity|]. apply not_inf_xr. now rewrite C.
  - rewrite <- C. symmetry. now apply xr_finite.
Qed.

Lemma round5_inf s : f64_round5 (B754_infinity s) = Some (B754_infinity s).
Proof. destruct s; reflexivity. Qed.
Lemma round5_nan : f64_round5 B754_nan = Some B754_nan.
Proof. reflexivity. Qed.

Lemma round5_total (x : f64) : exists y, f64_round5 x = Some y.
Proof.
  destruct (is_finite x) eqn:F.
  - destruct (round5_finite x F) as (y & H & _). eauto.
  - destruct x as [s|s| |s m e B]; try discriminate; [rewrite round5_inf|rewrite round5_nan]; eauto.
Qed.

(** ** The shortest decimal reads back *)

Lemma strip_zeros_value f d e :
  let '(d', e') := strip_zeros f d e in decR d' e' = decR d e /\ ((0 < d)%N -> (0 < d')%N).
Proof.
  revert d e. induction f as [|f IH]; intros d e; simpl; [auto|].
  destruct (N.eqb_spec (d mod 10) 0) as [E|E]; [|auto].
  specialize (IH (d / 10)%N (e + 1)%Z). destruct (strip_zeros f (d / 10) (e + 1)) as [d' e'].
  destruct IH as [H1 H2].
  pose proof (N.div_mod d 10 ltac:(lia)) as DM. rewrite E, N.add_0_r in DM.
  split.
  - rewrite H1. unfold decR. rewrite bpow_plus.
    assert (IZR (Z.of_N d) = 10 * IZR (Z.of_N (d / 10))) as ->.
    { rewrite DM at 1. rewrite N2Z.inj_mul, mult_IZR. reflexivity. }
    simpl (bpow radix10 1). simpl. ring.
  - intros P. apply H2. destruct (N.eq_dec (d / 10) 0) as [Z|Z]; [rewrite Z in DM; lia|lia].
Qed.

Lemma search_digits_back f n s x num den dp d e :
  search_digits f n s x num den dp = Some (d, e) -> f64_eq (f64_of_dec s d e) x = true.
Proof.
  revert n. induction f as [|f IH]; intros n; simpl; [discriminate|].
  destruct (try_digits s x num den dp n) as [d0|]; [|apply IH].
  destruct (back s x d0 (dp - Z.of_nat n)) eqn:B; [|discriminate].
  intros H. injection H as <- <-. exact B.
Qed.

Lemma shortest_back s m e B :
  let x := B754_finite s m e B : f64 in
  let '(d, e10) := shortest s m e x in f64_of_dec s d e10 = x /\ (0 < d)%N.
Proof.
  cbv zeta. set (x := B754_finite s m e B : f64).
  unfold shortest.
  set (r := match search_digits 17 1 s x (pow2_num m e) (pow2_den e) (dec_point (pow2_num m e) (pow2_den e)) with
            | Some de => de
            | None => match e with Zneg p => ((Npos m * 5 ^ Npos p)%N, e) | _ => (pow2_num m e, 0%Z) end
            end).
  assert (let '(d, e10) := r in f64_of_dec s d e10 = x) as H.
  { unfold r. destruct (search_digits _ _ _ _ _ _ _) as [[d e10]|] eqn:S.
    - apply search_digits_back in S. now apply f64_of_dec_back.
    - clear r S. destruct e as [|p|p].
      + apply f64_of_dec_exact; [reflexivity|reflexivity|].
        unfold x. rewrite B2R_finite_signed. f_equal.
      + apply f64_of_dec_exact; [reflexivity|reflexivity|].
        unfold x. rewrite B2R_finite_signed. f_equal. rewrite <- pow2_value. unfold decR, pow2_den.
        simpl (bpow radix10 0). simpl (IZR (Z.of_N 1)). field.
      + apply f64_of_dec_exact; [reflexivity|reflexivity|].
        unfold x. rewrite B2R_finite_signed. f_equal. unfold decR.
        rewrite N2Z.inj_mul, N2Z.inj_pow, mult_IZR. simpl (Z.of_N (N.pos m)). rewrite Rmult_assoc. f_equal.
        simpl Z.of_N. change (Zneg p) with (- Zpos p)%Z. rewrite !bpow_opp.
        rewrite <- !IZR_Zpower by lia. simpl radix_val.
        change 10%Z with (2 * 5)%Z. rewrite Z.pow_mul_l, mult_IZR.
        assert (IZR (2 ^ Zpos p) <> 0) by (apply not_0_IZR; apply Z.pow_nonzero; lia).
        assert (IZR (5 ^ Zpos p) <> 0) by (apply not_0_IZR; apply Z.pow_nonzero; lia).
        field. auto. }
  destruct r as [d e10].
  assert (0 < d)%N as P.
  { destruct d; [|lia]. simpl in H. unfold x in H. discriminate. }
  pose proof (strip_zeros_value (num_digits d) d e10) as S.
  destruct (strip_zeros (num_digits d) d e10) as [d' e']. destruct S as [S1 S2].
  split; [|auto]. rewrite <- H. now apply f64_of_dec_eq.
Qed.

(** Position of the decimal point of a decimal that reads as a finite
    non-zero float64. *)
Lemma dec_point_bounds (x : f64) s d e : is_finite x = true -> B2R x <> 0 -> (0 < d)%N ->
  f64_of_dec s d e = x -> (- 1080 < e + Z.of_nat (num_digits d) < 1030)%Z.
Proof.
  intros F Hz Hd H. destruct (f64_of_dec_spec s d e) as (A & B & C). rewrite H in *.
  rewrite xr_finite in C by assumption.
  pose proof (num_digits_bound d) as U. pose proof (num_digits_lower d Hd) as L.
  pose proof (num_digits_pos d) as P.
  set (nd := num_digits d) in *.
  assert (decR d e < bpow radix10 (e + Z.of_nat nd)) as U1.
  { rewrite Z.add_comm, bpow_plus. unfold decR. apply Rmult_lt_compat_r; [apply bpow_gt_0|].
    rewrite <- IZR_Zpower by lia. apply IZR_lt.
    change (Z.of_N d < 10 ^ Z.of_nat nd)%Z. apply N2Z.inj_lt in U. rewrite N2Z.inj_pow, nat_N_Z in U. exact U. }
  assert (bpow radix10 (e + Z.of_nat nd - 1) <= decR d e) as L1.
  { replace (e + Z.of_nat nd - 1)%Z with (Z.of_nat (nd - 1) + e)%Z by lia.
    rewrite bpow_plus. unfold decR. apply Rmult_le_compat_r; [apply bpow_ge_0|].
    rewrite <- IZR_Zpower by lia. apply IZR_le.
    change (10 ^ Z.of_nat (nd - 1) <= Z.of_N d)%Z. apply N2Z.inj_le in L. rewrite N2Z.inj_pow, nat_N_Z in L. exact L. }
  assert (forall k, (0 <= k)%Z -> bpow radix2 k <= bpow radix10 k) as B10.
  { intros k Hk. rewrite <- !IZR_Zpower by assumption. apply IZR_le. apply Z.pow_le_mono_l. simpl. lia. }
  assert (Rabs (rnd (signed s (decR d e))) = rnd (decR d e)) as RA.
  { pose proof (rnd_nonneg _ (decR_nonneg d e)). destruct s; simpl.
    - rewrite rnd_opp, Rabs_Ropp. now apply Rabs_pos_eq.
    - now apply Rabs_pos_eq. }
  pose proof (B2R_lt_big x F) as Fx.
  split.
  - (* too small would read as zero *)
    destruct (Z_lt_le_dec (-1080) (e + Z.of_nat nd)) as [|K]; [assumption|exfalso].
    assert (decR d e < bpow radix2 (-1080)) as Sm.
    { eapply Rlt_le_trans; [exact U1|].
      apply Rle_trans with (bpow radix10 (-1080)); [apply bpow_le; lia|].
      change (-1080)%Z with (- (1080))%Z. rewrite !bpow_opp. apply Rinv_le; [apply bpow_gt_0|]. apply B10. lia. }
    assert (rnd (decR d e) = 0) as R0.
    { unfold rnd. apply (round_N_small_pos radix2 fexp64 _ _ (mag radix2 (decR d e))).
      - assert (0 < decR d e) as Pd by (destruct d; [lia|apply decR_pos]).
        destruct (mag radix2 (decR d e)) as [ex Hex]. simpl. specialize (Hex ltac:(lra)).
        rewrite Rabs_pos_eq in Hex by lra. exact Hex.
      - assert (mag radix2 (decR d e) <= -1080)%Z as M.
        { apply mag_le_bpow.
          - destruct d; [lia|]. pose proof (decR_pos p e). lra.
          - rewrite Rabs_pos_eq by apply decR_nonneg. exact Sm. }
        unfold fexp64, FLT_exp. lia. }
    rewrite C in Hz. apply Hz. rewrite <- RA in R0.
    destruct (Req_dec (rnd (signed s (decR d e))) 0) as [Z0|Z0]; [rewrite Z0; apply sat_id; rewrite Rabs_R0; apply Rlt_le, big_pos|].
    apply Rabs_no_R0 in Z0. lra.
  - destruct (Z_lt_le_dec (e + Z.of_nat nd) 1030) as [|K]; [assumption|exfalso].
    assert (bpow radix2 1024 <= decR d e) as Bg.
    { eapply Rle_trans; [|exact L1]. apply Rle_trans with (bpow radix2 1029); [apply bpow_le; lia|].
      apply Rle_trans with (bpow radix10 1029); [apply B10; lia|apply bpow_le; lia]. }
    assert (big <= rnd (decR d e)) as Bg2.
    { replace big with (rnd (bpow radix2 1024)); [now apply rnd_mono|].
      transitivity (bpow radix2 1024); [|reflexivity].
      apply round_generic; [apply valid_rnd_N|]. apply generic_format_bpow. unfold fexp64, FLT_exp. lia. }
    rewrite C in Fx. assert (Rabs (sat (rnd (signed s (decR d e)))) = big); [|lra].
    destruct s; simpl.
    + rewrite rnd_opp, sat_lo by lra. rewrite Rabs_Ropp. apply Rabs_pos_eq. apply Rlt_le, big_pos.
    + rewrite sat_hi by lra. apply Rabs_pos_eq. apply Rlt_le, big_pos.
Qed.

Lemma shortest_bounds s m e (B : SpecFloat.bounded 53 1024 m e = true) :
  let '(d, e10) := shortest s m e (B754_finite s m e B) in
  f64_of_dec s d e10 = B754_finite s m e B /\ (0 < d)%N /\ (- 1080 < e10 + Z.of_nat (num_digits d) < 1030)%Z.
Proof.
  pose proof (shortest_back s m e B) as H. cbv zeta in H.
  set (x := B754_finite s m e B : f64) in *.
  destruct (shortest s m e x) as [d e10]. destruct H as [H1 H2].
  assert (B2R x <> 0) as Hz.
  { unfold x. rewrite B2R_finite_signed.
    assert (0 < IZR (Zpos m) * bpow radix2 e) by (apply Rmult_lt_0_compat; [apply (IZR_lt 0); lia|apply bpow_gt_0]).
    destruct s; simpl; lra. }
  pose proof (dec_point_bounds x s d e10 eq_refl Hz H2 H1) as P. auto.
Qed.

(** strconv.ParseFloat reads back %v of every float64. *)
Theorem parse_fmt_v (x : f64) : parse_float (fmt_v x) = inl x.
Proof.
  destruct x as [s|s| |s m e B]; try (destruct s; reflexivity); [reflexivity|].
  unfold fmt_v. pose proof (shortest_bounds s m e B) as H.
  set (x := B754_finite s m e B : f64) in *.
  destruct (shortest s m e x) as [d e10]. destruct H as (H1 & H2 & P).
  rewrite parse_layout; [now rewrite H1|assumption|lia|]. rewrite H1. reflexivity.
Qed.
