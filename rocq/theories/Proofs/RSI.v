(** indicators/rsi.go. *)
From Coq Require Import Reals Lra Lia.
From Flocq Require Import Core BinarySingleNaN Plus_error.
From Verif Require Import Go.Outcome Go.Int64 Go.Slice Go.Float64 Go.FloatOrder Go.FloatReal Go.Num Model.Candle Model.Indicators
  Spec.IndicatorSpec Proofs.Lists Proofs.MovingAverage.
Open Scope string_scope.
Open Scope list_scope.
Local Notation length := List.length.
Open Scope Z_scope.

(** ** The windows *)
Section Windows.
Context {F F32 : Type} {N : GoFloat F} (to32 : F -> F32).

(** Enough capacity: all windows, [n] = period + 1 candles each. *)
Lemma rsi_loop_ret (v h : list (candle F)) n k i fuel : h <> [] ->
  (i + n + k = length v + 2)%nat -> (k < fuel)%nat ->
  rsi_loop to32 (GSlice v h) fuel (Z.of_nat i) (Z.of_nat i + Z.of_nat n - 2) =
  Ret (map (fun j => to32 (rsi_value (window j n (v ++ h)))) (seq i k)).
Proof.
  intros Hh. revert i fuel. induction k as [|k IH]; intros i fuel H Hf; (destruct fuel as [|fuel]; [lia|]); cbn [rsi_loop vis seq map].
  - destruct (Z.eqb_spec (Z.of_nat i + Z.of_nat n - 2) (zlen v)) as [E|E]; [reflexivity|]. unfold zlen in E. lia.
  - destruct (Z.eqb_spec (Z.of_nat i + Z.of_nat n - 2) (zlen v)) as [E|E]; [unfold zlen in E; lia|].
    unfold gsub. cbn [vis hid].
    assert (0 < length h)%nat as Lh by (destruct h; [contradiction|cbn; lia]).
    rewrite reslice_ok by (unfold zlen; rewrite ?app_length; lia). cbn [bind].
    replace (Z.of_nat i + Z.of_nat n - 2 + 2 - Z.of_nat i) with (Z.of_nat n) by lia. rewrite !Nat2Z.id.
    fold (window i n (v ++ h)). replace (Z.of_nat i + 1) with (Z.of_nat (S i)) by lia.
    replace (Z.of_nat i + Z.of_nat n - 2 + 1) with (Z.of_nat (S i) + Z.of_nat n - 2) by lia.
    rewrite IH by lia. reflexivity.
Qed.
(** No spare capacity: the window that ends one past the slice panics. *)
Lemma rsi_loop_panic (v : list (candle F)) n k i fuel :
  (i + n + k = length v + 1)%nat ->
  rsi_loop to32 (GSlice v []) fuel (Z.of_nat i) (Z.of_nat i + Z.of_nat n - 2) = Panic PSlice.
Proof.
  revert i fuel. induction k as [|k IH]; intros i fuel H; (destruct fuel as [|fuel]; [reflexivity|]); cbn [rsi_loop vis].
  - destruct (Z.eqb_spec (Z.of_nat i + Z.of_nat n - 2) (zlen v)) as [E|E]; [unfold zlen in E; lia|].
    unfold gsub. cbn [vis hid]. rewrite app_nil_r.
    rewrite reslice_panic by (unfold zlen; lia). reflexivity.
  - destruct (Z.eqb_spec (Z.of_nat i + Z.of_nat n - 2) (zlen v)) as [E|E]; [unfold zlen in E; lia|].
    unfold gsub. cbn [vis hid]. rewrite app_nil_r.
    rewrite reslice_ok by (unfold zlen; lia). cbn [bind].
    replace (Z.of_nat i + 1) with (Z.of_nat (S i)) by lia.
    replace (Z.of_nat i + Z.of_nat n - 2 + 1) with (Z.of_nat (S i) + Z.of_nat n - 2) by lia.
    rewrite IH by lia. reflexivity.
Qed.
(** Started beyond the end, the loop never stops at len(candles). *)
Lemma rsi_loop_beyond (s : gslice (candle F)) fuel i j : zlen (vis s) < j ->
  rsi_loop to32 s fuel i j = Panic PSlice.
Proof.
  revert i j. induction fuel as [|fuel IH]; intros i j H; [reflexivity|]. cbn [rsi_loop].
  destruct (Z.eqb_spec j (zlen (vis s))); [lia|]. unfold gsub.
  destruct (reslice _ _ _) as [w|q] eqn:E; cbn [bind]; [rewrite IH by lia; reflexivity|].
  unfold reslice in E. destruct (_ && _); congruence.
Qed.
Definition rsi_short (s : gslice (candle F)) : Prop := is_nil s = true \/ zlen (vis s) < 14.

Lemma rsi_cases (v h : list (candle F)) period : 14 <= zlen v ->
  (period = zlen v + 1 -> rsi to32 (GSlice v h) period = Ret ([], None)) /\
  (-1 <= period <= zlen v -> h <> [] ->
   rsi to32 (GSlice v h) period =
     Ret (map (fun j => to32 (rsi_value (window j (Z.to_nat (period + 1)) (v ++ h)))) (seq 0 (Z.to_nat (zlen v + 1 - period))), None)) /\
  (period < -1 \/ zlen v + 1 < period \/ (period <= zlen v /\ h = []) -> rsi to32 (GSlice v h) period = Panic PSlice).
Proof.
  intros Hl. unfold rsi. cbn [is_nil vis]. destruct (Z.ltb_spec (zlen v) 14); [lia|].
  assert (length v = Z.to_nat (zlen v)) as Lv by (unfold zlen; lia).
  split; [|split].
  - intros ->. unfold rsi_fuel. cbn [vis hid]. destruct (Z.to_nat (zlen v + zlen h + 4)) eqn:E; [pose proof (zlen_nonneg h); lia|].
    cbn [rsi_loop vis]. match goal with |- context [?a =? ?b] => replace (a =? b) with true by (symmetry; apply Z.eqb_eq; lia) end. reflexivity.
  - intros Hp Hh. pose proof (rsi_loop_ret v h (Z.to_nat (period + 1)) (Z.to_nat (zlen v + 1 - period)) 0 (rsi_fuel (GSlice v h)) Hh) as E.
    cbn [Z.of_nat] in E. replace (0 + Z.of_nat (Z.to_nat (period + 1)) - 2) with (period - 1) in E by lia. rewrite E; [reflexivity|lia|].
    unfold rsi_fuel. cbn [vis hid]. pose proof (zlen_nonneg h). lia.
  - intros H0. destruct (Z.lt_ge_cases (zlen v + 1) period).
    { rewrite rsi_loop_beyond by (cbn [vis]; lia). reflexivity. }
    destruct (Z.lt_ge_cases period (-1)).
    { destruct (rsi_fuel _); [reflexivity|]. cbn [rsi_loop vis]. destruct (Z.eqb_spec (period - 1) (zlen v)); [lia|].
      unfold gsub. rewrite reslice_panic by lia. reflexivity. }
    destruct H0 as [H0|[H0|[H0 ->]]]; try lia.
    pose proof (rsi_loop_panic v (Z.to_nat (period + 1)) (Z.to_nat (zlen v - period)) 0 (rsi_fuel (GSlice v []))) as E.
    cbn [Z.of_nat] in E. replace (0 + Z.of_nat (Z.to_nat (period + 1)) - 2) with (period - 1) in E by lia. rewrite E; [reflexivity|lia].
Qed.
(** The fuel does not limit the loop. *)
Lemma rsi_fuel_enough (v h : list (candle F)) period extra : 14 <= zlen v ->
  rsi_loop to32 (GSlice v h) (rsi_fuel (GSlice v h) + extra) 0 (period - 1) =
  rsi_loop to32 (GSlice v h) (rsi_fuel (GSlice v h)) 0 (period - 1).
Proof.
  intros Hl. assert (length v = Z.to_nat (zlen v)) as Lv by (unfold zlen; lia).
  assert (rsi_fuel (GSlice v h) = Z.to_nat (zlen v + zlen h + 4)) as Ef by reflexivity. pose proof (zlen_nonneg h).
  destruct (Z.lt_ge_cases (zlen v + 1) period); [now rewrite !rsi_loop_beyond by (cbn [vis]; lia)|].
  destruct (Z.lt_ge_cases period (-1)).
  { assert (forall f, rsi_loop to32 (GSlice v h) f 0 (period - 1) = Panic PSlice) as K.
    { intros [|f]; [reflexivity|]. cbn [rsi_loop vis]. destruct (Z.eqb_spec (period - 1) (zlen v)); [lia|].
      unfold gsub. rewrite reslice_panic by lia. reflexivity. }
    now rewrite !K. }
  destruct h as [|c h'].
  - destruct (Z.eq_dec period (zlen v + 1)) as [-> |Np].
    + assert (forall f, (0 < f)%nat -> rsi_loop to32 (GSlice v []) f 0 (zlen v + 1 - 1) = Ret []) as K.
      { intros [|f] Hf; [lia|]. cbn [rsi_loop vis]. replace (zlen v + 1 - 1) with (zlen v) by lia. now rewrite Z.eqb_refl. }
      now rewrite !K by lia.
    + pose proof (rsi_loop_panic v (Z.to_nat (period + 1)) (Z.to_nat (zlen v - period)) 0) as E.
      cbn [Z.of_nat] in E. replace (0 + Z.of_nat (Z.to_nat (period + 1)) - 2) with (period - 1) in E by lia. now rewrite !E by lia.
  - set (h := c :: h') in *.
    pose proof (fun f => rsi_loop_ret v h (Z.to_nat (period + 1)) (Z.to_nat (zlen v + 1 - period)) 0 f ltac:(discriminate)) as E.
    cbn [Z.of_nat] in E. replace (0 + Z.of_nat (Z.to_nat (period + 1)) - 2) with (period - 1) in E by lia. now rewrite !E by lia.
Qed.
End Windows.

(** ** The range of the value *)
Section Range.
Open Scope R_scope.

(** Non-negative with a plus sign. *)
Definition nn (x : f64) : Prop := is_nan x = false /\ Bsign x = false.
Lemma nn_xr x : nn x -> 0 <= xr x.
Proof.
  intros [H1 H2]. destruct x as [s|s| |s m e B]; try discriminate; cbn in H2; subst; cbn [xr].
  - simpl. lra.
  - pose proof big_pos. lra.
  - apply (sign_pos_ge (B754_finite false m e B)); reflexivity.
Qed.
Lemma nn_add x y : nn x -> nn y -> nn (f64_add x y).
Proof.
  intros [Nx Sx] [Ny Sy]. destruct (is_finite x) eqn:Fx, (is_finite y) eqn:Fy.
  - pose proof (add_xr x y Fx Fy) as [Nn _]. split; [assumption|].
    pose proof (Bplus_correct 53 1024 prec53 emax1024 mode_NE x y Fx Fy) as C. rewrite rnd_fexp in C.
    change (Bplus mode_NE x y) with (f64_add x y) in C. destruct (Rlt_bool _ _).
    + destruct C as (_ & _ & C). rewrite C. pose proof (sign_pos_ge x Nx Sx). pose proof (sign_pos_ge y Ny Sy).
      destruct (Rcompare_spec (B2R x + B2R y) 0); [lra| |reflexivity]. now rewrite Sx, Sy.
    + destruct C as [C _]. rewrite Sx in C. apply overflow_sf in C. now rewrite C.
  - destruct y as [s|s| |s m e B]; try discriminate. cbn in Sy. subst s. destruct x as [s|s| |s m e B]; try discriminate; split; reflexivity.
  - destruct x as [s|s| |s m e B]; try discriminate. cbn in Sx. subst s. destruct y as [s|s| |s m e B]; try discriminate; split; reflexivity.
  - destruct x as [s|s| |s m e B], y as [s'|s'| |s' m' e' B']; try discriminate. cbn in *. subst. split; reflexivity.
Qed.
Lemma nn_sub x y : is_finite x = true -> is_finite y = true -> f64_lt y x = true -> nn (f64_sub x y).
Proof.
  intros Fx Fy L. rewrite f64_lt_xr in L by (now apply finite_not_nan). rewrite !xr_finite in L by assumption.
  assert (B2R y < B2R x) as L' by (destruct (Rlt_bool_spec (B2R y) (B2R x)); [assumption|discriminate]). clear L.
  pose proof (sub_xr x y Fx Fy) as [Nn _]. split; [assumption|].
  pose proof (Bminus_correct 53 1024 prec53 emax1024 mode_NE x y Fx Fy) as C. rewrite rnd_fexp in C.
  change (Bminus mode_NE x y) with (f64_sub x y) in C. destruct (Rlt_bool _ _).
  - destruct C as (_ & _ & C). rewrite C. rewrite Rcompare_Gt by lra. reflexivity.
  - destruct C as [C1 C2]. apply overflow_sf in C1. rewrite C1. cbn.
    destruct (Bsign x) eqn:Sx; [|reflexivity]. exfalso.
    pose proof (sign_neg_le x Sx). assert (Bsign y = false) as Sy by (now destruct (Bsign y)).
    pose proof (sign_pos_ge y (finite_not_nan y Fy) Sy). lra.
Qed.

Lemma rsi_sums_nn (prev : candle f64) (cs : list (candle f64)) (u d : f64) : is_finite (c_close prev) = true -> Forall (fun c => is_finite (c_close c) = true) cs ->
  nn u -> nn d -> nn (fst (rsi_sums prev cs u d)) /\ nn (snd (rsi_sums prev cs u d)).
Proof.
  revert prev u d. induction cs as [|c cs IH]; intros prev u d Fp Hcs Hu Hd; [auto|].
  apply List.Forall_cons_iff in Hcs. destruct Hcs as [Fc Hcs]. cbn [rsi_sums flt fadd fsub f64_num].
  destruct (f64_lt (c_close prev) (c_close c)) eqn:L1.
  - apply IH; auto. apply nn_add; [assumption|]. now apply nn_sub.
  - destruct (f64_lt (c_close c) (c_close prev)) eqn:L2.
    + apply IH; auto. apply nn_add; [assumption|]. now apply nn_sub.
    + now apply IH.
Qed.

Definition is_zero (x : f64) : bool := match x with B754_zero _ => true | _ => false end.
Definition is_inf (x : f64) : bool := match x with B754_infinity _ => true | _ => false end.

Lemma nn_div u d : nn u -> nn d ->
  (is_nan (f64_div u d) = true /\ ((is_zero u = true /\ is_zero d = true) \/ (is_inf u = true /\ is_inf d = true))) \/
  (nn (f64_div u d) /\ ~ (is_zero u = true /\ is_zero d = true) /\ ~ (is_inf u = true /\ is_inf d = true)).
Proof.
  intros [Nu Su] [Nd Sd].
  destruct u as [s|s| |s m e B]; try discriminate; cbn in Su; subst s;
  destruct d as [s|s| |s m' e' B']; try discriminate; cbn in Sd; subst s.
  1: left; split; [reflexivity|left; split; reflexivity].
  1: right; repeat split; intros [? ?]; discriminate.
  1: right; repeat split; intros [? ?]; discriminate.
  1: right; repeat split; intros [? ?]; discriminate.
  1: left; split; [reflexivity|right; split; reflexivity].
  1: right; repeat split; intros [? ?]; discriminate.
  1: right; repeat split; intros [? ?]; discriminate.
  1: right; repeat split; intros [? ?]; discriminate.
  right. split; [|split; intros [? ?]; discriminate].
  set (x := B754_finite false m e B : f64). set (y := B754_finite false m' e' B' : f64).
  assert (B2R y <> 0) as Hy.
  { simpl. apply Rgt_not_eq. apply F2R_gt_0. reflexivity. }
  destruct (div_xr x y eq_refl eq_refl Hy) as [Nn _]. split; [assumption|].
  pose proof (Bdiv_correct 53 1024 prec53 emax1024 mode_NE x y Hy) as C. rewrite rnd_fexp in C.
  change (Bdiv mode_NE x y) with (f64_div x y) in C. destruct (Rlt_bool _ _).
  - destruct C as (_ & _ & C). now rewrite C.
  - apply overflow_sf in C. now rewrite C.
Qed.

Definition rsi_of_rs (rs : f64) : f64 := f64_sub (i2f 100) (f64_div (i2f 100) (f64_add (i2f 1) rs)).

Lemma exact_i z : (-1000 <= z <= 1000)%Z -> exact_int z.
Proof. unfold exact_int. lia. Qed.

Lemma rsi_of_nan rs : is_nan rs = true -> is_nan (rsi_of_rs rs) = true.
Proof. destruct rs; try discriminate. intros _. reflexivity. Qed.
Lemma rsi_of_nn rs : nn rs -> is_finite (rsi_of_rs rs) = true /\ 0 <= B2R (rsi_of_rs rs) <= 100.
Proof.
  intros H. unfold rsi_of_rs.
  assert (exact_int 1) as E1 by (apply exact_i; lia). assert (exact_int 100) as E100 by (apply exact_i; lia).
  assert (nn (i2f 1)) as N1 by (split; vm_compute; reflexivity).
  pose proof (nn_add _ _ N1 H) as Ht. set (t := f64_add (i2f 1) rs) in *.
  pose proof (exact_lt_big 100 E100) as B100. rewrite Rabs_pos_eq in B100 by lra.
  pose proof big_pos as Bp.
  assert (is_finite (f64_div (i2f 100) t) = true /\ 0 <= B2R (f64_div (i2f 100) t) <= 100) as [Fq Hq].
  { destruct (is_finite t) eqn:Ft.
    - assert (is_finite rs = true) as Fr.
      { destruct rs as [s|s| |s m e B]; try reflexivity; [|destruct H; discriminate].
        destruct H as [_ Hs]. cbn in Hs. subst s. discriminate Ft. }
      destruct (add_xr (i2f 1) rs (i2f_finite 1 E1) Fr) as [_ Et]. fold t in Et.
      rewrite xr_finite, i2f_B2R in Et by assumption.
      assert (0 <= B2R rs) as Pr by (rewrite <- xr_finite by assumption; now apply nn_xr).
      assert (1 <= B2R t) as Pt.
      { rewrite Et. apply Rle_trans with (sat 1); [rewrite sat_id; [lra|rewrite Rabs_pos_eq; lra]|]. apply sat_mono.
        apply Rle_trans with (rnd 1); [rewrite (rnd_int 1 E1); lra|]. apply rnd_mono. lra. }
      destruct (div_xr (i2f 100) t (i2f_finite 100 E100) Ft ltac:(lra)) as [Nq Eq]. rewrite i2f_B2R in Eq by assumption.
      assert (0 <= 100 / B2R t <= 100) as Hd by (apply div_within; nra).
      assert (0 <= rnd (100 / B2R t) <= 100) as Hr.
      { split; [apply rnd_nonneg; lra|]. apply Rle_trans with (rnd 100); [apply rnd_mono; lra|]. rewrite (rnd_int 100 E100). lra. }
      rewrite sat_id in Eq by (rewrite Rabs_pos_eq; lra).
      assert (is_finite (f64_div (i2f 100) t) = true) as Fq.
      { apply xr_lt_finite; [assumption|]. rewrite Eq, Rabs_pos_eq; lra. }
      split; [assumption|]. now rewrite <- xr_finite, Eq by assumption.
    - destruct Ht as [Nt St]. destruct t as [s|s| |s m e B]; try discriminate. cbn in St. subst s. split; [reflexivity|simpl; lra]. }
  set (q := f64_div (i2f 100) t) in *.
  destruct (sub_xr (i2f 100) q (i2f_finite 100 E100) Fq) as [Ns Es]. rewrite i2f_B2R in Es by assumption.
  assert (0 <= rnd (100 - B2R q) <= 100) as Hr.
  { split; [apply rnd_nonneg; lra|]. apply Rle_trans with (rnd 100); [apply rnd_mono; lra|]. rewrite (rnd_int 100 E100). lra. }
  rewrite sat_id in Es by (rewrite Rabs_pos_eq; lra).
  assert (is_finite (f64_sub (i2f 100) q) = true) as Fs by (apply xr_lt_finite; [assumption|]; rewrite Es, Rabs_pos_eq; lra).
  split; [assumption|]. now rewrite <- xr_finite, Es by assumption.
Qed.

Definition rnd32 (r : R) : R := round radix2 (SpecFloat.fexp 24 128) ZnearestE r.
Lemma rnd32_int z : (0 <= z < 2 ^ 24)%Z -> rnd32 (IZR z) = IZR z.
Proof.
  intros H. unfold rnd32. apply round_generic; [apply valid_rnd_N|].
  change (SpecFloat.fexp 24 128) with (FLT_exp (3 - 128 - 24) 24).
  replace (IZR z) with (F2R (Float radix2 z 0)) by (unfold F2R; simpl; lra).
  apply generic_format_FLT. exists (Float radix2 z 0); [reflexivity| |].
  - cbn [Fnum]. rewrite Z.abs_eq by lia. change (Zpower radix2 24) with (2 ^ 24)%Z. lia.
  - cbn [Fexp]. lia.
Qed.
Lemma to_f32_range x : is_finite x = true -> 0 <= B2R x <= 100 ->
  is_finite (f64_to_f32 x) = true /\ 0 <= B2R (f64_to_f32 x) <= 100.
Proof.
  intros Fx Hx. destruct x as [s|s| |s m e B]; try discriminate; [split; [reflexivity|simpl; lra]|]. unfold f64_to_f32.
  pose proof (binary_normalize_correct 24 128 prec24 emax128 mode_NE (cond_Zopp s (Z.pos m)) e s) as C.
  cbv beta zeta in C. change (round radix2 (SpecFloat.fexp 24 128) (round_mode mode_NE)) with rnd32 in C.
  change (F2R {| Fnum := cond_Zopp s (Z.pos m); Fexp := e |}) with (B2R (B754_finite s m e B : f64)) in C.
  assert (0 <= rnd32 (B2R (B754_finite s m e B : f64)) <= 100) as Hr.
  { assert (forall a b, a <= b -> rnd32 a <= rnd32 b) as M by (intros; apply round_le; [apply (fexp_correct 24 128 prec24)|apply valid_rnd_N|assumption]).
    split.
    - rewrite <- (rnd32_int 0) by lia. apply M. exact (proj1 Hx).
    - rewrite <- (rnd32_int 100) by lia. apply M. exact (proj2 Hx). }
  rewrite Rlt_bool_true in C.
  - destruct C as (C1 & C2 & _). split; [exact C2|]. rewrite C1. exact Hr.
  - rewrite Rabs_pos_eq by lra. apply Rle_lt_trans with 100; [lra|]. change (bpow radix2 128) with (IZR (2 ^ 128)). apply IZR_lt. reflexivity.
Qed.

(** The sums over a window. *)
Definition moves (w : list (candle f64)) : f64 * f64 :=
  match w with
  | [] => (i2f 0, i2f 0)
  | c :: rest => rsi_sums c rest (i2f 0) (i2f 0)
  end.
Lemma rsi_value_moves w : rsi_value w = rsi_of_rs (f64_div (fst (moves w)) (snd (moves w))).
Proof. unfold rsi_value, moves. destruct w as [|c rest]; [reflexivity|]. cbn [fofZ f64_num]. destruct (rsi_sums c rest (i2f 0) (i2f 0)). reflexivity. Qed.
Lemma moves_nn (w : list (candle f64)) : Forall (fun c => is_finite (c_close c) = true) w -> nn (fst (moves w)) /\ nn (snd (moves w)).
Proof.
  intros H. destruct w as [|c rest]; [split; split; vm_compute; reflexivity|].
  apply List.Forall_cons_iff in H. destruct H as [H1 H2]. apply rsi_sums_nn; auto; split; vm_compute; reflexivity.
Qed.
Lemma rsi_value_range (w : list (candle f64)) : Forall (fun c => is_finite (c_close c) = true) w ->
  let r := f64_to_f32 (rsi_value w) in
  (is_nan r = true /\ (is_zero (fst (moves w)) = true /\ is_zero (snd (moves w)) = true \/
                       is_inf (fst (moves w)) = true /\ is_inf (snd (moves w)) = true)) \/
  (is_finite r = true /\ 0 <= B2R r <= 100 /\
   ~ (is_zero (fst (moves w)) = true /\ is_zero (snd (moves w)) = true) /\
   ~ (is_inf (fst (moves w)) = true /\ is_inf (snd (moves w)) = true)).
Proof.
  intros H. cbv zeta. rewrite rsi_value_moves. destruct (moves_nn w H) as [Hu Hd].
  destruct (nn_div _ _ Hu Hd) as [[Nn K]|[Hn [K1 K2]]].
  - left. split; [|exact K]. pose proof (rsi_of_nan _ Nn) as Nr. destruct (rsi_of_rs _); try discriminate. reflexivity.
  - right. destruct (rsi_of_nn _ Hn) as [A B]. destruct (to_f32_range _ A B) as [C D]. auto.
Qed.
End Range.

(** ** When the value is NaN *)
Section NaN.
Open Scope R_scope.

Lemma zero_B2R x : is_finite x = true -> B2R x = 0 -> is_zero x = true.
Proof.
  destruct x as [s|s| |s m e B]; try discriminate; [reflexivity|]. intros _ H. exfalso.
  simpl in H. apply eq_0_F2R in H. destruct s; discriminate.
Qed.
Lemma sub_nonzero x y : is_finite x = true -> is_finite y = true -> f64_lt y x = true -> is_zero (f64_sub x y) = false.
Proof.
  intros Fx Fy L. rewrite f64_lt_xr in L by (now apply finite_not_nan). rewrite !xr_finite in L by assumption.
  assert (B2R y < B2R x) as L' by (destruct (Rlt_bool_spec (B2R y) (B2R x)); [assumption|discriminate]). clear L.
  destruct (sub_xr x y Fx Fy) as [_ E].
  destruct (f64_sub x y) as [s|s| |s m e B] eqn:D; try reflexivity. exfalso. simpl in E.
  assert (rnd (B2R x - B2R y) <> 0) as K.
  { apply (round_plus_neq_0 radix2 fexp64 ZnearestE (B2R x) (- B2R y)); [apply (generic_format_B2R 53 1024)| |lra].
    apply generic_format_opp. apply (generic_format_B2R 53 1024). }
  assert (0 <= rnd (B2R x - B2R y)) by (apply rnd_nonneg; lra). pose proof big_pos.
  assert (0 < sat (rnd (B2R x - B2R y))); [|lra]. unfold sat.
  apply Rlt_le_trans with (Rmin (rnd (B2R x - B2R y)) big); [apply Rmin_glb_lt; lra|apply Rmax_r].
Qed.
Lemma nn_pos x : nn x -> is_zero x = false -> 0 < xr x.
Proof.
  intros H Hz. destruct (nn_xr x H) as [K|K]; [assumption|]. exfalso. destruct (is_finite x) eqn:Fx.
  - rewrite xr_finite in K by assumption. rewrite (zero_B2R x Fx (eq_sym K)) in Hz. discriminate.
  - destruct H as [H1 H2]. destruct x as [s|s| |s m e B]; try discriminate. cbn in H2. subst s. simpl in K. pose proof big_pos. lra.
Qed.
Lemma add_ge x y : nn x -> nn y -> xr x <= xr (f64_add x y).
Proof.
  intros Hx Hy. destruct (is_finite x) eqn:Fx, (is_finite y) eqn:Fy.
  - destruct (add_xr x y Fx Fy) as [_ ->]. apply Rle_trans with (sat (B2R x)).
    + rewrite <- xr_finite by assumption. rewrite sat_id by (apply Rabs_le, xr_range). lra.
    + apply sat_mono. pose proof (nn_xr y Hy) as P. rewrite xr_finite in P by assumption.
      apply Rle_trans with (rnd (B2R x)); [|apply rnd_mono; lra]. right. symmetry.
      apply round_generic; [apply valid_rnd_N|apply (generic_format_B2R 53 1024)].
  - destruct Hy as [Ny Sy]. destruct y as [s|s| |s m e B]; try discriminate. cbn in Sy. subst s.
    replace (f64_add x (B754_infinity false)) with (B754_infinity false : f64) by (destruct x; try discriminate; reflexivity).
    apply xr_range.
  - destruct Hx as [Nx Sx]. destruct x as [s|s| |s m e B]; try discriminate. cbn in Sx. subst s.
    replace (f64_add (B754_infinity false) y) with (B754_infinity false : f64) by (destruct y; try discriminate; reflexivity). lra.
  - destruct Hx as [Nx Sx], Hy as [Ny Sy]. destruct x as [s|s| |s m e B], y as [s'|s'| |s' m' e' B']; try discriminate.
    cbn in *. subst. simpl. lra.
Qed.
Lemma add_comm_nn x y : nn x -> nn y -> xr y <= xr (f64_add x y).
Proof.
  intros Hx Hy. replace (xr (f64_add x y)) with (xr (f64_add y x)); [now apply add_ge|].
  destruct (is_finite x) eqn:Fx, (is_finite y) eqn:Fy.
  - destruct (add_xr x y Fx Fy) as [_ ->], (add_xr y x Fy Fx) as [_ ->]. now rewrite Rplus_comm.
  - destruct y as [s|s| |s m e B]; try discriminate; destruct x as [s'|s'| |s' m' e' B']; try discriminate; reflexivity.
  - destruct x as [s|s| |s m e B]; try discriminate; destruct y as [s'|s'| |s' m' e' B']; try discriminate; reflexivity.
  - destruct Hx as [Nx Sx], Hy as [Ny Sy]. destruct x as [s|s| |s m e B], y as [s'|s'| |s' m' e' B']; try discriminate. cbn in *. subst. reflexivity.
Qed.
Lemma zero_xr x : is_zero x = true -> xr x = 0.
Proof. destruct x; try discriminate. reflexivity. Qed.

(** The two sums only grow; each move makes one of them positive. *)
Lemma rsi_sums_zero (prev : candle f64) (cs : list (candle f64)) (u d : f64) : is_finite (c_close prev) = true -> Forall (fun c => is_finite (c_close c) = true) cs ->
  nn u -> nn d ->
  let r := rsi_sums prev cs u d in
  (is_zero (fst r) = true <-> is_zero u = true /\ (forall pre a b post, prev :: cs = pre ++ a :: b :: post -> f64_lt (c_close a) (c_close b) = false)) /\
  (is_zero (snd r) = true <-> is_zero d = true /\ (forall pre a b post, prev :: cs = pre ++ a :: b :: post -> f64_lt (c_close b) (c_close a) = false)).
Proof.
  revert prev u d. induction cs as [|c cs IH]; intros prev u d Fp Hcs Hu Hd; cbv zeta.
  - cbn. split; (split; [intros H; split; [assumption|]|tauto]); intros [|? [|? ?]] a b post E; discriminate.
  - apply List.Forall_cons_iff in Hcs. destruct Hcs as [Fc Hcs]. cbn [rsi_sums flt fadd fsub f64_num].
    assert (forall (Q : candle f64 -> candle f64 -> Prop),
      (forall pre a b post, prev :: c :: cs = pre ++ a :: b :: post -> Q a b) <->
      Q prev c /\ (forall pre a b post, c :: cs = pre ++ a :: b :: post -> Q a b)) as Sp.
    { intros Q. split.
      - intros H. split; [now apply (H [] prev c cs)|]. intros pre a b post E. apply (H (prev :: pre) a b post). now rewrite E.
      - intros [H1 H2] [|x pre] a b post E; [cbn in E; injection E as <- <- _; assumption|].
        cbn in E. injection E as _ E. eapply H2. exact E. }
    rewrite (Sp (fun a b => f64_lt (c_close a) (c_close b) = false)), (Sp (fun a b => f64_lt (c_close b) (c_close a) = false)). cbv beta.
    assert (forall x y, f64_lt x y = true -> f64_lt y x = false) as Asym.
    { intros x y L. apply f64_lt_true in L. destruct L as (A & B & C). rewrite f64_lt_key by assumption. apply Z.ltb_ge. lia. }
    assert (forall s t, nn s -> nn t -> is_zero t = false -> is_zero (f64_add s t) = false) as Grow.
    { intros s t Hs Ht Zt. pose proof (add_comm_nn s t Hs Ht) as A. pose proof (nn_pos t Ht Zt) as B.
      destruct (is_zero (f64_add s t)) eqn:E; [|reflexivity]. rewrite (zero_xr _ E) in A. lra. }
    destruct (f64_lt (c_close prev) (c_close c)) eqn:L1.
    + pose proof (nn_sub _ _ Fc Fp L1) as Hs. pose proof (sub_nonzero _ _ Fc Fp L1) as Zs.
      destruct (IH c _ d Fc Hcs (nn_add _ _ Hu Hs) Hd) as [A B]. rewrite A, B. rewrite (Asym _ _ L1).
      rewrite (Grow u _ Hu Hs Zs). split; split; intros K; try tauto; destruct K as [K1 K2]; discriminate || (destruct K2; discriminate).
    + destruct (f64_lt (c_close c) (c_close prev)) eqn:L2.
      * pose proof (nn_sub _ _ Fp Fc L2) as Hs. pose proof (sub_nonzero _ _ Fp Fc L2) as Zs.
        destruct (IH c u _ Fc Hcs Hu (nn_add _ _ Hd Hs)) as [A B]. rewrite A, B.
        rewrite (Grow d _ Hd Hs Zs). split; split; intros K; try tauto; destruct K as [K1 K2]; discriminate || (destruct K2; discriminate).
      * destruct (IH c u d Fc Hcs Hu Hd) as [A B]. rewrite A, B. tauto.
Qed.

(** No overflow for closes below 2^1000 and windows of at most 2^20 candles. *)
Lemma int_times_pow k : (0 <= k <= 2 ^ 20)%Z -> rnd (IZR k * bpow radix2 1001) = IZR k * bpow radix2 1001.
Proof.
  intros H. apply round_generic; [apply valid_rnd_N|].
  change (IZR k * bpow radix2 1001) with (F2R (Float radix2 k 1001)). apply generic_format_FLT.
  exists (Float radix2 k 1001); [reflexivity| |].
  - cbn [Fnum]. rewrite Z.abs_eq by lia. change (Zpower radix2 53) with (2 ^ 53)%Z. lia.
  - cbn [Fexp]. lia.
Qed.
Lemma pow_small k : (0 <= k <= 2 ^ 20)%Z -> 0 <= IZR k * bpow radix2 1001 < big.
Proof.
  intros H. pose proof (bpow_gt_0 radix2 1001). assert (0 <= IZR k) by (apply (IZR_le 0); lia). split; [nra|].
  change big with (bpow radix2 1024). replace 1024%Z with (23 + 1001)%Z by lia. rewrite bpow_plus. apply Rmult_lt_compat_r; [assumption|].
  change (bpow radix2 23) with (IZR (2 ^ 23)). apply IZR_lt. lia.
Qed.
Definition modest (c : candle f64) : Prop := is_finite (c_close c) = true /\ Rabs (B2R (c_close c)) <= bpow radix2 1000.
Lemma modest_sub x y : is_finite x = true -> is_finite y = true -> Rabs (B2R x) <= bpow radix2 1000 -> Rabs (B2R y) <= bpow radix2 1000 ->
  xr (f64_sub x y) <= bpow radix2 1001.
Proof.
  intros Fx Fy Hx Hy. destruct (sub_xr x y Fx Fy) as [_ ->]. pose proof (pow_small 1 ltac:(lia)) as P. pose proof (int_times_pow 1 ltac:(lia)) as I.
  rewrite Rmult_1_l in *. apply Rle_trans with (sat (bpow radix2 1001)).
  - apply sat_mono. rewrite <- I. apply rnd_mono. replace 1001%Z with (1 + 1000)%Z by lia. rewrite bpow_plus. change (bpow radix2 1) with 2.
    apply Rabs_le_inv in Hx, Hy. lra.
  - rewrite sat_id; [lra|]. rewrite Rabs_pos_eq; lra.
Qed.
Lemma bounded_add u x k : nn u -> nn x -> (0 <= k < 2 ^ 20)%Z -> xr u <= IZR k * bpow radix2 1001 -> xr x <= bpow radix2 1001 ->
  xr (f64_add u x) <= IZR (k + 1) * bpow radix2 1001.
Proof.
  intros Hu Hx Hk Bu Bx. pose proof (pow_small k ltac:(lia)) as P. pose proof (pow_small 1 ltac:(lia)) as P1. pose proof (pow_small (k + 1) ltac:(lia)) as P2.
  rewrite Rmult_1_l in P1.
  assert (forall z, nn z -> xr z < big -> is_finite z = true) as Ff.
  { intros z Hz L. apply xr_lt_finite; [apply Hz|]. rewrite Rabs_pos_eq; [assumption|now apply nn_xr]. }
  pose proof (Ff u Hu ltac:(lra)) as Fu. pose proof (Ff x Hx ltac:(lra)) as Fx.
  destruct (add_xr u x Fu Fx) as [_ ->]. rewrite xr_finite in Bu, Bx by assumption.
  apply Rle_trans with (sat (IZR (k + 1) * bpow radix2 1001)).
  - apply sat_mono. rewrite <- (int_times_pow (k + 1)) by lia. apply rnd_mono. rewrite plus_IZR. lra.
  - rewrite sat_id; [lra|]. rewrite Rabs_pos_eq; lra.
Qed.
Lemma rsi_sums_bounded prev cs u d k : modest prev -> Forall modest cs -> nn u -> nn d ->
  (0 <= k)%Z -> (k + Z.of_nat (length cs) <= 2 ^ 20)%Z ->
  xr u <= IZR k * bpow radix2 1001 -> xr d <= IZR k * bpow radix2 1001 ->
  xr (fst (rsi_sums prev cs u d)) < big /\ xr (snd (rsi_sums prev cs u d)) < big.
Proof.
  revert prev u d k. induction cs as [|c cs IH]; intros prev u d k Mp Hcs Hu Hd Hk Hl Bu Bd.
  - cbn [rsi_sums fst snd List.length Z.of_nat] in *. pose proof (pow_small k ltac:(lia)). lra.
  - apply List.Forall_cons_iff in Hcs. destruct Hcs as [Mc Hcs]. cbn [rsi_sums flt fadd fsub f64_num]. cbn [List.length] in Hl.
    destruct Mp as [Fp Ap], (Mc) as [Fc Ac].
    assert (IZR k * bpow radix2 1001 <= IZR (k + 1) * bpow radix2 1001) as Mono.
    { rewrite plus_IZR. pose proof (bpow_gt_0 radix2 1001). nra. }
    destruct (f64_lt (c_close prev) (c_close c)) eqn:L1.
    + apply (IH c _ _ (k + 1)%Z); auto; try lia; [apply nn_add; [assumption|now apply nn_sub]| |lra].
      apply bounded_add; auto; [now apply nn_sub|lia|now apply modest_sub].
    + destruct (f64_lt (c_close c) (c_close prev)) eqn:L2.
      * apply (IH c _ _ (k + 1)%Z); auto; try lia; [apply nn_add; [assumption|now apply nn_sub]|lra|].
        apply bounded_add; auto; [now apply nn_sub|lia|now apply modest_sub].
      * apply (IH c _ _ k); auto; lia.
Qed.
Lemma moves_finite w : Forall modest w -> (Z.of_nat (length w) <= 2 ^ 20)%Z ->
  is_inf (fst (moves w)) = false /\ is_inf (snd (moves w)) = false.
Proof.
  intros H Hl. assert (nn (i2f 0)) as N0 by (split; vm_compute; reflexivity).
  assert (xr (i2f 0) <= IZR 0 * bpow radix2 1001) as B0 by (rewrite i2f_exact_xr by (apply exact_i; lia); lra).
  assert (forall x, nn x -> xr x < big -> is_inf x = false) as K.
  { intros x [_ Hx] L. destruct x as [s|s| |s m e B]; try reflexivity. cbn in Hx. subst s. simpl in L. lra. }
  destruct w as [|c rest]; [split; vm_compute; reflexivity|].
  destruct (moves_nn (c :: rest)) as [N1 N2]. { eapply Forall_impl; [|exact H]. intros a Ha. apply Ha. }
  apply List.Forall_cons_iff in H. destruct H as [H1 H2]. cbn [List.length] in Hl.
  destruct (rsi_sums_bounded c rest (i2f 0) (i2f 0) 0 H1 H2 N0 N0 ltac:(lia) ltac:(lia) B0 B0) as [B1 B2]. split; apply K; assumption.
Qed.
Lemma moves_zero (w : list (candle f64)) : Forall (fun c => is_finite (c_close c) = true) w ->
  (is_zero (fst (moves w)) = true <-> (forall pre a b post, w = pre ++ a :: b :: post -> f64_lt (c_close a) (c_close b) = false)) /\
  (is_zero (snd (moves w)) = true <-> (forall pre a b post, w = pre ++ a :: b :: post -> f64_lt (c_close b) (c_close a) = false)).
Proof.
  intros H. destruct w as [|c rest].
  - cbn [moves fst snd]. split; (split; [intros _ [|? [|? ?]] a b post E; discriminate|vm_compute; reflexivity]).
  - apply List.Forall_cons_iff in H. destruct H as [H1 H2].
    assert (nn (i2f 0)) as N0 by (split; vm_compute; reflexivity).
    destruct (rsi_sums_zero c rest (i2f 0) (i2f 0) H1 H2 N0 N0) as [A B]. cbn [moves]. rewrite A, B.
    assert (is_zero (i2f 0) = true) as Z0 by (vm_compute; reflexivity). tauto.
Qed.
End NaN.

(** ** One-sided windows *)
Lemma to_f32_100 : B2R (f64_to_f32 (i2f 100)) = 100%R.
Proof.
  assert (exists m e B, f64_to_f32 (i2f 100) = B754_finite false m e B /\ m = 13107200%positive /\ e = -17) as (m & e & B & -> & -> & ->).
  { destruct (f64_to_f32 (i2f 100)) as [s|s| |s m e B] eqn:E.
    - exfalso. apply (f_equal (@B2SF 24 128)) in E. vm_compute in E. discriminate.
    - exfalso. apply (f_equal (@B2SF 24 128)) in E. vm_compute in E. discriminate.
    - exfalso. apply (f_equal (@B2SF 24 128)) in E. vm_compute in E. discriminate.
    - apply (f_equal (@B2SF 24 128)) in E. vm_compute in E. injection E as <- <- <-. exists 13107200%positive, (-17), B. auto. }
  simpl. unfold F2R. simpl. lra.
Qed.
Lemma rsi_only_up (w : list (candle f64)) : Forall (fun c => is_finite (c_close c) = true) w ->
  is_zero (fst (moves w)) = false -> is_zero (snd (moves w)) = true -> f64_to_f32 (rsi_value w) = f64_to_f32 (i2f 100).
Proof.
  intros H Hu Hd. rewrite rsi_value_moves. destruct (moves_nn w H) as [[Nu Su] [Nd Sd]].
  destruct (snd (moves w)) as [s|s| |s m e B]; try discriminate. cbn in Sd. subst s.
  replace (f64_div (fst (moves w)) (B754_zero false)) with (B754_infinity false : f64).
  - assert (rsi_of_rs (B754_infinity false) = i2f 100) as ->; [|reflexivity].
    apply B2SF_inj. vm_compute. reflexivity.
  - destruct (fst (moves w)) as [s|s| |s m e B]; try discriminate; cbn in Su; subst s; reflexivity.
Qed.
Lemma rsi_only_down (w : list (candle f64)) : Forall (fun c => is_finite (c_close c) = true) w ->
  is_zero (fst (moves w)) = true -> is_zero (snd (moves w)) = false -> B2R (f64_to_f32 (rsi_value w)) = 0%R.
Proof.
  intros H Hu Hd. rewrite rsi_value_moves. destruct (moves_nn w H) as [[Nu Su] [Nd Sd]].
  destruct (fst (moves w)) as [s|s| |s m e B]; try discriminate. cbn in Su. subst s.
  replace (f64_div (B754_zero false) (snd (moves w))) with (B754_zero false : f64).
  - assert (rsi_of_rs (B754_zero false) = B754_zero false) as ->; [|reflexivity].
    apply B2SF_inj. vm_compute. reflexivity.
  - destruct (snd (moves w)) as [s|s| |s m e B]; try discriminate; cbn in Sd; subst s; reflexivity.
Qed.
