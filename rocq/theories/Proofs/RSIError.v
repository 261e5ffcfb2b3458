(** How far RSI is from the exact relative strength index (C80). *)
From Coq Require Import ZArith Reals Lra Lia Psatz.
From Flocq Require Import Core BinarySingleNaN Relative.
From Verif Require Import Go.Outcome Go.Int64 Go.Slice Go.Float64 Go.FloatOrder Go.FloatReal Go.FloatError Go.Num
  Model.Candle Model.Indicators Spec.IndicatorSpec Spec.AccuracySpec Spec.RsiSpec Proofs.MovingAverage Proofs.RSI Proofs.Accuracy.
Open Scope list_scope.
Open Scope R_scope.
Local Notation length := List.length.

Lemma sub_rel (x y : f64) : is_finite x = true -> is_finite y = true -> Rabs (B2R x - B2R y) <= huge ->
  is_finite (f64_sub x y) = true /\ Rabs (B2R (f64_sub x y) - (B2R x - B2R y)) <= uro * Rabs (B2R x - B2R y).
Proof.
  intros Fx Fy H. destruct (of_xr (f64_sub x y) (B2R x - B2R y) (sub_xr x y Fx Fy) H) as [F E].
  split; [exact F|]. rewrite E. pose proof (rnd_add_err x (Bopp y)) as K. rewrite B2R_Bopp in K. exact K.
Qed.

(** One accumulation step: [u] approximates [U] up to the factor [P]. *)
Lemma step_rel (u a b : f64) (U P : R) : is_finite u = true -> is_finite a = true -> is_finite b = true ->
  1 + uro <= P -> 0 <= U -> 0 <= B2R u -> Rabs (B2R u - U) <= (P - 1) * U -> 0 <= B2R b - B2R a ->
  4 * P * (U + (B2R b - B2R a)) <= huge ->
  let u' := f64_add u (f64_sub b a) in
  is_finite u' = true /\ Rabs (B2R u' - (U + (B2R b - B2R a))) <= (P * (1 + uro) - 1) * (U + (B2R b - B2R a)).
Proof.
  intros Fu Fa Fb HP HU Hu0 Hu Hm Hh. cbv zeta. set (m := B2R b - B2R a) in *. pose proof uro_pos as U0.
  assert (0 <= P * U) by nra. assert (0 <= P * m) by nra.
  destruct (sub_rel b a Fb Fa) as [Fs Hs]. { fold m. rewrite Rabs_pos_eq by assumption. nra. }
  fold m in Hs. rewrite (Rabs_pos_eq m) in Hs by assumption. set (s := B2R (f64_sub b a)) in *.
  apply Rabs_le_inv in Hs, Hu.
  assert (0 <= s) as S0. { pose proof uro_small. nra. }
  destruct (of_xr (f64_add u (f64_sub b a)) (B2R u + s) (add_xr u _ Fu Fs)) as [F E].
  { rewrite Rabs_pos_eq by lra. nra. }
  split; [exact F|]. rewrite E. pose proof (rnd_add_err u (f64_sub b a)) as K. fold s in K.
  rewrite (Rabs_pos_eq (B2R u + s)) in K by lra. apply Rabs_le_inv in K. apply Rabs_le.
  assert (s <= P * m) by nra. assert (m - s <= (P - 1) * m) by nra.
  assert (uro * (B2R u + s) <= uro * (P * (U + m))) by (apply Rmult_le_compat_l; lra). split; nra.
Qed.

Definition clo (c : candle f64) : R := B2R (c_close c).
Lemma lt_clo a b : is_finite (c_close a) = true -> is_finite (c_close b) = true ->
  f64_lt (c_close a) (c_close b) = Rlt_bool (clo a) (clo b).
Proof. intros Fa Fb. rewrite f64_lt_xr by (now apply finite_not_nan). now rewrite !xr_finite. Qed.
Lemma gains_pos l : 0 <= gains l.
Proof. induction l as [|a [|b l] IH]; cbn [gains]; try lra. pose proof (Rmax_l 0 (b - a)). cbn [gains] in IH. lra. Qed.
Lemma losses_pos l : 0 <= losses l.
Proof. induction l as [|a [|b l] IH]; cbn [losses]; try lra. pose proof (Rmax_l 0 (a - b)). cbn [losses] in IH. lra. Qed.

Lemma gains_cons a b l : gains (a :: b :: l) = Rmax 0 (b - a) + gains (b :: l). Proof. reflexivity. Qed.
Lemma losses_cons a b l : losses (a :: b :: l) = Rmax 0 (a - b) + losses (b :: l). Proof. reflexivity. Qed.
Lemma sums_rel (cs : list (candle f64)) : forall (prev : candle f64) (u d : f64) (U D P : R),
  is_finite (c_close prev) = true -> Forall (fun c => is_finite (c_close c) = true) cs ->
  nn u -> nn d -> is_finite u = true -> is_finite d = true -> 1 + uro <= P -> 0 <= U -> 0 <= D ->
  Rabs (B2R u - U) <= (P - 1) * U -> Rabs (B2R d - D) <= (P - 1) * D ->
  let l := real_closes (prev :: cs) in
  4 * (P * (1 + uro) ^ length cs) * (U + D + gains l + losses l) <= huge ->
  let r := rsi_sums prev cs u d in
  let P' := P * (1 + uro) ^ length cs in
  is_finite (fst r) = true /\ is_finite (snd r) = true /\
  Rabs (B2R (fst r) - (U + gains l)) <= (P' - 1) * (U + gains l) /\
  Rabs (B2R (snd r) - (D + losses l)) <= (P' - 1) * (D + losses l).
Proof.
  pose proof uro_pos as U0.
  induction cs as [|c cs IH]; intros prev u d U D P Fp Fc Nu Nd Fu Fd HP HU HD Hu Hd l Hh r P'; subst l r P'.
  - cbn [real_closes map gains losses length pow rsi_sums fst snd]. rewrite !Rplus_0_r, Rmult_1_r. auto.
  - apply List.Forall_cons_iff in Fc. destruct Fc as [Fc Fcs]. cbn [length pow] in *.
    change (real_closes (prev :: c :: cs)) with (clo prev :: clo c :: real_closes cs) in *.
    rewrite gains_cons, losses_cons in *. change (clo c :: real_closes cs) with (real_closes (c :: cs)) in *.
    pose proof (gains_pos (real_closes (c :: cs))) as Gp. pose proof (losses_pos (real_closes (c :: cs))) as Lp.
    pose proof (pow_uro_ge1 (length cs)) as P1. set (q := (1 + uro) ^ length cs) in *.
    pose proof (Rmax_l 0 (clo c - clo prev)) as M1. pose proof (Rmax_l 0 (clo prev - clo c)) as M2.
    assert (P <= P * ((1 + uro) * q)) as PP. { assert (1 <= (1 + uro) * q) by nra. nra. }
    assert (1 <= (1 + uro) * q) as Q1 by nra.
    cbn [rsi_sums flt fadd fsub f64_num]. rewrite !lt_clo by assumption.
    set (g := gains (real_closes (c :: cs))) in *. set (lo := losses (real_closes (c :: cs))) in *.
    assert (1 + uro <= P * (1 + uro)) as HP' by nra.
    assert (forall V v, 0 <= V -> Rabs (v - V) <= (P - 1) * V -> Rabs (v - V) <= (P * (1 + uro) - 1) * V) as Wk.
    { intros V v HV Hv. assert (0 <= P * uro * V) by (apply Rmult_le_pos; [apply Rmult_le_pos; lra|lra]). nra. }
    destruct (Rlt_bool_spec (clo prev) (clo c)) as [L|L].
    + rewrite (Rmax_right 0 (clo c - clo prev)), (Rmax_left 0 (clo prev - clo c)) in * by lra.
      destruct (step_rel u (c_close prev) (c_close c) U P Fu Fp Fc HP HU) as [F1 E1].
      { rewrite <- xr_finite by assumption. now apply nn_xr. }
      { exact Hu. } { unfold clo in L. lra. }
      { fold (clo c) (clo prev). eapply Rle_trans; [|exact Hh]. 
        assert (U + (clo c - clo prev) <= U + D + (clo c - clo prev + g) + (0 + lo)) by lra.
        assert (0 <= U + (clo c - clo prev)) by lra.
        apply Rmult_le_compat; lra. }
      fold (clo c) (clo prev) in E1.
      destruct (IH c (f64_add u (f64_sub (c_close c) (c_close prev))) d (U + (clo c - clo prev)) D (P * (1 + uro)) Fc Fcs) as (A & B & C & E); auto.
      { apply nn_add; [assumption|]. apply nn_sub; auto. rewrite lt_clo by assumption. now apply Rlt_bool_true. }
      { lra. }
      { fold q g lo. eapply Rle_trans; [|exact Hh]. right. ring. }
      fold q g lo in C, E. split; [exact A|]. split; [exact B|].
      replace (P * ((1 + uro) * q)) with (P * (1 + uro) * q) by ring.
      replace (U + (clo c - clo prev + g)) with (U + (clo c - clo prev) + g) by ring.
      replace (D + (0 + lo)) with (D + lo) by ring. auto.
    + rewrite (Rmax_left 0 (clo c - clo prev)), (Rmax_right 0 (clo prev - clo c)) in * by lra.
      destruct (Rlt_bool_spec (clo c) (clo prev)) as [L2|L2].
      * destruct (step_rel d (c_close c) (c_close prev) D P Fd Fc Fp HP HD) as [F1 E1].
        { rewrite <- xr_finite by assumption. now apply nn_xr. }
        { exact Hd. } { unfold clo in L. lra. }
        { fold (clo c) (clo prev). eapply Rle_trans; [|exact Hh]. 
          assert (D + (clo prev - clo c) <= U + D + (0 + g) + (clo prev - clo c + lo)) by lra.
          assert (0 <= D + (clo prev - clo c)) by lra.
          apply Rmult_le_compat; lra. }
        fold (clo c) (clo prev) in E1.
        destruct (IH c u (f64_add d (f64_sub (c_close prev) (c_close c))) U (D + (clo prev - clo c)) (P * (1 + uro)) Fc Fcs) as (A & B & C & E); auto.
        { apply nn_add; [assumption|]. apply nn_sub; auto. rewrite lt_clo by assumption. now apply Rlt_bool_true. }
        { lra. }
        { fold q g lo. eapply Rle_trans; [|exact Hh]. right. ring. }
        fold q g lo in C, E. split; [exact A|]. split; [exact B|].
        replace (P * ((1 + uro) * q)) with (P * (1 + uro) * q) by ring.
        replace (U + (0 + g)) with (U + g) by ring.
        replace (D + (clo prev - clo c + lo)) with (D + (clo prev - clo c) + lo) by ring. auto.
      * destruct (IH c u d U D (P * (1 + uro)) Fc Fcs) as (A & B & C & E); auto.
        { fold q g lo. eapply Rle_trans; [|exact Hh]. right. replace (clo prev - clo c) with 0 by lra. ring. }
        fold q g lo in C, E. split; [exact A|]. split; [exact B|].
        replace (P * ((1 + uro) * q)) with (P * (1 + uro) * q) by ring.
        replace (clo prev - clo c) with 0 by lra. replace (U + (0 + g)) with (U + g) by ring. replace (D + (0 + lo)) with (D + lo) by ring. auto.
Qed.

(** Size of the totals. *)
Lemma moves_total M l : Forall (fun x => Rabs x <= M) l -> gains l + losses l <= INR (length l) * (2 * M).
Proof.
  intros H. induction l as [|a l IH]; cbn [gains losses]; [simpl; lra|].
  apply List.Forall_cons_iff in H. destruct H as [Ha H]. specialize (IH H).
  assert (0 <= M) as M0 by (pose proof (Rabs_pos a); lra).
  destruct l as [|b l]; [cbn [length]; rewrite S_INR; simpl INR; lra|].
  pose proof (List.Forall_inv H) as Hb. apply Rabs_le_inv in Ha, Hb.
  change (length (a :: b :: l)) with (S (length (b :: l))). rewrite S_INR.
  assert (Rmax 0 (b - a) + Rmax 0 (a - b) <= 2 * M). { unfold Rmax. destruct (Rle_dec 0 (b - a)), (Rle_dec 0 (a - b)); lra. }
  lra.
Qed.

(** ** From the ratio to the index *)
Lemma i100 : is_finite (i2f 100) = true /\ B2R (i2f 100) = 100.
Proof. assert (exact_int 100) as E by (apply exact_i; lia). split; [now apply i2f_finite|now apply i2f_B2R]. Qed.
Lemma i1 : is_finite (i2f 1) = true /\ B2R (i2f 1) = 1 /\ nn (i2f 1).
Proof. assert (exact_int 1) as E by (apply exact_i; lia). split; [now apply i2f_finite|split; [now apply i2f_B2R|split; vm_compute; reflexivity]]. Qed.
Lemma last_steps (t : f64) (T : R) : is_finite t = true -> 1 <= B2R t -> 0 <= T <= 100 ->
  let w := f64_div (i2f 100) t in
  is_finite (f64_sub (i2f 100) w) = true /\
  Rabs (B2R (f64_sub (i2f 100) w) - (100 - T)) <= Rabs (100 / B2R t - T) + 202 * uro.
Proof.
  intros Ft Ht HT. cbv zeta. destruct i100 as [F1 E1]. pose proof uro_pos as U0. pose proof uro_small as Us. pose proof eta_uro as Eu.
  pose proof huge_1000 as Hh.
  assert (0 <= 100 / B2R t <= 100) as Hd by (apply div_within; nra).
  destruct (of_xr (f64_div (i2f 100) t) (100 / B2R t)) as [Fw Ew].
  { rewrite <- E1. apply div_xr; auto. lra. } { rewrite Rabs_pos_eq; lra. }
  pose proof (rnd_err (100 / B2R t)) as K. rewrite <- Ew, (Rabs_pos_eq (100 / B2R t)) in K by lra.
  assert (Rabs (B2R (f64_div (i2f 100) t) - 100 / B2R t) <= 101 * uro) as K'. { pose proof eta_pos. nra. }
  clear K. set (w := f64_div (i2f 100) t) in *. apply Rabs_le_inv in K'.
  assert (0 <= B2R w <= 100) as Hw.
  { rewrite Ew. split; [apply rnd_nonneg; lra|]. apply Rle_trans with (rnd 100); [apply rnd_mono; lra|].
    rewrite (rnd_int 100) by (apply exact_i; lia). lra. }
  destruct (of_xr (f64_sub (i2f 100) w) (100 - B2R w)) as [Fs Es].
  { rewrite <- E1. now apply sub_xr. } { rewrite Rabs_pos_eq; lra. }
  split; [exact Fs|]. rewrite Es. pose proof (rnd_err (100 - B2R w)) as K2. rewrite (Rabs_pos_eq (100 - B2R w)) in K2 by lra.
  apply Rabs_le_inv in K2. set (e := Rabs (100 / B2R t - T)).
  assert (Rabs (100 / B2R t - T) <= e) as Ke by (unfold e; lra). apply Rabs_le_inv in Ke. apply Rabs_le. pose proof eta_pos. split; nra.
Qed.

(** Moderate ratio. *)
Lemma rsi_moderate (rs : f64) (Q a : R) : is_finite rs = true -> 0 <= B2R rs -> 0 <= Q <= bpow radix2 900 -> 0 <= a <= 1 ->
  Rabs (B2R rs - Q) <= a * Q + eta ->
  is_finite (rsi_of_rs rs) = true /\ Rabs (B2R (rsi_of_rs rs) - (100 - 100 / (1 + Q))) <= 100 * (a + 6 * uro).
Proof.
  intros Fr Hr [HQ0 HQ] [Ha0 Ha1] Hd. pose proof uro_pos as U0. pose proof uro_small as Us. pose proof eta_uro as Eu. pose proof eta_pos as Ep.
  destruct i1 as (F1 & E1 & _). apply Rabs_le_inv in Hd.
  assert (bpow radix2 900 * 8 <= huge) as Hb.
  { change 8 with (bpow radix2 3). rewrite <- bpow_plus. change huge with (bpow radix2 1000). apply bpow_le. lia. }
  assert (1 <= bpow radix2 900) as Hb1 by (change 1 with (bpow radix2 0); apply bpow_le; lia).
  assert (a * Q <= Q) by nra. assert (0 <= a * Q) by nra.
  destruct (of_xr (f64_add (i2f 1) rs) (1 + B2R rs)) as [Ft Et].
  { rewrite <- E1. now apply add_xr. } { rewrite Rabs_pos_eq by lra. lra. }
  assert (1 <= B2R (f64_add (i2f 1) rs)) as T1.
  { rewrite Et. apply Rle_trans with (rnd 1); [rewrite (rnd_int 1) by (apply exact_i; lia); lra|]. apply rnd_mono. lra. }
  pose proof (rnd_add_err (i2f 1) rs) as K. rewrite E1, <- Et, (Rabs_pos_eq (1 + B2R rs)) in K by lra.
  unfold rsi_of_rs. set (t := f64_add (i2f 1) rs) in *.
  assert (0 <= 100 / (1 + Q) <= 100) as HT by (apply div_within; nra).
  destruct (last_steps t (100 / (1 + Q)) Ft T1 HT) as [A B]. split; [exact A|].
  eapply Rle_trans; [exact B|].
  assert (Rabs (B2R t - (1 + Q)) <= (a + 3 * uro) * (1 + Q)) as D.
  { apply Rabs_le_inv in K. assert (uro * (1 + B2R rs) <= uro * (2 * (1 + Q))) by (apply Rmult_le_compat_l; lra). apply Rabs_le. split; nra. }
  assert (Rabs (100 / B2R t - 100 / (1 + Q)) <= 100 * (a + 3 * uro)) as D2.
  { replace (100 / B2R t - 100 / (1 + Q)) with ((100 / B2R t) * (- (B2R t - (1 + Q)) / (1 + Q))) by (field; lra).
    rewrite Rabs_mult. unfold Rdiv at 2. rewrite Rabs_mult, Rabs_Ropp, Rabs_inv, (Rabs_pos_eq (1 + Q)) by lra.
    assert (0 <= 100 / B2R t <= 100) as Hd2 by (apply div_within; nra).
    rewrite (Rabs_pos_eq (100 / B2R t)) by lra. apply Rmult_le_compat; try lra.
    - apply Rmult_le_pos; [apply Rabs_pos|]. left. apply Rinv_0_lt_compat. lra.
    - apply Rmult_le_reg_r with (1 + Q); [lra|]. rewrite Rmult_assoc, Rinv_l by lra. lra. }
  lra.
Qed.

(** Very large or infinite ratio. *)
Lemma rsi_large (rs : f64) (Q : R) : nn rs -> bpow radix2 800 <= xr rs -> bpow radix2 800 <= Q ->
  is_finite (rsi_of_rs rs) = true /\ Rabs (B2R (rsi_of_rs rs) - (100 - 100 / (1 + Q))) <= 100 * (6 * uro).
Proof.
  intros Nr Hr HQ. pose proof uro_pos as U0. destruct i1 as (F1 & E1 & N1). destruct i100 as [F100 E100].
  assert (/ bpow radix2 800 <= uro) as Hs.
  { rewrite <- bpow_opp. change uro with (bpow radix2 (-53)). apply bpow_le. lia. }
  assert (1 <= bpow radix2 800) as Hb1 by (change 1 with (bpow radix2 0); apply bpow_le; lia).
  assert (forall x, bpow radix2 800 <= x -> 0 <= 100 / x <= 100 * uro) as Sm.
  { intros x Hx. assert (0 < / x) by (apply Rinv_0_lt_compat; lra). unfold Rdiv. split; [nra|].
    apply Rmult_le_compat_l; [lra|]. eapply Rle_trans; [|exact Hs]. apply Rinv_le_contravar; lra. }
  pose proof (add_comm_nn _ _ N1 Nr) as Ht. pose proof (nn_add _ _ N1 Nr) as Nt. unfold rsi_of_rs.
  set (t := f64_add (i2f 1) rs) in *.
  destruct (Sm (1 + Q) ltac:(lra)) as [S1 S2].
  destruct (is_finite t) eqn:Ft.
  - rewrite (xr_finite t Ft) in Ht. destruct (Sm (B2R t) ltac:(lra)) as [S3 S4]. pose proof uro_small.
    destruct (last_steps t (100 / (1 + Q)) Ft ltac:(lra) ltac:(lra)) as [A B]. split; [exact A|].
    eapply Rle_trans; [exact B|]. assert (Rabs (100 / B2R t - 100 / (1 + Q)) <= 100 * uro) by (apply Rabs_le; lra). lra.
  - destruct Nt as [Nt St]. destruct t as [s|s| |s m e B]; try discriminate. cbn in St. subst s.
    assert (f64_sub (i2f 100) (f64_div (i2f 100) (B754_infinity false)) = i2f 100) as -> by (apply B2SF_inj; vm_compute; reflexivity).
    rewrite E100. split; [exact F100|]. replace (100 - (100 - 100 / (1 + Q))) with (100 / (1 + Q)) by ring. rewrite Rabs_pos_eq by lra. lra.
Qed.

(** ** The index of a window *)
Lemma quot_rel u d U D g : 0 <= g <= / 64 -> 0 <= U -> 0 < D -> Rabs (u - U) <= g * U -> Rabs (d - D) <= g * D ->
  0 < d /\ 0 <= u /\ Rabs (u / d - U / D) <= 3 * g * (U / D).
Proof.
  intros [G0 G1] HU HD Hu Hd. apply Rabs_le_inv in Hu, Hd. assert (0 < d) as D0 by nra. assert (0 <= u) as U0 by nra.
  split; [exact D0|]. split; [exact U0|].
  replace (u / d - U / D) with ((u * D - U * d) / (d * D)) by (field; lra).
  unfold Rdiv at 1. rewrite Rabs_mult, Rabs_inv, (Rabs_pos_eq (d * D)) by nra.
  apply Rmult_le_reg_r with (d * D); [nra|]. rewrite Rmult_assoc, Rinv_l, Rmult_1_r by nra.
  replace (3 * g * (U / D) * (d * D)) with (3 * g * U * d) by (field; lra).
  assert (Rabs (u * D - U * d) <= 2 * g * U * D) as K.
  { replace (u * D - U * d) with ((u - U) * D - U * (d - D)) by ring. apply Rabs_le.
    assert (- (g * U * D) <= (u - U) * D <= g * U * D) by (split; nra).
    assert (- (g * U * D) <= U * (d - D) <= g * U * D) by (split; nra). lra. }
  eapply Rle_trans; [exact K|]. assert (0 <= g * U) by nra. assert (2 * D <= 3 * d) by nra. nra.
Qed.
Lemma zero_total (x : f64) X g : is_finite x = true -> 0 <= X -> 0 <= g < 1 -> Rabs (B2R x - X) <= g * X -> (X = 0 <-> is_zero x = true).
Proof.
  intros F HX Hg H. apply Rabs_le_inv in H. split.
  - intros ->. apply zero_B2R; [assumption|]. lra.
  - intros Z. destruct x; try discriminate. simpl in H. nra.
Qed.

Lemma rsi_near (w : list (candle f64)) M : scale M -> few w ->
  Forall (fun c => within_mag M (c_close c)) w -> 0 < gains (real_closes w) + losses (real_closes w) ->
  is_finite (rsi_value w) = true /\
  Rabs (B2R (rsi_value w) - strength (real_closes w)) <= 100 * (6 * INR (length w) + 8) * uro.
Proof.
  intros HM Hf Hc Hmv. apply scale_sizes in HM. apply few_steps in Hf.
  pose proof uro_pos as U0. pose proof uro_small as Us. pose proof eta_pos as Ep. pose proof eta_uro as Eu.
  destruct w as [|c cs]; [cbn in Hmv; lra|].
  assert (Forall (fun c => is_finite (c_close c) = true) (c :: cs)) as Fc by (eapply Forall_impl; [|exact Hc]; intros x Hx; apply Hx).
  assert (Forall (fun x => Rabs x <= M) (real_closes (c :: cs))) as Bc.
  { unfold real_closes. rewrite Forall_map. eapply Forall_impl; [|exact Hc]. intros x Hx. apply Hx. }
  pose proof (moves_total M _ Bc) as Tot. unfold real_closes in Tot. rewrite map_length in Tot. fold (real_closes (c :: cs)) in Tot.
  pose proof (sizes _ M Hf HM) as [Sz _]. pose proof (room (c :: cs) Hf) as Rm.
  pose proof (gains_pos (real_closes (c :: cs))) as Gp. pose proof (losses_pos (real_closes (c :: cs))) as Lp.
  rewrite rsi_value_moves. destruct (moves_nn (c :: cs) Fc) as [Nu Nd].
  cbn [moves] in *. apply List.Forall_cons_iff in Fc. destruct Fc as [Fc Fcs].
  assert (is_finite (i2f 0) = true /\ B2R (i2f 0) = 0 /\ nn (i2f 0)) as (F0 & E0 & N0).
  { assert (exact_int 0) as E by (apply exact_i; lia). split; [now apply i2f_finite|split; [now apply i2f_B2R|split; vm_compute; reflexivity]]. }
  set (n := length (c :: cs)) in *. match type of Tot with _ <= ?a * _ => change a with (INR n) in Tot end. assert ((1 + uro) * (1 + uro) ^ length cs = (1 + uro) ^ n) as Pn by reflexivity.
  assert (INR n * (2 * uro) <= / 64) as Rn by (pose proof (pos_INR n); nra).
  pose proof (pow_uro n ltac:(lra)) as Pu. pose proof (pow_uro_ge1 n) as P1.
  destruct (sums_rel cs c (i2f 0) (i2f 0) 0 0 (1 + uro) Fc Fcs N0 N0 F0 F0) as (Fu & Fd & Hu & Hd).
  { lra. } { lra. } { lra. } { rewrite E0, Rminus_0_r, Rabs_R0. lra. } { rewrite E0, Rminus_0_r, Rabs_R0. lra. }
  { rewrite Pn, !Rplus_0_l. assert (0 <= gains (real_closes (c :: cs)) + losses (real_closes (c :: cs))) by lra.
    apply Rle_trans with (4 * 2 * (INR n * (2 * M))); [apply Rmult_le_compat; lra|lra]. }
  rewrite Pn, !Rplus_0_l in Hu, Hd.
  set (l := real_closes (c :: cs)) in *. set (u := fst (rsi_sums c cs (i2f 0) (i2f 0))) in *. set (d := snd (rsi_sums c cs (i2f 0) (i2f 0))) in *.
  set (U := gains l) in *. set (D := losses l) in *. set (g := INR n * (2 * uro)) in *.
  assert (0 <= g) as G0 by (unfold g; pose proof (pos_INR n); nra).
  assert (Rabs (B2R u - U) <= g * U) as Hu' by nra. assert (Rabs (B2R d - D) <= g * D) as Hd' by nra. clear Hu Hd.
  assert (100 * (6 * INR n + 8) * uro = 100 * (3 * g + 8 * uro)) as -> by (unfold g; ring).
  destruct (Req_dec D 0) as [D0|D0].
  - (* no falls *)
    assert (is_zero d = true) as Zd by (apply (zero_total d D g); auto; lra).
    assert (is_zero u = false) as Zu.
    { destruct (is_zero u) eqn:Z; [|reflexivity]. assert (U = 0); [|lra]. apply (zero_total u U g); auto; lra. }
    destruct Nu as [Nu Su], Nd as [Nd Sd].
    destruct d as [s|s| |s m e B]; try discriminate. cbn in Sd. subst s.
    assert (f64_div u (B754_zero false) = B754_infinity false) as ->.
    { destruct u as [s|s| |s m e B]; try discriminate; cbn in Su; subst s; reflexivity. }
    assert (rsi_of_rs (B754_infinity false) = i2f 100) as -> by (apply B2SF_inj; vm_compute; reflexivity).
    destruct i100 as [F100 E100]. split; [exact F100|]. rewrite E100. unfold strength. fold U D. rewrite D0, Rplus_0_r.
    replace (100 - 100 * U / U) with 0 by (field; lra). rewrite Rabs_R0. nra.
  - assert (0 < D) as Dp by lra.
    destruct (quot_rel (B2R u) (B2R d) U D g ltac:(lra) Gp Dp Hu' Hd') as (d0 & u0 & Hq).
    assert (strength l = 100 - 100 / (1 + U / D)) as ->.
    { unfold strength. fold U D. field. split; [|lra]. lra. }
    assert (0 <= U / D) as Q0 by (apply Rmult_le_pos; [lra|left; apply Rinv_0_lt_compat; lra]).
    set (Q := U / D) in *. set (q := B2R u / B2R d) in *.
    assert (3 * g <= / 4) as G3 by lra.
    apply Rabs_le_inv in Hq.
    assert (nn (f64_div u d)) as Nq.
    { destruct (nn_div u d Nu Nd) as [[_ [[_ K]|[K _]]]|[K _]]; [| |exact K].
      - exfalso. destruct d; try discriminate. simpl in d0. lra.
      - exfalso. destruct u; try discriminate. }
    destruct (Rle_lt_dec Q (bpow radix2 900)) as [Small|Large].
    + destruct (of_xr (f64_div u d) q) as [Fq Eq].
      { apply div_xr; auto. lra. }
      { rewrite Rabs_pos_eq by (assert (0 <= (1 - 3 * g) * Q) by (apply Rmult_le_pos; lra); lra).
        assert (bpow radix2 900 * 8 <= huge) as Hb.
        { change 8 with (bpow radix2 3). rewrite <- bpow_plus. change huge with (bpow radix2 1000). apply bpow_le. lia. }
        assert (3 * g * Q <= Q) by nra. lra. }
      assert (0 <= 3 * g * Q <= / 4 * Q) as GQ by (split; [apply Rmult_le_pos; lra|apply Rmult_le_compat_r; lra]).
      destruct (rsi_moderate (f64_div u d) Q (3 * g + 2 * uro) Fq) as [A B]; [|lra|lra| |].
      { rewrite <- xr_finite by assumption. now apply nn_xr. }
      { rewrite Eq. pose proof (rnd_err q) as K. rewrite (Rabs_pos_eq q) in K by lra. apply Rabs_le_inv in K.
        assert (uro * q <= uro * (2 * Q)) by (apply Rmult_le_compat_l; lra). apply Rabs_le. split; nra. }
      split; [exact A|]. eapply Rle_trans; [exact B|]. lra.
    + assert (bpow radix2 800 * 8 <= bpow radix2 900) as Hb.
      { change 8 with (bpow radix2 3). rewrite <- bpow_plus. apply bpow_le. lia. }
      pose proof (bpow_gt_0 radix2 800) as B0.
      destruct (rsi_large (f64_div u d) Q Nq) as [A B].
      { destruct (div_xr u d Fu Fd ltac:(lra)) as [_ E]. rewrite E. fold q.
        assert (bpow radix2 800 <= q) as Hq2. { assert (3 * g * Q <= / 4 * Q) by (apply Rmult_le_compat_r; lra). lra. }
        apply Rle_trans with (sat (rnd (bpow radix2 800))).
        - assert (rnd (bpow radix2 800) = bpow radix2 800) as -> by (apply round_generic; [apply valid_rnd_N|apply generic_format_bpow; vm_compute; discriminate]).
          rewrite sat_id; [lra|]. rewrite Rabs_pos_eq by lra. change big with (bpow radix2 1024). apply bpow_le. lia.
        - apply sat_mono, rnd_mono, Hq2. }
      { lra. }
      split; [exact A|]. eapply Rle_trans; [exact B|]. nra.
Qed.

(** ** Conversion to float32 *)
Lemma rnd32_err r : 0 <= r <= 100 -> Rabs (rnd32 r - r) <= 0.000007.
Proof.
  intros H. destruct (relative_error_N_FLT'_ex radix2 (3 - 128 - 24) 24 ltac:(lia) (fun x => negb (Z.even x)) r) as (e & h & He & Hh & _ & E).
  unfold rnd32. change (SpecFloat.fexp 24 128) with (FLT_exp (3 - 128 - 24) 24). rewrite E.
  replace (r * (1 + e) + h - r) with (r * e + h) by ring.
  assert (u_ro radix2 24 = / IZR (2 ^ 24)) as Eu. { unfold u_ro. cbn. lra. }
  assert (u_ro radix2 24 / (1 + u_ro radix2 24) <= u_ro radix2 24) as K.
  { assert (0 < u_ro radix2 24) by (rewrite Eu; apply Rinv_0_lt_compat; apply IZR_lt; reflexivity).
    apply Rmult_le_reg_r with (1 + u_ro radix2 24); [lra|]. unfold Rdiv. rewrite Rmult_assoc, Rinv_l by lra. nra. }
  rewrite Eu in K. assert (/ IZR (2 ^ 24) <= 0.00000006) as K2. { cbn. lra. }
  assert (Rabs e <= 0.00000006) as He' by (rewrite Eu in He; lra).
  assert (/ 2 * bpow radix2 (3 - 128 - 24) <= 0.0000001) as Kh.
  { apply Rle_trans with (bpow radix2 (-30)); [|cbn; lra]. change (/ 2) with (bpow radix2 (-1)). rewrite <- bpow_plus. apply bpow_le. lia. }
  assert (Rabs h <= 0.0000001) as Hh' by lra. apply Rabs_le_inv in He', Hh'. apply Rabs_le. split; nra.
Qed.
Lemma to_f32_near x y e : is_finite x = true -> 0 <= B2R x <= 100 -> Rabs (B2R x - y) <= e ->
  is_finite (f64_to_f32 x) = true /\ Rabs (B2R (f64_to_f32 x) - y) <= 0.000007 + e.
Proof.
  intros Fx Hx Hy. destruct (to_f32_range x Fx Hx) as [F _]. split; [exact F|].
  assert (B2R (f64_to_f32 x) = rnd32 (B2R x)) as E.
  { destruct x as [s|s| |s m e' B]; try discriminate; [simpl; symmetry; apply (rnd32_int 0); lia|]. unfold f64_to_f32.
    pose proof (binary_normalize_correct 24 128 prec24 emax128 mode_NE (cond_Zopp s (Z.pos m)) e' s) as C.
    cbv beta zeta in C. change (round radix2 (SpecFloat.fexp 24 128) (round_mode mode_NE)) with rnd32 in C.
    change (F2R {| Fnum := cond_Zopp s (Z.pos m); Fexp := e' |}) with (B2R (B754_finite s m e' B : f64)) in C.
    rewrite Rlt_bool_true in C; [exact (proj1 C)|].
    pose proof (rnd32_err _ Hx) as K. apply Rabs_le_inv in K. apply Rle_lt_trans with 101; [apply Rabs_le; lra|].
    change (bpow radix2 128) with (IZR (2 ^ 128)). apply IZR_lt. reflexivity. }
  rewrite E. pose proof (rnd32_err _ Hx) as K. apply Rabs_le_inv in K, Hy. apply Rabs_le. lra.
Qed.
