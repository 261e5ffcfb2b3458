(** C74-C75: how far machine results are from exact arithmetic. *)
From Coq Require Import Reals Lra Lia Psatz.
From Flocq Require Import Core BinarySingleNaN.
From Verif Require Import Go.Outcome Go.Int64 Go.Slice Go.Float64 Go.FloatOrder Go.FloatReal Go.FloatError Go.Num
  Model.Candle Model.Indicators Model.OrderBook Spec.OrderBookSpec Spec.CandleSpec Spec.IndicatorSpec Spec.AccuracySpec
  Proofs.MovingAverage Proofs.Accuracy Proofs.CandleMore Props.OrderBookProps Props.CandleProps.
Open Scope list_scope.
Open Scope R_scope.
Local Notation length := List.length.

Lemma eps_uro : eps = 2 * uro.
Proof. rewrite uro_val. change eps with (/ IZR (2 ^ 52)). change (2 ^ 53)%Z with (2 * 2 ^ 52)%Z. rewrite mult_IZR. field. apply not_0_IZR. vm_compute. discriminate. Qed.

(** ** C74 *)
Theorem C74_moving_average_accuracy : forall (cs hid : list (candle f64)) n M,
  scale M -> few cs -> (0 < n <= length cs)%nat -> Forall (fun c => within_mag M (c_close c)) cs ->
  exists xs ys,
    moving_average (GSlice cs hid) (Z.of_nat n) = Ret (xs, None) /\
    moving_average (GSlice (map exact_candle cs) (map exact_candle hid)) (Z.of_nat n) = Ret (ys, None) /\
    Forall2 (approx ((INR n + 2) * eps * M)) xs ys.
Proof.
  intros cs hid n M HM Hf Hn Hc. eexists. eexists.
  rewrite (@moving_average_spec f64 f64_num cs hid n Hn), (@moving_average_spec R R_num (map exact_candle cs) (map exact_candle hid) n) by (rewrite map_length; lia).
  split; [reflexivity|]. split; [reflexivity|]. rewrite map_length, eps_uro. now apply ma_near.
Qed.
Theorem C74_exponential_accuracy : forall (cs : list (candle f64)) n M,
  scale M -> few cs -> (0 < n <= length cs)%nat -> Forall (fun c => within_mag M (c_close c)) cs ->
  exists xs ys,
    exponential_moving_average (GSlice cs []) (Z.of_nat n) = Ret (xs, None) /\
    exponential_moving_average (GSlice (map exact_candle cs) []) (Z.of_nat n) = Ret (ys, None) /\
    Forall2 (approx (13 * INR (length cs) * eps * M)) xs ys.
Proof. rewrite eps_uro. exact ema_near. Qed.
Theorem C74_smoothed_accuracy : forall (cs : list (candle f64)) n M,
  scale M -> few cs -> (0 < n <= length cs)%nat -> Forall (fun c => within_mag M (c_close c)) cs ->
  exists xs ys,
    smoothed_moving_average (GSlice cs []) (Z.of_nat n) = Ret (xs, None) /\
    smoothed_moving_average (GSlice (map exact_candle cs) []) (Z.of_nat n) = Ret (ys, None) /\
    Forall2 (approx (13 * INR (length cs) * eps * M)) xs ys.
Proof. rewrite eps_uro. exact smma_near. Qed.
Theorem C74_volatility_accuracy : forall (cs : list (candle f64)) (beta : f64) M,
  scale M -> few cs -> is_finite beta = true -> 0 <= real beta <= 1 ->
  Forall (fun c => within_mag M (c_high c) /\ within_mag M (c_low c)) cs ->
  approx (12 * INR (length cs) * eps * M) (ewv cs beta) (ewv (map exact_candle cs) (real beta)).
Proof. rewrite eps_uro. exact ewv_near. Qed.
(** The error is relative to the size of the closes, not of the result:
    2^53, 1, -2^53 average to 0 instead of 1/3. *)
Definition cl (z : Z) : candle f64 := mkCandle 0 (i2f 0) (i2f 0) (i2f 0) (i2f z) (i2f 0).
Lemma close_mag z M : (Z.abs z <= 2 ^ 53)%Z -> IZR (Z.abs z) <= M -> within_mag M (c_close (cl z)).
Proof.
  intros E H. assert (exact_int z) as E' by (unfold exact_int; lia). cbn [cl c_close]. split; [exact (i2f_finite z E')|]. unfold real. rewrite i2f_B2R by exact E'. now rewrite <- abs_IZR.
Qed.
Theorem C74_relative_to_result_refuted : exists (cs : list (candle f64)) x y,
  moving_average (GSlice cs []) 3 = Ret ([x], None) /\
  moving_average (GSlice (map exact_candle cs) []) 3 = Ret ([y], None) /\
  real x = 0 /\ y = 1 / 3.
Proof.
  exists [cl (2 ^ 53); cl 1; cl (- 2 ^ 53)]. eexists. eexists.
  change 3%Z with (Z.of_nat 3).
  rewrite (@moving_average_spec f64 f64_num), (@moving_average_spec R R_num) by (cbn [map List.length]; lia).
  split; [reflexivity|]. split; [reflexivity|]. split.
  - assert (@mean_of f64 f64_num (window 0 3 (closes [cl (2 ^ 53); cl 1; cl (- 2 ^ 53)])) = B754_zero false) as E by (vm_compute; reflexivity).
    cbn [Nat.add] in *. unfold real. rewrite E. reflexivity.
  - rewrite closes_exact, window_map. change (window 0 3 (closes [cl (2 ^ 53); cl 1; cl (- 2 ^ 53)])) with [i2f (2 ^ 53); i2f 1; i2f (- 2 ^ 53)].
    rewrite mean_value by discriminate. cbn [map]. rewrite !i2f_B2R by (unfold exact_int; lia).
    rewrite opp_IZR. cbn [rsum fold_right List.length]. replace (INR 3) with 3 by (cbn; lra). generalize (IZR (2 ^ 53)). intros b. change (IZR (Z.of_nat 3)) with 3. lra.
Qed.
Lemma small_few {A} (l : list A) : (length l <= 1000)%nat -> few l.
Proof.
  intros H. unfold few. apply Rle_trans with (INR 1000); [now apply le_INR|]. rewrite INR_IZR_INZ. change (bpow radix2 40) with (IZR (2 ^ 40)).
  apply IZR_le. vm_compute. discriminate.
Qed.
Lemma scale_int k : (0 <= k <= 60)%Z -> scale (bpow radix2 k).
Proof. intros H. split; apply bpow_le; lia. Qed.
(** The mean of 1, 2, 4 is within 5 * 2^-50 of 7/3. *)
Example C74_example : exists x, moving_average (GSlice [cl 1; cl 2; cl 4] []) 3 = Ret ([x], None) /\
  approx ((3 + 2) * eps * 4) x (7 / 3).
Proof.
  destruct (C74_moving_average_accuracy [cl 1; cl 2; cl 4] [] 3 (bpow radix2 2)) as (xs & ys & H1 & H2 & H3).
  - apply scale_int. lia.
  - apply small_few. cbn. lia.
  - cbn. lia.
  - change (bpow radix2 2) with 4. repeat (apply Forall_cons; [apply close_mag; [lia|cbn; lra]|]). apply Forall_nil.
  - rewrite (@moving_average_spec R R_num) in H2 by (cbn [map List.length]; lia).
    change (seq 0 (length (map exact_candle [cl 1; cl 2; cl 4]) - 3 + 1)) with [0%nat] in H2.
    assert (ys = [@mean_of R R_num (window 0 3 (closes (map exact_candle [cl 1; cl 2; cl 4])))]) as ->
      by (symmetry; exact (f_equal (fun o : go (list R * option err) => match o with Ret (a, _) => a | Panic _ => [] end) H2)). clear H2.
    remember (@mean_of R R_num (window 0 3 (closes (map exact_candle [cl 1; cl 2; cl 4])))) as m eqn:Em.
    inversion H3 as [|x ? y ys Hx Hr E1 E2]. inversion Hr as [E3|]. subst xs y. subst. exists x. split; [exact H1|].
    change (bpow radix2 2) with 4 in Hx. replace (INR 3) with 3 in Hx by (cbn; lra).
    rewrite closes_exact, window_map in Hx. change (window 0 3 (closes [cl 1; cl 2; cl 4])) with [i2f 1; i2f 2; i2f 4] in Hx.
    rewrite mean_value in Hx by discriminate. cbn [map] in Hx. rewrite !i2f_B2R in Hx by (unfold exact_int; lia).
    cbn [rsum fold_right List.length] in Hx. replace (INR 3) with 3 in Hx by (cbn; lra). replace (7 / 3) with ((1 + (2 + (4 + 0))) / 3) by lra. exact Hx.
Qed.

(** ** C75 *)
Definition volumes (l : rows) : list f64 := map volume l.
Lemma accums now la lb d ob side : (zlen la <= 2 ^ 53)%Z -> (zlen lb <= 2 ^ 53)%Z -> (0 <= d)%Z ->
  new_order_book now la lb d = Ret ob -> side = asks ob \/ side = bids ob ->
  map accum side = running_totals f64_add (volumes side).
Proof.
  intros La Lb Hd H Hs. destruct (C02_accum_is_running_total now la lb d ob La Lb Hd H) as [Ea Eb].
  destruct Hs as [-> | ->]; assumption.
Qed.
Theorem C75_accumulated_volume_accuracy : forall now (la lb : rows) d ob side,
  (zlen la <= 2 ^ 53)%Z -> (zlen lb <= 2 ^ 53)%Z -> (0 <= d)%Z ->
  new_order_book now la lb d = Ret ob -> side = asks ob \/ side = bids ob ->
  few side -> Forall (fun r => is_finite (volume r) = true) side -> total_mag (volumes side) <= bpow radix2 900 ->
  forall i r, nth_error side i = Some r ->
  approx (INR i * eps * total_mag (volumes (firstn (S i) side))) (accum r) (total (volumes (firstn (S i) side))).
Proof.
  intros now la lb d ob side La Lb Hd H Hs Hf Fv Ht i r Hi. rewrite eps_uro.
  pose proof (accums now la lb d ob side La Lb Hd H Hs) as E.
  unfold volumes. rewrite <- firstn_map. 
  apply (totals_near (map volume side)).
  - rewrite map_length. exact Hf.
  - rewrite Forall_map. exact Fv.
  - exact Ht.
  - change (map volume side) with (volumes side). rewrite <- E. now apply map_nth_error.
Qed.
Theorem C75_integer_volumes_exact : forall now (la lb : rows) d ob side zs,
  (zlen la <= 2 ^ 53)%Z -> (zlen lb <= 2 ^ 53)%Z -> (0 <= d)%Z ->
  new_order_book now la lb d = Ret ob -> side = asks ob \/ side = bids ob ->
  Forall2 is_integer (volumes side) zs -> (Zmag zs <= 2 ^ 53)%Z ->
  forall i r, nth_error side i = Some r -> is_integer (accum r) (Zsum (firstn (S i) zs)).
Proof.
  intros now la lb d ob side zs La Lb Hd H Hs Hz Hb i r Hi.
  pose proof (accums now la lb d ob side La Lb Hd H Hs) as E.
  apply (totals_int (volumes side) zs Hz Hb). rewrite <- E. now apply map_nth_error.
Qed.
Theorem C75_merged_volume_accuracy : forall tz cs n out, (2 <= zlen cs)%Z ->
  modify_interval tz cs n = Ret (out, None) ->
  exists skipped gs, grouped tz n cs skipped gs /\
    Forall2 (fun g c => let vs := map c_volume g in
      few g -> Forall (fun v => is_finite v = true) vs -> total_mag vs <= bpow radix2 900 ->
      approx (0.000006 + (INR (length g) + 1) * eps * total_mag vs) (c_volume c) (total vs)) gs out.
Proof.
  intros tz cs n out Hl H. destruct (C27_float_volume_close tz cs n out Hl H) as (sk & gs & H1 & H2).
  exists sk, gs. split; [exact H1|]. rewrite eps_uro. clear -H2. induction H2 as [|g c gs out Hs H IH]; constructor; [|exact IH].
  cbv zeta in *. intros Hf Fv Ht.
  destruct (fsum_near (map c_volume g)) as [Fs Es].
  - rewrite map_length. exact Hf.
  - exact Fv.
  - exact Ht.
  - destruct (Hs Fs) as [Fc Ec]. split; [exact Fc|]. fold (fsum (map c_volume g)) in *.
    change (sumR (map (@B2R 53 1024) (map c_volume g))) with (total (map c_volume g)) in Es.
    change (sumabs (map (@B2R 53 1024) (map c_volume g))) with (total_mag (map c_volume g)) in Es. unfold real.
    pose proof (room g Hf) as Rm. pose proof uro_pos as U. pose proof uro_small as Us.
    assert (0 <= total_mag (map c_volume g)) as A0 by apply sumabs_nonneg.
    pose proof (sumR_le_abs (map real (map c_volume g))) as A1. change (Rabs (total (map c_volume g)) <= total_mag (map c_volume g)) in A1.
    change (bpow radix2 (-53)) with uro in Ec.
    rewrite map_length in Es. pose proof (pos_INR (length g)) as P0.
    set (A := total_mag (map c_volume g)) in *. set (T := total (map c_volume g)) in *. set (s := B2R (fsum (map c_volume g))) in *.
    assert (Rabs s <= 2 * A) as Sb.
    { replace s with (T + (s - T)) by ring. eapply Rle_trans; [apply Rabs_triang|].
      assert (INR (length g) * (2 * uro) * A <= / 64 * A) by (apply Rmult_le_compat_r; lra). lra. }
    change (Rabs (B2R (c_volume c) - T) <= 0.000006 + (INR (length g) + 1) * (2 * uro) * A).
    replace (B2R (c_volume c) - T) with ((B2R (c_volume c) - s) + (s - T)) by ring.
    eapply Rle_trans; [apply Rabs_triang|].
    assert (uro * Rabs s <= uro * (2 * A)) by (apply Rmult_le_compat_l; lra). lra.
Qed.
Lemma eq_int (x : f64) z : exact_int z -> f64_eq x (i2f z) && is_finite x = true -> is_finite x = true /\ real x = IZR z.
Proof.
  intros E H. apply andb_true_iff in H. destruct H as [H F]. split; [exact F|].
  assert (is_nan x = false) as Nx by (destruct x; (reflexivity || discriminate)).
  pose proof (i2f_finite z E) as Fz. assert (is_nan (i2f z) = false) as Nz by (destruct (i2f z); (reflexivity || discriminate)).
  rewrite (f64_eq_xr x (i2f z) Nx Nz), !xr_finite, i2f_B2R in H by assumption.
  unfold real. destruct (Req_bool_spec (B2R x) (IZR z)); [assumption|discriminate].
Qed.
(** Volumes 2^53 and 1 accumulate to 2^53. *)
Definition big_rows : rows := [mk 1 (2 ^ 53); mk 2 1].
Theorem C75_exact_for_all_volumes_refuted : exists now la d (ob : book f64) (r1 r2 : row f64),
  new_order_book now la [] d = Ret ob /\ asks ob = [r1; r2] /\
  is_finite (accum r2) = true /\ real (accum r2) <> total (volumes [r1; r2]).
Proof.
  assert (match new_order_book 0 big_rows [] 5 with
          | Ret ob => match asks ob with
                      | [r1; r2] => (f64_eq (volume r1) (i2f (2 ^ 53)) && is_finite (volume r1)) && (f64_eq (volume r2) (i2f 1) && is_finite (volume r2)) &&
                                    (f64_eq (accum r2) (i2f (2 ^ 53)) && is_finite (accum r2))
                      | _ => false end
          | Panic _ => false end = true) as E by (vm_compute; reflexivity).
  destruct (new_order_book 0 big_rows [] 5) as [ob|] eqn:Eb; [|discriminate].
  destruct (asks ob) as [|r1 [|r2 [|]]] eqn:Ea; try discriminate.
  apply andb_true_iff in E. destruct E as [E E3]. apply andb_true_iff in E. destruct E as [E1 E2].
  apply eq_int in E1, E2, E3; try (unfold exact_int; lia).
  exists 0%Z, big_rows, 5%Z, ob, r1, r2. split; [exact Eb|]. split; [exact Ea|]. split; [apply E3|].
  unfold total, volumes. cbn [map fold_right]. rewrite (proj2 E1), (proj2 E2), (proj2 E3). lra.
Qed.
(** Volumes 2, 9, 1 at 6, 6, 5: the totals from the best level on are 1, 3, 12, exactly. *)
Example C75_example : exists ob, new_order_book 0 ex_asks ex_bids 3 = Ret ob /\
  (exists zs, Forall2 is_integer (volumes (asks ob)) zs /\ (Zmag zs <= 2 ^ 53)%Z /\ zs = [1; 2; 9]%Z) /\
  (forall r, nth_error (asks ob) 2 = Some r -> is_integer (accum r) 12).
Proof.
  assert (match new_order_book 0 ex_asks ex_bids 3 with
          | Ret ob => match asks ob with
                      | [r1; r2; r3] => (f64_eq (volume r1) (i2f 1) && is_finite (volume r1)) && (f64_eq (volume r2) (i2f 2) && is_finite (volume r2)) &&
                                    (f64_eq (volume r3) (i2f 9) && is_finite (volume r3))
                      | _ => false end
          | Panic _ => false end = true) as E by (vm_compute; reflexivity).
  destruct (new_order_book 0 ex_asks ex_bids 3) as [ob|] eqn:Eb; [|discriminate].
  destruct (asks ob) as [|r1 [|r2 [|r3 [|]]]] eqn:Ea; try discriminate.
  apply andb_true_iff in E. destruct E as [E E3]. apply andb_true_iff in E. destruct E as [E1 E2].
  apply eq_int in E1, E2, E3; try (unfold exact_int; lia).
  assert (Forall2 is_integer (volumes (asks ob)) [1; 2; 9]%Z) as K.
  { rewrite Ea. unfold volumes. cbn [map]. constructor; [exact E1|]. constructor; [exact E2|]. constructor; [exact E3|]. constructor. }
  exists ob. split; [reflexivity|]. split.
  - exists [1; 2; 9]%Z. split; [exact K|]. split; [vm_compute; discriminate|reflexivity].
  - intros r Hr. refine (C75_integer_volumes_exact 0 ex_asks ex_bids 3 ob (asks ob) [1; 2; 9]%Z _ _ _ Eb (or_introl eq_refl) K _ 2 r Hr);
      vm_compute; discriminate.
Qed.
