(** C98: CalculateOverlap in float64, on books of ordinary numbers.
    Vocabulary: Spec/OverlapSpec.v. *)
From Coq Require Import Reals Lra Lia Sorting.Sorted.
From Flocq Require Import Core BinarySingleNaN.
From Verif Require Import Go.Outcome Go.Int64 Go.Slice Go.Float64 Go.FloatReal Go.FloatError Go.Num
  Model.OrderBook Model.Fused Spec.OrderBookSpec Spec.WholeSpec Spec.AccuracySpec Spec.OverlapSpec
  Proofs.FusedOverlap Proofs.OverlapError Props.OrderBookProps Props.AccuracyProps.
Open Scope list_scope.
Open Scope R_scope.

Theorem C98_overlap_accuracy : forall (A B : book f64) P V, medium P -> medium V -> sound_book P V A -> sound_book P V B -> few_rows A B ->
  match calculate_overlap A B, calculate_overlap (exact_book A) (exact_book B) with
  | Ret (v, e), Ret (v', e') => approx (17 * INR (rows_of A B) * eps * (P * V)) v v' /\ e = e'
  | Panic p, Panic p' => p = p'
  | _, _ => False
  end.
Proof. intros A B P V. rewrite eps_uro, <- overlap_apart. exact (overlap_near (fun _ => false) (fun _ => false) A B P V). Qed.
(** On any platform (C97). *)
Theorem C98_fused_accuracy : forall f g (A B : book f64) P V, medium P -> medium V -> sound_book P V A -> sound_book P V B -> few_rows A B ->
  match calculate_overlap_fused f g A B, calculate_overlap (exact_book A) (exact_book B) with
  | Ret (v, e), Ret (v', e') => approx (17 * INR (rows_of A B) * eps * (P * V)) v v' /\ e = e'
  | Panic p, Panic p' => p = p'
  | _, _ => False
  end.
Proof. intros f g A B P V. rewrite eps_uro. exact (overlap_near f g A B P V). Qed.
(** For sorted books of which the first asks below what the second bids: the
    value of the trade, as a formula. *)
Theorem C98_overlap_value : forall (A B : book f64) P V a0 la b0 lb,
  medium P -> medium V -> sound_book P V A -> sound_book P V B -> few_rows A B ->
  asks A = a0 :: la -> bids B = b0 :: lb -> ascending (map exact_row (asks A)) -> descending (map exact_row (bids B)) ->
  real (price a0) < real (price b0) ->
  exists v, calculate_overlap A B = Ret (v, None) /\
    approx (17 * INR (rows_of A B) * eps * (P * V)) v
      (overlap_value (map exact_row (asks A)) (map exact_row (bids B)) (real (price a0)) (real (price b0))).
Proof.
  intros A B P V a0 la b0 lb MP MV SA SB Few Ea Eb Asc Desc Lt.
  pose proof (C98_overlap_accuracy A B P V MP MV SA SB Few) as K.
  rewrite (C15_overlap_value_complete (exact_book A) (exact_book B) (exact_row a0) (map exact_row la) (exact_row b0) (map exact_row lb)) in K.
  - destruct (calculate_overlap A B) as [[v e]|p]; [|contradiction]. destruct K as [K ->]. exists v. split; [reflexivity|exact K].
  - cbn [exact_book asks]. rewrite Ea. reflexivity.
  - cbn [exact_book bids]. rewrite Eb. reflexivity.
  - exact Asc.
  - exact Desc.
  - exact Lt.
Qed.

(** Asks 0.1 at 2 and 0.2 at 3 against bids 0.25 at 6 and 0.15 at 5. *)
Definition tenths (p v : Z) : row f64 := mkRow (i2f p) (f64_const v (-2)) (i2f 0).
Definition frac_A : book f64 := mkBook 0 [tenths 2 10; tenths 3 20; tenths 9 100] [tenths 1 10] 5.
Definition frac_B : book f64 := mkBook 0 [tenths 8 10] [tenths 6 25; tenths 5 15; tenths 1 40] 5.
Definition thousand_times (x : f64) : Z := f2i (f64_add (f64_mul x (i2f 1000)) (f64_const 5 (-1))).
Lemma at_most (x : f64) n : is_finite x = true -> f64_le (i2f 0) x = true -> f64_le x (i2f n) = true -> (0 <= n <= 9)%Z ->
  is_finite x = true /\ 0 <= real x <= IZR n.
Proof.
  intros F H1 H2 Hn. assert (exact_int 0 /\ exact_int n) as [E0 En] by (unfold exact_int; lia). split; [exact F|].
  unfold f64_le in H1, H2. rewrite Bleb_correct in H1, H2 by (apply i2f_finite || exact F; assumption).
  rewrite i2f_B2R in H1, H2 by assumption. unfold real.
  destruct (Rle_bool_spec 0 (B2R x)); [|discriminate]. destruct (Rle_bool_spec (B2R x) (IZR n)); [|discriminate]. split; assumption.
Qed.
Lemma sound_tenths p v : (0 <= p <= 9)%Z -> is_finite (f64_const v (-2)) = true -> f64_le (i2f 0) (f64_const v (-2)) = true ->
  f64_le (f64_const v (-2)) (i2f 1) = true ->
  let r := tenths p v in
  ((is_finite (price r) = true /\ 0 <= real (price r) <= 16) /\ is_finite (volume r) = true /\ 0 <= real (volume r)) /\ real (volume r) <= 1.
Proof.
  intros Hp F H1 H2. cbv zeta. cbn [tenths price volume]. destruct (at_most _ 1 F H1 H2 ltac:(lia)) as [_ [V1 V2]].
  assert (exact_int p) as E by (unfold exact_int; lia). split; [|exact V2]. split; [|split; [exact F|exact V1]].
  split; [now apply i2f_finite|]. unfold real. rewrite i2f_B2R by exact E. change 16 with (IZR 16). split; apply (IZR_le); lia.
Qed.
Example C98_example :
  medium 16 /\ medium 4 /\ sound_book 16 4 frac_A /\ sound_book 16 4 frac_B /\ few_rows frac_A frac_B /\
  match calculate_overlap frac_A frac_B with Ret (v, None) => thousand_times v = 850%Z | _ => False end.
Proof.
  split; [|split]; [| |split; [|split; [|split]]].
  - change 16 with (bpow radix2 4). split; apply bpow_le; lia.
  - change 4 with (bpow radix2 2). split; apply bpow_le; lia.
  - pose proof (sound_tenths 2 10 ltac:(lia) ltac:(vm_compute; reflexivity) ltac:(vm_compute; reflexivity) ltac:(vm_compute; reflexivity)) as [R1 V1].
    pose proof (sound_tenths 3 20 ltac:(lia) ltac:(vm_compute; reflexivity) ltac:(vm_compute; reflexivity) ltac:(vm_compute; reflexivity)) as [R2 V2].
    pose proof (sound_tenths 9 100 ltac:(lia) ltac:(vm_compute; reflexivity) ltac:(vm_compute; reflexivity) ltac:(vm_compute; reflexivity)) as [R3 V3].
    pose proof (sound_tenths 1 10 ltac:(lia) ltac:(vm_compute; reflexivity) ltac:(vm_compute; reflexivity) ltac:(vm_compute; reflexivity)) as [R4 V4].
    split; split; cbn [frac_A asks bids].
    + exact (Forall_cons _ R1 (Forall_cons _ R2 (Forall_cons _ R3 (Forall_nil _)))).
    + cbn [map total_volume fold_right exact_row volume]. unfold real in V1, V2, V3. lra.
    + exact (Forall_cons _ R4 (Forall_nil _)).
    + cbn [map total_volume fold_right exact_row volume]. unfold real in V4. lra.
  - pose proof (sound_tenths 8 10 ltac:(lia) ltac:(vm_compute; reflexivity) ltac:(vm_compute; reflexivity) ltac:(vm_compute; reflexivity)) as [R1 V1].
    pose proof (sound_tenths 6 25 ltac:(lia) ltac:(vm_compute; reflexivity) ltac:(vm_compute; reflexivity) ltac:(vm_compute; reflexivity)) as [R2 V2].
    pose proof (sound_tenths 5 15 ltac:(lia) ltac:(vm_compute; reflexivity) ltac:(vm_compute; reflexivity) ltac:(vm_compute; reflexivity)) as [R3 V3].
    pose proof (sound_tenths 1 40 ltac:(lia) ltac:(vm_compute; reflexivity) ltac:(vm_compute; reflexivity) ltac:(vm_compute; reflexivity)) as [R4 V4].
    split; split; cbn [frac_B asks bids].
    + exact (Forall_cons _ R1 (Forall_nil _)).
    + cbn [map total_volume fold_right exact_row volume]. unfold real in V1. lra.
    + exact (Forall_cons _ R2 (Forall_cons _ R3 (Forall_cons _ R4 (Forall_nil _)))).
    + cbn [map total_volume fold_right exact_row volume]. unfold real in V2, V3, V4. lra.
  - unfold few_rows. apply Rle_trans with (bpow radix2 4); [|apply bpow_le; lia]. cbn. lra.
  - vm_compute. reflexivity.
Qed.

(** Rounding can send the selling loop past the row at which it should stop:
    2^53 units bought at 1, and in float64 2^53 + 1 of them sold, at 1 and 3,
    for a gain of 4 (3 rounded) instead of 0. *)
Definition large_A : book f64 := mkBook 0 [mk 1 (2 ^ 53); mk 4 1] [] 5.
Definition large_B : book f64 := mkBook 0 [] [mk 3 1; mk 1 (2 ^ 53); mk 0 1] 5.
Theorem C98_exact_refuted : exists (A B : book f64) P V v w,
  medium P /\ medium V /\ sound_book P V A /\ sound_book P V B /\ few_rows A B /\
  calculate_overlap A B = Ret (v, None) /\ calculate_overlap (exact_book A) (exact_book B) = Ret (w, None) /\ real v - w = 4.
Proof.
  assert (forall z, (0 <= z <= 2 ^ 53)%Z -> is_finite (i2f z) = true /\ B2R (i2f z) = IZR z) as X.
  { intros z Hz. assert (exact_int z) by (unfold exact_int; lia). split; [now apply i2f_finite|now apply i2f_B2R]. }
  assert (forall z, (0 <= z <= 2 ^ 53)%Z -> is_finite (i2f z) = true /\ 0 <= real (i2f z)) as X1.
  { intros z Hz. destruct (X z Hz) as [F E]. split; [exact F|]. unfold real. rewrite E. apply IZR_le. lia. }
  assert (forall z, (0 <= z <= 4)%Z -> is_finite (i2f z) = true /\ 0 <= real (i2f z) <= 4) as X2.
  { intros z Hz. destruct (X z ltac:(lia)) as [F E]. split; [exact F|]. unfold real. rewrite E. split; apply IZR_le; lia. }
  assert (bpow radix2 53 = IZR (2 ^ 53)) as B53 by reflexivity.
  assert (bpow radix2 54 = 2 * IZR (2 ^ 53)) as B54 by (change 54%Z with (1 + 53)%Z; rewrite bpow_plus, B53; reflexivity).
  assert (2 <= IZR (2 ^ 53)) as B0 by (apply IZR_le; lia).
  assert (match calculate_overlap large_A large_B with Ret (v, None) => is_finite v && f64_eq v (i2f 4) | _ => false end = true) as Ev by (vm_compute; reflexivity).
  destruct (calculate_overlap large_A large_B) as [[v [e|]]|] eqn:Ec; [discriminate Ev| |discriminate Ev].
  apply andb_true_iff in Ev as [Fv Ev].
  exists large_A, large_B, 4, (bpow radix2 54), v, 0.
  split; [change 4 with (bpow radix2 2); split; apply bpow_le; lia|].
  split; [split; apply bpow_le; lia|].
  split; [|split; [|split; [|split; [|split]]]].
  - split; split; cbn [large_A asks bids mk].
    + repeat (apply Forall_cons; [cbn [price volume]; split; [apply X2; lia|apply X1; lia]|]). apply Forall_nil.
    + cbn [map total_volume fold_right exact_row volume mk]. rewrite (proj2 (X (2 ^ 53)%Z ltac:(lia))), (proj2 (X 1%Z ltac:(lia))), B54. lra.
    + apply Forall_nil.
    + cbn [map total_volume fold_right]. rewrite B54. lra.
  - split; split; cbn [large_B asks bids mk].
    + apply Forall_nil.
    + cbn [map total_volume fold_right]. rewrite B54. lra.
    + repeat (apply Forall_cons; [cbn [price volume]; split; [apply X2; lia|apply X1; lia]|]). apply Forall_nil.
    + cbn [map total_volume fold_right exact_row volume mk]. rewrite (proj2 (X (2 ^ 53)%Z ltac:(lia))), (proj2 (X 1%Z ltac:(lia))), B54. lra.
  - unfold few_rows. apply Rle_trans with (bpow radix2 4); [|apply bpow_le; lia]. cbn. lra.
  - exact Ec.
  - pose (row p v := mkRow (IZR p) (IZR v) (IZR 0)).
    assert (forall p v, (0 <= p <= 2 ^ 53)%Z -> (0 <= v <= 2 ^ 53)%Z -> exact_row (mk p v) = row p v) as RX.
    { intros p q Hp Hq. unfold exact_row, mk. cbn [price volume accum]. rewrite (proj2 (X p Hp)), (proj2 (X q Hq)), (proj2 (X 0%Z ltac:(lia))). reflexivity. }
    assert (exact_book large_A = mkBook 0 [row 1 (2 ^ 53); row 4 1] [] 5)%Z as ->.
    { unfold exact_book, large_A. cbn [asks bids b_time max_depth map]. rewrite !RX by lia. reflexivity. }
    assert (exact_book large_B = mkBook 0 [] [row 3 1; row 1 (2 ^ 53); row 0 1] 5)%Z as ->.
    { unfold exact_book, large_B. cbn [asks bids b_time max_depth map]. rewrite !RX by lia. reflexivity. }
    rewrite (C15_overlap_value_exact (mkBook 0 [row 1 (2 ^ 53); row 4 1] [] 5)%Z (mkBook 0 [] [row 3 1; row 1 (2 ^ 53); row 0 1] 5)%Z
      (row 1 (2 ^ 53))%Z [row 4 1]%Z (row 3 1)%Z [row 1 (2 ^ 53); row 0 1]%Z eq_refl eq_refl).
    + unfold row. cbn [asks bids filter price volume]. set (K := IZR (2 ^ 53)) in *.
      rewrite (Rle_bool_true 1 3), (Rle_bool_false 4 3), (Rle_bool_true 1 1), (Rle_bool_false 1 0) by lra. cbn [rev app value total_volume fold_right price volume proceeds].
      destruct (Rlt_dec (K + 0) K); [exfalso; lra|]. destruct (Rlt_dec (K + 0 - K) 1); [|exfalso; lra].
      f_equal. f_equal. transitivity (Rabs 0); [f_equal; ring|apply Rabs_R0].
    + unfold row. cbn [asks]. repeat (constructor; cbn [price]; try lra).
    + unfold row. cbn [bids]. repeat (constructor; cbn [price]; try lra).
    + unfold row. cbn [price]. lra.
    + exists (row 4 1)%Z. split; [right; left; reflexivity|]. unfold row. cbn [price]. lra.
    + exists (row 0 1)%Z. split; [right; right; left; reflexivity|]. unfold row. cbn [price]. lra.
  - unfold f64_eq in Ev. rewrite Beqb_correct in Ev by (exact Fv || apply (X 4%Z); lia). rewrite (proj2 (X 4%Z ltac:(lia))) in Ev.
    destruct (Req_bool_spec (B2R v) (IZR 4)) as [E|]; [|discriminate]. unfold real. rewrite E. ring.
Qed.

Print Assumptions C98_overlap_accuracy.
Print Assumptions C98_fused_accuracy.
Print Assumptions C98_overlap_value.
Print Assumptions C98_exact_refuted.
