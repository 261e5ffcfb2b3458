(** RSI is the net move over the distance travelled (C113). *)
From Coq Require Import Reals Lra Lia ZArith List.
Import ListNotations.
From Flocq Require Import Core BinarySingleNaN.
From Verif Require Import Go.Outcome Go.Int64 Go.Slice Go.Float64 Go.FloatReal Go.FloatError Go.Num
  Model.Candle Model.Indicators Spec.IndicatorSpec Spec.AccuracySpec Spec.RsiSpec Spec.RsiShapeSpec
  Proofs.RSI Proofs.RSIError Proofs.Accuracy Proofs.RsiShape Props.AccuracyProps Props.RsiProps.
Open Scope list_scope.
Open Scope R_scope.
Local Notation length := List.length.

(** The value calculateRSI returns for the window. *)
Local Notation value w := (B2R (f64_to_f32 (rsi_value w))).
(** A window to which C80 applies. *)
Definition measurable (w : list (candle f64)) : Prop :=
  few w /\ moving w /\ exists M, scale M /\ Forall (fun c => within_mag M (c_close c)) w.

Lemma moving_travelled w : moving w <-> 0 < travelled (real_closes w).
Proof. unfold moving. now rewrite (proj1 (moves_parts (real_closes w))). Qed.
Lemma near_index w : measurable w -> Rabs (value w - net_index (real_closes w)) <= rsi_error w.
Proof.
  intros (F & Mv & M & S & C). rewrite <- strength_net by exact Mv. now apply (C80_window_accuracy w M).
Qed.
Lemma closes_app w w' : real_closes (w ++ w') = real_closes w ++ real_closes w'.
Proof. apply map_app. Qed.

(** Half the net move from the first close to the last, as a share of the
    distance travelled, added to 50. *)
Theorem C113_net_over_distance : forall w, measurable w ->
  Rabs (value w - (50 + 50 * ((last (real_closes w) 0 - hd 0 (real_closes w)) / travelled (real_closes w)))) <= rsi_error w.
Proof. exact near_index. Qed.
(** So it is above 50 if the last close is above the first, up to the error. *)
Theorem C113_side_of_fifty : forall w, measurable w ->
  (hd 0 (real_closes w) <= last (real_closes w) 0 -> 50 - rsi_error w <= value w) /\
  (last (real_closes w) 0 <= hd 0 (real_closes w) -> value w <= 50 + rsi_error w).
Proof.
  intros w H. pose proof (near_index w H) as E. apply Rabs_le_inv in E. destruct H as (_ & Mv & _). apply moving_travelled in Mv.
  unfold net_index, net_move in E.
  assert (forall x, 0 <= x -> 0 <= x / travelled (real_closes w)) as P
    by (intros x Hx; apply Rmult_le_pos; [exact Hx|left; now apply Rinv_0_lt_compat]).
  split; intros K.
  - specialize (P (last (real_closes w) 0 - hd 0 (real_closes w)) ltac:(lra)). lra.
  - specialize (P (hd 0 (real_closes w) - last (real_closes w) 0) ltac:(lra)).
    replace ((hd 0 (real_closes w) - last (real_closes w) 0) / travelled (real_closes w))
      with (- ((last (real_closes w) 0 - hd 0 (real_closes w)) / travelled (real_closes w))) in P by (unfold Rdiv; ring). lra.
Qed.
(** Another unit or another zero of the price does not matter. *)
Theorem C113_unit_and_zero : forall a b w w', 0 < a -> measurable w -> measurable w' ->
  real_closes w' = map (fun x => a * x + b) (real_closes w) -> Rabs (value w' - value w) <= 2 * rsi_error w.
Proof.
  intros a b w w' Ha H H' E. pose proof (near_index w H) as N. pose proof (near_index w' H') as N'.
  rewrite E, net_index_affine in N' by (try apply moving_travelled; first [exact Ha|apply H]).
  assert (rsi_error w' = rsi_error w) as Er.
  { unfold rsi_error. replace (length w') with (length w); [reflexivity|]. apply (f_equal (@length R)) in E.
    unfold real_closes in E. now rewrite !map_length in E. }
  rewrite Er in N'. apply Rabs_le_inv in N, N'. apply Rabs_le. lra.
Qed.
(** Read backwards, the window has the complementary value. *)
Theorem C113_backwards : forall w, measurable w -> Rabs (value (rev w) + value w - 100) <= 2 * rsi_error w.
Proof.
  intros w H. assert (real_closes (rev w) = rev (real_closes w)) as E by (unfold real_closes; apply map_rev).
  assert (measurable (rev w)) as H'.
  { destruct H as (F & Mv & M & S & C). split; [unfold few in *; now rewrite rev_length|]. split.
    - apply moving_travelled. rewrite E, travelled_rev. now apply moving_travelled.
    - exists M. split; [exact S|]. now apply Forall_rev. }
  pose proof (near_index w H) as N. pose proof (near_index (rev w) H') as N'. rewrite E, net_index_rev in N'.
  unfold rsi_error in N' at 1. rewrite rev_length in N'. fold (rsi_error w) in N'.
  apply Rabs_le_inv in N, N'. apply Rabs_le. lra.
Qed.
(** Only the turning points matter: a candle whose close lies between its
    neighbours' closes can be left out. *)
Theorem C113_turning_points : forall l a b c r, measurable (l ++ a :: b :: c :: r) -> measurable (l ++ a :: c :: r) ->
  between (B2R (c_close a)) (B2R (c_close b)) (B2R (c_close c)) ->
  Rabs (value (l ++ a :: b :: c :: r) - value (l ++ a :: c :: r)) <= 2 * rsi_error (l ++ a :: b :: c :: r).
Proof.
  intros l a b c r H H' B. pose proof (near_index _ H) as N. pose proof (near_index _ H') as N'. rewrite closes_app in N, N'.
  unfold real_closes in N at 2. unfold real_closes in N' at 2. cbn [map] in N, N'. fold (real_closes r) in N, N'.
  unfold net_index in N, N'. rewrite travelled_between, net_between in N by exact B.
  assert (rsi_error (l ++ a :: c :: r) <= rsi_error (l ++ a :: b :: c :: r)) as Er.
  { unfold rsi_error. apply Rplus_le_compat_l. assert (0 <= eps) by (unfold eps; apply bpow_ge_0).
    apply Rmult_le_compat_r; [assumption|]. assert (INR (length (l ++ a :: c :: r)) <= INR (length (l ++ a :: b :: c :: r))); [|lra].
    apply le_INR. rewrite !app_length. cbn [List.length]. lia. }
  apply Rabs_le_inv in N, N'. apply Rabs_le. lra.
Qed.
(** Two windows joined at a candle: the mean of their values, weighted with the
    distances travelled. *)
Theorem C113_joined : forall l c r, measurable (l ++ [c]) -> measurable (c :: r) -> measurable (l ++ c :: r) ->
  let s := travelled (real_closes (l ++ [c])) in let t := travelled (real_closes (c :: r)) in
  Rabs (value (l ++ c :: r) - (s * value (l ++ [c]) + t * value (c :: r)) / (s + t)) <=
  rsi_error (l ++ c :: r) + Rmax (rsi_error (l ++ [c])) (rsi_error (c :: r)).
Proof.
  intros l c r H1 H2 H s t. pose proof (near_index _ H) as N. pose proof (near_index _ H1) as N1. pose proof (near_index _ H2) as N2.
  assert (0 < s) as S by (apply moving_travelled, H1). assert (0 < t) as T by (apply moving_travelled, H2).
  assert (net_index (real_closes (l ++ c :: r)) =
    (s * net_index (real_closes (l ++ [c])) + t * net_index (real_closes (c :: r))) / (s + t)) as E.
  { unfold s, t in *. rewrite !closes_app in *. cbn [real_closes map] in *. now apply net_index_joined. }
  rewrite E in N. set (m := Rmax (rsi_error (l ++ [c])) (rsi_error (c :: r))) in *.
  pose proof (Rmax_l (rsi_error (l ++ [c])) (rsi_error (c :: r))) as M1. pose proof (Rmax_r (rsi_error (l ++ [c])) (rsi_error (c :: r))) as M2.
  fold m in M1, M2. set (x1 := value (l ++ [c])) in *. set (x2 := value (c :: r)) in *.
  set (y1 := net_index (real_closes (l ++ [c]))) in *. set (y2 := net_index (real_closes (c :: r))) in *.
  assert (Rabs ((s * y1 + t * y2) / (s + t) - (s * x1 + t * x2) / (s + t)) <= m) as K.
  { replace ((s * y1 + t * y2) / (s + t) - (s * x1 + t * x2) / (s + t)) with ((s * (y1 - x1) + t * (y2 - x2)) / (s + t)) by (field; lra).
    apply Rabs_le_inv in N1, N2. apply Rabs_le. split.
    - apply (Rmult_le_reg_r (s + t)); [lra|]. unfold Rdiv. rewrite Rmult_assoc, Rinv_l, Rmult_1_r by lra. nra.
    - apply (Rmult_le_reg_r (s + t)); [lra|]. unfold Rdiv. rewrite Rmult_assoc, Rinv_l, Rmult_1_r by lra. nra. }
  apply Rabs_le_inv in N, K. apply Rabs_le. lra.
Qed.
(** The values of a call of RSI. *)
Theorem C113_rsi : forall v spare period out M, scale M -> few (v ++ spare) ->
  Forall (fun c => within_mag M (c_close c)) (v ++ spare) ->
  (1 <= period <= zlen v)%Z -> rsi f64_to_f32 (GSlice v spare) period = Ret (out, None) ->
  List.length out = Z.to_nat (zlen v + 1 - period) /\
  forall j r, nth_error out j = Some r ->
    let w := real_closes (window j (Z.to_nat (period + 1)) (v ++ spare)) in
    0 < travelled w -> approx32 (rsi_error (window j (Z.to_nat (period + 1)) (v ++ spare))) r (50 + 50 * ((last w 0 - hd 0 w) / travelled w)).
Proof.
  intros v spare period out M S F C P E. destruct (C80_rsi_accuracy v spare period out M S F C P E) as (ws & L & W & A).
  split; [rewrite <- L; clear - A; induction A; cbn [List.length]; congruence|]. intros j r Hj w T.
  assert (exists u, nth_error ws j = Some u /\ (moving u -> approx32 (rsi_error u) r (strength (real_closes u)))) as (u & Hu & Ha).
  { clear - A Hj. revert j Hj. induction A as [|x y l l' H A IH]; intros [|j] Hj; try discriminate; [injection Hj as ->; now exists y|now apply IH]. }
  rewrite (W j u Hu) in Ha. assert (moving (window j (Z.to_nat (period + 1)) (v ++ spare))) as Mv by now apply moving_travelled.
  specialize (Ha Mv). rewrite strength_net in Ha by exact Mv. exact Ha.
Qed.

(** Closes 1, 2, 3, 2, 5: net move 4, distance 6, index 50 + 50 * 4/6; the close
    2 on the way up does not count. *)
Example C113_example : let w := [cl 1; cl 2; cl 3; cl 2; cl 5] in
  measurable w /\ measurable [cl 1; cl 3; cl 2; cl 5] /\ between 1 2 3 /\ net_index (real_closes w) = 50 + 50 * (4 / 6) /\
  f2i (f64_mul (i2f 3) (rsi_value w)) = 250%Z /\ f2i (f64_mul (i2f 3) (rsi_value [cl 1; cl 3; cl 2; cl 5])) = 250%Z.
Proof.
  assert (forall l, (List.length l <= 1000)%nat -> Forall (fun z => (-8 <= z <= 8)%Z) l -> 0 < travelled (map IZR l) ->
    measurable (map cl l) /\ real_closes (map cl l) = map IZR l) as K.
  { intros l Ln B T. assert (real_closes (map cl l) = map IZR l) as E.
    { unfold real_closes. rewrite map_map. apply map_ext_in. intros z Hz. rewrite Forall_forall in B. specialize (B z Hz).
      unfold cl. cbn [c_close]. apply i2f_B2R. unfold exact_int. lia. }
    split; [|exact E]. split.
    - unfold few. rewrite map_length. apply Rle_trans with (INR 1000); [now apply le_INR|].
      rewrite INR_IZR_INZ. rewrite <- (IZR_Zpower radix2) by lia. apply IZR_le. vm_compute. discriminate.
    - split; [apply moving_travelled; now rewrite E|]. exists (bpow radix2 3). split; [split; apply bpow_le; lia|].
      apply Forall_map. eapply Forall_impl; [|exact B]. intros z Hz. cbv beta in Hz. unfold cl. cbn [c_close]. split; [apply i2f_finite; unfold exact_int; lia|].
      unfold real. rewrite i2f_B2R by (unfold exact_int; lia). rewrite <- abs_IZR. change (bpow radix2 3) with 8. apply IZR_le. lia. }
  assert (Rabs (2 - 1) = 1 /\ Rabs (3 - 2) = 1 /\ Rabs (2 - 3) = 1 /\ Rabs (5 - 2) = 3 /\ Rabs (3 - 1) = 2) as (R1 & R2 & R3 & R4 & R5)
    by (repeat split; first [rewrite Rabs_pos_eq; lra|rewrite Rabs_left; lra]).
  destruct (K [1; 2; 3; 2; 5]%Z) as [A1 A2]; [cbn; lia|repeat constructor; lia|cbn; rewrite ?R1, ?R2, ?R3, ?R4, ?R5; lra|].
  destruct (K [1; 3; 2; 5]%Z) as [B1 _]; [cbn; lia|repeat constructor; lia|cbn; rewrite ?R1, ?R2, ?R3, ?R4, ?R5; lra|].
  cbv zeta. split; [exact A1|]. split; [exact B1|]. split; [left; lra|]. split.
  - change [cl 1; cl 2; cl 3; cl 2; cl 5] with (map cl [1; 2; 3; 2; 5]%Z). rewrite A2. unfold net_index, net_move. cbn.
    rewrite R1, R2, R3, R4. lra.
  - split; vm_compute; reflexivity.
Qed.
