(** Property C125: closes that are whole multiples of a power of two.
    Model: Model/Indicators.v; vocabulary: Spec/TickSpec.v. *)
From Coq Require Import Reals Lra Lia ZArith List Permutation.
From Flocq Require Import Core BinarySingleNaN.
From Verif Require Import Go.Outcome Go.Int64 Go.Slice Go.Float64 Go.FloatOrder Go.FloatReal Go.Num
  Model.Candle Model.Indicators Spec.IndicatorSpec Spec.RsiMonotoneSpec Spec.TickSpec
  Proofs.RSI Proofs.RsiMonotone Proofs.Ticks Props.IndicatorProps Props.RsiMonotoneProps.
Import ListNotations.
Open Scope list_scope.
Open Scope Z_scope.
Local Notation length := List.length.

Lemma in_ticks_window e cs zs i n : in_ticks e cs zs -> Forall2 (ticks e) (window i n (closes cs)) (window i n zs).
Proof.
  unfold in_ticks, window, closes. intros H. revert i n. induction H as [|c z cs zs Hc H IH]; intros i n.
  - destruct i, n; constructor.
  - destruct i as [|i]; [|exact (IH i n)]. destruct n as [|n]; [constructor|]. constructor; [exact Hc|exact (IH 0%nat n)].
Qed.
Lemma in_ticks_candles e cs zs i n : in_ticks e cs zs -> in_ticks e (window i n cs) (window i n zs).
Proof.
  unfold in_ticks, window. intros H. revert i n. induction H as [|c z cs zs Hc H IH]; intros i n.
  - destruct i, n; constructor.
  - destruct i as [|i]; [|exact (IH i n)]. destruct n as [|n]; [constructor|]. constructor; [exact Hc|exact (IH 0%nat n)].
Qed.
Lemma in_ticks_length e cs zs : in_ticks e cs zs -> length cs = length zs.
Proof. induction 1; simpl; congruence. Qed.
Lemma window_length {A} i n (l : list A) : (i + n <= length l)%nat -> length (window i n l) = n.
Proof. intros H. unfold window. rewrite firstn_length, skipn_length. lia. Qed.
Lemma weight_each l z : In z l -> Z.abs z <= weight l.
Proof.
  induction l as [|a l IH]; [intros []|]. intros [->|H]; rewrite weight_cons; [pose proof (weight_pos l)|specialize (IH H)]; lia.
Qed.

(** MovingAverage, float64: whenever the closes are whole numbers of a unit
    2^e and no window adds up to more than 2^53 units, every value is the exact
    mean of its window rounded once - however long the window - and lies between
    the lowest and the highest close of the window. *)
Theorem C125_mean : forall e (cs spare : list (candle f64)) zs n, tick e -> in_ticks e cs zs ->
  (0 < n <= length cs)%nat -> Z.of_nat n <= 2 ^ 53 -> (forall i, weight (window i n zs) <= 2 ^ 53) ->
  exists out, moving_average (GSlice cs spare) (Z.of_nat n) = Ret (out, None) /\ length out = (length cs - n + 1)%nat /\
    forall i, (i < length out)%nat -> exists m, nth_error out i = Some m /\ is_finite m = true /\
      B2R m = nearest (IZR (total (window i n zs)) * bpow radix2 e / INR n) /\
      forall lo hi, Forall (fun z => lo <= z <= hi) (window i n zs) ->
        (IZR lo * bpow radix2 e <= B2R m <= IZR hi * bpow radix2 e)%R.
Proof.
  intros e cs spare zs n He H Hn Bn W. rewrite (C53_windowed_sums cs spare n Hn). eexists. split; [reflexivity|].
  rewrite map_length, seq_length. split; [reflexivity|]. intros i Hi. eexists. split.
  { apply map_nth_error. rewrite (nth_error_nth' _ 0%nat) by (rewrite seq_length; exact Hi). now rewrite seq_nth by exact Hi. }
  cbn [plus].
  pose proof (in_ticks_window e cs zs i n H) as K. pose proof (in_ticks_length e cs zs H) as L.
  pose proof (sum_ticks e He _ _ (i2f 0) 0 K (ticks_zero e) ltac:(specialize (W i); lia)) as S. rewrite Z.add_0_l in S.
  pose proof (weight_total (window i n zs)) as T. specialize (W i).
  destruct (div_len e _ _ (Z.of_nat n) He S ltac:(lia) ltac:(lia)) as (F & E).
  split; [exact F|]. rewrite INR_IZR_INZ. split; [exact E|]. intros lo hi R. rewrite E.
  set (lo' := Z.max lo (- 2 ^ 53)). set (hi' := Z.min hi (2 ^ 53)).
  assert (Forall (fun z => lo' <= z <= hi') (window i n zs)) as R'.
  { rewrite Forall_forall in *. intros z Hz. specialize (R z Hz). pose proof (weight_each _ z Hz). unfold lo', hi'. lia. }
  assert (length (window i n zs) = n) as Ln by (apply window_length; lia).
  assert (exists z, In z (window i n zs)) as (z & Hz).
  { destruct (window i n zs) as [|z t]; [simpl in Ln; lia|]. exists z. now left. }
  assert (Z.abs lo' <= 2 ^ 53 /\ Z.abs hi' <= 2 ^ 53) as (Al & Ah).
  { rewrite Forall_forall in R'. specialize (R' z Hz). pose proof (weight_each _ z Hz). unfold lo', hi' in *. lia. }
  pose proof (total_between lo' hi' _ R') as Tb. rewrite Ln in Tb.
  destruct (quotient_between lo' hi' _ (Z.of_nat n) (bpow radix2 e) ltac:(lia) Tb (bpow_gt_0 _ _)) as (Q1 & Q2).
  pose proof (bpow_gt_0 radix2 e) as Pe.
  assert (forall k, Z.abs k <= 2 ^ 53 -> rnd (IZR k * bpow radix2 e) = (IZR k * bpow radix2 e)%R) as G.
  { intros k Hk. apply round_generic; [apply valid_rnd_N|now apply tick_format]. }
  split.
  - apply Rle_trans with (IZR lo' * bpow radix2 e)%R; [apply Rmult_le_compat_r; [lra|apply IZR_le; unfold lo'; lia]|].
    rewrite <- (G lo' Al). now apply rnd_mono.
  - apply Rle_trans with (IZR hi' * bpow radix2 e)%R; [|apply Rmult_le_compat_r; [lra|apply IZR_le; unfold hi'; lia]].
    rewrite <- (G hi' Ah). now apply rnd_mono.
Qed.

(** The order of the closes in a window does not matter, nor anything else but
    their total. *)
Theorem C125_total_decides : forall e (cs cs' spare spare' : list (candle f64)) zs zs' n i j, tick e -> in_ticks e cs zs -> in_ticks e cs' zs' ->
  (0 < n)%nat -> (i + n <= length cs)%nat -> (j + n <= length cs')%nat -> Z.of_nat n <= 2 ^ 53 ->
  (forall i, weight (window i n zs) <= 2 ^ 53) -> (forall i, weight (window i n zs') <= 2 ^ 53) ->
  Permutation (window i n zs) (window j n zs') \/ total (window i n zs) = total (window j n zs') ->
  exists out out' m m', moving_average (GSlice cs spare) (Z.of_nat n) = Ret (out, None) /\
    moving_average (GSlice cs' spare') (Z.of_nat n) = Ret (out', None) /\
    nth_error out i = Some m /\ nth_error out' j = Some m' /\ f64_eq m m' = true.
Proof.
  intros e cs cs' spare spare' zs zs' n i j He H H' Hn Hi Hj Bn W W' T.
  assert (total (window i n zs) = total (window j n zs')) as Et.
  { destruct T as [P|T]; [|exact T]. clear - P. induction P; cbn [total fold_right] in *; unfold total in *; lia. }
  destruct (C125_mean e cs spare zs n He H ltac:(lia) Bn W) as (out & E & L & M).
  destruct (C125_mean e cs' spare' zs' n He H' ltac:(lia) Bn W') as (out' & E' & L' & M').
  destruct (M i ltac:(lia)) as (m & N & F & V & _). destruct (M' j ltac:(lia)) as (m' & N' & F' & V' & _).
  exists out, out', m, m'. repeat split; auto. rewrite f64_eq_xr, !xr_finite, V, V', Et by (try apply finite_not_nan; assumption).
  now apply Req_bool_true.
Qed.

Lemma flat_closes e k (cs : list (candle f64)) : Forall (fun c => ticks e (c_close c) k) cs -> Forall (fun x => ticks e x k) (closes cs).
Proof. intros H. now apply Forall_map. Qed.
Lemma Forall_window {A} (P : A -> Prop) l i n : Forall P l -> Forall P (window i n l).
Proof.
  intros H. unfold window. rewrite Forall_forall in *. intros x Hx. apply H.
  rewrite <- (firstn_skipn i l). apply in_or_app. right. rewrite <- (firstn_skipn n (skipn i l)). apply in_or_app. now left.
Qed.
(** A market that stands still: MovingAverage and SmoothedMovingAverage return
    the price itself, without any error; so does ExponentialMovingAverage when
    the period is one less than a power of two. *)
Theorem C125_flat : forall e k (cs spare : list (candle f64)) n, tick e -> Forall (fun c => ticks e (c_close c) k) cs ->
  (0 < n <= length cs)%nat -> Z.of_nat n < 2 ^ 53 -> Z.abs k * Z.of_nat n <= 2 ^ 53 ->
  (exists out, moving_average (GSlice cs spare) (Z.of_nat n) = Ret (out, None) /\ Forall (fun x => ticks e x k) out) /\
  (exists out, smoothed_moving_average (GSlice cs spare) (Z.of_nat n) = Ret (out, None) /\ Forall (fun x => ticks e x k) out) /\
  forall j, 1 <= j -> Z.of_nat n + 1 = 2 ^ j -> tick (e + (1 - j)) ->
    exists out, exponential_moving_average (GSlice cs spare) (Z.of_nat n) = Ret (out, None) /\ Forall (fun x => ticks e x k) out.
Proof.
  intros e k cs spare n He H Hn Bn B. pose proof (flat_closes e k cs H) as Hc.
  assert (forall xs, length xs = n -> Forall (fun x => ticks e x k) xs -> ticks e (f64_div (fold_left f64_add xs (i2f 0)) (i2f (Z.of_nat n))) k) as Sd.
  { intros xs Lx Hx. apply flat_seed; auto; lia. }
  assert (ticks e (f64_div (fold_left f64_add (firstn n (closes cs)) (i2f 0)) (i2f (Z.of_nat n))) k) as S0.
  { apply Sd; [rewrite firstn_length; unfold closes; rewrite map_length; lia|exact (Forall_window _ _ 0%nat n Hc)]. }
  assert (Forall (fun x => ticks e x k) (skipn n (closes cs))) as Sk.
  { rewrite <- (firstn_skipn n (closes cs)) in Hc. now apply Forall_app in Hc. }
  split; [|split].
  - rewrite (C53_windowed_sums cs spare n Hn). eexists. split; [reflexivity|]. apply Forall_map. rewrite Forall_forall. intros i Hi. apply in_seq in Hi.
    apply Sd; [apply window_length; unfold closes; rewrite map_length; lia|now apply Forall_window].
  - rewrite (C55_recurrence cs spare n Hn). cbv zeta. eexists. split; [reflexivity|]. constructor; [exact S0|].
    destruct (skipn n (closes cs)) as [|c later]; [constructor|]. inversion Sk as [|? ? S1 S2]; subst.
    pose proof (flat_second e k _ c (Z.of_nat n) He ltac:(lia) B S0 S1) as S3. constructor; [exact S3|].
    apply (iterates_all (fun x => ticks e x k) (fun x => ticks e x k)); [|exact S2|exact S3].
    intros x d Hx Hd. apply flat_smooth; auto. lia.
  - intros j Hj Ej Tj. rewrite (C54_recurrence cs spare n Hn). cbv zeta. eexists. split; [reflexivity|].
    destruct (ema_weight j (Z.of_nat n) Hj Ej ltac:(lia)) as (P & Q).
    assert (Z.abs k * 2 ^ (j - 1) <= 2 ^ 53) as Bj.
    { assert (2 ^ j = 2 * 2 ^ (j - 1)) as Ep by (rewrite <- Z.pow_succ_r by lia; f_equal; lia). nia. }
    destruct (skipn n (closes cs)) as [|c later]; [constructor|]. inversion Sk as [|? ? S1 S2]; subst. constructor; [exact S0|].
    apply (iterates_all (fun x => ticks e x k) (fun x => ticks e x k)); [|exact S2|exact S0].
    intros x d Hx Hd. now apply (flat_ema e k j).
Qed.
(** For other periods not: closes of 15 and period 5 give more than 15. *)
Theorem C125_flat_ema_refuted : exists e k (cs : list (candle f64)), tick e /\ Forall (fun c => ticks e (c_close c) k) cs /\
  match exponential_moving_average (GSlice cs []) 5 with
  | Ret (out, None) => map (fun x => f64_eq x (i2f 15)) out = [true; false] /\ map (fun x => f64_lt (i2f 15) x) out = [false; true] /\
      map (fun c => f64_eq (c_close c) (i2f 15)) cs = repeat true 7
  | _ => False
  end.
Proof.
  exists 0, 15, (repeat (mkCandle 0 (i2f 15) (i2f 15) (i2f 15) (i2f 15) (i2f 15)) 7). split; [unfold tick; lia|].
  split; [|vm_compute; repeat split; reflexivity]. repeat constructor; (apply (ticks_int 15); unfold exact_int; lia).
Qed.

(** The sums of a window. *)
Lemma moves_ticks e w zs : tick e -> in_ticks e w zs -> rises zs <= 2 ^ 53 -> falls zs <= 2 ^ 53 ->
  counted e (fst (moves w)) (rises zs) /\ counted e (snd (moves w)) (falls zs).
Proof.
  intros He H Bu Bd. assert (counted e (i2f 0) 0) as Z0 by (split; [apply ticks_zero|split; [lia|reflexivity]]).
  inversion H as [|c z cs zs' Hc H']; subst; [split; exact Z0|]. unfold moves.
  exact (sums_ticks e He cs zs' c z (i2f 0) 0 (i2f 0) 0 Hc H' Z0 Z0 Bu Bd).
Qed.
Lemma in_ticks_finite e w zs : in_ticks e w zs -> finite_closes w.
Proof. induction 1 as [|c z cs zs (F & _) H IH]; constructor; auto. Qed.
Lemma entry (v spare : list (candle f64)) period out i r : 1 <= period <= zlen v -> rsi f64_to_f32 (GSlice v spare) period = Ret (out, None) ->
  nth_error out i = Some r -> r = f64_to_f32 (rsi_value (window i (Z.to_nat (period + 1)) (v ++ spare))).
Proof.
  intros P E N. rewrite (rsi_entries v spare period out P E) in N. rewrite nth_error_map in N.
  assert (i < Z.to_nat (zlen v + 1 - period))%nat as Hi.
  { destruct (Nat.lt_ge_cases i (Z.to_nat (zlen v + 1 - period))) as [A|A]; [exact A|].
    rewrite (proj2 (nth_error_None _ _)) in N by (rewrite seq_length; exact A). discriminate. }
  rewrite (nth_error_nth' _ 0%nat) in N by (rewrite seq_length; exact Hi). rewrite seq_nth in N by exact Hi. cbn [option_map] in N. now injection N as <-.
Qed.

(** RSI: the value depends on nothing but the ratio of all rises to all falls
    of the window - not on their order, the zero of the prices, the unit, or the
    period; to the last bit. *)
Theorem C125_rsi_ratio_decides : forall e e' v v' spare spare' zs zs' period period' out out' i j r r', tick e -> tick e' ->
  in_ticks e (v ++ spare) zs -> in_ticks e' (v' ++ spare') zs' ->
  1 <= period <= zlen v -> 1 <= period' <= zlen v' ->
  rsi f64_to_f32 (GSlice v spare) period = Ret (out, None) -> rsi f64_to_f32 (GSlice v' spare') period' = Ret (out', None) ->
  nth_error out i = Some r -> nth_error out' j = Some r' ->
  let w := window i (Z.to_nat (period + 1)) zs in let w' := window j (Z.to_nat (period' + 1)) zs' in
  rises w <= 2 ^ 53 -> falls w <= 2 ^ 53 -> rises w' <= 2 ^ 53 -> falls w' <= 2 ^ 53 ->
  rises w * falls w' = rises w' * falls w -> (rises w = 0 <-> rises w' = 0) -> (falls w = 0 <-> falls w' = 0) -> r = r'.
Proof.
  intros e e' v v' spare spare' zs zs' period period' out out' i j r r' He He' H H' P P' E E' N N' w w' B1 B2 B3 B4 Hr Hu Hd.
  rewrite (entry v spare period out i r P E N), (entry v' spare' period' out' j r' P' E' N'). rewrite !rsi_value_moves. do 2 f_equal.
  pose proof (in_ticks_candles e _ zs i (Z.to_nat (period + 1)) H) as T. pose proof (in_ticks_candles e' _ zs' j (Z.to_nat (period' + 1)) H') as T'.
  fold w in T. fold w' in T'. destruct (moves_ticks e _ w He T B1 B2) as (Cu & Cd). destruct (moves_ticks e' _ w' He' T' B3 B4) as (Cu' & Cd').
  exact (same_ratio e e' _ _ _ _ _ _ _ _ He He' Cu Cd Cu' Cd' B1 B2 B3 B4 Hr Hu Hd).
Qed.
(** ... and a larger ratio never gives a smaller value. *)
Theorem C125_rsi_ratio_orders : forall e e' v v' spare spare' zs zs' period period' out out' i j r r', tick e -> tick e' ->
  in_ticks e (v ++ spare) zs -> in_ticks e' (v' ++ spare') zs' ->
  1 <= period <= zlen v -> 1 <= period' <= zlen v' ->
  rsi f64_to_f32 (GSlice v spare) period = Ret (out, None) -> rsi f64_to_f32 (GSlice v' spare') period' = Ret (out', None) ->
  nth_error out i = Some r -> nth_error out' j = Some r' ->
  let w := window i (Z.to_nat (period + 1)) zs in let w' := window j (Z.to_nat (period' + 1)) zs' in
  rises w <= 2 ^ 53 -> falls w <= 2 ^ 53 -> rises w' <= 2 ^ 53 -> falls w' <= 2 ^ 53 -> 0 < rises w + falls w -> 0 < rises w' + falls w' ->
  rises w * falls w' <= rises w' * falls w -> is_finite r = true /\ is_finite r' = true /\ (B2R r <= B2R r')%R.
Proof.
  intros e e' v v' spare spare' zs zs' period period' out out' i j r r' He He' H H' P P' E E' N N' w w' B1 B2 B3 B4 S S' L.
  rewrite (entry v spare period out i r P E N), (entry v' spare' period' out' j r' P' E' N'). rewrite !rsi_value_moves.
  pose proof (in_ticks_candles e _ zs i (Z.to_nat (period + 1)) H) as T. pose proof (in_ticks_candles e' _ zs' j (Z.to_nat (period' + 1)) H') as T'.
  fold w in T. fold w' in T'. destruct (moves_ticks e _ w He T B1 B2) as (Cu & Cd). destruct (moves_ticks e' _ w' He' T' B3 B4) as (Cu' & Cd').
  set (m := moves _) in *. set (m' := moves (window j _ _)) in *.
  assert (forall ee x y u d, tick ee -> counted ee x u -> counted ee y d -> u <= 2 ^ 53 -> d <= 2 ^ 53 -> 0 < u + d -> nn (f64_div x y)) as K.
  { intros ee x y u d Te Cx Cy Bu Bd Ps. destruct (nn_div x y (counted_sign _ _ _ Cx) (counted_sign _ _ _ Cy)) as [[Nn _]|[Q _]]; [exfalso|exact Q].
    destruct (counted_div ee x y u d Te Cx Cy Bu Bd Ps) as (I & F). destruct (Z.eq_dec d 0) as [Zd|Zd]; [rewrite (I Zd) in Nn; discriminate|].
    pose proof Cy as (_ & Py & _). destruct (F ltac:(lia)) as (Ff & _). rewrite (finite_not_nan _ Ff) in Nn. discriminate. }
  pose proof (K e _ _ _ _ He Cu Cd B1 B2 S) as Q. pose proof (K e' _ _ _ _ He' Cu' Cd' B3 B4 S') as Q'.
  destruct (rsi_of_nn _ Q) as (F & B). destruct (rsi_of_nn _ Q') as (F' & B').
  pose proof (ratio_order e e' _ _ _ _ _ _ _ _ He He' Cu Cd Cu' Cd' B1 B2 B3 B4 S S' L) as O.
  pose proof (le_of_rs _ _ Q Q' O) as Ov. destruct (to_f32_range _ F B) as (F32 & _). destruct (to_f32_range _ F' B') as (F32' & _).
  split; [exact F32|]. split; [exact F32'|]. now apply le_to_f32.
Qed.

Lemma rises_moved a b l : 0 < a -> rises (map (fun z => a * z + b) l) = a * rises l /\ falls (map (fun z => a * z + b) l) = a * falls l.
Proof.
  intros Ha. induction l as [|x l IH]; [simpl; lia|]. destruct l as [|y l]; [simpl; lia|]. cbn [map rises falls] in *. nia.
Qed.
Lemma entries_ext {A} (l l' : list A) : (forall i, nth_error l i = nth_error l' i) -> l = l'.
Proof.
  revert l'. induction l as [|x l IH]; intros [|y l'] H; [reflexivity|discriminate (H 0%nat)|discriminate (H 0%nat)|].
  pose proof (H 0%nat) as H0. injection H0 as ->. f_equal. apply IH. intros i. exact (H (S i)).
Qed.
Lemma window_map {A B} (f : A -> B) i n l : window i n (map f l) = map f (window i n l).
Proof. unfold window. now rewrite skipn_map, firstn_map. Qed.
(** In particular: prices measured from another zero and in another unit. *)
Theorem C125_rsi_unit_and_zero : forall e e' v v' spare spare' zs a b period out out', tick e -> tick e' -> 0 < a ->
  in_ticks e (v ++ spare) zs -> in_ticks e' (v' ++ spare') (map (fun z => a * z + b) zs) -> length v = length v' ->
  1 <= period <= zlen v ->
  rsi f64_to_f32 (GSlice v spare) period = Ret (out, None) -> rsi f64_to_f32 (GSlice v' spare') period = Ret (out', None) ->
  (forall i, a * rises (window i (Z.to_nat (period + 1)) zs) <= 2 ^ 53 /\ a * falls (window i (Z.to_nat (period + 1)) zs) <= 2 ^ 53) ->
  out = out'.
Proof.
  intros e e' v v' spare spare' zs a b period out out' He He' Ha H H' Lv P E E' B.
  assert (1 <= period <= zlen v') as P' by (unfold zlen in *; lia).
  assert (length out = length out') as L.
  { rewrite (rsi_entries v spare period out P E), (rsi_entries v' spare' period out' P' E'), !map_length, !seq_length. unfold zlen. now rewrite Lv. }
  apply entries_ext. intros i. destruct (nth_error out i) as [r|] eqn:N.
  - destruct (nth_error out' i) as [r'|] eqn:N'.
    + f_equal. destruct (B i) as (B1 & B2). set (w := window i (Z.to_nat (period + 1)) zs) in *.
      pose proof (C125_rsi_ratio_decides e e' v v' spare spare' zs _ period period out out' i i r r' He He' H H' P P' E E' N N') as K. cbv zeta in K.
      rewrite window_map in K. fold w in K. destruct (rises_moved a b w Ha) as (R1 & R2). rewrite R1, R2 in K.
      pose proof (rises_pos w). pose proof (falls_pos w). apply K; nia.
    + apply nth_error_None in N'. assert (i < length out)%nat by (apply nth_error_Some; congruence). lia.
  - symmetry. apply nth_error_None. rewrite <- L. now apply nth_error_None.
Qed.

(** Quarters: 10.25, 10.50, 10.00, 10.75 and the mean of the last three; RSI of
    the quarters and of the same moves counted from zero in units of 8. *)
Definition quarter (z : Z) : candle f64 := mkCandle 0 (i2f 0) (i2f 0) (i2f 0) (f64_div (i2f z) (i2f 4)) (i2f 0).
Lemma quarter_ticks z : Z.abs z <= 2 ^ 53 -> ticks (-2) (c_close (quarter z)) z.
Proof.
  intros Hz. assert (exact_int z) as X by (unfold exact_int; lia). assert (exact_int 4) as X4 by (unfold exact_int; lia).
  apply (tick_op _ _ (-2) z (div_xr _ _ (i2f_finite z X) (i2f_finite 4 X4) ltac:(rewrite i2f_B2R by exact X4; lra)) ltac:(unfold tick; lia) Hz).
  rewrite !i2f_B2R by assumption. change (bpow radix2 (-2)) with (/ 4)%R. reflexivity.
Qed.
Definition whole (z : Z) : candle f64 := mkCandle 0 (i2f 0) (i2f 0) (i2f 0) (i2f z) (i2f 0).
Example C125_example :
  let zs := [41; 42; 40; 43; 44; 42; 41; 45; 47; 46; 44; 45; 48; 49; 47; 46] in
  let up := fun z => 8 * z + -320 in
  let cs := map quarter zs in let cs' := map whole (map up zs) in
  in_ticks (-2) cs zs /\ in_ticks 0 cs' (map up zs) /\ tick (-2) /\ tick 0 /\
  (forall i, weight (window i 3 zs) <= 2 ^ 53) /\
  (forall i, 8 * rises (window i 6 zs) <= 2 ^ 53 /\ 8 * falls (window i 6 zs) <= 2 ^ 53) /\
  match moving_average (GSlice cs []) 3 with
  | Ret (out, None) => map (fun x => f2i (f64_mul (i2f 12) x)) (firstn 4 out) = [123; 125; 127; 129]
  | _ => False
  end /\
  match rsi f64_to_f32 (GSlice (firstn 14 cs) (skipn 14 cs)) 5, rsi f64_to_f32 (GSlice (firstn 14 cs') (skipn 14 cs')) 5 with
  | Ret (out, None), Ret (out', None) => length out = 10%nat /\ length out' = 10%nat
  | _, _ => False
  end.
Proof.
  cbv zeta. split; [|split; [|split; [|split; [|split; [|split; [|split]]]]]].
  - repeat constructor; apply quarter_ticks; lia.
  - repeat constructor; apply (ticks_int _); unfold exact_int; lia.
  - unfold tick; lia.
  - unfold tick; lia.
  - intros i. do 16 (destruct i as [|i]; [vm_compute; discriminate|]). unfold window. rewrite skipn_all2 by (simpl; lia). vm_compute. discriminate.
  - intros i. do 16 (destruct i as [|i]; [split; vm_compute; discriminate|]). unfold window. rewrite skipn_all2 by (simpl; lia). split; vm_compute; discriminate.
  - vm_compute. reflexivity.
  - vm_compute. split; reflexivity.
Qed.

Print Assumptions C125_mean.
Print Assumptions C125_total_decides.
Print Assumptions C125_flat.
Print Assumptions C125_flat_ema_refuted.
Print Assumptions C125_rsi_ratio_decides.
Print Assumptions C125_rsi_ratio_orders.
Print Assumptions C125_rsi_unit_and_zero.
