(** C99: the averages are fixed weighted means, and old prices are forgotten at
    a known rate.  Models: Model/Indicators.v; vocabulary: Spec/ForgetSpec.v. *)
From Coq Require Import Reals Lra Lia.
From Flocq Require Import Core BinarySingleNaN.
From Verif Require Import Go.Outcome Go.Int64 Go.Slice Go.Float64 Go.FloatOrder Go.FloatReal Go.Num Model.Candle Model.Indicators
  Spec.IndicatorSpec Spec.AccuracySpec Spec.ForgetSpec Proofs.MovingAverage Proofs.Accuracy Proofs.Forget Props.IndicatorProps Props.AccuracyProps.
Open Scope list_scope.
Open Scope R_scope.
Local Notation length := List.length.

(** ** Weights (exact arithmetic) *)
(** Entry [i] keeps [keep^i] of the seed and [(1 - keep) keep^m] of the close
    seen [m] candles ago. *)
Theorem C99_exponential_weights : forall (cs hid : list (candle R)) n, (0 < n <= length cs)%nat ->
  exists out, exponential_moving_average (GSlice cs hid) (Z.of_nat n) = Ret (out, None) /\
    forall i y, nth_error out i = Some y ->
      y = ema_keep n ^ i * (rsum (firstn n (closes cs)) / INR n) +
          (1 - ema_keep n) * discounted (ema_keep n) (window (n + 1) i (closes cs)).
Proof.
  intros cs hid n H. eexists. split; [now apply ema_is|]. intros i y E. rewrite Nat.add_1_r. now apply ema_closed.
Qed.
Theorem C99_smoothed_weights : forall (cs hid : list (candle R)) n, (0 < n <= length cs)%nat ->
  exists out, smoothed_moving_average (GSlice cs hid) (Z.of_nat n) = Ret (out, None) /\
    forall i y, nth_error out i = Some y ->
      y = smma_keep n ^ i * (rsum (firstn n (closes cs)) / INR n) +
          (1 - smma_keep n) * discounted (smma_keep n) (window n i (closes cs)).
Proof. intros cs hid n H. eexists. split; [now apply smma_is|]. intros i y. apply smma_closed. Qed.
(** The weights are those of a mean: they add up to 1. *)
Theorem C99_weights_sum : forall w i, w ^ i + (1 - w) * discounted w (repeat 1 i) = 1.
Proof.
  intros w i. induction i as [|i IH]; [simpl; lra|]. cbn [repeat discounted pow]. rewrite repeat_length.
  replace (w * w ^ i + (1 - w) * (w ^ i * 1 + discounted w (repeat 1 i))) with (w ^ i + (1 - w) * discounted w (repeat 1 i)) by ring. exact IH.
Qed.

(** ** Superposition (exact arithmetic) *)
(** The average of a*x + b*y + d is a*(average of x) + b*(average of y) + d. *)
Theorem C99_superposition : forall a b d (cs cs' mixed : list (candle R)) n, (0 < n <= length cs)%nat -> length cs = length cs' ->
  closes mixed = mix a b d (closes cs) (closes cs') ->
  (exists out out', moving_average (GSlice cs []) (Z.of_nat n) = Ret (out, None) /\ moving_average (GSlice cs' []) (Z.of_nat n) = Ret (out', None) /\
     moving_average (GSlice mixed []) (Z.of_nat n) = Ret (mix a b d out out', None)) /\
  (exists out out', exponential_moving_average (GSlice cs []) (Z.of_nat n) = Ret (out, None) /\
     exponential_moving_average (GSlice cs' []) (Z.of_nat n) = Ret (out', None) /\
     exponential_moving_average (GSlice mixed []) (Z.of_nat n) = Ret (mix a b d out out', None)) /\
  (exists out out', smoothed_moving_average (GSlice cs []) (Z.of_nat n) = Ret (out, None) /\
     smoothed_moving_average (GSlice cs' []) (Z.of_nat n) = Ret (out', None) /\
     smoothed_moving_average (GSlice mixed []) (Z.of_nat n) = Ret (mix a b d out out', None)).
Proof.
  intros a b d cs cs' mixed n H L E.
  assert (length (closes cs) = length cs /\ length (closes cs') = length cs') as [L1 L2] by (split; apply map_length).
  assert (length mixed = length cs) as LM.
  { transitivity (length (closes mixed)); [symmetry; apply map_length|]. rewrite E, mix_length; lia. }
  split; [|split]; eexists; eexists.
  - split; [now apply ma_is|]. split; [apply ma_is; lia|]. rewrite ma_is by lia. rewrite E, LM, <- L. now rewrite ma_mix by lia.
  - split; [now apply ema_is|]. split; [apply ema_is; lia|]. rewrite ema_is by lia. rewrite E. now rewrite ema_mix by lia.
  - split; [now apply smma_is|]. split; [apply smma_is; lia|]. rewrite smma_is by lia. rewrite E. now rewrite smma_mix by lia.
Qed.
(** The volatility is linear in the ranges of the candles. *)
Theorem C99_volatility_superposition : forall a b (cs cs' mixed : list (candle R)) beta, length cs = length cs' ->
  ranges mixed = mix a b 0 (ranges cs) (ranges cs') -> ewv mixed beta = a * ewv cs beta + b * ewv cs' beta.
Proof.
  intros a b cs cs' mixed beta L E. rewrite !ewv_closed. change (map range_of mixed) with (ranges mixed).
  rewrite E, discounted_mix by (unfold ranges; now rewrite !map_length). change (map range_of cs) with (ranges cs). change (map range_of cs') with (ranges cs'). ring.
Qed.

(** ** Forgetting (exact arithmetic) *)
(** Two series at most [D] apart, equal from candle [k] on: an entry that has
    taken in [j] of the common candles differs by at most [keep^j * D]; with
    [j = 0], no entry ever differs by more than [D]. *)
Theorem C99_exponential_forgets : forall (cs cs' : list (candle R)) D k n, (0 < n <= length cs)%nat -> apart_until D k (closes cs) (closes cs') ->
  exists out out', exponential_moving_average (GSlice cs []) (Z.of_nat n) = Ret (out, None) /\
    exponential_moving_average (GSlice cs' []) (Z.of_nat n) = Ret (out', None) /\ length out = length out' /\
    forall i j y y', nth_error out i = Some y -> nth_error out' i = Some y' ->
      (j <= i)%nat -> (k + j <= n + 1 + i)%nat -> Rabs (y - y') <= D * ema_keep n ^ j.
Proof.
  intros cs cs' D k n H A. assert (length (closes cs) = length cs /\ length (closes cs') = length cs') as [L1 L2] by (split; apply map_length).
  pose proof (proj1 A) as L. exists (ema_exact n (closes cs)), (ema_exact n (closes cs')).
  split; [now apply ema_is|]. split; [apply ema_is; lia|]. split.
  - unfold ema_exact. assert (length (skipn n (closes cs)) = length (skipn n (closes cs'))) as Ls by (rewrite !skipn_length; lia).
    destruct (skipn n (closes cs)) as [|c r], (skipn n (closes cs')) as [|c' r']; cbn [List.length] in Ls; try discriminate Ls; [reflexivity|].
    cbn [List.length]. rewrite !iterates_length. lia.
  - intros i j y y' E E' J K. apply (ema_forget D k n (closes cs) (closes cs') i j); try assumption. lia.
Qed.
Theorem C99_smoothed_forgets : forall (cs cs' : list (candle R)) D k n, (0 < n <= length cs)%nat -> apart_until D k (closes cs) (closes cs') ->
  exists out out', smoothed_moving_average (GSlice cs []) (Z.of_nat n) = Ret (out, None) /\
    smoothed_moving_average (GSlice cs' []) (Z.of_nat n) = Ret (out', None) /\ length out = length out' /\
    forall i j y y', nth_error out i = Some y -> nth_error out' i = Some y' ->
      (j <= i)%nat -> (k + j <= n + i)%nat -> Rabs (y - y') <= D * smma_keep n ^ j.
Proof.
  intros cs cs' D k n H A. assert (length (closes cs) = length cs /\ length (closes cs') = length cs') as [L1 L2] by (split; apply map_length).
  pose proof (proj1 A) as L. exists (smma_exact n (closes cs)), (smma_exact n (closes cs')).
  split; [now apply smma_is|]. split; [apply smma_is; lia|]. split.
  - unfold smma_exact. cbv zeta. cbn [List.length]. rewrite !iterates_length, !skipn_length. lia.
  - intros i j y y' E E' J K. apply (smma_forget D k n (closes cs) (closes cs') i j); try assumption. lia.
Qed.
Theorem C99_volatility_forgets : forall (cs cs' : list (candle R)) D k j beta, 0 <= D -> 0 <= beta <= 1 ->
  apart_until D k (ranges cs) (ranges cs') -> (k + j <= length cs)%nat -> Rabs (ewv cs beta - ewv cs' beta) <= D * beta ^ j.
Proof. intros cs cs' D k j beta HD Hb A K. apply (ewv_forget D k); try assumption. lia. Qed.

(** No entry ever differs by more than the closes do. *)
Theorem C99_never_further : forall (cs cs' : list (candle R)) D k n, (0 < n <= length cs)%nat -> apart_until D k (closes cs) (closes cs') ->
  (exists out out', exponential_moving_average (GSlice cs []) (Z.of_nat n) = Ret (out, None) /\
     exponential_moving_average (GSlice cs' []) (Z.of_nat n) = Ret (out', None) /\
     forall i y y', nth_error out i = Some y -> nth_error out' i = Some y' -> Rabs (y - y') <= D) /\
  (exists out out', smoothed_moving_average (GSlice cs []) (Z.of_nat n) = Ret (out, None) /\
     smoothed_moving_average (GSlice cs' []) (Z.of_nat n) = Ret (out', None) /\
     forall i y y', nth_error out i = Some y -> nth_error out' i = Some y' -> Rabs (y - y') <= D).
Proof.
  intros cs cs' D k n H A. assert (length (closes cs) = length cs /\ length (closes cs') = length cs') as [L1 L2] by (split; apply map_length).
  pose proof (proj1 A) as L. split.
  - exists (ema_exact n (closes cs)), (ema_exact n (closes cs')). split; [now apply ema_is|]. split; [apply ema_is; lia|].
    intros i y y' E E'. apply (ema_apart D k n (closes cs) (closes cs') i); try assumption. lia.
  - exists (smma_exact n (closes cs)), (smma_exact n (closes cs')). split; [now apply smma_is|]. split; [apply smma_is; lia|].
    intros i y y' E E'. apply (smma_apart D k n (closes cs) (closes cs') i); try assumption. lia.
Qed.

(** ** Forgetting (float64) *)
(** The plain average of [n] candles forgets completely: entries beyond the
    last difference are the same machine numbers. *)
Theorem C99_moving_average_forgets : forall (cs cs' : list (candle f64)) k n, (0 < n <= length cs)%nat -> length cs = length cs' ->
  skipn k (closes cs) = skipn k (closes cs') ->
  exists xs xs', moving_average (GSlice cs []) (Z.of_nat n) = Ret (xs, None) /\
    moving_average (GSlice cs' []) (Z.of_nat n) = Ret (xs', None) /\ skipn k xs = skipn k xs'.
Proof.
  intros cs cs' k n H L E. eexists. eexists. split; [now apply (@moving_average_spec f64 f64_num)|].
  split; [apply (@moving_average_spec f64 f64_num); lia|]. rewrite !skipn_map, <- L. apply map_ext_in. intros j Hj.
  assert (k <= j)%nat as K.
  { clear - Hj. assert (forall m s, In j (skipn k (seq s m)) -> (s + k <= j)%nat) as G; [|apply G in Hj; lia].
    clear Hj. induction k as [|k IH]; intros m s Hj; [apply in_seq in Hj; lia|]. destruct m as [|m]; [contradiction Hj|].
    cbn [seq skipn] in Hj. apply IH in Hj. lia. }
  unfold window. replace j with ((j - k) + k)%nat by lia.
  assert (forall l : list f64, skipn ((j - k) + k) l = skipn (j - k) (skipn k l)) as SS.
  { clear. generalize (j - k)%nat as d. induction k as [|k IH]; intros d l; [now rewrite Nat.add_0_r|]. rewrite Nat.add_succ_r. destruct l as [|x l]; [now rewrite !skipn_nil|]. apply IH. }
  now rewrite !SS, E.
Qed.

Lemma nth_nil {A} i : nth_error (@nil A) i = None.
Proof. now destruct i. Qed.
Lemma far_closes M (cs cs' : list (candle f64)) k : length cs = length cs' ->
  Forall (fun c => within_mag M (c_close c)) cs -> Forall (fun c => within_mag M (c_close c)) cs' ->
  skipn k (closes cs) = skipn k (closes cs') ->
  apart_until (2 * M) k (closes (map exact_candle cs)) (closes (map exact_candle cs')).
Proof.
  intros L F F' E. unfold closes. rewrite !map_map. cbn [exact_candle c_close]. split; [now rewrite !map_length|].
  intros i x x' N N'. rewrite nth_error_map in N, N'.
  destruct (nth_error cs i) as [c|] eqn:Ec; [|discriminate N]. destruct (nth_error cs' i) as [c'|] eqn:Ec'; [|discriminate N'].
  cbn [option_map] in N, N'. injection N as <-. injection N' as <-. split.
  - apply nth_error_In in Ec, Ec'. rewrite Forall_forall in F, F'. destruct (F _ Ec) as [_ B], (F' _ Ec') as [_ B'].
    unfold Rminus. eapply Rle_trans; [apply Rabs_triang|]. rewrite Rabs_Ropp. lra.
  - intros K. assert (forall l : list f64, nth_error (skipn k l) (i - k) = nth_error l i) as S.
    { clear - K. revert i K. induction k as [|k IH]; intros i K l; [now rewrite Nat.sub_0_r|]. destruct l as [|x l]; [rewrite skipn_nil, !nth_nil; reflexivity|].
      destruct i as [|i]; [lia|]. cbn [skipn nth_error]. apply (IH i). lia. }
    pose proof (f_equal (fun l => nth_error l (i - k)) E) as Q. cbv beta in Q. rewrite !S in Q. unfold closes in Q.
    rewrite !nth_error_map, Ec, Ec' in Q. cbn [option_map] in Q. injection Q as Q. now rewrite Q.
Qed.
Lemma Forall2_nth_l {A B} (P : A -> B -> Prop) l m i x : Forall2 P l m -> nth_error l i = Some x -> exists y, nth_error m i = Some y /\ P x y.
Proof.
  intros F. revert i. induction F as [|a b l m H F IH]; intros i E; [destruct i; discriminate E|].
  destruct i as [|i]; [injection E as <-; exists b; split; [reflexivity|exact H]|]. now apply IH.
Qed.
Lemma triangle a b x x' y y' d : Rabs (x - y) <= a -> Rabs (x' - y') <= b -> Rabs (y - y') <= d -> Rabs (x - x') <= d + (a + b).
Proof. intros H1 H2 H3. apply Rabs_le_inv in H1, H2, H3. apply Rabs_le. lra. Qed.

(** Closes of magnitude at most [M], whatever they were before candle [k]. *)
Theorem C99_exponential_forgets_float : forall (cs cs' : list (candle f64)) M k n, scale M -> few cs -> (0 < n <= length cs)%nat ->
  length cs = length cs' -> Forall (fun c => within_mag M (c_close c)) cs -> Forall (fun c => within_mag M (c_close c)) cs' ->
  skipn k (closes cs) = skipn k (closes cs') ->
  exists xs xs', exponential_moving_average (GSlice cs []) (Z.of_nat n) = Ret (xs, None) /\
    exponential_moving_average (GSlice cs' []) (Z.of_nat n) = Ret (xs', None) /\
    forall i j x x', nth_error xs i = Some x -> nth_error xs' i = Some x' -> (j <= i)%nat -> (k + j <= n + 1 + i)%nat ->
      Rabs (real x - real x') <= 2 * M * ema_keep n ^ j + 26 * INR (length cs) * eps * M.
Proof.
  intros cs cs' M k n HM Hf Hn L F F' E.
  destruct (C74_exponential_accuracy cs n M HM Hf Hn F) as (xs & ys & X & Y & P).
  destruct (C74_exponential_accuracy cs' n M HM ltac:(unfold few in *; now rewrite <- L) ltac:(lia) F') as (xs' & ys' & X' & Y' & P').
  destruct (C99_exponential_forgets (map exact_candle cs) (map exact_candle cs') (2 * M) k n ltac:(rewrite map_length; lia) (far_closes M cs cs' k L F F' E))
    as (out & out' & O & O' & _ & B).
  rewrite Y in O. rewrite Y' in O'. injection O as <-. injection O' as <-.
  exists xs, xs'. split; [exact X|]. split; [exact X'|]. intros i j x x' N N' J K.
  destruct (Forall2_nth_l _ _ _ _ _ P N) as (y & Ny & _ & Dy). destruct (Forall2_nth_l _ _ _ _ _ P' N') as (y' & Ny' & _ & Dy').
  rewrite <- L in Dy'. replace (26 * INR (length cs) * eps * M) with (13 * INR (length cs) * eps * M + 13 * INR (length cs) * eps * M) by ring.
  eapply triangle; [exact Dy|exact Dy'|]. now apply (B i j).
Qed.
Theorem C99_smoothed_forgets_float : forall (cs cs' : list (candle f64)) M k n, scale M -> few cs -> (0 < n <= length cs)%nat ->
  length cs = length cs' -> Forall (fun c => within_mag M (c_close c)) cs -> Forall (fun c => within_mag M (c_close c)) cs' ->
  skipn k (closes cs) = skipn k (closes cs') ->
  exists xs xs', smoothed_moving_average (GSlice cs []) (Z.of_nat n) = Ret (xs, None) /\
    smoothed_moving_average (GSlice cs' []) (Z.of_nat n) = Ret (xs', None) /\
    forall i j x x', nth_error xs i = Some x -> nth_error xs' i = Some x' -> (j <= i)%nat -> (k + j <= n + i)%nat ->
      Rabs (real x - real x') <= 2 * M * smma_keep n ^ j + 26 * INR (length cs) * eps * M.
Proof.
  intros cs cs' M k n HM Hf Hn L F F' E.
  destruct (C74_smoothed_accuracy cs n M HM Hf Hn F) as (xs & ys & X & Y & P).
  destruct (C74_smoothed_accuracy cs' n M HM ltac:(unfold few in *; now rewrite <- L) ltac:(lia) F') as (xs' & ys' & X' & Y' & P').
  destruct (C99_smoothed_forgets (map exact_candle cs) (map exact_candle cs') (2 * M) k n ltac:(rewrite map_length; lia) (far_closes M cs cs' k L F F' E))
    as (out & out' & O & O' & _ & B).
  rewrite Y in O. rewrite Y' in O'. injection O as <-. injection O' as <-.
  exists xs, xs'. split; [exact X|]. split; [exact X'|]. intros i j x x' N N' J K.
  destruct (Forall2_nth_l _ _ _ _ _ P N) as (y & Ny & _ & Dy). destruct (Forall2_nth_l _ _ _ _ _ P' N') as (y' & Ny' & _ & Dy').
  rewrite <- L in Dy'. replace (26 * INR (length cs) * eps * M) with (13 * INR (length cs) * eps * M + 13 * INR (length cs) * eps * M) by ring.
  eapply triangle; [exact Dy|exact Dy'|]. now apply (B i j).
Qed.
Theorem C99_volatility_forgets_float : forall (cs cs' : list (candle f64)) (beta : f64) M k j, scale M -> few cs -> is_finite beta = true -> 0 <= real beta <= 1 ->
  length cs = length cs' ->
  Forall (fun c => within_mag M (c_high c) /\ within_mag M (c_low c)) cs -> Forall (fun c => within_mag M (c_high c) /\ within_mag M (c_low c)) cs' ->
  skipn k cs = skipn k cs' -> (k + j <= length cs)%nat ->
  Rabs (real (ewv cs beta) - real (ewv cs' beta)) <= 4 * M * real beta ^ j + 24 * INR (length cs) * eps * M.
Proof.
  intros cs cs' beta M k j HM Hf Fb Hb L F F' E K.
  destruct (C74_volatility_accuracy cs beta M HM Hf Fb Hb F) as [_ D].
  destruct (C74_volatility_accuracy cs' beta M HM ltac:(unfold few in *; now rewrite <- L) Fb Hb F') as [_ D'].
  rewrite <- L in D'. replace (24 * INR (length cs) * eps * M) with (12 * INR (length cs) * eps * M + 12 * INR (length cs) * eps * M) by ring.
  assert (0 < M) as MP by (destruct HM as [HM _]; pose proof (bpow_gt_0 radix2 (-900)); lra).
  eapply triangle; [exact D|exact D'|]. apply (C99_volatility_forgets _ _ (4 * M) k j); [lra|exact Hb| |rewrite map_length; exact K].
  unfold ranges. rewrite !map_map. cbn [exact_candle c_high c_low]. split; [now rewrite !map_length|].
  intros i x x' N N'. rewrite nth_error_map in N, N'.
  destruct (nth_error cs i) as [c|] eqn:Ec; [|discriminate N]. destruct (nth_error cs' i) as [c'|] eqn:Ec'; [|discriminate N'].
  cbn [option_map] in N, N'. injection N as <-. injection N' as <-. split.
  - apply nth_error_In in Ec, Ec'. rewrite Forall_forall in F, F'. destruct (F _ Ec) as [[_ B1] [_ B2]], (F' _ Ec') as [[_ B3] [_ B4]].
    apply Rabs_le_inv in B1, B2, B3, B4. apply Rabs_le. lra.
  - intros Ki. assert (forall l : list (candle f64), nth_error (skipn k l) (i - k) = nth_error l i) as S.
    { clear - Ki. revert i Ki. induction k as [|k IH]; intros i Ki l; [now rewrite Nat.sub_0_r|]. destruct l as [|x l]; [rewrite skipn_nil, !nth_nil; reflexivity|].
      destruct i as [|i]; [lia|]. cbn [skipn nth_error]. apply (IH i). lia. }
    pose proof (f_equal (fun l => nth_error l (i - k)) E) as Q. cbv beta in Q. rewrite !S, Ec, Ec' in Q. injection Q as Q. now rewrite Q.
Qed.

(** Four candles at 1000 and four at 0, then three at 8: the averages of 3
    candles, 1000 apart, halve their distance with each common candle. *)
Definition ex_high : list (candle f64) := [cl 1000; cl 1000; cl 1000; cl 1000; cl 8; cl 8; cl 8].
Definition ex_low : list (candle f64) := [cl 0; cl 0; cl 0; cl 0; cl 8; cl 8; cl 8].
Definition shown_values (r : go (list f64 * option err)) : list Z := match r with Ret (l, None) => map f2i l | _ => [] end.
Example C99_example :
  shown_values (exponential_moving_average (GSlice ex_high []) 3) = [1000; 504; 256; 132]%Z /\
  shown_values (exponential_moving_average (GSlice ex_low []) 3) = [0; 4; 6; 7]%Z /\
  skipn 4 (closes ex_high) = skipn 4 (closes ex_low) /\ ema_keep 3 = 1 / 2 /\
  Forall (fun c => within_mag 1024 (c_close c)) ex_high /\ Forall (fun c => within_mag 1024 (c_close c)) ex_low /\ scale 1024 /\ few ex_high /\
  apart_until 1000 4 (closes (map exact_candle ex_high)) (closes (map exact_candle ex_low)).
Proof.
  split; [vm_compute; reflexivity|]. split; [vm_compute; reflexivity|]. split; [reflexivity|].
  split; [unfold ema_keep; replace (INR 3) with 3 by (cbn; lra); lra|].
  split; [repeat (apply Forall_cons; [apply close_mag; [lia|apply IZR_le; lia]|]); apply Forall_nil|].
  split; [repeat (apply Forall_cons; [apply close_mag; [lia|apply IZR_le; lia]|]); apply Forall_nil|].
  split; [change 1024 with (bpow radix2 10); apply scale_int; lia|].
  split; [apply small_few; cbn; lia|].
  assert (forall z, (Z.abs z <= 2 ^ 53)%Z -> real (i2f z) = IZR z) as V by (intros z Hz; unfold real; apply i2f_B2R; unfold exact_int; lia).
  unfold closes. rewrite !map_map. cbn [ex_high ex_low map exact_candle cl c_close]. rewrite !V by lia.
  split; [reflexivity|]. intros i x x' N N'.
  do 7 (destruct i as [|i]; [injection N as <-; injection N' as <-; split; [apply Rabs_le; lra|intros K; try lra; lia]|]).
  destruct i; discriminate N.
Qed.

Print Assumptions C99_exponential_weights.
Print Assumptions C99_smoothed_weights.
Print Assumptions C99_weights_sum.
Print Assumptions C99_superposition.
Print Assumptions C99_volatility_superposition.
Print Assumptions C99_exponential_forgets.
Print Assumptions C99_smoothed_forgets.
Print Assumptions C99_volatility_forgets.
Print Assumptions C99_moving_average_forgets.
Print Assumptions C99_exponential_forgets_float.
Print Assumptions C99_smoothed_forgets_float.
Print Assumptions C99_volatility_forgets_float.
