(** Property C121: the indicators of a resampled series.
    Model: Model/Candle.v, Model/Indicators.v; vocabulary: Spec/ThinSpec.v. *)
From Coq Require Import List Reals Lra Lia.
From Flocq Require Import Core BinarySingleNaN.
From Verif Require Import Go.Outcome Go.Int64 Go.Slice Go.Float64 Go.FloatReal Go.FloatError Go.FloatOrder Go.Num Model.Candle Model.Indicators
  Spec.CandleSpec Spec.IndicatorSpec Spec.AccuracySpec Spec.RsiSpec Spec.RsiShapeSpec Spec.FieldsSpec Spec.MonotoneSpec Spec.ThinSpec
  Proofs.RSI Proofs.RSIError Proofs.Accuracy Proofs.RsiShape Proofs.Thin Props.AccuracyProps Props.RsiProps Props.RsiShapeProps Props.CandleProps Props.FieldsProps Props.MonotoneProps.
Import ListNotations.
Open Scope list_scope.
Open Scope R_scope.
Local Notation length := List.length.
Local Notation concat := List.concat.

Lemma summary_lasts gs out : Forall2 summary gs out -> exists lasts, Forall2 last_is gs lasts /\ map (@c_close f64) lasts = map (@c_close f64) out.
Proof.
  induction 1 as [|g c gs out S _ (ls & L & E)]; [exists []; split; constructor|].
  destruct S as (_ & (l & Ll & El) & _). exists (l :: ls). split; [now constructor|]. cbn [map]. now rewrite E, El.
Qed.

(** Averages and RSI of the resampled series are those of the last candles of
    the groups, bit for bit. *)
Theorem C121_last_candles : forall tz cs n out, (2 <= zlen cs)%Z -> modify_interval tz cs n = Ret (out, None) ->
  exists skipped gs lasts, grouped tz n cs skipped gs /\ Forall2 summary gs out /\ Forall2 last_is gs lasts /\
    forall spare spare' p,
      moving_average (GSlice out spare) p = moving_average (GSlice lasts spare') p /\
      exponential_moving_average (GSlice out spare) p = exponential_moving_average (GSlice lasts spare') p /\
      smoothed_moving_average (GSlice out spare) p = smoothed_moving_average (GSlice lasts spare') p /\
      rsi f64_to_f32 (GSlice out spare) p = rsi f64_to_f32 (GSlice lasts spare) p.
Proof.
  intros tz cs n out L E. destruct (C19_groups_partition_and_summarise tz cs n out L E) as (skipped & gs & G & Su).
  destruct (summary_lasts gs out Su) as (lasts & La & Cl). exists skipped, gs, lasts. split; [assumption|]. split; [assumption|]. split; [assumption|].
  intros spare spare' p.
  split; [apply C108_moving_average|split; [apply C108_exponential|split; [apply C108_smoothed|apply C108_rsi]]]; repeat split; now symmetry.
Qed.

(** The volatility of the resampled series is at least that of one candle of
    each group, whichever is picked. *)
Theorem C121_volatility : forall tz cs n out (beta : f64), (2 <= zlen cs)%Z -> Forall sane_candle cs ->
  modify_interval tz cs n = Ret (out, None) -> is_finite beta = true -> 0 <= B2R beta <= 1 ->
  exists skipped gs, grouped tz n cs skipped gs /\ Forall2 summary gs out /\
    forall picked, Forall2 (fun g c => In c g) gs picked -> not_above (ewv picked beta) (ewv out beta).
Proof.
  intros tz cs n out beta L Sa E Fb Bb. destruct (C19_groups_partition_and_summarise tz cs n out L E) as (skipped & gs & G & Su).
  exists skipped, gs. split; [assumption|]. split; [assumption|]. intros picked P.
  apply C81_volatility; [|assumption|exact Bb].
  assert (Forall (Forall sane_candle) gs) as Sg.
  { destruct G as (-> & _). apply Forall_app in Sa. destruct Sa as [_ Sa]. apply Forall_concat. exact Sa. }
  clear - Su Sg P. revert picked P. induction Su as [|g c gs out S _ IH]; intros picked P; inversion P as [|? d ? ps I P']; subst; [constructor|].
  inversion Sg as [|? ? Sg1 Sg2]; subst. constructor; [|now apply IH].
  destruct S as (_ & _ & Hi & Lo & _).
  split; [apply Hi|apply Lo]; try (apply in_map; assumption); eapply Forall_impl; [|exact Sg1| |exact Sg1]; intros v [? ?]; assumption.
Qed.

(** Leaving out candles, except the first and last of the window, moves the
    index away from 50. *)
Local Notation value w := (B2R (f64_to_f32 (rsi_value w))).
Theorem C121_thinned : forall fine coarse, thinned (real_closes fine) (real_closes coarse) -> measurable fine -> measurable coarse ->
  (hd 0 (real_closes fine) <= last (real_closes fine) 0 -> value fine <= value coarse + 2 * rsi_error fine) /\
  (last (real_closes fine) 0 <= hd 0 (real_closes fine) -> value coarse <= value fine + 2 * rsi_error fine).
Proof.
  intros f c Tr Mf Mc. pose proof (C113_net_over_distance f Mf) as Nf. pose proof (C113_net_over_distance c Mc) as Nc.
  destruct Mc as (_ & Mv & _). apply moving_travelled in Mv.
  destruct (net_index_further _ _ Tr Mv) as [I1 I2]. fold (net_move (real_closes f)) in Nf. fold (net_move (real_closes c)) in Nc.
  fold (net_index (real_closes f)) in Nf. fold (net_index (real_closes c)) in Nc.
  assert (rsi_error c <= rsi_error f) as Er.
  { unfold rsi_error. apply thinned_length in Tr. unfold real_closes in Tr. rewrite !map_length in Tr. apply le_INR in Tr.
    apply Rplus_le_compat_l, Rmult_le_compat_r; [left; apply bpow_gt_0|].
    apply Rmult_le_compat_l; [lra|]. apply Rplus_le_compat_r, Rmult_le_compat_l; [lra|exact Tr]. }
  apply Rabs_le_inv in Nf, Nc. split; intros K; [specialize (I1 K)|specialize (I2 K)]; lra.
Qed.

Lemma forall2_window {A B} (P : A -> B -> Prop) l m i n : Forall2 P l m -> Forall2 P (window i n l) (window i n m).
Proof.
  intros H. unfold window. revert i n. induction H as [|a b l m p H IH]; intros [|i] n; cbn [skipn]; try (rewrite !firstn_nil; constructor); [|apply IH].
  destruct n as [|n]; [constructor|]. cbn [firstn]. constructor; [assumption|]. apply (IH 0%nat n).
Qed.
Lemma window_in {A} (l : list A) i n x : In x (window i n l) -> In x l.
Proof.
  unfold window. intros H. rewrite <- (firstn_skipn i l). apply in_or_app. right. rewrite <- (firstn_skipn n (skipn i l)). apply in_or_app. now left.
Qed.
Lemma window_next {A} (l : list A) i n a : nth_error l i = Some a -> window i (S n) l = a :: window (S i) n l.
Proof.
  unfold window. revert i. induction l as [|b l IH]; intros [|i] E; try discriminate.
  - injection E as ->. reflexivity.
  - cbn in E. cbn [skipn]. rewrite (IH i E). destruct l; [destruct i; discriminate|reflexivity].
Qed.
(** So every RSI of a resampled series is at least as far from 50, on the same
    side, as that of the candles it covers: from the last candle of its first
    group to the last candle of its last group. *)
Theorem C121_rsi : forall tz cs n out spare (p : nat) vs M, scale M -> few cs -> Forall (fun c => within_mag M (c_close c)) cs ->
  (2 <= zlen cs)%Z -> modify_interval tz cs n = Ret (out, None) -> (1 <= p)%nat ->
  rsi f64_to_f32 (GSlice out spare) (Z.of_nat p) = Ret (vs, None) ->
  exists skipped gs, grouped tz n cs skipped gs /\ Forall2 summary gs out /\
    forall j g l r, (j + p < length out)%nat -> nth_error gs j = Some g -> last_is g l -> nth_error vs j = Some r ->
      moving (window j (S p) out) ->
      let fine := l :: concat (window (S j) p gs) in
      moving fine /\
      (B2R (c_close l) <= last (real_closes fine) 0 -> value fine <= B2R r + 2 * rsi_error fine) /\
      (last (real_closes fine) 0 <= B2R (c_close l) -> B2R r <= value fine + 2 * rsi_error fine).
Proof.
  intros tz cs n out spare p vs M Sc Fw Cm L E P R. destruct (C19_groups_partition_and_summarise tz cs n out L E) as (skipped & gs & G & Su).
  exists skipped, gs. split; [assumption|]. split; [assumption|]. intros j g l r Lj Eg Ll Er Mv fine.
  destruct (summary_lasts gs out Su) as (lasts & La & Cl). destruct G as (Ecs & _ & _ & Ne).
  assert (nth_error lasts j = Some l) as El.
  { clear - La Eg Ll. revert j Eg. induction La as [|g' k gs ls Lk La IH]; intros [|j] Eg; try discriminate; cbn in Eg |- *; [|now apply IH].
    injection Eg as ->. f_equal. destruct Ll as (r1 & E1), Lk as (r2 & E2). rewrite E1 in E2. apply app_inj_tail in E2. symmetry. apply E2. }
  assert (real_closes (window j (S p) out) = real_closes (l :: window (S j) p lasts)) as Ec.
  { rewrite <- (window_next _ _ _ _ El). unfold real_closes, window.
    transitivity (firstn (S p) (skipn j (map (@B2R 53 1024) (map (@c_close f64) out)))).
    - now rewrite map_map, skipn_map, firstn_map.
    - rewrite <- Cl. now rewrite map_map, skipn_map, firstn_map. }
  assert (thinned (real_closes fine) (real_closes (window j (S p) out))) as T.
  { rewrite Ec. unfold fine, real_closes. apply thinned_map. apply groups_thinned. now apply forall2_window. }
  assert (incl fine cs) as Ic.
  { assert (incl (concat gs) cs) as I1 by (rewrite Ecs; intros x I; apply in_or_app; now right).
    intros x [<-|I].
    - apply I1. apply in_concat. exists g. split; [eapply nth_error_In; eassumption|]. destruct Ll as (q & ->). apply in_or_app. right. now left.
    - apply I1. apply in_concat in I. destruct I as (h & Ih & Ix). apply in_concat. exists h. split; [now apply window_in in Ih|assumption]. }
  assert (length fine <= length cs)%nat as Lf.
  { assert (gs = firstn j gs ++ g :: window (S j) p gs ++ skipn p (skipn (S j) gs)) as Es.
    { rewrite <- (firstn_skipn j gs) at 1. f_equal. transitivity (g :: skipn (S j) gs).
      - pose proof (window_next gs j (length gs) g Eg) as W. unfold window in W.
        rewrite (firstn_all2 (skipn j gs)) in W by (rewrite skipn_length; lia). rewrite W. f_equal. apply firstn_all2. rewrite skipn_length. lia.
      - f_equal. unfold window. now rewrite firstn_skipn. }
    apply (f_equal (fun x => length (concat x))) in Es. cbv beta in Es. rewrite concat_app in Es. cbn [List.concat] in Es.
    rewrite concat_app, !app_length in Es. rewrite Ecs, app_length. unfold fine. cbn [length].
    assert (1 <= length g)%nat by (destruct Ll as (q & ->); rewrite app_length; cbn; lia). lia. }
  assert (few fine) as Ff by (unfold few in *; eapply Rle_trans; [|exact Fw]; now apply le_INR).
  pose proof (thinned_length _ _ T) as Tl. unfold real_closes in Tl. rewrite !map_length in Tl.
  assert (moving fine) as Mf.
  { apply moving_travelled in Mv. apply moving_travelled. pose proof (thinned_shorter _ _ T). lra. }
  assert (measurable fine) as Hf.
  { split; [assumption|]. split; [assumption|]. exists M. split; [assumption|]. rewrite Forall_forall in Cm |- *. intros c I. apply Cm, Ic, I. }
  assert (measurable (window j (S p) out)) as Hc.
  { split; [unfold few in *; eapply Rle_trans; [|exact Ff]; now apply le_INR|]. split; [assumption|]. exists M. split; [assumption|].
    assert (forall c, In c out -> exists d, In d cs /\ c_close d = c_close c) as Cd.
    { intros c I. assert (In (c_close c) (map (@c_close f64) lasts)) as I2 by (rewrite Cl; now apply in_map).
      apply in_map_iff in I2. destruct I2 as (d & Ed & Id). exists d. split; [|assumption]. rewrite Ecs. apply in_or_app. right.
      clear - La Id. induction La as [|g k gs ls (q & ->) La IH]; [destruct Id|]. cbn [List.concat]. apply in_or_app.
      destruct Id as [->|Id]; [left; apply in_or_app; right; now left|right; auto]. }
    rewrite Forall_forall in Cm |- *. intros c I. apply window_in in I. destruct (Cd c I) as (d & Id & <-). now apply Cm. }
  assert (r = f64_to_f32 (rsi_value (window j (S p) out))) as ->.
  { destruct (Z.lt_ge_cases (zlen out) 14) as [Q|Q].
    { unfold rsi in R. cbn [is_nil vis] in R. rewrite (proj2 (Z.ltb_lt _ _) Q) in R. discriminate. }
    assert (Z.of_nat p <= zlen out)%Z as Lp by (unfold zlen; lia).
    destruct (rsi_cases f64_to_f32 out spare (Z.of_nat p) Q) as (_ & C2 & C3).
    assert (spare <> []) as Hs by (intros ->; rewrite C3 in R by (right; right; split; [lia|reflexivity]); discriminate).
    rewrite (C2 ltac:(lia) Hs) in R. assert (map (fun j => f64_to_f32 (rsi_value (window j (Z.to_nat (Z.of_nat p + 1)) (out ++ spare)))) (seq 0 (Z.to_nat (zlen out + 1 - Z.of_nat p))) = vs) as Ev by congruence.
    rewrite <- Ev in Er. rewrite nth_error_map in Er. rewrite (nth_error_nth' _ 0%nat) in Er by (rewrite seq_length; unfold zlen; lia).
    rewrite seq_nth in Er by (unfold zlen; lia). cbn [option_map] in Er. assert (forall a b : f32, Some a = Some b -> b = a) as Si by congruence.
    rewrite (Si _ _ Er). do 2 f_equal. replace (Z.to_nat (Z.of_nat p + 1)) with (S p) by lia. unfold window. cbn [Nat.add].
    rewrite skipn_app, firstn_app. replace (S p - length (skipn j out))%nat with 0%nat by (rewrite skipn_length; lia). cbn [firstn]. now rewrite app_nil_r. }
  split; [assumption|]. destruct (C121_thinned fine (window j (S p) out) T Hf Hc) as [A B]. split; assumption.
Qed.

(** Closes 1, 2, 3, 2, 5 have index 83.3; without the 3 and one 2, as the closes
    of groups of two show them, 100. *)
Lemma small_measurable l : (length l <= 1000)%nat -> Forall (fun z => (-8 <= z <= 8)%Z) l -> 0 < travelled (map IZR l) ->
  measurable (map cl l) /\ real_closes (map cl l) = map IZR l.
Proof.
  intros Ln B T. assert (real_closes (map cl l) = map IZR l) as E.
  { unfold real_closes. rewrite map_map. apply map_ext_in. intros z Hz. rewrite Forall_forall in B. specialize (B z Hz).
    unfold cl. cbn [c_close]. apply i2f_B2R. unfold exact_int. lia. }
  split; [|exact E]. split.
  - unfold few. rewrite map_length. apply Rle_trans with (INR 1000); [now apply le_INR|].
    rewrite INR_IZR_INZ. rewrite <- (IZR_Zpower radix2) by lia. apply IZR_le. vm_compute. discriminate.
  - split; [apply moving_travelled; now rewrite E|]. exists (bpow radix2 3). split; [split; apply bpow_le; lia|].
    apply Forall_map. eapply Forall_impl; [|exact B]. intros z Hz. cbv beta in Hz. unfold cl. cbn [c_close]. split; [apply i2f_finite; unfold exact_int; lia|].
    unfold real. rewrite i2f_B2R by (unfold exact_int; lia). rewrite <- abs_IZR. change (bpow radix2 3) with 8. apply IZR_le. lia.
Qed.
Example C121_example : let fine := map cl [1; 2; 3; 2; 5]%Z in let coarse := map cl [1; 3; 5]%Z in
  thinned (real_closes fine) (real_closes coarse) /\ measurable fine /\ measurable coarse /\
  f2i (rsi_value fine) = 83%Z /\ f2i (rsi_value coarse) = 100%Z.
Proof.
  cbv zeta.
  assert (Rabs (2 - 1) = 1 /\ Rabs (3 - 2) = 1 /\ Rabs (2 - 3) = 1 /\ Rabs (5 - 2) = 3 /\ Rabs (3 - 1) = 2 /\ Rabs (5 - 3) = 2) as (R1 & R2 & R3 & R4 & R5 & R6)
    by (repeat split; first [rewrite Rabs_pos_eq; lra|rewrite Rabs_left; lra]).
  destruct (small_measurable [1; 2; 3; 2; 5]%Z) as [A1 A2]; [cbn; lia|repeat constructor; lia|cbn; rewrite ?R1, ?R2, ?R3, ?R4, ?R5, ?R6; lra|].
  destruct (small_measurable [1; 3; 5]%Z) as [B1 B2]; [cbn; lia|repeat constructor; lia|cbn; rewrite ?R1, ?R2, ?R3, ?R4, ?R5, ?R6; lra|].
  split. { rewrite A2, B2. cbn [map]. apply (thin_next 1 [2] 3). apply (thin_next 3 [2] 5). constructor. }
  split; [exact A1|]. split; [exact B1|]. split; vm_compute; reflexivity.
Qed.
(** A series of 30 one-minute candles, resampled to 15 of two minutes: the
    hypotheses of the theorems on ModifyInterval hold, and the averages are those
    of the last candles. *)
Definition thirty : list (candle f64) :=
  map (fun i => let z := Z.of_nat (i * i mod 7) in mkCandle (60 * Z.of_nat i) (i2f z) (i2f (z + 2)) (i2f (z - 1)) (i2f (z + 1)) (i2f 1)) (seq 0 30).
Definition pairs_of (o : go (list (candle f64) * option err)) : option (list Z) :=
  match o with Ret (l, None) => match moving_average (GSlice l []) 2 with Ret (xs, None) => Some (map (fun x => f2i (f64_mul (i2f 2) x)) xs) | _ => None end | _ => None end.
Example C121_thirty : Forall sane_candle thirty /\
  pairs_of (modify_interval utc thirty 2) = Some [5; 8; 6; 6; 8; 5; 4; 5; 8; 6; 6; 8; 5; 4]%Z /\
  pairs_of (Ret (filter (fun c => Z.odd (c_time c / 60)) thirty, None)) = Some [5; 8; 6; 6; 8; 5; 4; 5; 8; 6; 6; 8; 5; 4]%Z.
Proof.
  split.
  - unfold thirty. cbn [seq map]. repeat (apply Forall_cons; [split; split; reflexivity|]). apply Forall_nil.
  - split; vm_compute; reflexivity.
Qed.

Print Assumptions C121_last_candles.
Print Assumptions C121_volatility.
Print Assumptions C121_thinned.
Print Assumptions C121_rsi.
