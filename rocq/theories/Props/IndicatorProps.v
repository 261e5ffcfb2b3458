(** Properties C53-C60: indicators/ma.go, ewv.go, rsi.go.
    Model: Model/Indicators.v; vocabulary: Spec/IndicatorSpec.v. *)
From Coq Require Import Reals Lra Lia.
From Flocq Require Import Core BinarySingleNaN.
From Verif Require Import Go.Outcome Go.Int64 Go.Slice Go.Float64 Go.FloatOrder Go.FloatReal Go.Num
  Model.Candle Model.Indicators Spec.IndicatorSpec Proofs.MovingAverage Proofs.RSI.
Open Scope list_scope.
Open Scope Z_scope.
Local Notation length := List.length.

(** A candle with close [c]; high and low one above and below. *)
Definition at_close (c : Z) : candle f64 := mkCandle 0 (i2f c) (i2f (c + 1)) (i2f (c - 1)) (i2f c) (i2f 1).
Definition rat_close (c : Z) : candle R := mkCandle 0 (IZR c) (IZR (c + 1)) (IZR (c - 1)) (IZR c) 1%R.
Definition ints {E} (o : go (list f64 * option E)) : option (list Z) :=
  match o with Ret (l, None) => Some (map f2i l) | _ => None end.

(** ** C53 *)
Theorem C53_windowed_sums : forall (cs spare : list (candle f64)) n, (0 < n <= length cs)%nat ->
  moving_average (GSlice cs spare) (Z.of_nat n) =
  Ret (map (fun i => f64_div (fold_left f64_add (window i n (closes cs)) (i2f 0)) (i2f (Z.of_nat n)))
         (seq 0 (length cs - n + 1)), None).
Proof.
  intros cs spare n H. rewrite (@moving_average_spec f64 f64_num) by assumption. do 2 f_equal. apply map_ext_in. intros i Hi. apply in_seq in Hi.
  unfold mean_of, sum_of. cbn [fdiv fadd fofZ f64_num]. do 3 f_equal. unfold window, closes.
  rewrite firstn_length, skipn_length, map_length. lia.
Qed.
(** The same formulas in exact arithmetic: means, between the extreme closes. *)
Theorem C53_exact_mean : forall (cs spare : list (candle R)) n, (0 < n <= length cs)%nat ->
  exists out, moving_average (GSlice cs spare) (Z.of_nat n) = Ret (out, None) /\
    length out = (length cs - n + 1)%nat /\
    forall i, (i < length out)%nat ->
      nth_error out i = Some (rsum (window i n (closes cs)) / INR n)%R /\
      forall lo hi, within lo hi (window i n (closes cs)) ->
        (lo <= rsum (window i n (closes cs)) / INR n <= hi)%R.
Proof.
  intros cs spare n H. rewrite (@moving_average_spec R R_num) by assumption. eexists. split; [reflexivity|].
  rewrite map_length, seq_length. split; [reflexivity|]. intros i Hi.
  assert (length (window i n (closes cs)) = n) as Hl by (unfold window, closes; rewrite firstn_length, skipn_length, map_length; lia).
  assert (window i n (closes cs) <> []) as Hn by (intros K; rewrite K in Hl; simpl in Hl; lia).
  assert (@mean_of R R_num (window i n (closes cs)) = rsum (window i n (closes cs)) / INR n)%R as Hm by (rewrite mean_value by assumption; now rewrite Hl).
  split.
  - rewrite nth_error_map. replace (nth_error (seq 0 (length cs - n + 1)) i) with (Some i).
    + cbn [option_map]. now rewrite Hm.
    + symmetry. rewrite (nth_error_nth' _ 0%nat) by (rewrite seq_length; lia). rewrite seq_nth by lia. reflexivity.
  - intros lo hi W. rewrite <- Hm. now apply mean_within.
Qed.
Theorem C53_bad_input : forall (s : gslice (candle f64)) period,
  is_nil s = true \/ zlen (vis s) < period \/ period <= 0 ->
  exists e, moving_average s period = Ret ([], Some e) /\ err_code e = Some EINVALID.
Proof. intros s period H. destruct (bad_input_ma s period H) as (e & _ & _ & H1 & H2 & _). eauto. Qed.
(** Nothing else can happen: the three cases of [C53_bad_input] and the one of
    [C53_windowed_sums] cover every input. *)
Theorem C53_total : forall (s : gslice (candle f64)) period,
  (is_nil s = true \/ zlen (vis s) < period \/ period <= 0) \/
  exists cs spare n, s = GSlice cs spare /\ period = Z.of_nat n /\ (0 < n <= length cs)%nat.
Proof.
  intros [|cs spare] period; [left; left; reflexivity|]. cbn [vis is_nil]. unfold zlen.
  destruct (Z.lt_ge_cases (Z.of_nat (length cs)) period); [left; auto|]. destruct (Z.le_gt_cases period 0); [left; auto|].
  right. exists cs, spare, (Z.to_nat period). repeat split; lia.
Qed.
Example C53_example :
  ints (moving_average (GSlice (map at_close [1; 2; 6; 4; 8; 3]) []) 3) = Some [3; 4; 6; 5].
Proof. vm_compute. reflexivity. Qed.
Example C53_exact_example : within 1 6 (window 0 3 (closes (map rat_close [1; 2; 6; 4]%Z))).
Proof. repeat (apply Forall_cons; [simpl; lra|]). apply Forall_nil. Qed.
(** With rounding the average can leave the range of the closes: three closes
    0.1 average to more than 0.1. *)
Theorem C53_float_mean_in_range_refuted : exists (c : candle f64) m,
  is_finite (c_close c) = true /\
  moving_average (GSlice [c; c; c] []) 3 = Ret ([m], None) /\ f64_lt (c_close c) m = true.
Proof.
  set (c := mkCandle 0 (i2f 1) (i2f 1) (i2f 0) (f64_const 1 (-1)) (i2f 1)).
  exists c, (f64_div (f64_add (f64_add (f64_add (i2f 0) (c_close c)) (c_close c)) (c_close c)) (i2f 3)).
  split; [vm_compute; reflexivity|]. split; [reflexivity|vm_compute; reflexivity].
Qed.

(** ** C54 *)
Theorem C54_recurrence : forall (cs spare : list (candle f64)) n, (0 < n <= length cs)%nat ->
  let p := f64_div (i2f 2) (f64_add (i2f (Z.of_nat n)) (i2f 1)) in
  let seed := f64_div (fold_left f64_add (firstn n (closes cs)) (i2f 0)) (i2f (Z.of_nat n)) in
  exponential_moving_average (GSlice cs spare) (Z.of_nat n) =
  Ret (match skipn n (closes cs) with
       | [] => []
       | _ :: later =>
           seed :: iterates (fun x c => f64_add (f64_mul c p) (f64_mul x (f64_sub (i2f 1) p))) seed later
       end, None).
Proof.
  intros cs spare n H. cbv zeta. rewrite (@ema_spec f64 f64_num) by assumption. cbv zeta. unfold closes at 4. rewrite skipn_map.
  destruct (skipn n cs) as [|c later]; [reflexivity|]. cbn [map].
  unfold mean_of, sum_of, closes. rewrite firstn_length, map_length, Nat.min_l by lia. reflexivity.
Qed.
Lemma iterates_length {A} (f : R -> A -> R) x l : length (iterates f x l) = length l.
Proof. revert x. induction l as [|a l IH]; intros x; [reflexivity|]. simpl. now rewrite IH. Qed.
Lemma iterates_length64 {A} (f : f64 -> A -> f64) x l : length (iterates f x l) = length l.
Proof. revert x. induction l as [|a l IH]; intros x; [reflexivity|]. simpl. now rewrite IH. Qed.
Theorem C54_length : forall (cs spare : list (candle f64)) n, (0 < n <= length cs)%nat ->
  exists out, exponential_moving_average (GSlice cs spare) (Z.of_nat n) = Ret (out, None) /\
    length out = (length cs - n)%nat.
Proof.
  intros cs spare n H. rewrite C54_recurrence by assumption. eexists. split; [reflexivity|].
  assert (length (skipn n (closes cs)) = length cs - n)%nat as L by (rewrite skipn_length; unfold closes; now rewrite map_length).
  destruct (skipn n (closes cs)) as [|c later]; [assumption|]. cbn [List.length] in *. rewrite iterates_length64. lia.
Qed.
Theorem C54_exact_range : forall (cs spare : list (candle R)) n lo hi, (0 < n <= length cs)%nat ->
  within lo hi (closes cs) ->
  exists out, exponential_moving_average (GSlice cs spare) (Z.of_nat n) = Ret (out, None) /\
    length out = (length cs - n)%nat /\ within lo hi out /\
    (forall x r, out = x :: r -> x = rsum (firstn n (closes cs)) / INR n)%R.
Proof.
  intros cs spare n lo hi H W. rewrite (@ema_spec R R_num) by assumption. eexists. split; [reflexivity|]. cbv zeta.
  assert (length (skipn n cs) = length cs - n)%nat as L by apply skipn_length.
  pose proof (firstn_skipn n cs) as E. assert (length (firstn n cs) = n) as Lf by (rewrite firstn_length; lia).
  assert (length (firstn n (closes cs)) = n) as Lc by (unfold closes; rewrite firstn_length, map_length; lia).
  assert (within lo hi (firstn n (closes cs))) as Wf.
  { unfold within in *. rewrite <- (firstn_skipn n (closes cs)) in W. apply Forall_app in W. apply W. }
  assert (firstn n (closes cs) <> []) as Nf by (intros K; rewrite K in Lc; simpl in Lc; lia).
  destruct (skipn n cs) as [|c later]; [split; [exact L|]; split; [constructor|intros; discriminate]|].
  cbn [List.length] in L. split; [|split].
  - cbn [List.length]. rewrite iterates_length. unfold closes. rewrite map_length. lia.
  - assert (within lo hi (closes later)) as Wl.
    { unfold within in *. rewrite <- E in W. unfold closes in W. rewrite map_app in W. apply Forall_app in W. destruct W as [_ W].
      cbn [map] in W. apply List.Forall_cons_iff in W. apply W. }
    constructor; [now apply mean_within|]. apply iterates_within; [|now apply mean_within|assumption].
    intros x c0 Hx Hc. apply ema_step_within; [|assumption|assumption]. pose proof (ema_weight_range n ltac:(lia)). lra.
  - intros x r K. transitivity (@mean_of R R_num (firstn n (closes cs))).
    + change (hd 0%R (x :: r) = hd 0%R (@mean_of R R_num (firstn n (closes cs)) :: [])). now rewrite <- K.
    + rewrite mean_value by assumption. now rewrite Lc.
Qed.
(** The close at index [period] never matters ... *)
Theorem C54_candle_ignored : forall (pre later spare : list (candle f64)) c c', pre <> [] ->
  exponential_moving_average (GSlice (pre ++ c :: later) spare) (zlen pre) =
  exponential_moving_average (GSlice (pre ++ c' :: later) spare) (zlen pre).
Proof.
  intros pre later spare c c' Hp. assert (0 < length pre)%nat by (destruct pre; [contradiction|simpl; lia]).
  unfold zlen. rewrite !C54_recurrence by (rewrite app_length; simpl; lia). cbv zeta. unfold closes. rewrite !map_app. cbn [map].
  rewrite <- (map_length c_close pre). rewrite !firstn_app, !skipn_app, Nat.sub_diag, !skipn_all, !firstn_all. cbn [firstn skipn app]. rewrite !app_nil_r. reflexivity.
Qed.
(** ... so the expectation that the last close always counts is refuted. *)
Theorem C54_every_later_candle_counts_refuted : exists (cs : list (candle f64)) c c',
  f64_eq (c_close c) (c_close c') = false /\ (0 < length cs)%nat /\
  exponential_moving_average (GSlice (cs ++ [c]) []) (zlen cs) =
  exponential_moving_average (GSlice (cs ++ [c']) []) (zlen cs).
Proof.
  exists [at_close 1; at_close 2], (at_close 3), (at_close 300). split; [vm_compute; reflexivity|]. split; [simpl; lia|].
  apply C54_candle_ignored. discriminate.
Qed.
(** A full window alone gives no value although it determines the seed. *)
Theorem C54_empty_for_exact_window : forall (cs spare : list (candle f64)), cs <> [] ->
  exponential_moving_average (GSlice cs spare) (zlen cs) = Ret ([], None).
Proof.
  intros cs spare H. unfold zlen. rewrite C54_recurrence by (destruct cs; [contradiction|simpl; lia]). cbv zeta.
  rewrite skipn_all2 by (unfold closes; rewrite map_length; lia). reflexivity.
Qed.
Theorem C54_bad_input : forall (s : gslice (candle f64)) period,
  is_nil s = true \/ zlen (vis s) < period \/ period <= 0 ->
  exists e, exponential_moving_average s period = Ret ([], Some e) /\ err_code e = Some EINVALID.
Proof. intros s period H. destruct (bad_input_ma s period H) as (_ & e & _ & _ & _ & H1 & H2 & _). eauto. Qed.
Example C54_example :
  ints (exponential_moving_average (GSlice (map at_close [2; 4; 6; 100; 8; 10]) []) 3) = Some [4; 6; 8].
Proof. vm_compute. reflexivity. Qed.

(** ** C55 *)
Theorem C55_recurrence : forall (cs spare : list (candle f64)) n, (0 < n <= length cs)%nat ->
  let N := i2f (Z.of_nat n) in
  let seed := f64_div (fold_left f64_add (firstn n (closes cs)) (i2f 0)) N in
  smoothed_moving_average (GSlice cs spare) (Z.of_nat n) =
  Ret (seed :: match skipn n (closes cs) with
       | [] => []
       | c :: later =>
           let second := f64_div (f64_add (f64_mul seed (f64_sub N (i2f 1))) c) N in
           second :: iterates (fun x c => f64_div (f64_add (f64_sub (f64_mul x N) x) c) N) second later
       end, None).
Proof.
  intros cs spare n H. cbv zeta. rewrite (@smma_spec f64 f64_num) by assumption. reflexivity.
Qed.
Theorem C55_exact : forall (cs spare : list (candle R)) n, (0 < n <= length cs)%nat ->
  let seed := (rsum (firstn n (closes cs)) / INR n)%R in
  let out := seed :: iterates (fun x c => (x * (INR n - 1) + c) / INR n)%R seed (skipn n (closes cs)) in
  smoothed_moving_average (GSlice cs spare) (Z.of_nat n) = Ret (out, None) /\
  length out = (length cs - n + 1)%nat /\
  forall lo hi, within lo hi (closes cs) -> within lo hi out.
Proof.
  intros cs spare n H. cbv zeta. rewrite (@smma_spec R R_num) by assumption. cbv zeta.
  rewrite sum_of_rsum. cbn [fdiv fofZ R_num]. rewrite <- INR_IZR_INZ. split; [|split].
  - do 3 f_equal. destruct (skipn n (closes cs)) as [|c later]; [reflexivity|]. cbn [iterates].
    rewrite (proj1 (smma_steps_agree n (rsum (firstn n (closes cs)) / INR n) c ltac:(lia))). apply (f_equal2 cons); [reflexivity|].
    apply iterates_ext. intros x c0. apply smma_steps_agree. lia.
  - cbn [List.length]. rewrite iterates_length, skipn_length. unfold closes. rewrite map_length. lia.
  - intros lo hi W. rewrite <- (firstn_skipn n (closes cs)) in W. unfold within in W. apply Forall_app in W. destruct W as [W1 W2].
    assert (length (firstn n (closes cs)) = n) as Lc by (unfold closes; rewrite firstn_length, map_length; lia).
    assert (lo <= rsum (firstn n (closes cs)) / INR n <= hi)%R as Hs.
    { rewrite <- Lc at 2 4. apply div_within; [apply lt_0_INR; lia|]. now apply rsum_within. }
    constructor; [assumption|]. apply iterates_within; [|assumption|assumption]. intros x c Hx Hc. apply smma_step_within; [lia|assumption|assumption].
Qed.
(** The error of closingSum never reaches the caller: on valid input there is
    no error at all, and the three other cases report their own. *)
Theorem C55_no_inner_error : forall (s : gslice (candle f64)) period out e,
  smoothed_moving_average s period = Ret (out, Some e) ->
  out = [] /\ err_code e = Some EINVALID /\
  (is_nil s = true \/ zlen (vis s) < period \/ period <= 0) /\ forall op e', e <> EWrap op e'.
Proof.
  intros s period out e H. destruct (C53_total s period) as [B|(cs & spare & n & -> & -> & Hn)].
  - destruct (bad_input_ma s period B) as (_ & _ & e3 & _ & _ & _ & _ & H1 & H2). rewrite H1 in H. injection H as <- <-.
    repeat split; try assumption. intros op e' ->. unfold smoothed_moving_average in H1.
    destruct (is_nil s); [discriminate|]. destruct (zlen (vis s) <? period) eqn:L; [discriminate|].
    destruct (period <=? 0) eqn:L2; [discriminate|]. apply Z.ltb_ge in L. apply Z.leb_gt in L2.
    destruct B as [B|[B|B]]; [|lia|lia]. destruct s; [cbn in L; unfold zlen in L; simpl in L; lia|discriminate].
  - rewrite C55_recurrence in H by assumption. discriminate.
Qed.
Theorem C55_bad_input : forall (s : gslice (candle f64)) period,
  is_nil s = true \/ zlen (vis s) < period \/ period <= 0 ->
  exists e, smoothed_moving_average s period = Ret ([], Some e) /\ err_code e = Some EINVALID.
Proof. intros s period H. destruct (bad_input_ma s period H) as (_ & _ & e & _ & _ & _ & _ & H1 & H2). eauto. Qed.
Example C55_example :
  ints (smoothed_moving_average (GSlice (map at_close [2; 4; 5; 6; 15]) []) 2) = Some [3; 4; 5; 10].
Proof. vm_compute. reflexivity. Qed.

(** ** C56 *)
Theorem C56_no_look_ahead : forall (cs more spare spare' : list (candle f64)) n, (0 < n <= length cs)%nat ->
  forall f, In f [moving_average; exponential_moving_average; smoothed_moving_average] ->
  exists out later, f (GSlice cs spare) (Z.of_nat n) = Ret (out, None) /\
    f (GSlice (cs ++ more) spare') (Z.of_nat n) = Ret (out ++ later, None).
Proof.
  intros cs more spare spare' n H f [<-|[<-|[<-|[]]]].
  - rewrite !C53_windowed_sums by (rewrite ?app_length; lia). rewrite app_length.
    replace (length cs + length more - n + 1)%nat with ((length cs - n + 1) + length more)%nat by lia.
    rewrite (seq_app (length cs - n + 1) (length more)), map_app. eexists. eexists. split; [reflexivity|].
    do 2 f_equal. apply (f_equal2 (@app f64)); [|reflexivity]. apply map_ext_in. intros i Hi. apply in_seq in Hi.
    do 2 f_equal. unfold window, closes. rewrite map_app, skipn_app, firstn_app. rewrite skipn_length, map_length.
    replace (n - (length cs - i))%nat with 0%nat by lia. cbn [firstn]. now rewrite app_nil_r.
  - rewrite !C54_recurrence by (rewrite ?app_length; lia). cbv zeta. unfold closes. rewrite map_app, skipn_app, firstn_app.
    rewrite map_length. replace (n - length cs)%nat with 0%nat by lia. cbn [firstn skipn]. rewrite app_nil_r.
    destruct (skipn n (map c_close cs)) as [|c r]; cbn [app].
    + eexists. eexists. split; reflexivity.
    + match goal with |- context [iterates ?g ?x (r ++ ?m)] => destruct (iterates_app g x r m) as [q ->] end.
      eexists. exists q. split; reflexivity.
  - rewrite !C55_recurrence by (rewrite ?app_length; lia). cbv zeta. unfold closes. rewrite map_app, skipn_app, firstn_app.
    rewrite map_length. replace (n - length cs)%nat with 0%nat by lia. cbn [firstn skipn]. rewrite app_nil_r.
    destruct (skipn n (map c_close cs)) as [|c r]; cbn [app].
    + eexists. eexists. split; reflexivity.
    + match goal with |- context [iterates ?g ?x (r ++ ?m)] => destruct (iterates_app g x r m) as [q ->] end.
      eexists. exists q. split; reflexivity.
Qed.
Example C56_example :
  ints (moving_average (GSlice (map at_close [1; 3; 5]) []) 2) = Some [2; 4] /\
  ints (moving_average (GSlice (map at_close [1; 3; 5; 9]) []) 2) = Some [2; 4; 7].
Proof. split; vm_compute; reflexivity. Qed.

(** ** C57 *)
Theorem C57_closed_form : forall (cs : list (candle R)) b,
  ewv cs b = ((1 - b) * discounted b (map (fun c => c_high c - c_low c) cs))%R.
Proof. exact ewv_closed. Qed.
Theorem C57_exact_range : forall (cs : list (candle R)) b m, (0 <= b <= 1)%R -> (0 <= m)%R ->
  within 0 m (map (fun c => c_high c - c_low c)%R cs) -> (0 <= ewv cs b <= m)%R.
Proof. exact ewv_within. Qed.
Theorem C57_float_nonnegative : forall (cs : list (candle f64)) (beta : f64),
  f64_le (i2f 0) beta = true -> f64_le beta (i2f 1) = true ->
  Forall (fun c => f64_le (c_low c) (c_high c) = true /\ is_finite (f64_sub (c_high c) (c_low c)) = true) cs ->
  is_nan (ewv cs beta) = false /\ f64_le (i2f 0) (ewv cs beta) = true.
Proof.
  intros cs beta H0 H1 H. assert (exact_int 0) as E0 by (apply exact_i; lia). assert (exact_int 1) as E1 by (apply exact_i; lia).
  apply f64_le_true in H0 as (N0 & Nb & H0'). apply f64_le_true in H1 as (_ & N1 & H1').
  assert (f64_le (i2f 0) beta = true) as H0 by (rewrite f64_le_key by assumption; apply Z.leb_le; lia).
  assert (f64_le beta (i2f 1) = true) as H1 by (rewrite f64_le_key by assumption; apply Z.leb_le; lia).
  rewrite f64_le_xr in H0, H1 by assumption. rewrite i2f_exact_xr in H0, H1 by assumption.
  assert (0 <= xr beta <= 1)%R as Hb.
  { split; [destruct (Rle_bool_spec 0 (xr beta)) as [K|K]; [exact K|discriminate]|destruct (Rle_bool_spec (xr beta) 1) as [K|K]; [exact K|discriminate]]. }
  assert (is_finite beta = true) as Fb.
  { apply xr_lt_finite; [assumption|]. rewrite Rabs_pos_eq by lra. pose proof (exact_lt_big 1 E1) as B. rewrite Rabs_pos_eq in B by lra. lra. }
  rewrite xr_finite in Hb by assumption. destruct (ewv_nonneg cs beta Fb Hb H) as [R1 R2]. split; [assumption|].
  rewrite f64_le_xr by assumption. rewrite i2f_exact_xr by assumption.
  destruct (Rle_bool_spec 0 (xr (ewv cs beta))); [reflexivity|lra].
Qed.
Example C57_example : map f2i [ewv (map at_close [1; 5; 9]) (i2f 0); f64_mul (i2f 4) (ewv (map at_close [1; 5; 9]) (f64_const 5 (-1)))] = [2; 7].
Proof. vm_compute. reflexivity. Qed.
Example C57_float_example :
  Forall (fun c => f64_le (c_low c) (c_high c) = true /\ is_finite (f64_sub (c_high c) (c_low c)) = true) (map at_close [1; 5; 9]).
Proof. repeat (apply Forall_cons; [split; vm_compute; reflexivity|]). apply Forall_nil. Qed.

(** ** C58 *)
(** The window [w] contains a rise / a fall between neighbours. *)
Definition has_rise (w : list (candle f64)) : Prop :=
  exists pre a b post, w = pre ++ a :: b :: post /\ f64_lt (c_close a) (c_close b) = true.
Definition has_fall (w : list (candle f64)) : Prop :=
  exists pre a b post, w = pre ++ a :: b :: post /\ f64_lt (c_close b) (c_close a) = true.
Definition usual_close (c : candle f64) : Prop :=
  is_finite (c_close c) = true /\ (Rabs (B2R (c_close c)) <= bpow radix2 1000)%R.

Lemma zero_has_rise w : Forall (fun c : candle f64 => is_finite (c_close c) = true) w ->
  (is_zero (fst (moves w)) = false <-> has_rise w) /\ (is_zero (snd (moves w)) = false <-> has_fall w).
Proof.
  intros H. destruct (moves_zero w H) as [[A1 A2] [B1 B2]].
  assert (forall (g : candle f64 -> candle f64 -> bool) (l : list (candle f64)), (exists pre a b post, l = pre ++ a :: b :: post /\ g a b = true) \/
    (forall pre a b post, l = pre ++ a :: b :: post -> g a b = false)) as Dec.
  { intros g l. induction l as [|x l IH]; [right; intros [|? [|? ?]] a b post E; discriminate|].
    destruct IH as [(pre & a & b & post & -> & Hg)|IH].
    - left. exists (x :: pre), a, b, post. auto.
    - destruct l as [|y l]; [right; intros [|? [|? ?]] a b post E; discriminate|]. destruct (g x y) eqn:G.
      + left. exists [], x, y, l. auto.
      + right. intros [|p pre] a b post E.
        * injection E as <- <- _. exact G.
        * injection E as _ E. eapply IH. exact E. }
  split; split; intros K.
  - destruct (Dec (fun a b => f64_lt (c_close a) (c_close b)) w) as [D|D]; [exact D|]. rewrite A2 in K by exact D. discriminate.
  - destruct K as (pre & a & b & post & E & L). destruct (is_zero (fst (moves w))); [|reflexivity]. rewrite (A1 eq_refl _ _ _ _ E) in L. discriminate.
  - destruct (Dec (fun a b => f64_lt (c_close b) (c_close a)) w) as [D|D]; [exact D|]. rewrite B2 in K by exact D. discriminate.
  - destruct K as (pre & a & b & post & E & L). destruct (is_zero (snd (moves w))); [|reflexivity]. rewrite (B1 eq_refl _ _ _ _ E) in L. discriminate.
Qed.

(** Every value RSI returns comes from a window [w] of consecutive candles;
    it is NaN or a number from 0 to 100.  (For windows of closes beyond 2^1000
    the sums may both overflow, which also gives NaN.) *)
Theorem C58_values_in_range : forall v spare period out, 
  Forall (fun c : candle f64 => is_finite (c_close c) = true) (v ++ spare) ->
  rsi f64_to_f32 (GSlice v spare) period = Ret (out, None) ->
  Forall (fun r => is_nan r = true \/ (is_finite r = true /\ 0 <= B2R r <= 100)%R) out.
Proof.
  intros v spare period out H E.
  destruct (Z.lt_ge_cases (zlen v) 14) as [S|S].
  { unfold rsi in E. cbn [is_nil vis] in E. rewrite (proj2 (Z.ltb_lt _ _) S) in E. discriminate. }
  destruct (rsi_cases f64_to_f32 v spare period S) as (C1 & C2 & C3).
  destruct (Z.eq_dec period (zlen v + 1)) as [P|P]; [rewrite (C1 P) in E; injection E as <-; constructor|].
  assert (-1 <= period <= zlen v /\ spare <> []) as [P2 Hs].
  { destruct (Z.lt_ge_cases period (-1)); [rewrite C3 in E by auto; discriminate|].
    destruct (Z.lt_ge_cases (zlen v + 1) period); [rewrite C3 in E by auto; discriminate|]. split; [lia|].
    intros ->. rewrite C3 in E by (right; right; split; [lia|reflexivity]). discriminate. }
  rewrite (C2 P2 Hs) in E. injection E as <-. apply Forall_map, Forall_forall. intros j _.
  assert (Forall (fun c : candle f64 => is_finite (c_close c) = true) (window j (Z.to_nat (period + 1)) (v ++ spare))) as W.
  { unfold window. rewrite <- (firstn_skipn j (v ++ spare)) in H. apply Forall_app in H. destruct H as [_ H].
    rewrite <- (firstn_skipn (Z.to_nat (period + 1)) (skipn j (v ++ spare))) in H. apply Forall_app in H. apply H. }
  destruct (rsi_value_range _ W) as [[N _]|(R1 & R2 & _)]; [left; exact N|right; split; assumption].
Qed.
(** Which values: NaN iff no price move in the window, 100 if only rises, 0 if
    only falls (windows of at most 2^20 candles, closes up to 2^1000). *)
Theorem C58_extremes : forall w, Forall usual_close w -> (length w <= Z.to_nat (2 ^ 20))%nat ->
  let r := f64_to_f32 (rsi_value w) in
  (is_nan r = true <-> ~ has_rise w /\ ~ has_fall w) /\
  (has_rise w -> ~ has_fall w -> B2R r = 100%R) /\
  (has_fall w -> ~ has_rise w -> B2R r = 0%R).
Proof.
  intros w H Hl. cbv zeta. assert (Forall (fun c : candle f64 => is_finite (c_close c) = true) w) as Hf.
  { eapply Forall_impl; [|exact H]. intros c [K _]. exact K. }
  destruct (moves_finite w H ltac:(lia)) as [I1 I2]. destruct (zero_has_rise w Hf) as [Z1 Z2].
  pose proof (rsi_value_range w Hf) as D. cbv zeta in D. split; [|split].
  - split.
    + intros N. destruct D as [[_ [[K1 K2]|[K1 _]]]|(F & _)].
      * split; intros K; [apply Z1 in K; congruence|apply Z2 in K; congruence].
      * congruence.
      * destruct (f64_to_f32 (rsi_value w)); discriminate.
    + intros [K1 K2]. destruct D as [[N _]|(_ & _ & K & _)]; [exact N|]. exfalso. apply K.
      split; [destruct (is_zero (fst (moves w))) eqn:Q; [reflexivity|destruct K1; now apply Z1]|].
      destruct (is_zero (snd (moves w))) eqn:Q; [reflexivity|destruct K2; now apply Z2].
  - intros K1 K2. rewrite rsi_only_up; [exact to_f32_100|assumption|now apply Z1|].
    destruct (is_zero (snd (moves w))) eqn:Q; [reflexivity|destruct K2; now apply Z2].
  - intros K1 K2. apply rsi_only_down; [assumption| |now apply Z2].
    destruct (is_zero (fst (moves w))) eqn:Q; [reflexivity|destruct K2; now apply Z1].
Qed.
Lemma usual_at_close c : -1000 <= c <= 1000 -> usual_close (at_close c).
Proof.
  intros H. assert (exact_int c) as E by (now apply exact_i). split; [now apply i2f_finite|]. cbn [c_close at_close]. rewrite i2f_B2R by assumption.
  rewrite <- abs_IZR. apply Rle_trans with (bpow radix2 10); [|apply bpow_le; lia]. change (bpow radix2 10) with (IZR (2 ^ 10)). apply IZR_le. lia.
Qed.
Example C58_example : let w := map at_close [5; 6; 6; 9] in
  Forall usual_close w /\ has_rise w /\ ~ has_fall w /\ f2i (rsi_value w) = 100.
Proof.
  cbv zeta. split; [apply Forall_map; repeat (apply Forall_cons; [apply usual_at_close; lia|]); apply Forall_nil|]. split; [|split].
  - exists [], (at_close 5), (at_close 6), (map at_close [6; 9]). split; reflexivity.
  - intros (pre & a & b & post & E & L). cbn [map] in E.
    destruct pre as [|p pre]; [injection E as <- <- <-; vm_compute in L; discriminate|].
    destruct pre as [|p' pre]; [injection E as _ <- <- <-; vm_compute in L; discriminate|].
    destruct pre as [|p'' pre]; [injection E as _ _ <- <- <-; vm_compute in L; discriminate|].
    destruct pre as [|? [|? ?]]; discriminate.
  - vm_compute. reflexivity.
Qed.

(** ** C59 *)
(** What RSI does on every input. *)
Theorem C59_complete : forall (s : gslice (candle f64)) period,
  (is_nil s = true \/ zlen (vis s) < 14 ->
     exists e, rsi f64_to_f32 s period = Ret ([], Some e) /\ err_code e = Some EINVALID) /\
  forall v spare, s = GSlice v spare -> 14 <= zlen v ->
    (rsi f64_to_f32 s period = Panic PSlice \/ exists out, rsi f64_to_f32 s period = Ret (out, None)) /\
    ((exists out, rsi f64_to_f32 s period = Ret (out, None)) <->
     period = zlen v + 1 \/ (-1 <= period <= zlen v /\ spare <> [])).
Proof.
  intros s period. split.
  - intros H. unfold rsi. destruct (is_nil s) eqn:N; [eexists; split; reflexivity|].
    destruct H as [H|H]; [discriminate|]. rewrite (proj2 (Z.ltb_lt _ _) H). eexists. split; reflexivity.
  - intros v spare -> L. destruct (rsi_cases f64_to_f32 v spare period L) as (C1 & C2 & C3).
    assert (period = zlen v + 1 \/ (-1 <= period <= zlen v /\ spare <> []) \/
      (period < -1 \/ zlen v + 1 < period \/ (period <= zlen v /\ spare = []))) as [P|[[P Hs]|P]].
    { destruct (Z.eq_dec period (zlen v + 1)); [auto|]. destruct (Z.lt_ge_cases period (-1)); [right; right; auto|].
      destruct (Z.lt_ge_cases (zlen v + 1) period); [right; right; auto|].
      destruct spare as [|c spare]; [right; right; right; right; split; [lia|reflexivity]|].
      right. left. split; [lia|discriminate]. }
    + split; [right; eexists; apply C1; exact P|]. split; [auto|]. intros _. eexists. apply C1. exact P.
    + split; [right; eexists; now apply C2|]. split; [auto|]. intros _. eexists. now apply C2.
    + split; [left; apply C3; exact P|]. split; [intros [out E]; rewrite C3 in E by exact P; discriminate|].
      intros [Q|[Q Hs]]; exfalso; [lia|]. destruct P as [P|[P|[P K]]]; [lia|lia|contradiction].
Qed.
(** The loop bound of the model plays no part: the slice expression panics or
    the end is reached before it runs out. *)
Theorem C59_bound_irrelevant : forall (v spare : list (candle f64)) period extra, 14 <= zlen v ->
  rsi_loop f64_to_f32 (GSlice v spare) (rsi_fuel (GSlice v spare) + extra) 0 (period - 1) =
  rsi_loop f64_to_f32 (GSlice v spare) (rsi_fuel (GSlice v spare)) 0 (period - 1).
Proof. intros. now apply rsi_fuel_enough. Qed.
(** Expected: RSI returns when 1 <= period <= len.  It panics for every such
    input without spare capacity. *)
Theorem C59_panics_without_spare_capacity : forall (v : list (candle f64)) period, 14 <= zlen v ->
  1 <= period <= zlen v -> rsi f64_to_f32 (GSlice v []) period = Panic PSlice.
Proof. intros v period L P. destruct (rsi_cases f64_to_f32 v [] period L) as (_ & _ & C). apply C. right. right. split; [lia|reflexivity]. Qed.
Definition closes14 : list Z := [1; 2; 3; 4; 5; 6; 7; 8; 9; 10; 11; 12; 13; 14].
Theorem C59_returns_refuted : exists (v : list (candle f64)) period, 14 <= zlen v /\ 1 <= period <= zlen v /\
  rsi f64_to_f32 (GSlice v []) period = Panic PSlice.
Proof.
  exists (map at_close closes14), 14. split; [unfold zlen; simpl; lia|]. split; [unfold zlen; simpl; lia|].
  apply C59_panics_without_spare_capacity; unfold zlen; simpl; lia.
Qed.
Definition rsi_ints (o : go (list f32 * option err)) : option nat :=
  match o with Ret (l, None) => Some (length l) | _ => None end.
Example C59_example : rsi_ints (rsi f64_to_f32 (GSlice (map at_close closes14) [at_close 15]) 12) = Some 3%nat.
Proof. vm_compute. reflexivity. Qed.

(** ** C60 *)
(** Expected: the result depends only on the candles passed.  For every slice
    of at least 14 candles and any period from 1 to the length, all entries but
    the last depend on them only ... *)
Theorem C60_earlier_entries : forall (v spare spare' : list (candle f64)) period, 14 <= zlen v -> 1 <= period <= zlen v ->
  spare <> [] -> spare' <> [] ->
  exists out x x', rsi f64_to_f32 (GSlice v spare) period = Ret (out ++ [x], None) /\
    rsi f64_to_f32 (GSlice v spare') period = Ret (out ++ [x'], None) /\
    length out = Z.to_nat (zlen v - period) /\
    forall c r c' r', spare = c :: r -> spare' = c' :: r' ->
      let w := skipn (Z.to_nat (zlen v - period)) v in
      x = f64_to_f32 (rsi_value (w ++ [c])) /\ x' = f64_to_f32 (rsi_value (w ++ [c'])).
Proof.
  intros v spare spare' period L P Hs Hs'.
  assert (forall sp c r, sp = c :: r -> rsi f64_to_f32 (GSlice v sp) period =
    Ret (map (fun j => f64_to_f32 (rsi_value (window j (Z.to_nat (period + 1)) v))) (seq 0 (Z.to_nat (zlen v - period)))
         ++ [f64_to_f32 (rsi_value (skipn (Z.to_nat (zlen v - period)) v ++ [c]))], None)) as K.
  { intros sp c r E. destruct (rsi_cases f64_to_f32 v sp period L) as (_ & C & _). rewrite C; [|lia|congruence]. clear C.
    replace (Z.to_nat (zlen v + 1 - period)) with (Z.to_nat (zlen v - period) + 1)%nat by lia.
    rewrite seq_app, map_app. cbn [seq map plus]. do 3 f_equal.
    - apply map_ext_in. intros j Hj. apply in_seq in Hj. do 2 f_equal. unfold window. rewrite skipn_app, firstn_app, skipn_length.
      unfold zlen in *. replace (Z.to_nat (period + 1) - (length v - j))%nat with 0%nat by lia. cbn [firstn]. now rewrite app_nil_r.
    - do 3 f_equal. unfold window. rewrite skipn_app, firstn_app, skipn_length. unfold zlen in *.
      rewrite firstn_all2 by (rewrite skipn_length; lia). f_equal.
      replace (Z.to_nat (Z.of_nat (length v) - period) - length v)%nat with 0%nat by lia. cbn [skipn].
      replace (Z.to_nat (period + 1) - _)%nat with 1%nat by lia. rewrite E. reflexivity. }
  destruct spare as [|c r]; [contradiction|]. destruct spare' as [|c' r']; [contradiction|].
  rewrite (K _ c r eq_refl), (K _ c' r' eq_refl). do 3 eexists. split; [reflexivity|]. split; [reflexivity|].
  split; [rewrite map_length, seq_length; reflexivity|]. intros c1 r1 c2 r2 E1 E2. injection E1 as <- <-. injection E2 as <- <-. split; reflexivity.
Qed.
(** ... but the last one is computed from the candle after the end of the
    slice: two calls on the same candles disagree. *)
Theorem C60_no_look_ahead_refuted : exists (v : list (candle f64)) period c c',
  14 <= zlen v /\ 1 <= period <= zlen v /\
  exists out x x', rsi f64_to_f32 (GSlice v [c]) period = Ret (out ++ [x], None) /\
    rsi f64_to_f32 (GSlice v [c']) period = Ret (out ++ [x'], None) /\ B2R x = 100%R /\ B2R x' <> 100%R.
Proof.
  exists (map at_close closes14), 1, (at_close 15), (at_close 0).
  assert (14 <= zlen (map at_close closes14)) as L by (unfold zlen; simpl; lia).
  assert (1 <= 1 <= zlen (map at_close closes14)) as L1 by lia.
  split; [assumption|]. split; [assumption|].
  destruct (C60_earlier_entries (map at_close closes14) [at_close 15] [at_close 0] 1 L L1 ltac:(discriminate) ltac:(discriminate))
    as (out & x & x' & E1 & E2 & _ & Ex).
  exists out, x, x'. split; [assumption|]. split; [assumption|]. destruct (Ex _ _ _ _ eq_refl eq_refl) as [-> ->].
  replace (skipn (Z.to_nat (zlen (map at_close closes14) - 1)) (map at_close closes14)) with [at_close 14] by reflexivity.
  assert (forall c, -1000 <= c <= 1000 -> Forall usual_close ([at_close 14] ++ [at_close c])) as U.
  { intros c Hc. repeat (apply Forall_cons; [apply usual_at_close; lia|]). apply Forall_nil. }
  assert (forall (a b p q : candle f64) pre post, [a] ++ [b] = pre ++ p :: q :: post -> p = a /\ q = b) as Two.
  { intros a b p q [|? [|? ?]] post E; [injection E as <- <- _; auto|discriminate|destruct l; discriminate]. }
  split.
  - apply C58_extremes; [apply U; lia|apply (Nat.le_trans _ (Z.to_nat 2)); [cbn; lia|apply Z2Nat.inj_le; lia]| |].
    + exists [], (at_close 14), (at_close 15), []. split; [reflexivity|vm_compute; reflexivity].
    + intros (pre & a & b & post & E & Lt). apply Two in E. destruct E as [-> ->]. vm_compute in Lt. discriminate.
  - destruct (C58_extremes ([at_close 14] ++ [at_close 0]) ltac:(apply U; lia) ltac:(apply (Nat.le_trans _ (Z.to_nat 2)); [cbn; lia|apply Z2Nat.inj_le; lia])) as (_ & _ & K).
    intros Q. apply (R1_neq_R0). apply Rmult_eq_reg_l with 100%R; [|lra]. rewrite Rmult_1_r, Rmult_0_r. rewrite <- Q. apply K.
    + exists [], (at_close 14), (at_close 0), []. split; [reflexivity|vm_compute; reflexivity].
    + intros (pre & a & b & post & E & Lt). apply Two in E. destruct E as [-> ->]. vm_compute in Lt. discriminate.
Qed.
Example C60_example : rsi_ints (rsi f64_to_f32 (GSlice (map at_close closes14) [at_close 15; at_close 3]) 1) = Some 14%nat.
Proof. vm_compute. reflexivity. Qed.
