(** C97: platforms on which a product is fused with the addition or
    subtraction that takes it (one rounding instead of two).  Every choice of
    places to fuse is covered.  Vocabulary: Spec/FusedSpec.v. *)
From Coq Require Import Reals Lra Lia String.
From Flocq Require Import Core BinarySingleNaN.
From Verif Require Import Go.Outcome Go.Int64 Go.Slice Go.Float64 Go.FloatReal Go.FloatError Go.Num
  Model.Asset Model.Pair Model.Candle Model.Indicators Model.OrderBook Model.Entities Model.Fused
  Spec.AccuracySpec Spec.IndicatorSpec Spec.MonotoneSpec Spec.OrderBookSpec Spec.WholeSpec Spec.DecimalSpec
  Spec.EntitySpec Spec.MoneySpec Spec.LedgerSpec Spec.FusedSpec
  Proofs.Entities Proofs.Fma Proofs.FusedIndicators Proofs.FusedMonotone Proofs.FusedOverlap Proofs.FusedMoney Proofs.FusedLedger Proofs.Ledger
  Props.AccuracyProps Props.EntityProps Props.OrderBookProps Props.LedgerProps.
Open Scope string_scope.
Open Scope list_scope.
Open Scope R_scope.
Local Notation length := List.length.

(** The fused operation: the exact x*y + z, rounded once. *)
Theorem C97_one_rounding : forall x y z : f64, is_finite x = true -> is_finite y = true -> is_finite z = true ->
  in_range (real x * real y + real z) ->
  is_finite (f64_fma x y z) = true /\ real (f64_fma x y z) = nearest (real x * real y + real z).
Proof.
  intros x y z Fx Fy Fz H. unfold in_range, real in *. pose proof (Bfma_correct 53 1024 prec53 emax1024 mode_NE x y z Fx Fy Fz) as C. cbv zeta in C.
  rewrite rnd_fexp in C. change (rnd (B2R x * B2R y + B2R z)) with (nearest (B2R x * B2R y + B2R z)) in C.
  rewrite Rlt_bool_true in C.
  - destruct C as (E & F & _). split; [exact F|exact E].
  - change (bpow radix2 1024) with (bpow radix2 (Z.of_nat 1024)). rewrite bpow_powerRZ. exact H.
Qed.

(** Without fusing, the functions of the other claims. *)
Theorem C97_apart :
  (forall s n, exponential_moving_average_fused (fun _ => Apart) s n = exponential_moving_average s n) /\
  (forall s n, smoothed_moving_average_fused (fun _ => false) s n = smoothed_moving_average s n) /\
  (forall cs beta, ewv_fused (fun _ => Apart) cs beta = ewv cs beta) /\
  (forall A B, calculate_overlap_fused (fun _ => false) (fun _ => false) A B = calculate_overlap A B) /\
  (forall id tm action otype pr price quantity cost,
     new_trade_fused false id tm action otype pr price quantity cost = new_trade id tm action otype pr price quantity cost) /\
  (forall p t, modify_fused false p t = modify p t) /\
  (forall p ts, modify_all_fused p (map (fun t => (false, t)) ts) = modify_all p ts).
Proof.
  split; [exact ema_apart|]. split; [exact smma_apart|]. split; [exact ewv_apart|]. split; [exact overlap_apart|].
  split; [reflexivity|]. split; [exact modify_apart|]. intros p ts. apply modify_all_apart.
Qed.

(** Fusing changes no error, no panic, no length, on any input. *)
Theorem C97_same_endings :
  (forall f s n, same_shape (exponential_moving_average_fused f s n) (exponential_moving_average s n)) /\
  (forall f s n, same_shape (smoothed_moving_average_fused f s n) (smoothed_moving_average s n)) /\
  (forall f g A B, same_ending (calculate_overlap_fused f g A B) (calculate_overlap A B)) /\
  (forall b p t, snd (modify_fused b p t) = snd (modify p t)).
Proof.
  split; [exact ema_fused_same|]. split; [exact smma_fused_same|]. split; [exact overlap_fused_same|].
  intros b p t. destruct (modify_fused_shape b p t) as (op & ->). reflexivity.
Qed.

(** The error bounds of C74. *)
Theorem C97_exponential_accuracy : forall f (cs : list (candle f64)) n M,
  scale M -> few cs -> (0 < n <= length cs)%nat -> Forall (fun c => within_mag M (c_close c)) cs ->
  exists xs ys,
    exponential_moving_average_fused f (GSlice cs []) (Z.of_nat n) = Ret (xs, None) /\
    exponential_moving_average (GSlice (map exact_candle cs) []) (Z.of_nat n) = Ret (ys, None) /\
    Forall2 (approx (13 * INR (length cs) * eps * M)) xs ys.
Proof. rewrite eps_uro. exact ema_fused_near. Qed.
Theorem C97_smoothed_accuracy : forall f (cs : list (candle f64)) n M,
  scale M -> few cs -> (0 < n <= length cs)%nat -> Forall (fun c => within_mag M (c_close c)) cs ->
  exists xs ys,
    smoothed_moving_average_fused f (GSlice cs []) (Z.of_nat n) = Ret (xs, None) /\
    smoothed_moving_average (GSlice (map exact_candle cs) []) (Z.of_nat n) = Ret (ys, None) /\
    Forall2 (approx (13 * INR (length cs) * eps * M)) xs ys.
Proof. rewrite eps_uro. exact smma_fused_near. Qed.
Theorem C97_volatility_accuracy : forall f (cs : list (candle f64)) (beta : f64) M,
  scale M -> few cs -> is_finite beta = true -> 0 <= real beta <= 1 ->
  Forall (fun c => within_mag M (c_high c) /\ within_mag M (c_low c)) cs ->
  approx (12 * INR (length cs) * eps * M) (ewv_fused f cs beta) (ewv (map exact_candle cs) (real beta)).
Proof. rewrite eps_uro. exact ewv_fused_near. Qed.

(** The monotonicity of C81, on one platform (the same choices for both
    series). *)
Theorem C97_exponential_monotone : forall f (cs cs' hid hid' : list (candle f64)) n, closes_rise cs cs' ->
  (0 < n <= length cs)%nat -> (Z.of_nat n <= 2 ^ 63)%Z ->
  exists xs xs',
    exponential_moving_average_fused f (GSlice cs hid) (Z.of_nat n) = Ret (xs, None) /\
    exponential_moving_average_fused f (GSlice cs' hid') (Z.of_nat n) = Ret (xs', None) /\ Forall2 not_above xs xs'.
Proof. exact ema_fused_monotone. Qed.
Theorem C97_smoothed_monotone : forall f (cs cs' hid hid' : list (candle f64)) n, closes_rise cs cs' ->
  (0 < n <= length cs)%nat -> (Z.of_nat n <= 2 ^ 53)%Z ->
  exists xs xs',
    smoothed_moving_average_fused f (GSlice cs hid) (Z.of_nat n) = Ret (xs, None) /\
    smoothed_moving_average_fused f (GSlice cs' hid') (Z.of_nat n) = Ret (xs', None) /\ Forall2 not_above xs xs'.
Proof. exact smma_fused_monotone. Qed.
Theorem C97_volatility_monotone : forall f (cs cs' : list (candle f64)) (beta : f64), ranges_widen cs cs' ->
  is_finite beta = true -> 0 <= real beta <= 1 -> not_above (ewv_fused f cs beta) (ewv_fused f cs' beta).
Proof. exact ewv_fused_monotone. Qed.

(** Overlaps of whole books are exact (C15). *)
Theorem C97_overlap_exact : forall f g (A B : book f64), whole_book A -> whole_book B ->
  match calculate_overlap_fused f g A B, calculate_overlap (exact_book A) (exact_book B) with
  | Ret (v, e), Ret (v', e') => is_finite v = true /\ B2R v = v' /\ e = e'
  | Panic p, Panic p' => p = p'
  | _, _ => False
  end.
Proof. exact overlap_fused_whole. Qed.

(** The fee bound of C82. *)
Theorem C97_fee : forall b id tm action otype pr price quantity cost,
  ordinary price -> ordinary quantity -> is_finite cost = true -> Rabs (real cost) <= bpow radix2 900 ->
  let m := real price * real quantity in
  approx (2 * eps * (Rabs (real cost) + m)) (t_fee (new_trade_fused b id tm action otype pr price quantity cost))
    (if string_dec action "buy" then real cost - m else m - real cost).
Proof.
  intros b id tm action otype pr price quantity cost Op Oq Fc Bc m.
  destruct (fee_fused_near b price quantity cost Op Oq Fc Bc) as [H1 H2]. rewrite eps_uro. unfold new_trade_fused. cbn [t_fee].
  destruct (string_dec action "buy") as [-> |N]; [exact H1|]. apply String.eqb_neq in N. unfold BuyAction. rewrite N. exact H2.
Qed.

(** Positions: the same but for open price and profit, after any history. *)
Theorem C97_position_same : forall (p : position f64) ts, same_but_money (modify_all_fused p ts) (modify_all p (map snd ts)).
Proof. intros p ts. apply same_all, same_refl. Qed.
(** The bounds of C96. *)
Theorem C97_open_position : forall id t0 (ts : list (bool * trade f64)),
  t_action t0 = "buy" \/ t_action t0 = "sell" -> Forall moderate_trade (t0 :: map snd ts) ->
  INR (length (t0 :: map snd ts)) <= bpow radix2 20 ->
  let p := modify_all_fused (new_position id t0) ts in ps_open p = true ->
  exists kept, recorded (t_pair t0) (ps_type p) (t_quantity t0) (map snd ts) kept /\ ps_trades p = map t_id (t0 :: kept) /\
    let k := INR (length kept) in
    approx (k * eps * bought (t0 :: kept)) (ps_quantity p) (held (t_action t0) (t0 :: kept)) /\
    is_finite (ps_open_price p) = true /\
    Rabs (real (ps_open_price p) * real (ps_quantity p) -
      (if String.eqb (t_action t0) "buy" then - received (t0 :: kept) else received (t0 :: kept))) <=
      4 * k * eps * worth (t0 :: kept).
Proof.
  intros id t0 ts A M K p Op. destruct (balance_fused id t0 ts A M K Op) as (kept & K1 & K2 & _ & _ & _ & _ & _ & L). fold p in K1, K2, L.
  exists kept. split; [exact K1|]. split; [exact K2|]. destruct L as (FQ & FP & _ & _ & EQ & _ & _ & EV & _). cbv zeta. rewrite eps_uro.
  split; [split; [exact FQ|exact EQ]|]. split; [exact FP|]. unfold real. eapply Rle_trans; [exact EV|]. lra.
Qed.
Theorem C97_profit : forall id t0 (ts : list (bool * trade f64)),
  t_action t0 = "buy" \/ t_action t0 = "sell" -> Forall moderate_trade (t0 :: map snd ts) ->
  INR (length (t0 :: map snd ts)) <= bpow radix2 20 ->
  let p := modify_all_fused (new_position id t0) ts in ps_open p = true ->
  exists kept, recorded (t_pair t0) (ps_type p) (t_quantity t0) (map snd ts) kept /\
    let k := INR (length kept) in
    (forall c, moderate c ->
      approx (4 * (k + 1) * eps * (real c * bought (t0 :: kept) + worth (t0 :: kept)))
        (unrealized_profit p c) (gain_at (t_action t0) (real c) (t0 :: kept))) /\
    (forall b t, moderate (t_price t) -> ps_open (fst (modify_fused b p t)) = false ->
      approx (4 * (k + 1) * eps * (real (t_price t) * bought (t0 :: kept) + worth (t0 :: kept)))
        (ps_profit (fst (modify_fused b p t))) (gain_at (t_action t0) (real (t_price t)) (t0 :: kept))).
Proof.
  intros id t0 ts A M K p Op. destruct (balance_fused id t0 ts A M K Op) as (kept & K1 & K2 & Ow & _ & Mk & _ & Fk & L). fold p in K1, K2, L, Ow.
  exists kept. split; [exact K1|]. cbv zeta.
  assert (forall c, moderate c ->
      approx (4 * (INR (length kept) + 1) * eps * (real c * bought (t0 :: kept) + worth (t0 :: kept)))
        (unrealized_profit p c) (gain_at (t_action t0) (real c) (t0 :: kept))) as U.
  { intros c Mc. destruct (unrealized_near p (t_action t0) _ _ _ _ _ c Ow Fk L (kept_worth t0 kept Mk) Mc) as [F E].
    split; [exact F|]. rewrite eps_uro. unfold gain_at. destruct (String.eqb (t_action t0) "buy").
    - replace (received (t0 :: kept) + real c * held (t_action t0) (t0 :: kept)) with
        (real c * held (t_action t0) (t0 :: kept) - - received (t0 :: kept)) by ring. eapply Rle_trans; [exact E|]. lra.
    - eapply Rle_trans; [exact E|]. lra. }
  split; [exact U|]. intros b t Mt. destruct (modify_fused_shape b p t) as (op & ->). cbn [fst with_open_price ps_open ps_profit]. intros Cl.
  destruct (C45_realised_equals_unrealised p t Op Cl) as [-> _]. now apply U.
Qed.

(** What does depend on the platform: a fee of exactly zero, a moving average,
    an open price. *)
Definition tenth : f64 := f64_const 1 (-1).
Theorem C97_zero_fee_refuted : exists action price quantity cost,
  cost = f64_mul price quantity /\
  f64_eq (t_fee (new_trade_fused false "t" 0%Z action "market" btcusd price quantity cost)) (i2f 0) = true /\
  f64_eq (t_fee (new_trade_fused true "t" 0%Z action "market" btcusd price quantity cost)) (i2f 0) = false.
Proof. exists "buy", tenth, tenth, (f64_mul tenth tenth). split; [reflexivity|]. split; vm_compute; reflexivity. Qed.
Theorem C97_same_average_refuted : exists (f : Z -> fusing) cs (n : Z) a x y,
  exponential_moving_average_fused f (GSlice cs []) n = Ret (a ++ [x], None) /\
  exponential_moving_average (GSlice cs []) n = Ret (a ++ [y], None) /\ f64_eq x y = false.
Proof.
  exists (fun i => if (i =? 4)%Z then Second else Apart), [cl 10; cl 11; cl 7; cl 13; cl 17], 2%Z.
  set (p := f64_div (i2f 2) (f64_add (i2f 2) (i2f 1))). set (s := @average f64 f64_num [cl 10; cl 11]).
  set (e := f64_add (f64_mul (i2f 13) p) (f64_mul s (f64_sub (i2f 1) p))).
  exists [s; e], (f64_fma e (f64_sub (i2f 1) p) (f64_mul (i2f 17) p)), (f64_add (f64_mul (i2f 17) p) (f64_mul e (f64_sub (i2f 1) p))).
  split; [reflexivity|]. split; [reflexivity|]. vm_compute. reflexivity.
Qed.
Theorem C97_same_open_price_refuted : exists t0 t, Forall moderate_trade [t0; t] /\
  f64_eq (ps_open_price (modify_all_fused (new_position "p" t0) [(true, t)]))
         (ps_open_price (modify_all_fused (new_position "p" t0) [(false, t)])) = false.
Proof.
  exists (deal "a" "buy" (i2f 1) (i2f 3)), (deal "b" "sell" (i2f 7) (i2f 1)). split; [deals|]. vm_compute. reflexivity.
Qed.

(** Whole books with every product fused; a trade fused and its bound; a
    position with a fused partial close. *)
Example C97_example :
  whole_book ex_A /\ whole_book ex_B /\
  (match calculate_overlap_fused (fun _ => true) (fun _ => true) ex_A ex_B with Ret (v, None) => f2i v = 7%Z | _ => False end) /\
  (let t0 := deal "a" "buy" (i2f 100) (i2f 3) in
   let ts := [(true, deal "b" "buy" (i2f 107) (i2f 4)); (true, deal "c" "sell" (i2f 110) (i2f 5))] in
   let p := modify_all_fused (new_position "p" t0) ts in
   Forall moderate_trade (t0 :: map snd ts) /\ INR (length (t0 :: map snd ts)) <= bpow radix2 20 /\
   ps_open p = true /\ f2i (ps_quantity p) = 2%Z /\ f2i (ps_open_price p) = 89%Z).
Proof.
  split; [apply C15_whole_example|]. split; [apply C15_whole_example|]. split; [vm_compute; reflexivity|].
  cbv zeta. split; [deals|]. split; [cbn; lra|]. split; [vm_compute; reflexivity|]. split; vm_compute; reflexivity.
Qed.
Example C97_average_example :
  let cs := [cl 10; cl 11; cl 7; cl 13; cl 17] in
  scale (bpow radix2 5) /\ few cs /\ Forall (fun c => within_mag (bpow radix2 5) (c_close c)) cs /\
  (match exponential_moving_average_fused (fun _ => First) (GSlice cs []) 2 with Ret ([x; y; z], None) => map f2i [x; y; z] = [10; 12; 15]%Z | _ => False end) /\
  (match smoothed_moving_average_fused (fun _ => true) (GSlice cs []) 2 with Ret ([x; y; z; w], None) => map f2i [x; y; z; w] = [10; 8; 10; 13]%Z | _ => False end).
Proof.
  cbv zeta. split; [apply scale_int; lia|]. split; [apply small_few; cbn; lia|]. split.
  - change (bpow radix2 5) with 32. repeat (apply Forall_cons; [apply close_mag; [lia|cbn; lra]|]). apply Forall_nil.
  - split; vm_compute; reflexivity.
Qed.

Print Assumptions C97_one_rounding.
Print Assumptions C97_apart.
Print Assumptions C97_same_endings.
Print Assumptions C97_exponential_accuracy.
Print Assumptions C97_smoothed_accuracy.
Print Assumptions C97_volatility_accuracy.
Print Assumptions C97_exponential_monotone.
Print Assumptions C97_smoothed_monotone.
Print Assumptions C97_volatility_monotone.
Print Assumptions C97_overlap_exact.
Print Assumptions C97_fee.
Print Assumptions C97_position_same.
Print Assumptions C97_open_position.
Print Assumptions C97_profit.
Print Assumptions C97_zero_fee_refuted.
Print Assumptions C97_same_average_refuted.
Print Assumptions C97_same_open_price_refuted.
