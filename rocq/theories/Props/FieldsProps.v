(** Property C108: which fields of the candles each function reads
    (market/candle.go, indicators/*.go). *)
From Coq Require Import Lia.
From Verif Require Import Go.Outcome Go.Int64 Go.Slice Go.Float64 Go.Num
  Model.Candle Model.Indicators Spec.FieldsSpec Spec.RebuildSpec Proofs.Fields
  Props.CandleProps Props.IndicatorProps Props.FractalProps.
Open Scope list_scope.
Open Scope Z_scope.
Local Notation length := List.length.

(** ModifyInterval: the times alone decide the groups, the error and the
    panic; each field of the result comes from the same field. *)
Theorem C108_modify_interval : forall (seen : field -> Prop) tz (cs ds : list (candle f64)) n, Forall2 (agree seen) cs ds ->
  alike (fun r s => Forall2 (agree seen) (fst r) (fst s) /\ snd r = snd s)
    (modify_interval tz cs n) (modify_interval tz ds n).
Proof. exact modify_ag. Qed.
(** Other volumes, the same prices. *)
Theorem C108_prices_ignore_volumes : forall tz (cs : list (candle f64)) (other : candle f64 -> f64) n,
  alike (fun r s => Forall2 (agree (fun f => f <> Volume)) (fst r) (fst s) /\ snd r = snd s)
    (modify_interval tz cs n)
    (modify_interval tz (map (fun c => mkCandle (c_time c) (c_open c) (c_high c) (c_low c) (c_close c) (other c)) cs) n).
Proof.
  intros. apply modify_ag. induction cs as [|c cs IH]; constructor; [|exact IH]. unfold agree. cbn [c_time c_open c_high c_low c_close c_volume].
  repeat split. intros K. now destruct K.
Qed.
Theorem C108_min_interval : forall cs ds : list (candle f64), map (@c_time f64) cs = map (@c_time f64) ds ->
  get_min_interval cs = get_min_interval ds.
Proof. exact min_by. Qed.

(** The averages and RSI read closes, and not even the times. *)
Theorem C108_moving_average : forall s s' n, same_visible (@c_close f64) s s' -> moving_average s n = moving_average s' n.
Proof. exact ma_by. Qed.
Theorem C108_exponential : forall s s' n, same_visible (@c_close f64) s s' ->
  exponential_moving_average s n = exponential_moving_average s' n.
Proof. exact ema_by. Qed.
Theorem C108_smoothed : forall s s' n, same_visible (@c_close f64) s s' ->
  smoothed_moving_average s n = smoothed_moving_average s' n.
Proof. exact smma_by. Qed.
Theorem C108_rsi : forall s s' n, same_slice (@c_close f64) s s' -> rsi f64_to_f32 s n = rsi f64_to_f32 s' n.
Proof. exact rsi_by. Qed.
(** EWV reads highs and lows, WilliamFractals the times too. *)
Theorem C108_volatility : forall cs ds b, map high_low cs = map high_low ds -> ewv cs b = ewv ds b.
Proof. exact ewv_by. Qed.
Theorem C108_fractals : forall cs ds, map time_high_low cs = map time_high_low ds -> william_fractals cs = william_fractals ds.
Proof. exact fractals_by. Qed.

(** RSI does read the candle behind the end of its argument. *)
Definition f32_less (a b : f32) : bool := match BinarySingleNaN.Bcompare a b with Some Lt => true | _ => false end.
Definition last_less (o o' : go (list f32 * option err)) : bool :=
  match o, o' with
  | Ret (l, None), Ret (l', None) =>
      match nth_error l (length l - 1), nth_error l' (length l' - 1) with Some x, Some y => f32_less x y | _, _ => false end
  | _, _ => false
  end.
Lemma last_less_ok o : last_less o o = true -> False.
Proof.
  unfold last_less, f32_less. destruct o as [[l [e|]]|]; try discriminate. destruct (nth_error l _) as [x|]; [|discriminate].
  destruct x as [[]|[]| |[] m e B]; cbn; try discriminate.
  all: rewrite Z.compare_refl, ?Pos.compare_refl, ?Pos.compare_cont_refl; cbn; discriminate.
Qed.
Theorem C108_rsi_spare_capacity_refuted : exists s s' n, same_visible (fun c => c) s s' /\
  rsi f64_to_f32 s n <> rsi f64_to_f32 s' n.
Proof.
  pose (cs := map at_close [5; 6; 6; 9; 8; 7; 9; 4; 5; 6; 5; 6; 7; 6]).
  exists (GSlice cs [at_close 1]), (GSlice cs [at_close 9]), 14. split; [now split|]. intros E.
  assert (last_less (rsi f64_to_f32 (GSlice cs [at_close 1]) 14) (rsi f64_to_f32 (GSlice cs [at_close 9]) 14) = true) as L by (vm_compute; reflexivity).
  rewrite E in L. exact (last_less_ok _ L).
Qed.

(** ** Witnesses *)
Definition other_volume (c : candle f64) : candle f64 :=
  mkCandle (c_time c) (c_open c) (c_high c) (c_low c) (c_close c) (i2f 1000).
Example C108_example_modify : seen (modify_interval utc series 5)
  = Some ([(10, 7, 20, 2, 8, 25); (15, 8, 12, 1, 11, 17)], None) /\
  seen (modify_interval utc (map other_volume series) 5)
  = Some ([(10, 7, 20, 2, 8, 5000); (15, 8, 12, 1, 11, 2000)], None).
Proof. split; vm_compute; reflexivity. Qed.
Definition flat (c : Z) : candle f64 := mkCandle (7 * c) (i2f 0) (i2f 0) (i2f 0) (i2f c) (i2f 0).
Example C108_example_closes :
  same_visible (@c_close f64) (GSlice (map at_close [1; 2; 6; 4; 8; 3]) []) (GSlice (map flat [1; 2; 6; 4; 8; 3]) [flat 1]) /\
  ints (moving_average (GSlice (map flat [1; 2; 6; 4; 8; 3]) [flat 1]) 3) = Some [3; 4; 6; 5].
Proof. split; [now split|vm_compute; reflexivity]. Qed.
