(** Properties C36-C49: market/trade.go, market/position.go, market/order.go,
    market/order_request.go, strategy/annotation.go.
    Model: Model/Entities.v; vocabulary: Spec/EntitySpec.v. *)
From Coq Require Import Reals Lra Lia.
From Flocq Require Import Core BinarySingleNaN.
From Verif Require Import Go.Outcome Go.Int64 Go.Float64 Go.FloatOrder Go.FloatReal Go.Num Model.Asset Model.Pair
  Model.Entities Spec.EntitySpec Proofs.Entities.
Open Scope string_scope.
Open Scope list_scope.
Open Scope Z_scope.

Definition btcusd : pair := mkPair (mkAsset "Bitcoin" "BTC" "") (mkAsset "Dollar" "USD" "").
Definition ethusd : pair := mkPair (mkAsset "Ether" "ETH" "") (mkAsset "Dollar" "USD" "").
(** A float64 trade with integer price and quantity. *)
Definition tr (id action : string) (price quantity : Z) : trade f64 :=
  mkTrade id 1000 action "market" btcusd (i2f price) (i2f quantity) (i2f 0) (i2f (price * quantity)) "".
(** The same in exact arithmetic. *)
Definition rtr (id action : string) (price quantity : Z) : trade R :=
  mkTrade id 1000 action "market" btcusd (IZR price) (IZR quantity) 0%R (IZR (price * quantity)) "".

(** ** C36 *)
Theorem C36_trade_balances : forall id tm action otype pr (price quantity cost : R),
  let t := new_trade id tm action otype pr price quantity cost in
  (action = "buy" -> t_cost t = price * quantity + t_fee t)%R /\
  (action <> "buy" -> t_cost t = price * quantity - t_fee t)%R.
Proof.
  intros. subst t. unfold new_trade. cbn [t_cost t_fee]. change BuyAction with "buy". split.
  - intros ->. cbn. lra.
  - intros H. apply String.eqb_neq in H. rewrite H. cbn. lra.
Qed.
(** The other fields, for float64. *)
Theorem C36_trade_fields : forall id tm action otype pr (price quantity cost : f64),
  let t := new_trade id tm action otype pr price quantity cost in
  t_id t = id /\ t_time t = tm /\ t_action t = action /\ t_order_type t = otype /\ t_pair t = pr /\
  t_price t = price /\ t_quantity t = quantity /\ t_cost t = cost /\ t_execution_id t = "" /\
  t_fee t = (if String.eqb action "buy" then f64_sub cost (f64_mul price quantity)
             else f64_sub (f64_mul price quantity) cost).
Proof. intros. repeat split. Qed.
Example C36_example :
  f2i (t_fee (new_trade "a" 0 "buy" "limit" btcusd (i2f 10) (i2f 3) (i2f 32))) = 2 /\
  f2i (t_fee (new_trade "a" 0 "sell" "limit" btcusd (i2f 10) (i2f 3) (i2f 28))) = 2.
Proof. split; vm_compute; reflexivity. Qed.

(** ** C37 *)
Theorem C37_new_position : forall id (t : trade f64),
  let p := new_position id t in
  ps_id p = id /\ ps_open p = true /\ ps_quantity p = t_quantity t /\ ps_open_price p = t_price t /\
  ps_pair p = t_pair t /\ ps_open_time p = t_time t /\ ps_trades p = [t_id t] /\
  ps_profit p = i2f 0 /\ ps_close_price p = i2f 0 /\ ps_close_time p = year_one /\
  ps_take_profit p = mkClose (i2f 0) "" /\ ps_stop_loss p = mkClose (i2f 0) "" /\
  ps_execution_id p = "" /\ ps_data p = "" /\
  (t_action t = "buy" -> ps_type p = "long") /\ (t_action t = "sell" -> ps_type p = "short") /\
  (t_action t <> "buy" -> t_action t <> "sell" -> ps_type p = "").
Proof.
  intros. do 14 (split; [reflexivity|]). unfold p, new_position. cbn [ps_type].
  unfold BuyAction, SellAction. split; [|split].
  - intros ->. reflexivity.
  - intros ->. reflexivity.
  - intros H1 H2. apply String.eqb_neq in H1, H2. now rewrite H1, H2.
Qed.
Example C37_example : ps_type (new_position "p" (tr "a" "sell" 10 2)) = "short" /\
  ps_trades (new_position "p" (tr "a" "sell" 10 2)) = ["a"].
Proof. split; reflexivity. Qed.

(** ** C38 *)
Theorem C38_weighted_average : forall (p : position R) t,
  ps_pair p = t_pair t -> increases (ps_type p) (t_action t) ->
  (0 < ps_quantity p)%R -> (0 < t_quantity t)%R ->
  let p' := fst (modify p t) in
  snd (modify p t) = None /\
  (ps_quantity p' = ps_quantity p + t_quantity t)%R /\
  (ps_open_price p' = (ps_open_price p * ps_quantity p + t_price t * t_quantity t)
                      / (ps_quantity p + t_quantity t))%R /\
  (Rmin (ps_open_price p) (t_price t) <= ps_open_price p' <= Rmax (ps_open_price p) (t_price t))%R.
Proof.
  intros p t Hp Hi Hq Ht p'. subst p'. rewrite modify_increase by assumption. cbn [fst snd].
  split; [reflexivity|]. split; [reflexivity|].
  assert (ps_open_price (pos_add p t) = (ps_open_price p * ps_quantity p + t_price t * t_quantity t)
                      / (ps_quantity p + t_quantity t))%R as E by (cbn; field; lra).
  split; [exact E|]. rewrite E. destruct (Rle_dec (ps_open_price p) (t_price t)) as [L|L].
  - rewrite Rmin_left, Rmax_right by assumption. now apply average_between.
  - rewrite Rmin_right, Rmax_left by lra. rewrite (Rplus_comm (_ * _)), (Rplus_comm (ps_quantity p)).
    apply average_between; lra.
Qed.
Theorem C38_quantity_stays_positive : forall (p : position f64) t,
  ps_pair p = t_pair t -> increases (ps_type p) (t_action t) ->
  gt_zero (ps_quantity p) -> gt_zero (t_quantity t) ->
  let p' := fst (modify p t) in
  ps_quantity p' = f64_add (ps_quantity p) (t_quantity t) /\ gt_zero (ps_quantity p').
Proof.
  intros p t Hp Hi H1 H2. cbv zeta. rewrite modify_increase by assumption. split; [reflexivity|]. now apply positive_add.
Qed.
(** In float64 the average of two equal prices need not be that price. *)
Theorem C38_float_average_between_refuted : exists (p : position f64) t,
  ps_pair p = t_pair t /\ increases (ps_type p) (t_action t) /\
  gt_zero (ps_quantity p) /\ gt_zero (t_quantity t) /\ ps_open_price p = t_price t /\
  f64_lt (ps_open_price (fst (modify p t))) (t_price t) = true.
Proof.
  set (t q := mkTrade "a" 0 "buy" "market" btcusd (f64_const 1 (-1)) (i2f q) (i2f 0) (i2f 0) "").
  exists (new_position "p" (t 1)), (t 5). split; [reflexivity|]. split; [left; split; reflexivity|].
  split; [vm_compute; reflexivity|]. split; [vm_compute; reflexivity|]. split; [reflexivity|].
  vm_compute. reflexivity.
Qed.
Example C38_example :
  let p := new_position "p" (tr "a" "buy" 10 2) in let t := tr "b" "buy" 40 1 in
  increases (ps_type p) (t_action t) /\ gt_zero (ps_quantity p) /\ gt_zero (t_quantity t) /\
  f2i (ps_open_price (fst (modify p t))) = 20 /\ f2i (ps_quantity (fst (modify p t))) = 3.
Proof.
  cbv zeta. split; [left; split; reflexivity|]. split; [vm_compute; reflexivity|]. split; [vm_compute; reflexivity|].
  split; vm_compute; reflexivity.
Qed.

(** ** C39 *)
Theorem C39_profit_is_net_cash : forall id (t0 : trade R) ts t,
  t_action t0 = "buy" \/ t_action t0 = "sell" -> (0 < t_quantity t0)%R ->
  List.Forall (fun t => (0 < t_quantity t)%R) ts ->
  let p := modify_all (new_position id t0) ts in
  ps_open p = true -> t_pair t = t_pair t0 -> reduces (ps_type p) (t_action t) ->
  t_quantity t = ps_quantity p ->
  exists kept,
    open_history (t_pair t0) (ps_type p) (t_quantity t0) ts kept (t_quantity t) /\
    let p' := fst (modify p t) in
    ps_open p' = false /\ ps_trades p' = map t_id (t0 :: kept ++ [t]) /\
    ps_profit p' = total_cash (t0 :: kept ++ [t]).
Proof. exact profit_is_cash. Qed.
(** While it is open, OpenPrice * Quantity is the net cash put in. *)
Theorem C39_open_value : forall (p : position R) ts,
  (0 < ps_quantity p)%R -> List.Forall (fun t => (0 < t_quantity t)%R) ts ->
  ps_open (modify_all p ts) = true ->
  exists kept,
    open_history (ps_pair p) (ps_type p) (ps_quantity p) ts kept (ps_quantity (modify_all p ts)) /\
    (ps_open_price (modify_all p ts) * ps_quantity (modify_all p ts) =
      ps_open_price p * ps_quantity p + (if String.eqb (ps_type p) "long" then - total_cash kept else total_cash kept))%R /\
    ps_trades (modify_all p ts) = ps_trades p ++ map t_id kept.
Proof.
  intros p ts H1 H2 H3. destruct (history_open p ts H1 H2 H3) as (kept & K1 & _ & K3 & K4 & _). exists kept. auto.
Qed.
Lemma r_reduce_step (p : position R) t : ps_pair p = t_pair t -> reduces (ps_type p) (t_action t) ->
  (t_quantity t < ps_quantity p)%R ->
  ps_open (fst (modify p t)) = ps_open p /\ ps_quantity (fst (modify p t)) = (ps_quantity p - t_quantity t)%R /\
  ps_pair (fst (modify p t)) = ps_pair p /\ ps_type (fst (modify p t)) = ps_type p.
Proof.
  intros H1 H2 H3. destruct (modify_fixed p t) as (A & B & _). rewrite A, B. rewrite modify_reduce by assumption. cbn [fst].
  destruct (substract_cases p t) as (_ & _ & C). destruct C as (C1 & C2 & _); [lra|]. auto.
Qed.
(** Buy 3 at 10, sell 1 at 12, close 2 at 13: the profit is 12 + 26 - 30 = 8. *)
Example C39_example :
  let p := modify_all (new_position "p" (rtr "a" "buy" 10 3)) [rtr "b" "sell" 12 1] in
  ps_open p = true /\ reduces (ps_type p) "sell" /\ t_quantity (rtr "c" "sell" 13 2) = ps_quantity p /\
  total_cash [rtr "a" "buy" 10 3; rtr "b" "sell" 12 1; rtr "c" "sell" 13 2] = 8%R /\
  f2i (ps_profit (modify_all (new_position "p" (tr "a" "buy" 10 3)) [tr "b" "sell" 12 1; tr "c" "sell" 13 2])) = 8.
Proof.
  destruct (r_reduce_step (new_position "p" (rtr "a" "buy" 10 3)) (rtr "b" "sell" 12 1)) as (A & B & C & D).
  { reflexivity. } { left; split; reflexivity. } { cbn. lra. }
  cbv zeta. cbn [modify_all]. rewrite A, B, D. split; [reflexivity|]. split; [left; split; reflexivity|].
  split; [cbn; lra|]. split; [cbn; lra|]. vm_compute. reflexivity.
Qed.

(** ** C40 *)
Theorem C40_overclose_no_effect : forall (p : position f64) t,
  ps_pair p = t_pair t -> reduces (ps_type p) (t_action t) ->
  f64_lt (f64_sub (ps_quantity p) (t_quantity t)) (f64_const (-1) (-4)) = true ->
  modify p t = (p, None).
Proof.
  intros p t H1 H2 H3. rewrite modify_reduce by assumption. destruct (substract_f64 p t) as (C & _). now rewrite C.
Qed.
Theorem C40_overclose_no_effect_exact : forall (p : position R) t,
  ps_pair p = t_pair t -> reduces (ps_type p) (t_action t) ->
  (t_quantity t > ps_quantity p + 0.0001)%R -> modify p t = (p, None).
Proof.
  intros p t H1 H2 H3. rewrite modify_reduce by assumption. destruct (substract_cases p t) as (C & _). rewrite C by lra. reflexivity.
Qed.
Theorem C40_error_iff_other_pair : forall (p : position f64) t,
  snd (modify p t) <> None <-> ps_pair p <> t_pair t.
Proof. exact modify_error_iff. Qed.
Theorem C40_overclose_reported_refuted : exists (p : position f64) t,
  ps_open p = true /\ ps_pair p = t_pair t /\ reduces (ps_type p) (t_action t) /\
  f64_lt (f64_add (ps_quantity p) (i2f 1)) (t_quantity t) = true /\
  snd (pos_substract p t) = Some sub_err /\ snd (modify p t) = None.
Proof.
  exists (new_position "p" (tr "a" "buy" 10 3)), (tr "b" "sell" 10 5).
  split; [reflexivity|]. split; [reflexivity|]. split; [left; split; reflexivity|].
  split; [vm_compute; reflexivity|]. split; vm_compute; reflexivity.
Qed.
Example C40_example :
  let p := new_position "p" (tr "a" "buy" 10 3) in let t := tr "b" "sell" 10 4 in
  reduces (ps_type p) (t_action t) /\
  f64_lt (f64_sub (ps_quantity p) (t_quantity t)) (f64_const (-1) (-4)) = true.
Proof. split; [left; split; reflexivity|vm_compute; reflexivity]. Qed.

(** ** C41 *)
Theorem C41_other_pair_refused : forall (p : position f64) t,
  ps_pair p <> t_pair t ->
  exists e, modify p t = (p, Some e) /\ err_code e = Some EINVALID.
Proof. intros p t H. exists pair_err. split; [now apply modify_other_pair|reflexivity]. Qed.
(** Any one of the six strings is enough. *)
Theorem C41_any_field_differs : forall (p : position f64) (t : trade f64),
  a_name (p_base (ps_pair p)) <> a_name (p_base (t_pair t)) \/
  a_symbol (p_base (ps_pair p)) <> a_symbol (p_base (t_pair t)) \/
  a_alt (p_base (ps_pair p)) <> a_alt (p_base (t_pair t)) \/
  a_name (p_quote (ps_pair p)) <> a_name (p_quote (t_pair t)) \/
  a_symbol (p_quote (ps_pair p)) <> a_symbol (p_quote (t_pair t)) \/
  a_alt (p_quote (ps_pair p)) <> a_alt (p_quote (t_pair t)) ->
  fst (modify p t) = p /\ snd (modify p t) <> None.
Proof.
  intros p t H. assert (ps_pair p <> t_pair t) as N.
  { intros E. rewrite E in H. repeat destruct H as [H|H]; now apply H. }
  rewrite modify_other_pair by assumption. split; [reflexivity|discriminate].
Qed.
Example C41_example : exists (p : position f64) (t : trade f64),
  a_alt (p_quote (ps_pair p)) <> a_alt (p_quote (t_pair t)) /\
  pair_symbol (ps_pair p) "/" = pair_symbol (t_pair t) "/".
Proof.
  exists (new_position "p" (tr "a" "buy" 1 1)),
    (mkTrade "b" 0 "buy" "market" (mkPair (mkAsset "Bitcoin" "BTC" "") (mkAsset "Dollar" "USD" "x")) (i2f 1) (i2f 1) (i2f 1) (i2f 1) "").
  split; [discriminate|reflexivity].
Qed.

(** ** C42 *)
Theorem C42_closed_is_permanent : forall (p : position f64) ts,
  ps_open p = false -> ps_open (modify_all p ts) = false.
Proof. exact modify_all_closed. Qed.
(** A closed position, closed again at another price: profit, close price,
    close time and trades change. *)
Theorem C42_closed_is_final_refuted : exists (p : position f64) t t',
  ps_open p = true /\ ps_open (fst (modify p t)) = false /\
  let closed := fst (modify p t) in let again := fst (modify closed t') in
  f64_eq (ps_profit again) (ps_profit closed) = false /\
  f64_eq (ps_close_price again) (ps_close_price closed) = false /\
  ps_close_time again <> ps_close_time closed /\
  ps_trades again <> ps_trades closed.
Proof.
  exists (new_position "p" (tr "a" "buy" 10 3)), (tr "b" "sell" 12 3),
    (mkTrade "c" 99 "sell" "market" btcusd (i2f 20) (i2f 3) (i2f 0) (i2f 0) "").
  split; [reflexivity|]. split; [vm_compute; reflexivity|]. split; [vm_compute; reflexivity|].
  split; [vm_compute; reflexivity|]. split; vm_compute; discriminate.
Qed.
Theorem C42_closed_quantity_refuted : exists (p : position f64) t t',
  ps_open (fst (modify p t)) = false /\
  let closed := fst (modify p t) in let again := fst (modify closed t') in
  f64_eq (ps_quantity again) (ps_quantity closed) = false /\
  f64_eq (ps_open_price again) (ps_open_price closed) = false.
Proof.
  exists (new_position "p" (tr "a" "buy" 10 3)), (tr "b" "sell" 12 3), (tr "c" "buy" 20 3).
  split; [vm_compute; reflexivity|]. split; vm_compute; reflexivity.
Qed.
Example C42_example : ps_open (modify_all (new_position "p" (tr "a" "buy" 10 3)) [tr "b" "sell" 12 3]) = false.
Proof. vm_compute. reflexivity. Qed.

(** ** C43 *)
Theorem C43_trades_recorded : forall id t0 (ts : list (trade f64)),
  let p := new_position id t0 in
  exists kept, recorded (t_pair t0) (ps_type p) (t_quantity t0) ts kept /\
    ps_trades (modify_all p ts) = t_id t0 :: map t_id kept.
Proof. intros id t0 ts. exact (history_recorded (new_position id t0) ts). Qed.
(** [kept] is determined by the history. *)
Theorem C43_recorded_unique : forall pr ty q ts k1 k2,
  recorded pr ty q ts k1 -> recorded pr ty q ts k2 -> k1 = k2.
Proof. exact recorded_unique. Qed.
Example C43_example :
  let other := mkTrade "x" 0 "buy" "market" ethusd (i2f 1) (i2f 1) (i2f 1) (i2f 1) "" in
  ps_trades (modify_all (new_position "p" (tr "a" "buy" 10 3))
     [tr "b" "sell" 12 1; other; tr "c" "hold" 1 1; tr "d" "sell" 1 9; tr "e" "buy" 1 1; tr "f" "sell" 1 3])
  = ["a"; "b"; "e"; "f"].
Proof. vm_compute. reflexivity. Qed.

(** ** C44 *)
Theorem C44_open_quantity_positive : forall id (t0 : trade f64) ts,
  gt_zero (t_quantity t0) ->
  List.Forall (fun t => gt_zero (t_quantity t) /\ is_finite (t_quantity t) = true) ts ->
  gt_zero (ps_quantity (modify_all (new_position id t0) ts)).
Proof. intros id t0 ts H1 H2. now apply (history_positive (new_position id t0)). Qed.
(** Infinite quantities break it: Inf - Inf leaves an open position of size NaN. *)
Theorem C44_infinite_quantity_refuted : exists id (t0 t : trade f64),
  gt_zero (t_quantity t0) /\ gt_zero (t_quantity t) /\
  ps_open (fst (modify (new_position id t0) t)) = true /\
  ~ gt_zero (ps_quantity (fst (modify (new_position id t0) t))).
Proof.
  set (t a := mkTrade "a" 0 a "market" btcusd (i2f 1) (f64_inf false) (i2f 0) (i2f 0) "").
  exists "p", (t "buy"), (t "sell"). split; [vm_compute; reflexivity|]. split; [vm_compute; reflexivity|].
  split; [vm_compute; reflexivity|]. vm_compute. discriminate.
Qed.
Example C44_example : gt_zero (t_quantity (tr "a" "buy" 10 3)) /\
  List.Forall (fun t => gt_zero (t_quantity t) /\ is_finite (t_quantity t) = true) [tr "b" "sell" 1 2; tr "c" "sell" 1 2] /\
  f2i (ps_quantity (modify_all (new_position "p" (tr "a" "buy" 10 3)) [tr "b" "sell" 1 2; tr "c" "sell" 1 2])) = 1.
Proof.
  split; [vm_compute; reflexivity|]. split; [|vm_compute; reflexivity].
  constructor; [split; vm_compute; reflexivity|]. constructor; [split; vm_compute; reflexivity|]. constructor.
Qed.

(** ** C45 *)
Theorem C45_zero_at_open_price : forall (p : position f64),
  is_finite (ps_open_price p) = true -> is_finite (ps_quantity p) = true ->
  f64_eq (unrealized_profit p (ps_open_price p)) (i2f 0) = true.
Proof. exact unrealized_at_open. Qed.
Theorem C45_long_short_opposite : forall (p : position f64) c,
  is_finite (ps_open_price p) = true -> is_finite (ps_quantity p) = true -> is_finite c = true ->
  is_finite (f64_sub c (ps_open_price p)) = true ->
  f64_eq (unrealized_profit (with_type p "long") c) (f64_neg (unrealized_profit (with_type p "short") c)) = true.
Proof. exact unrealized_opposite. Qed.
Theorem C45_monotone : forall (p : position f64) c1 c2,
  is_finite (ps_open_price p) = true -> is_finite (ps_quantity p) = true -> (0 <= B2R (ps_quantity p))%R ->
  is_finite c1 = true -> is_finite c2 = true ->
  is_finite (f64_sub c1 (ps_open_price p)) = true -> is_finite (f64_sub c2 (ps_open_price p)) = true ->
  f64_le c1 c2 = true ->
  (ps_type p = "long" -> f64_le (unrealized_profit p c1) (unrealized_profit p c2) = true) /\
  (ps_type p = "short" -> f64_le (unrealized_profit p c2) (unrealized_profit p c1) = true).
Proof. exact unrealized_mono. Qed.
(** The value itself, in exact arithmetic. *)
Theorem C45_exact_value : forall (p : position R) c,
  (ps_type p = "long" -> unrealized_profit p c = (c - ps_open_price p) * ps_quantity p)%R /\
  (ps_type p = "short" -> unrealized_profit p c = (ps_open_price p - c) * ps_quantity p)%R.
Proof. intros p c. unfold unrealized_profit. split; intros ->; reflexivity. Qed.
Theorem C45_realised_equals_unrealised : forall (p : position f64) t,
  ps_open p = true -> ps_open (fst (modify p t)) = false ->
  ps_profit (fst (modify p t)) = unrealized_profit p (t_price t) /\
  ps_close_price (fst (modify p t)) = t_price t /\ ps_close_time (fst (modify p t)) = t_time t.
Proof.
  intros p t Ho. destruct (pair_dec (ps_pair p) (t_pair t)) as [E|E].
  - destruct (inc_or_red (ps_type p) (t_action t)) as [H|[H|[H1 H2]]].
    + rewrite modify_increase by assumption. cbn. congruence.
    + rewrite modify_reduce by assumption. cbn [fst]. destruct (substract_f64 p t) as (C1 & C2 & C3).
      destruct (f64_lt _ _) eqn:L; [rewrite C1 by reflexivity; cbn [fst]; congruence|].
      destruct (f64_le _ _) eqn:L'.
      * destruct (C2 eq_refl eq_refl) as (_ & _ & _ & -> & -> & _ & -> & _). auto.
      * destruct (C3 eq_refl eq_refl) as (-> & _). congruence.
    + rewrite modify_unknown by assumption. cbn. congruence.
  - rewrite modify_other_pair by assumption. cbn. congruence.
Qed.
Example C45_example :
  let p := new_position "p" (tr "a" "sell" 10 3) in
  ps_open p = true /\ ps_open (fst (modify p (tr "b" "buy" 7 3))) = false /\
  f2i (unrealized_profit p (i2f 7)) = 9 /\ f2i (unrealized_profit (with_type p "long") (i2f 7)) = -9.
Proof. cbv zeta. split; [reflexivity|]. split; [vm_compute; reflexivity|]. split; vm_compute; reflexivity. Qed.

(** ** C46 *)
Definition valid_request (pr : pair) (action otype : string) (quantity price total : f64) : Prop :=
  a_symbol (p_base pr) <> "" /\ action <> "" /\ otype <> "" /\
  (otype = "limit" -> f64_eq price (i2f 0) = false) /\
  (f64_eq quantity (i2f 0) = false \/ f64_eq total (i2f 0) = false).
Theorem C46_new_order_request : forall pr action otype (quantity price total : f64),
  (valid_request pr action otype quantity price total ->
   new_order_request pr action otype quantity price total =
     (Some (mkRequest action otype pr price (i2f 0) (i2f 0) quantity total), None)) /\
  (~ valid_request pr action otype quantity price total ->
   exists e, new_order_request pr action otype quantity price total = (None, Some e) /\ err_code e = Some EINVALID).
Proof.
  intros. unfold new_order_request, valid_request, LimitOrder, f0. cbn [feq fofZ f64_num].
  generalize (f64_eq price (i2f 0)) as bp. generalize (f64_eq quantity (i2f 0)) as bq. generalize (f64_eq total (i2f 0)) as bt. intros bt bq bp.
  destruct (String.eqb_spec (a_symbol (p_base pr)) ""); [split; [tauto|intros _; eexists; split; reflexivity]|].
  destruct (String.eqb_spec action ""); [split; [tauto|intros _; eexists; split; reflexivity]|].
  destruct (String.eqb_spec otype ""); [split; [tauto|intros _; eexists; split; reflexivity]|]. cbn [orb].
  destruct (String.eqb_spec otype "limit") as [El|El], bp, bq, bt; cbn [andb]; (split;
    [intros (_ & _ & _ & A & B); try reflexivity; try (discriminate (A El)); destruct B; discriminate
    |intros H; try (eexists; split; reflexivity); exfalso; apply H; repeat split; auto; intros; congruence]).
Qed.
Example C46_example : valid_request btcusd "buy" "limit" (i2f 0) (i2f 5) (i2f 100) /\
  ~ valid_request btcusd "buy" "limit" (i2f 1) (f64_neg (i2f 0)) (i2f 100).
Proof.
  split.
  - do 3 (split; [discriminate|]). split; [intros _; vm_compute; reflexivity|right; vm_compute; reflexivity].
  - intros (_ & _ & _ & H & _). specialize (H eq_refl). vm_compute in H. discriminate.
Qed.

(** ** C47 *)
(** The price used: the current price for market orders, else the request's. *)
Definition used_price {F} (o : order_request F) (current : F) : F :=
  if string_dec (r_type o) "market" then current else r_price o.
Theorem C47_calculate_fields : forall (o : order_request f64) current,
  let q0 := f64_eq (r_quantity o) (i2f 0) in let t0 := f64_eq (r_total o) (i2f 0) in
  (q0 = t0 -> exists e, calculate_fields o current = (None, Some e) /\ err_code e = Some EINVALID) /\
  (q0 = false -> t0 = true ->
     calculate_fields o current =
       (Some (mkRequest (r_action o) (r_type o) (r_pair o) (r_price o) (r_take_profit o) (r_stop_loss o)
                (r_quantity o) (f64_mul (r_quantity o) (used_price o current))), None)) /\
  (q0 = true -> t0 = false ->
     calculate_fields o current =
       (Some (mkRequest (r_action o) (r_type o) (r_pair o) (r_price o) (r_take_profit o) (r_stop_loss o)
                (f64_div (r_total o) (used_price o current)) (r_total o)), None)).
Proof.
  intros o c q0 t0. unfold calculate_fields, f0, used_price, MarketOrder. cbn [feq fofZ f64_num].
  fold q0 t0. generalize q0 t0. intros q t. destruct q, t; cbn [andb negb];
  (split; [intros E; try discriminate; eexists; split; reflexivity|]);
  (split; intros E1 E2; try discriminate;
   (destruct (string_dec (r_type o) "market") as [Em|Em];
    [apply String.eqb_eq in Em|apply String.eqb_neq in Em]; rewrite Em; reflexivity)).
Qed.
Theorem C47_exact_identity : forall (o o' : order_request R) current,
  used_price o current <> 0%R -> calculate_fields o current = (Some o', None) ->
  (r_total o' = r_quantity o' * used_price o current)%R.
Proof.
  intros o o' c Hp. unfold calculate_fields, f0, used_price, MarketOrder in *. cbn [feq fofZ fmul fdiv R_num].
  destruct (Req_bool (r_total o) 0) eqn:Et, (Req_bool (r_quantity o) 0) eqn:Eq; cbn [andb negb]; try discriminate;
  destruct (string_dec (r_type o) "market") as [Em|Em].
  1, 3: apply String.eqb_eq in Em; rewrite Em; intros [= <-]; cbn; try reflexivity; now field.
  1, 2: apply String.eqb_neq in Em; rewrite Em; intros [= <-]; cbn; try reflexivity; now field.
Qed.
(** A zero price is not refused: the quantity becomes infinite. *)
Theorem C47_finite_refuted : exists (o o' : order_request f64) current,
  is_finite (r_total o) = true /\ is_finite current = true /\
  calculate_fields o current = (Some o', None) /\ is_finite (r_quantity o') = false.
Proof.
  set (o := mkRequest "buy" "market" btcusd (i2f 0) (i2f 0) (i2f 0) (i2f 0) (i2f 100)).
  destruct (C47_calculate_fields o (i2f 0)) as (_ & _ & H).
  exists o, (mkRequest "buy" "market" btcusd (i2f 0) (i2f 0) (i2f 0) (f64_div (i2f 100) (i2f 0)) (i2f 100)), (i2f 0).
  split; [vm_compute; reflexivity|]. split; [vm_compute; reflexivity|]. split; [|vm_compute; reflexivity].
  apply H; vm_compute; reflexivity.
Qed.
Example C47_example :
  let o := mkRequest "buy" "limit" btcusd (i2f 5) (i2f 0) (i2f 0) (i2f 0) (i2f 100) in
  f64_eq (r_quantity o) (i2f 0) = true /\ f64_eq (r_total o) (i2f 0) = false /\
  match calculate_fields o (i2f 7) with (Some o', None) => f2i (r_quantity o') | _ => 0 end = 20.
Proof. cbv zeta. split; [vm_compute; reflexivity|]. split; vm_compute; reflexivity. Qed.

(** ** C48 *)
Theorem C48_refuses_completed : forall (o o' : order_request R) current current',
  used_price o current <> 0%R -> calculate_fields o current = (Some o', None) ->
  exists e, calculate_fields o' current' = (None, Some e) /\ err_code e = Some EINVALID.
Proof.
  intros o o' c c' Hp H. pose proof (C47_exact_identity o o' c Hp H) as E.
  assert (r_quantity o' <> 0 \/ r_total o' <> 0)%R as D.
  { revert H. unfold calculate_fields, f0. cbn [feq fofZ fmul fdiv R_num].
    destruct (Req_bool_spec (r_total o) 0) as [Et|Et], (Req_bool_spec (r_quantity o) 0) as [Eq|Eq]; cbn [andb negb]; try discriminate;
    destruct (String.eqb (r_type o) MarketOrder); intros [= <-]; cbn; auto. }
  assert (r_quantity o' <> 0)%R as D1 by (intros Z; rewrite Z in E; destruct D as [D|D]; [auto|apply D; lra]).
  assert (r_total o' <> 0)%R as D2.
  { rewrite E. intros Z. apply Rmult_integral in Z. tauto. }
  unfold calculate_fields, f0. cbn [feq fofZ R_num]. rewrite !Req_bool_false by assumption. cbn [andb negb].
  eexists. split; reflexivity.
Qed.
(** In float64 the product can underflow to zero; then the completed request is accepted again. *)
Theorem C48_float_refuted : exists (o : order_request f64) current,
  f64_eq current (i2f 0) = false /\ r_type o = "market" /\
  match calculate_fields o current with
  | (Some o', None) => match calculate_fields o' current with (Some _, None) => true | _ => false end
  | _ => false
  end = true.
Proof.
  exists (mkRequest "buy" "market" btcusd (i2f 0) (i2f 0) (i2f 0) (f64_const 1 (-200)) (i2f 0)), (f64_const 1 (-200)).
  split; [vm_compute; reflexivity|]. split; [reflexivity|]. vm_compute. reflexivity.
Qed.
Example C48_example :
  let o := mkRequest "buy" "limit" btcusd 5%R 0%R 0%R 0%R 100%R in
  used_price o 7%R <> 0%R /\ exists o', calculate_fields o 7%R = (Some o', None).
Proof.
  cbv zeta. split; [cbn; lra|]. unfold calculate_fields, f0. cbn. rewrite Req_bool_false by lra. rewrite Req_bool_true by reflexivity.
  cbn. eexists. reflexivity.
Qed.

(** ** C49 *)
Theorem C49_update_same_type : forall (o o' : order f64) (t t' : trade f64) (p p' : position f64) (a a' : annotation f64),
  order_update o (DOrder (Some o')) = Ret (o', None) /\ trade_update t (DTrade (Some t')) = Ret (t', None) /\
  position_update p (DPosition (Some p')) = Ret (p', None) /\ annotation_update a (DAnnotation (Some a')) = Ret (a', None).
Proof. repeat split. Qed.
Theorem C49_update_other_type : forall (i : @dyn f64),
  (forall o, (forall x, i <> DOrder x) -> exists e, order_update o i = Ret (o, Some e) /\ err_code e = Some EINVALID) /\
  (forall t, (forall x, i <> DTrade x) -> exists e, trade_update t i = Ret (t, Some e) /\ err_code e = Some EINVALID) /\
  (forall p, (forall x, i <> DPosition x) -> exists e, position_update p i = Ret (p, Some e) /\ err_code e = Some EINVALID) /\
  (forall a, (forall x, i <> DAnnotation x) -> exists e, annotation_update a i = Ret (a, Some e) /\ err_code e = Some EINVALID).
Proof.
  intros i. repeat split; intros x H; destruct i; try (destruct (H _ eq_refl)); eexists; split; reflexivity.
Qed.
Theorem C49_update_nil_panics : forall (o : order f64) (t : trade f64) (p : position f64) (a : annotation f64),
  order_update o (DOrder None) = Panic PNil /\ trade_update t (DTrade None) = Panic PNil /\
  position_update p (DPosition None) = Panic PNil /\ annotation_update a (DAnnotation None) = Panic PNil.
Proof. repeat split. Qed.
Theorem C49_is_open : forall (o : order f64),
  is_open o = false <-> o_status o = "fulfilled" \/ o_status o = "canceled".
Proof.
  intros o. unfold is_open, FulfilledOrder, CanceledOrder.
  destruct (String.eqb_spec (o_status o) "fulfilled"), (String.eqb_spec (o_status o) "canceled"); cbn; split; auto; try discriminate; tauto.
Qed.
Example C49_example : exists e, trade_update (tr "a" "buy" 1 1) (DOrder None) = Ret (tr "a" "buy" 1 1, Some e).
Proof. eexists. reflexivity. Qed.
