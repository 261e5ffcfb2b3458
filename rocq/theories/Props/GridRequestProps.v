(** Property C130: order requests in whole ticks and lots, and the way back from total to quantity. *)
From Coq Require Import List ZArith Reals Lra Lia String.
From Flocq Require Import Core BinarySingleNaN.
From Verif Require Import Go.Outcome Go.Float64 Go.FloatOrder Go.FloatReal Go.Num Model.Asset Model.Pair Model.Entities
  Spec.EntitySpec Spec.TickSpec Proofs.Ticks Props.EntityProps.
Open Scope string_scope.
Open Scope Z_scope.

(** Nothing of a request but quantity and total differs. *)
Definition same_request (o o' : order_request f64) : Prop :=
  r_action o' = r_action o /\ r_type o' = r_type o /\ r_pair o' = r_pair o /\ r_price o' = r_price o /\
  r_take_profit o' = r_take_profit o /\ r_stop_loss o' = r_stop_loss o.

Lemma ticks_nonzero e x z : ticks e x z -> z <> 0 -> B2R x <> 0%R.
Proof.
  intros (_ & E) H. rewrite E. apply Rmult_integral_contrapositive_currified; [now apply not_0_IZR|].
  pose proof (bpow_gt_0 radix2 e). lra.
Qed.
Lemma ticks_not_zero e x z : ticks e x z -> z <> 0 -> f64_eq x (i2f 0) = false.
Proof.
  intros T H. pose proof (ticks_nonzero e x z T H) as N. destruct T as (F & _).
  assert (is_finite (i2f 0) = true) as F0 by (apply i2f_finite; unfold exact_int; lia).
  rewrite f64_eq_xr, !xr_finite by (try apply finite_not_nan; assumption).
  apply Req_bool_false. rewrite i2f_B2R by (unfold exact_int; lia). exact N.
Qed.
Lemma ticks_div e f x y a b : tick f -> ticks (f + e) x (a * b) -> ticks e y b -> b <> 0 -> Z.abs a <= 2 ^ 53 ->
  ticks f (f64_div x y) a.
Proof.
  intros Hf (F1 & E1) T2 Hb Ha. pose proof (ticks_nonzero e y b T2 Hb) as N. destruct T2 as (F2 & E2).
  apply (tick_op _ _ f _ (div_xr x y F1 F2 N) Hf Ha). rewrite E1, E2, mult_IZR, bpow_plus.
  field. split; [|now apply not_0_IZR]. pose proof (bpow_gt_0 radix2 e). lra.
Qed.

(** A request by quantity: [q] lots of 2^f at [p] ticks of 2^e cost exactly [q * p]. *)
Theorem C130_total : forall e f (o : order_request f64) current q p,
  tick (f + e) -> ticks f (r_quantity o) q -> ticks e (used_price o current) p ->
  q <> 0 -> f64_eq (r_total o) (i2f 0) = true -> Z.abs (q * p) <= 2 ^ 53 ->
  exists o', calculate_fields o current = (Some o', None) /\ same_request o o' /\
    r_quantity o' = r_quantity o /\ ticks (f + e) (r_total o') (q * p).
Proof.
  intros e f o cur q p He Tq Tp Hq Ht Hb. destruct (C47_calculate_fields o cur) as (_ & C & _).
  eexists. split; [apply C; [exact (ticks_not_zero f _ q Tq Hq)|exact Ht]|].
  split; [unfold same_request; cbn; auto 10|]. split; [reflexivity|]. cbn [r_total]. now apply ticks_mul.
Qed.
(** A request by total: [q * p] units buy exactly [q] lots at [p] ticks. *)
Theorem C130_quantity : forall e f (o : order_request f64) current q p,
  tick f -> ticks (f + e) (r_total o) (q * p) -> ticks e (used_price o current) p ->
  q <> 0 -> p <> 0 -> f64_eq (r_quantity o) (i2f 0) = true -> Z.abs q <= 2 ^ 53 ->
  exists o', calculate_fields o current = (Some o', None) /\ same_request o o' /\
    r_total o' = r_total o /\ ticks f (r_quantity o') q.
Proof.
  intros e f o cur q p Hf Tt Tp Hq Hp Hz Hb. destruct (C47_calculate_fields o cur) as (_ & _ & C).
  eexists. split; [apply C; [exact Hz|exact (ticks_not_zero (f + e) _ _ Tt ltac:(nia))]|].
  split; [unfold same_request; cbn; auto 10|]. split; [reflexivity|]. cbn [r_quantity]. now apply (ticks_div e f _ _ q p).
Qed.
(** The total of a completed request, asked for on its own, buys the same quantity again. *)
Theorem C130_round_trip : forall e f (o back : order_request f64) current q p,
  tick f -> tick (f + e) -> ticks f (r_quantity o) q -> ticks e (used_price o current) p ->
  q <> 0 -> p <> 0 -> f64_eq (r_total o) (i2f 0) = true -> Z.abs (q * p) <= 2 ^ 53 ->
  exists o', calculate_fields o current = (Some o', None) /\
    (same_request o back -> f64_eq (r_quantity back) (i2f 0) = true -> r_total back = r_total o' ->
     exists o'', calculate_fields back current = (Some o'', None) /\ same_request o o'' /\
       f64_eq (r_quantity o'') (r_quantity o) = true /\ r_total o'' = r_total o').
Proof.
  intros e f o back cur q p Hf He Tq Tp Hq Hp Ht Hb.
  destruct (C130_total e f o cur q p He Tq Tp Hq Ht Hb) as (o' & E & S & Q & T).
  exists o'. split; [exact E|]. intros SB Hz EB.
  assert (used_price back cur = used_price o cur) as U.
  { destruct SB as (_ & B2 & _ & B4 & _). unfold used_price. now rewrite B2, B4. }
  destruct (C130_quantity e f back cur q p Hf) as (o'' & E2 & S2 & T2 & Q2);
    [now rewrite EB|now rewrite U|exact Hq|exact Hp|exact Hz|nia|].
  exists o''. split; [exact E2|]. split; [|split; [|congruence]].
  - unfold same_request in *. intuition congruence.
  - destruct Q2 as (F2 & R2), Tq as (F1 & R1).
    rewrite f64_eq_xr, !xr_finite by (try apply finite_not_nan; assumption). apply Req_bool_true. now rewrite R1, R2.
Qed.

(** In tenths the way back fails: 0.1 at a price of 0.1 costs 0.010000000000000002,
    which buys 0.10000000000000002. *)
Theorem C130_decimal_refuted : exists o back : order_request f64,
  same_request o back /\ f64_eq (r_quantity o) (f64_const 1 (-1)) = true /\ f64_eq (r_price o) (f64_const 1 (-1)) = true /\
  match calculate_fields o (i2f 0), calculate_fields back (i2f 0) with
  | (Some o', None), (Some o'', None) =>
      f64_eq (r_total back) (r_total o') && f64_eq (r_quantity back) (i2f 0) && negb (f64_eq (r_quantity o'') (r_quantity o))
  | _, _ => false end = true.
Proof.
  set (x := f64_const 1 (-1)).
  exists (mkRequest "buy" "limit" btcusd x (i2f 0) (i2f 0) x (i2f 0)), (mkRequest "buy" "limit" btcusd x (i2f 0) (i2f 0) (i2f 0) (f64_mul x x)).
  split; [unfold same_request; cbn [r_action r_type r_pair r_price r_take_profit r_stop_loss]; auto 10|].
  split; [vm_compute; reflexivity|]. split; vm_compute; reflexivity.
Qed.

(** 20 lots at 5: 100, and back. *)
Example C130_example :
  let o := mkRequest "buy" "limit" btcusd (i2f 5) (i2f 0) (i2f 0) (i2f 20) (i2f 0) in
  ticks 0 (r_quantity o) 20 /\ ticks 0 (used_price o (i2f 7)) 5 /\ tick 0 /\ f64_eq (r_total o) (i2f 0) = true /\
  match calculate_fields o (i2f 7) with (Some o', None) => f2i (r_total o') | _ => 0 end = 100.
Proof.
  cbv zeta. split; [apply ticks_int; unfold exact_int; lia|].
  split; [unfold used_price; cbn [r_type r_price]; destruct (string_dec "limit" "market"); [discriminate|apply ticks_int; unfold exact_int; lia]|].
  split; [unfold tick; lia|]. split; vm_compute; reflexivity.
Qed.

Print Assumptions C130_total.
Print Assumptions C130_quantity.
Print Assumptions C130_round_trip.
Print Assumptions C130_decimal_refuted.
