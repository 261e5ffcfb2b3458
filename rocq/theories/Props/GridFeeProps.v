(** Property C131: fees of trades in whole ticks and lots, and of trades that carry out a completed request. *)
From Coq Require Import List ZArith Reals Lra Lia String.
From Flocq Require Import Core BinarySingleNaN.
From Verif Require Import Go.Outcome Go.Float64 Go.FloatOrder Go.FloatReal Go.Num Model.Asset Model.Pair Model.Entities
  Spec.EntitySpec Spec.TickSpec Proofs.Ticks Props.EntityProps Props.GridRequestProps.
Open Scope string_scope.
Open Scope Z_scope.

(** What a trade of [q] lots at [p] ticks that cost [k] units leaves as a fee. *)
Definition fee_units (action : string) (p q k : Z) : Z := if string_dec action "buy" then k - p * q else p * q - k.

Theorem C131_fee_exact : forall e f id tm action otype pr (price quantity cost : f64) p q k,
  tick (e + f) -> ticks e price p -> ticks f quantity q -> ticks (e + f) cost k ->
  Z.abs (p * q) <= 2 ^ 53 -> Z.abs (k - p * q) <= 2 ^ 53 ->
  ticks (e + f) (t_fee (new_trade id tm action otype pr price quantity cost)) (fee_units action p q k).
Proof.
  intros e f id tm action otype pr price quantity cost p q k He Tp Tq Tk H1 H2.
  pose proof (ticks_mul e f price quantity p q He Tp Tq H1) as M.
  unfold new_trade, fee_units, BuyAction. cbn [t_fee]. destruct (string_dec action "buy") as [->|N].
  - now apply ticks_sub.
  - apply String.eqb_neq in N. rewrite N. apply ticks_sub; auto. lia.
Qed.
(** The fee is zero exactly when the cost is price times quantity. *)
Theorem C131_free_iff : forall e f id tm action otype pr (price quantity cost : f64) p q k,
  tick (e + f) -> ticks e price p -> ticks f quantity q -> ticks (e + f) cost k ->
  Z.abs (p * q) <= 2 ^ 53 -> Z.abs (k - p * q) <= 2 ^ 53 ->
  f64_eq (t_fee (new_trade id tm action otype pr price quantity cost)) (i2f 0) = true <-> k = p * q.
Proof.
  intros e f id tm action otype pr price quantity cost p q k He Tp Tq Tk H1 H2.
  pose proof (C131_fee_exact e f id tm action otype pr price quantity cost p q k He Tp Tq Tk H1 H2) as T.
  set (x := t_fee _) in *. unfold fee_units in T. split.
  - intros E. destruct (Z.eq_dec k (p * q)) as [|N]; [assumption|]. exfalso.
    assert (f64_eq x (i2f 0) = false) as E' by (apply (ticks_not_zero _ _ _ T); destruct (string_dec action "buy"); lia).
    congruence.
  - intros ->. assert (ticks (e + f) x 0) as (F & R).
    { replace (p * q - p * q) with 0 in T by lia. destruct (string_dec action "buy"); exact T. }
    assert (is_finite (i2f 0) = true) as F0 by (apply i2f_finite; unfold exact_int; lia).
    rewrite f64_eq_xr, !xr_finite by (try apply finite_not_nan; assumption).
    apply Req_bool_true. rewrite R, i2f_B2R by (unfold exact_int; lia). ring.
Qed.

(** A request by quantity, completed and carried out at the price used and for the total
    computed, has no fee: for all numbers whose product is finite, on a grid or not. *)
Theorem C131_completed_no_fee : forall (o o' : order_request f64) current id tm action otype pr,
  f64_eq (r_quantity o) (i2f 0) = false -> calculate_fields o current = (Some o', None) ->
  is_finite (r_quantity o) = true -> is_finite (used_price o current) = true -> is_finite (r_total o') = true ->
  f64_eq (t_fee (new_trade id tm action otype pr (used_price o current) (r_quantity o') (r_total o'))) (i2f 0) = true.
Proof.
  intros o o' cur id tm action otype pr Hq H Fq Fp Ft. destruct (C47_calculate_fields o cur) as (C1 & C2 & _).
  destruct (f64_eq (r_total o) (i2f 0)) eqn:Ht.
  2:{ destruct C1 as (er & C1 & _); [congruence|]. rewrite C1 in H. discriminate. }
  rewrite (C2 Hq eq_refl) in H. injection H as <-. cbn [r_quantity r_total] in *.
  set (x := r_quantity o) in *. set (y := used_price o cur) in *.
  destruct (mul_xr x y Fq Fp) as (N1 & X1). destruct (mul_xr y x Fp Fq) as (N2 & X2).
  rewrite (Rmult_comm (B2R y)) in X2.
  assert (is_finite (f64_mul y x) = true) as F2.
  { apply xr_lt_finite; [exact N2|]. rewrite X2, <- X1, xr_finite by assumption.
    now apply B2R_lt_big. }
  assert (B2R (f64_mul y x) = B2R (f64_mul x y)) as E by (rewrite <- !xr_finite by assumption; congruence).
  assert (forall a b : f64, is_finite a = true -> is_finite b = true -> B2R a = B2R b -> f64_eq (f64_sub a b) (i2f 0) = true) as S.
  { intros a b Fa Fb Eab. destruct (sub_xr a b Fa Fb) as (N & X). rewrite Eab, Rminus_diag_eq in X by reflexivity.
    rewrite f64_eq_xr by (try exact N; apply finite_not_nan, i2f_finite; unfold exact_int; lia).
    rewrite (xr_finite (i2f 0)) by (apply i2f_finite; unfold exact_int; lia).
    rewrite i2f_B2R by (unfold exact_int; lia). apply Req_bool_true. rewrite X.
    assert (rnd 0 = 0%R) as -> by (apply round_0; apply valid_rnd_N). apply sat_id. rewrite Rabs_R0. apply Rlt_le, big_pos. }
  unfold new_trade. cbn [t_fee]. destruct (String.eqb action BuyAction); apply S; auto.
Qed.
(** A request by total may have one: a total of 1 at a price of 49. *)
Theorem C131_by_total_refuted : exists o : order_request f64,
  f64_eq (r_quantity o) (i2f 0) = true /\ f64_eq (r_total o) (i2f 1) = true /\ f64_eq (r_price o) (i2f 49) = true /\
  match calculate_fields o (i2f 0) with
  | (Some o', None) => negb (f64_eq (t_fee (new_trade "a" 0 "buy" "limit" btcusd (r_price o') (r_quantity o') (r_total o'))) (i2f 0))
  | _ => false end = true.
Proof.
  exists (mkRequest "buy" "limit" btcusd (i2f 49) (i2f 0) (i2f 0) (i2f 0) (i2f 1)).
  split; [vm_compute; reflexivity|]. split; [vm_compute; reflexivity|]. split; vm_compute; reflexivity.
Qed.

(** 3 lots at 10 for 32: a fee of 2. *)
Example C131_example :
  ticks 0 (i2f 10) 10 /\ ticks 0 (i2f 3) 3 /\ ticks (0 + 0) (i2f 32) 32 /\ tick (0 + 0) /\ fee_units "buy" 10 3 32 = 2 /\
  f2i (t_fee (new_trade "a" 0 "buy" "limit" btcusd (i2f 10) (i2f 3) (i2f 32))) = 2.
Proof.
  split; [apply ticks_int; unfold exact_int; lia|]. split; [apply ticks_int; unfold exact_int; lia|].
  split; [apply ticks_int; unfold exact_int; lia|]. split; [unfold tick; lia|]. split; vm_compute; reflexivity.
Qed.
Example C131_completed_example :
  let o := mkRequest "buy" "limit" btcusd (f64_const 1 (-1)) (i2f 0) (i2f 0) (f64_const 3 (-1)) (i2f 0) in
  f64_eq (r_quantity o) (i2f 0) = false /\ is_finite (r_quantity o) = true /\ is_finite (used_price o (i2f 7)) = true /\
  match calculate_fields o (i2f 7) with (Some o', None) => is_finite (r_total o') | _ => false end = true.
Proof. cbv zeta. split; [vm_compute; reflexivity|]. split; [vm_compute; reflexivity|]. split; vm_compute; reflexivity. Qed.

Print Assumptions C131_fee_exact.
Print Assumptions C131_free_iff.
Print Assumptions C131_completed_no_fee.
Print Assumptions C131_by_total_refuted.
