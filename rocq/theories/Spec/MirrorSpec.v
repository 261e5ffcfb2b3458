(** Vocabulary of C90: the other side of every trade. *)
From Coq Require Import String.
From Flocq Require Import BinarySingleNaN.
From Verif Require Import Go.Float64 Model.Entities.
Open Scope string_scope.

Definition other_action (a : string) : string :=
  if String.eqb a "buy" then "sell" else if String.eqb a "sell" then "buy" else a.
Definition other_type (ty : string) : string :=
  if String.eqb ty "long" then "short" else if String.eqb ty "short" then "long" else ty.
(** The trade as the counterparty records it. *)
Definition counter_trade (t : trade f64) : trade f64 :=
  mkTrade (t_id t) (t_time t) (other_action (t_action t)) (t_order_type t) (t_pair t) (t_price t) (t_quantity t)
    (t_fee t) (t_cost t) (t_execution_id t).

(** The negative, up to the sign of zero. *)
Definition opposite (x y : f64) : Prop :=
  y = f64_neg x \/ (exists s s', x = B754_zero s /\ y = B754_zero s').
(** Two positions that differ only in the direction and in the sign of the
    profit. *)
Definition counter_position (p q : position f64) : Prop :=
  (ps_type p = "long" /\ ps_type q = "short" \/ ps_type p = "short" /\ ps_type q = "long") /\
  opposite (ps_profit p) (ps_profit q) /\
  ps_id q = ps_id p /\ ps_pair q = ps_pair p /\ ps_open q = ps_open p /\
  ps_take_profit q = ps_take_profit p /\ ps_stop_loss q = ps_stop_loss p /\
  ps_open_price q = ps_open_price p /\ ps_close_price q = ps_close_price p /\ ps_quantity q = ps_quantity p /\
  ps_open_time q = ps_open_time p /\ ps_close_time q = ps_close_time p /\ ps_trades q = ps_trades p /\
  ps_execution_id q = ps_execution_id p /\ ps_data q = ps_data p.
