(** Vocabulary of C111: the fifteen fields of a position, by when Modify may
    change them. *)
From Coq Require Import ZArith.
From Verif Require Import Go.Outcome Go.Float64 Model.Asset Model.Pair Model.Entities Spec.EntitySpec.
Open Scope string_scope.
Open Scope list_scope.

(** Fields set once, by whoever makes the position. *)
Definition same_identity (p p' : position f64) : Prop :=
  ps_id p' = ps_id p /\ ps_type p' = ps_type p /\ ps_pair p' = ps_pair p /\
  ps_take_profit p' = ps_take_profit p /\ ps_stop_loss p' = ps_stop_loss p /\
  ps_open_time p' = ps_open_time p /\ ps_execution_id p' = ps_execution_id p /\ ps_data p' = ps_data p.
(** Fields that tell whether, when and how it was closed. *)
Definition same_closing (p p' : position f64) : Prop :=
  ps_open p' = ps_open p /\ ps_close_price p' = ps_close_price p /\
  ps_close_time p' = ps_close_time p /\ ps_profit p' = ps_profit p.
(** Size and price. *)
Definition same_holding (p p' : position f64) : Prop :=
  ps_quantity p' = ps_quantity p /\ ps_open_price p' = ps_open_price p.
Definition records (p : position f64) (t : trade f64) (p' : position f64) : Prop :=
  ps_trades p' = ps_trades p ++ [t_id t].

(** What is left of the position after the trade, q - q', rounded once. *)
Definition rest (p : position f64) (t : trade f64) : f64 := f64_sub (ps_quantity p) (t_quantity t).
(** Below -0.0001 the trade is too large; from there up to zero it closes. *)
Definition too_large (p : position f64) (t : trade f64) : Prop :=
  reduces (ps_type p) (t_action t) /\ f64_lt (rest p t) (f64_const (-1) (-4)) = true.
Definition closes (p : position f64) (t : trade f64) : Prop :=
  t_pair t = ps_pair p /\ reduces (ps_type p) (t_action t) /\
  f64_lt (rest p t) (f64_const (-1) (-4)) = false /\ f64_le (rest p t) (i2f 0) = true.
Definition shrinks (p : position f64) (t : trade f64) : Prop :=
  t_pair t = ps_pair p /\ reduces (ps_type p) (t_action t) /\
  f64_lt (rest p t) (f64_const (-1) (-4)) = false /\ f64_le (rest p t) (i2f 0) = false.
Definition grows (p : position f64) (t : trade f64) : Prop :=
  t_pair t = ps_pair p /\ increases (ps_type p) (t_action t).
Definition idle (p : position f64) (t : trade f64) : Prop :=
  t_pair t <> ps_pair p \/ too_large p t \/
  (~ increases (ps_type p) (t_action t) /\ ~ reduces (ps_type p) (t_action t)).

(** The fields of a trade which Modify looks at. *)
Definition same_for_position (t u : trade f64) : Prop :=
  t_id u = t_id t /\ t_time u = t_time t /\ t_action u = t_action t /\ t_pair u = t_pair t /\
  t_price u = t_price t /\ t_quantity u = t_quantity t.
