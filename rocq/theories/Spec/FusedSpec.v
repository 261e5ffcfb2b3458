(** Vocabulary of C97. *)
From Coq Require Import List.
From Verif Require Import Go.Outcome Go.Float64 Model.Entities.

(** Two runs of a moving average: the same panic, or the same error and as many
    values. *)
Definition same_shape (o o' : go (list f64 * option err)) : Prop :=
  match o, o' with
  | Ret (xs, e), Ret (ys, e') => List.length xs = List.length ys /\ e = e'
  | Panic p, Panic p' => p = p'
  | _, _ => False
  end.
(** Two runs of CalculateOverlap: the same panic or the same error. *)
Definition same_ending (o o' : go (f64 * option err)) : Prop :=
  match o, o' with
  | Ret (_, e), Ret (_, e') => e = e'
  | Panic p, Panic p' => p = p'
  | _, _ => False
  end.
(** Positions that differ at most in open price and profit. *)
Definition same_but_money (p q : position f64) : Prop :=
  ps_id p = ps_id q /\ ps_type p = ps_type q /\ ps_pair p = ps_pair q /\ ps_open p = ps_open q /\
  ps_take_profit p = ps_take_profit q /\ ps_stop_loss p = ps_stop_loss q /\ ps_close_price p = ps_close_price q /\
  ps_quantity p = ps_quantity q /\ ps_open_time p = ps_open_time q /\ ps_close_time p = ps_close_time q /\
  ps_trades p = ps_trades q /\ ps_execution_id p = ps_execution_id q /\ ps_data p = ps_data q.
