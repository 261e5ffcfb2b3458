(** Vocabulary of C96: exact books kept beside a position. *)
From Coq Require Import Reals List String.
From Flocq Require Import Core BinarySingleNaN.
From Verif Require Import Go.Float64 Model.Entities Spec.AccuracySpec Spec.MoneySpec.
Open Scope R_scope.

(** A positive price or quantity, from 2^-200 to 2^200. *)
Definition moderate (x : f64) : Prop := is_finite x = true /\ bpow radix2 (-200) <= real x <= bpow radix2 200.
Definition moderate_trade (t : trade f64) : Prop := moderate (t_price t) /\ moderate (t_quantity t).

(** Exact quantity held after the trades, when [a] is the opening action:
    trades with action [a] count positively, the others negatively. *)
Definition held (a : string) (ts : list (trade f64)) : R :=
  fold_right (fun t s => (if String.eqb (t_action t) a then real (t_quantity t) else - real (t_quantity t)) + s) 0 ts.
(** Exact cash received for all trades: sales minus purchases. *)
Definition received (ts : list (trade f64)) : R :=
  fold_right (fun t s => (if String.eqb (t_action t) "buy" then - (real (t_price t) * real (t_quantity t))
                          else real (t_price t) * real (t_quantity t)) + s) 0 ts.
(** Exact gain if the position were closed at price [c]: cash received so far,
    and the quantity held sold (or, for a short position, bought back) at [c]. *)
Definition gain_at (a : string) (c : R) (ts : list (trade f64)) : R :=
  received ts + (if String.eqb a "buy" then c * held a ts else - (c * held a ts)).
(** A whole number of units, at least one. *)
Definition whole (x : f64) : Prop := exists n : Z, (0 < n)%Z /\ is_integer x n.
