(** Vocabulary of C82: exact size and worth of a list of trades, and numbers of
    ordinary magnitude. *)
From Coq Require Import Reals List.
From Flocq Require Import Core BinarySingleNaN.
From Verif Require Import Go.Float64 Model.Entities Spec.AccuracySpec.
Open Scope R_scope.

(** A positive price or quantity, from 2^-300 to 2^300. *)
Definition ordinary (x : f64) : Prop := is_finite x = true /\ bpow radix2 (-300) <= real x <= bpow radix2 300.
Definition ordinary_trade (t : trade f64) : Prop := ordinary (t_price t) /\ ordinary (t_quantity t).

(** Exact quantity and exact money of the trades. *)
Definition bought (ts : list (trade f64)) : R := fold_right (fun t a => real (t_quantity t) + a) 0 ts.
Definition worth (ts : list (trade f64)) : R := fold_right (fun t a => real (t_price t) * real (t_quantity t) + a) 0 ts.

(** Trades on the same pair in the same direction. *)
Definition same_way (t0 t : trade f64) : Prop := t_pair t = t_pair t0 /\ t_action t = t_action t0.
