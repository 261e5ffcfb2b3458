(** Vocabulary of C114: NaN in an order book. *)
From Coq Require Import ZArith List String.
Import ListNotations.
From Verif Require Import Go.Float64 Model.OrderBook Spec.OrderBookSpec.
Open Scope list_scope.

Definition nan_price (u : update f64) : Prop := f64_is_nan (u_price u) = true.
Definition is_real (r : row f64) : bool := negb (f64_is_nan (price r)).
Definition real_rows (l : rows) : rows := filter is_real l.
Definition nan_rows (l : rows) : rows := filter (fun r => negb (is_real r)) l.
(** All rows but the first; a single row stays. *)
Definition without_best (l : rows) : rows :=
  match l with _ :: ((_ :: _) as rest) => rest | _ => l end.
(** The row an update leaves. *)
Definition row_of (u : update f64) : row f64 := mkRow (u_price u) (u_volume u) (i2f 0).
(** The book without its rows of price NaN. *)
Definition real_book (ob : book f64) : book f64 :=
  mkBook (b_time ob) (real_rows (asks ob)) (real_rows (bids ob)) (max_depth ob).
