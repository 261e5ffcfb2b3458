(** The same book with another MaxDepth. *)
From Coq Require Import ZArith.
From Verif Require Import Go.Float64 Model.OrderBook.
Open Scope Z_scope.

Definition with_depth (d : Z) (ob : book f64) : book f64 := mkBook (b_time ob) (asks ob) (bids ob) d.
