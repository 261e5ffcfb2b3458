(** Property C114: NaN prices and volumes in an order book (market/orderbook.go).
    Vocabulary: Spec/NanSpec.v. *)
From Coq Require Import ZArith Lia List String Bool.
Import ListNotations.
From Flocq Require Import BinarySingleNaN.
From Verif Require Import Go.Outcome Go.Int64 Go.Slice Go.Float64 Go.Num Model.OrderBook Spec.OrderBookSpec Spec.NanSpec Proofs.Nan Props.OrderBookProps.
Open Scope list_scope.
Open Scope Z_scope.

(** An ask of price NaN goes to the end of the asks, and the best bid is lost
    (unless it is the only one). *)
Theorem C114_ask : forall u ob, u_side u = "ask"%string -> nan_price u -> nonzero u -> 0 <= max_depth ob -> zlen (bids ob) <= 2 ^ 53 ->
  apply_update u ob = Ret (mkBook (b_time ob) (take (max_depth ob) (asks ob ++ [row_of u]))
                             (take (max_depth ob) (without_best (bids ob))) (max_depth ob), None).
Proof. exact nan_ask. Qed.
Theorem C114_bid : forall u ob, u_side u = "bid"%string -> nan_price u -> nonzero u -> 0 <= max_depth ob -> zlen (asks ob) <= 2 ^ 53 ->
  apply_update u ob = Ret (mkBook (b_time ob) (take (max_depth ob) (without_best (asks ob)))
                             (take (max_depth ob) (bids ob ++ [row_of u])) (max_depth ob), None).
Proof. exact nan_bid. Qed.
(** With volume zero it does nothing: it cannot remove what it brought. *)
Theorem C114_zero : forall u ob, u_side u = "ask"%string \/ u_side u = "bid"%string -> nan_price u -> zero u -> 0 <= max_depth ob ->
  apply_update u ob = Ret (ob, None).
Proof. exact nan_zero. Qed.
(** [n] of them take the [n] best rows of the other side, down to the worst one,
    and fill their own side. *)
Theorem C114_repeated_asks : forall n u ob, u_side u = "ask"%string -> nan_price u -> nonzero u -> within_depth ob -> zlen (bids ob) <= 2 ^ 53 ->
  apply_updates (repeat u n) ob = Ret (mkBook (b_time ob) (take (max_depth ob) (asks ob ++ repeat (row_of u) n))
                                         (skipn (Nat.min n (List.length (bids ob) - 1)) (bids ob)) (max_depth ob)).
Proof. exact nan_asks. Qed.
Theorem C114_repeated_bids : forall n u ob, u_side u = "bid"%string -> nan_price u -> nonzero u -> within_depth ob -> zlen (asks ob) <= 2 ^ 53 ->
  apply_updates (repeat u n) ob = Ret (mkBook (b_time ob) (skipn (Nat.min n (List.length (asks ob) - 1)) (asks ob))
                                         (take (max_depth ob) (bids ob ++ repeat (row_of u) n)) (max_depth ob)).
Proof. exact nan_bids. Qed.
(** While there is room, the updates of a side neither remove the NaN rows on it
    nor treat its real rows differently because of them. *)
Theorem C114_asks_beside_nan : forall u ob, u_side u = "ask"%string -> real_price u -> zlen (asks ob) < max_depth ob -> zlen (bids ob) <= 2 ^ 53 ->
  exists x y, apply_update u ob = Ret (x, None) /\ apply_update u (real_book ob) = Ret (y, None) /\
    real_rows (asks x) = asks y /\ nan_rows (asks x) = nan_rows (asks ob).
Proof. exact real_ask. Qed.
Theorem C114_bids_beside_nan : forall u ob, u_side u = "bid"%string -> real_price u -> zlen (bids ob) < max_depth ob -> zlen (asks ob) <= 2 ^ 53 ->
  exists x y, apply_update u ob = Ret (x, None) /\ apply_update u (real_book ob) = Ret (y, None) /\
    real_rows (bids x) = bids y /\ nan_rows (bids x) = nan_rows (bids ob).
Proof. exact real_bid. Qed.
(** The updates of the other side do: the book becomes crossed. *)
Theorem C114_uncrossed_refuted : exists us ob ob' a b, well_sorted ob /\ within_depth ob /\ asks ob = [] /\
  apply_updates us ob = Ret ob' /\ In a (asks ob') /\ In b (bids ob') /\ f64_lt (price a) (price b) = true.
Proof.
  exists [mkUpdate B754_nan (i2f 1) "ask"; mkUpdate (i2f 5) (i2f 1) "ask"; mkUpdate (i2f 7) (i2f 1) "bid"], (mkBook 0 [] [] 10).
  eexists. exists (mkRow (i2f 5) (i2f 1) (i2f 0)), (mkRow (i2f 7) (i2f 1) (i2f 0)).
  split; [repeat split; constructor|]. split; [split; vm_compute; discriminate|]. split; [reflexivity|]. split; [reflexivity|].
  split; [left; reflexivity|]. split; [left; reflexivity|]. vm_compute. reflexivity.
Qed.
(** A NaN volume is a volume: NewOrderBook makes every running total from its
    level on NaN. *)
Theorem C114_totals : forall now la lb d ob i j r r', new_order_book now la lb d = Ret ob -> (i <= j)%nat -> f64_is_nan (volume r) = true ->
  (nth_error (asks ob) i = Some r -> nth_error (asks ob) j = Some r' -> f64_is_nan (accum r') = true) /\
  (nth_error (bids ob) i = Some r -> nth_error (bids ob) j = Some r' -> f64_is_nan (accum r') = true).
Proof.
  intros now la lb d ob i j r r' H K V. unfold new_order_book, sort_book in H. cbn [asks bids max_depth b_time] in H.
  destruct (reslice _ _ _) as [a|]; [|discriminate H]. cbn [bind] in H. destruct (reslice _ _ _) as [b|]; [|discriminate H]. cbn [bind] in H.
  injection H as <-. cbn [asks bids]. split; intros H1 H2; exact (accum_nan _ _ i j r r' H1 V K H2).
Qed.

Definition nan_update : update f64 := mkUpdate B754_nan (i2f 1) "ask".
(** One NaN ask: the best bid goes; a hundred: only the last bid stays. *)
Example C114_example :
  nan_price nan_update /\ nonzero nan_update /\ within_depth ex_book /\
  (match apply_updates [nan_update] ex_book with Ret ob => map (fun r => f2i (price r)) (bids ob) | _ => [] end) =
    tl (map (fun r => f2i (price r)) (bids ex_book)) /\ (2 <= List.length (bids ex_book))%nat /\
  (match apply_updates (repeat nan_update 100) ex_book with Ret ob => List.length (bids ob) | _ => 0%nat end) = 1%nat.
Proof. vm_compute. repeat split; try discriminate. repeat constructor. Qed.
