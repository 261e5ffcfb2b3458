(** Property C104: accumulated volumes influence no other field and no answer,
    and rebuilding a book from its own rows repairs them
    (market/orderbook.go, all functions but the printing ones).
    Vocabulary: Spec/RebuildSpec.v. *)
From Flocq Require Import BinarySingleNaN.
From Verif Require Import Go.Outcome Go.Int64 Go.Slice Go.Float64 Go.Num
  Model.OrderBook Spec.OrderBookSpec Spec.RebuildSpec Proofs.Rebuild Props.OrderBookProps.
Open Scope list_scope.
Open Scope Z_scope.

(** No hypothesis on order, size, depth or NaN: also the panics are the same. *)
Theorem C104_update : forall u x y, same_levels x y ->
  alike (fun a b => same_levels (fst a) (fst b) /\ snd a = snd b) (apply_update u x) (apply_update u y).
Proof. exact levels_update. Qed.
Theorem C104_history : forall us x y, same_levels x y -> alike same_levels (apply_updates us x) (apply_updates us y).
Proof. exact levels_history. Qed.
Theorem C104_get_depth : forall x y p, same_levels x y -> get_depth x p = get_depth y p.
Proof. exact levels_depth. Qed.
Theorem C104_overlap : forall x x' y y', same_levels x x' -> same_levels y y' ->
  calculate_overlap x y = calculate_overlap x' y'.
Proof. exact levels_overlap. Qed.
Theorem C104_new_book : forall now la la' lb lb' d, map pv la = map pv la' -> map pv lb = map pv lb' ->
  new_order_book now la lb d = new_order_book now la' lb' d.
Proof. exact levels_new. Qed.

(** Rebuilding: the same levels, with the right totals. *)
Theorem C104_rebuild : forall now ob, well_ordered ob -> within_depth ob ->
  zlen (asks ob) <= 2 ^ 53 -> zlen (bids ob) <= 2 ^ 53 ->
  exists r, new_order_book now (asks ob) (bids ob) (max_depth ob) = Ret r /\ b_time r = now /\
    same_levels r ob /\ true_totals r.
Proof. exact rebuild. Qed.
Theorem C104_rebuild_after_history : forall us now ob,
  sizes_ok ob -> well_ordered ob -> within_depth ob -> Forall real_price us ->
  exists ob' r, apply_updates us ob = Ret ob' /\
    new_order_book now (asks ob') (bids ob') (max_depth ob') = Ret r /\ same_levels r ob' /\ true_totals r.
Proof. exact rebuild_history. Qed.
(** Rebuilding again changes only the time. *)
Theorem C104_rebuild_again : forall now now' ob r,
  new_order_book now (asks ob) (bids ob) (max_depth ob) = Ret r -> same_levels r ob ->
  new_order_book now' (asks r) (bids r) (max_depth r) = Ret (mkBook now' (asks r) (bids r) (max_depth r)).
Proof. exact rebuild_again. Qed.

(** The history of C03 leaves stale totals (all 0 here); the rebuilt book has the
    same levels and the true ones, and gives the same book and answers afterwards. *)
Definition rebuilt (o : go (book f64)) : go (book f64) :=
  b <- o ;; new_order_book 77 (asks b) (bids b) (max_depth b).
Definition depth_shown (o : go (book f64)) (p : Z) : option (Z * bool) :=
  match b <- o ;; get_depth b (i2f p) with Ret (d, e) => Some (f2i d, match e with None => true | _ => false end) | _ => None end.
Example C104_example :
  sizes_ok ex_book /\ well_ordered ex_book /\ within_depth ex_book /\ Forall real_price ex_history /\
  shown (apply_updates ex_history ex_book) =
    Some ([(6,7,0); (7,3,0); (8,4,0)], [(5,1,0); (4,1,0); (2,1,0); (1,5,0)]) /\
  shown (rebuilt (apply_updates ex_history ex_book)) =
    Some ([(6,7,7); (7,3,10); (8,4,14)], [(5,1,1); (4,1,2); (2,1,3); (1,5,8)]) /\
  depth_shown (apply_updates ex_history ex_book) 7 = Some (7, true) /\
  depth_shown (rebuilt (apply_updates ex_history ex_book)) 7 = Some (7, true).
Proof.
  split; [unfold sizes_ok; vm_compute; repeat split; congruence|].
  split; [apply Proofs.Updates.well_sorted_ordered; repeat split; repeat constructor|].
  split; [unfold within_depth; vm_compute; split; congruence|].
  split; [repeat constructor|]. repeat split; vm_compute; reflexivity.
Qed.

Print Assumptions C104_update.
Print Assumptions C104_history.
Print Assumptions C104_get_depth.
Print Assumptions C104_overlap.
Print Assumptions C104_new_book.
Print Assumptions C104_rebuild.
Print Assumptions C104_rebuild_after_history.
Print Assumptions C104_rebuild_again.
