(** Property C76: sort.SliceStable as called by market/orderbook.go and
    indicators/williams_fractals.go.
    Model: Go/Sort.v (insertion sort on blocks of 20, in-place SymMerge);
    vocabulary: Spec/SortSpec.v. *)
From Coq Require Import Lia Sorting.Sorted Sorting.Permutation.
From Flocq Require Import BinarySingleNaN.
From Verif Require Import Go.Outcome Go.Int64 Go.Slice Go.Sort Go.Float64 Go.Num Model.OrderBook
  Spec.SortSpec Spec.OrderBookSpec Proofs.StableSort Proofs.SortOrder Proofs.OrderBook Proofs.NewBook.
Open Scope list_scope.
Open Scope Z_scope.

(** Whatever the comparison answers (NaN prices make it inconsistent), the
    algorithm stays inside the slice, ends, and only moves elements. *)
Theorem C76_stays_in_bounds : forall (A : Type) (less : A -> A -> bool) l,
  stable_func less l (List.length l) = Some (slice_stable less l) /\ Permutation l (slice_stable less l).
Proof.
  intros A less l. split; [|apply sort_perm]. unfold slice_stable.
  destruct (stable_func_some less (fun _ => 0) (fun _ => True) l) as (z & E & _). now rewrite E.
Qed.
(** For a strict weak order the result is sorted and stable, and it is the only
    such list. *)
Theorem C76_sorts_stably : forall (A : Type) (less : A -> A -> bool) l,
  strict_weak less (fun x => In x l) -> stably_sorted less l (slice_stable less l).
Proof. intros A less l. exact (slice_stable_weak less l). Qed.
Theorem C76_unique : forall (A : Type) (less : A -> A -> bool) l z,
  strict_weak less (fun x => In x l) -> stably_sorted less l z -> z = slice_stable less l.
Proof. intros A less l z W H. exact (stably_sorted_unique less l W z _ H (slice_stable_weak less l W)). Qed.

(** NewOrderBook on any rows, NaN included: no panic, and each side shows a
    prefix of a rearrangement of the rows given. *)
Theorem C76_any_rows : forall now (la lb : rows) d, zlen la <= 2 ^ 53 -> zlen lb <= 2 ^ 53 -> 0 <= d ->
  exists ob pa pb, new_order_book now la lb d = Ret ob /\ Permutation la pa /\ Permutation lb pb /\
    map pv (asks ob) = map pv (take d pa) /\ map pv (bids ob) = map pv (take d pb).
Proof.
  intros now la lb d Ha Hb Hd. do 3 eexists. split; [apply new_book_ok; assumption|].
  split; [apply sort_perm|]. split; [apply sort_perm|]. cbn [asks bids]. unfold pv. now rewrite !(accum_pv pair).
Qed.
(** With a NaN among the prices the other rows need not come out sorted. *)
Definition nan_rows : rows := [mkRow (i2f 3) (i2f 1) (i2f 0); mkRow B754_nan (i2f 1) (i2f 0); mkRow (i2f 1) (i2f 1) (i2f 0)].
Theorem C76_sorted_despite_nan_refuted : exists (la : rows) ob p q, new_order_book 0 la [] 5 = Ret ob /\
  map price (asks ob) = [p; B754_nan; q] /\ f64_lt q p = true.
Proof.
  exists nan_rows. eexists _, (i2f 3), (i2f 1). split; [reflexivity|]. split; [reflexivity|]. vm_compute. reflexivity.
Qed.

(** 50 elements (three blocks: two merges and a rotation), keys 0..6 and tags in
    input order: sorted by key, tags ascending within a key. *)
Definition tagged : list (Z * Z) := map (fun i => let i := Z.of_nat i in ((i * 17 + i * i) mod 7, i)) (List.seq 0 50).
Definition by_key (x y : Z * Z) : bool := fst x <? fst y.
Example C76_example :
  strict_weak by_key (fun x => In x tagged) /\
  map fst (slice_stable by_key tagged) = List.concat (map (fun v => repeat v (count_occ Z.eq_dec (map fst tagged) v)) [0; 1; 2; 3; 4; 5; 6]) /\
  map snd (firstn 14 (slice_stable by_key tagged)) = [0; 4; 7; 11; 14; 18; 21; 25; 28; 32; 35; 39; 42; 46].
Proof.
  split; [|split].
  - split; [intros x _; apply Z.ltb_irrefl|]. split; intros x y z _ _ _; unfold by_key; rewrite ?Z.ltb_lt, ?Z.ltb_ge; lia.
  - vm_compute. reflexivity.
  - vm_compute. reflexivity.
Qed.

Print Assumptions C76_stays_in_bounds.
Print Assumptions C76_sorts_stably.
Print Assumptions C76_unique.
Print Assumptions C76_any_rows.
Print Assumptions C76_sorted_despite_nan_refuted.
