(** Property C105: GetDepth rounds prices to the levels of the book
    (market/orderbook.go, GetDepth). Vocabulary: Spec/LevelSpec.v. *)
From Coq Require Import Sorting.Sorted.
From Flocq Require Import BinarySingleNaN.
From Verif Require Import Go.Outcome Go.Int64 Go.Slice Go.Float64 Go.Num
  Model.OrderBook Spec.OrderBookSpec Spec.LevelSpec Proofs.Updates Proofs.Level Props.OrderBookProps.
Open Scope list_scope.
Open Scope Z_scope.

(** Every answer is the price of a level. *)
Theorem C105_answer_is_a_level : forall ob, well_ordered ob -> two_sided ob -> forall p d, answered ob p d ->
  exists r, (In r (asks ob) \/ In r (bids ob)) /\ d = price r.
Proof. exact answer_level. Qed.
(** The price of a level is its own answer. *)
Theorem C105_levels_are_fixed : forall ob, well_ordered ob -> two_sided ob -> uncrossed ob ->
  forall r, In r (asks ob) \/ In r (bids ob) -> f64_lt (i2f 0) (price r) = true -> answered ob (price r) (price r).
Proof. exact level_fixed. Qed.
Theorem C105_idempotent : forall ob, well_ordered ob -> two_sided ob -> uncrossed ob -> positive_prices ob ->
  forall p d, answered ob p d -> answered ob d d.
Proof.
  intros ob W T U P p d E. destruct (answer_level ob W T p d E) as (r & H & ->).
  apply (level_fixed ob W T U r H (P r H)).
Qed.
(** A higher price has no lower answer, also across the two sides. *)
Theorem C105_monotone : forall ob, well_ordered ob -> two_sided ob -> uncrossed ob ->
  forall p q d e, f64_le p q = true -> answered ob p d -> answered ob q e -> f64_le d e = true.
Proof. exact monotone. Qed.
(** Down among the asks and up among the bids. *)
Theorem C105_toward_the_spread : forall ob, well_ordered ob -> two_sided ob -> forall p d, answered ob p d ->
  (spans (asks ob) p /\ f64_le d p = true) \/ (spans (bids ob) p /\ f64_le p d = true).
Proof. exact toward_spread. Qed.
Theorem C105_no_answer_in_the_spread : forall ob, well_ordered ob -> two_sided ob -> forall p,
  (forall r, In r (asks ob) -> f64_lt p (price r) = true) -> (forall r, In r (bids ob) -> f64_lt (price r) p = true) ->
  forall d, ~ answered ob p d.
Proof. exact in_spread. Qed.

Definition asked (ob : book f64) (p : Z) : option Z :=
  match get_depth ob (i2f p) with Ret (d, None) => Some (f2i d) | _ => None end.
Definition gap_book : book f64 := mkBook 10 [mk 10 1; mk 14 2; mk 20 3] [mk 8 1; mk 5 2; mk 2 1] 5.
Example C105_example : well_ordered gap_book /\ two_sided gap_book /\ uncrossed gap_book /\ positive_prices gap_book /\
  map (asked gap_book) [1; 2; 3; 5; 6; 8; 9; 10; 13; 14; 19; 20; 21] =
  [None; Some 2; Some 5; Some 5; Some 8; Some 8; None; Some 10; Some 10; Some 14; Some 14; Some 20; None].
Proof.
  split; [apply well_sorted_ordered; repeat split; repeat constructor|].
  split; [split; [discriminate|split; [discriminate|split; vm_compute; discriminate]]|].
  split; [intros b a [<-|[<-|[<-|[]]]] [<-|[<-|[<-|[]]]]; vm_compute; reflexivity|].
  split; [intros r [[<-|[<-|[<-|[]]]]|[<-|[<-|[<-|[]]]]]; vm_compute; reflexivity|].
  vm_compute. reflexivity.
Qed.
(** On a crossed book neither idempotence nor monotonicity holds: the asks win. *)
Definition crossed_book : book f64 := mkBook 10 [mk 4 1; mk 9 1] [mk 7 1; mk 2 1] 5.
Theorem C105_crossed_refuted : exists ob, well_ordered ob /\ two_sided ob /\ positive_prices ob /\
  (exists p d, answered ob p d /\ ~ answered ob d d) /\
  (exists p q d e, f64_le p q = true /\ answered ob p d /\ answered ob q e /\ f64_le d e = false).
Proof.
  assert (well_ordered crossed_book) as W by (apply well_sorted_ordered; repeat split; repeat constructor).
  assert (two_sided crossed_book) as T by (split; [discriminate|split; [discriminate|split; vm_compute; discriminate]]).
  assert (f2i (i2f 4) = 4) as I4 by (vm_compute; reflexivity). assert (f2i (i2f 9) = 9) as I9 by (vm_compute; reflexivity).
  assert (f2i (i2f 7) = 7) as I7 by (vm_compute; reflexivity). assert (f2i (i2f 2) = 2) as I2 by (vm_compute; reflexivity).
  assert (forall p z, asked crossed_book p = Some z -> answered crossed_book (i2f p) (i2f z)) as A.
  { intros p z H. unfold asked in H. unfold answered. destruct (get_depth crossed_book (i2f p)) as [[d [e|]]|] eqn:E; try discriminate H.
    injection H as <-. destruct (answer_level crossed_book W T (i2f p) d E) as (r & [[<-|[<-|[]]]|[<-|[<-|[]]]] & ->);
    cbn [price mk]; [rewrite I4|rewrite I9|rewrite I7|rewrite I2]; reflexivity. }
  assert (answered crossed_book (i2f 3) (i2f 7)) as A3 by (apply A; vm_compute; reflexivity).
  assert (answered crossed_book (i2f 7) (i2f 4)) as A7 by (apply A; vm_compute; reflexivity).
  exists crossed_book. split; [exact W|]. split; [exact T|].
  split; [intros r [[<-|[<-|[]]]|[<-|[<-|[]]]]; vm_compute; reflexivity|]. split.
  - exists (i2f 3), (i2f 7). split; [exact A3|]. intros E. unfold answered in *. rewrite A7 in E.
    assert (forall x y : f64, @Ret (f64 * option err) (x, None) = Ret (y, None) -> f2i x = f2i y) as K by (intros x y Q; now injection Q as ->).
    apply K in E. rewrite I4, I7 in E. discriminate E.
  - exists (i2f 3), (i2f 7), (i2f 7), (i2f 4). split; [vm_compute; reflexivity|]. split; [exact A3|]. split; [exact A7|]. vm_compute. reflexivity.
Qed.

Print Assumptions C105_answer_is_a_level.
Print Assumptions C105_levels_are_fixed.
Print Assumptions C105_idempotent.
Print Assumptions C105_monotone.
Print Assumptions C105_toward_the_spread.
Print Assumptions C105_no_answer_in_the_spread.
Print Assumptions C105_crossed_refuted.
