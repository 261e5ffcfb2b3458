(** Property C102: what a book of limited depth does not show
    (market/orderbook.go, ApplyUpdate and limit). Vocabulary: Spec/HorizonSpec.v. *)
From Coq Require Import Sorting.Sorted.
From Flocq Require Import BinarySingleNaN.
From Verif Require Import Go.Outcome Go.Int64 Go.Slice Go.Float64 Go.Num
  Model.OrderBook Spec.OrderBookSpec Spec.HistorySpec Spec.DepthSpec Spec.HorizonSpec Proofs.OrderBook Proofs.UpdateThms Proofs.History
  Proofs.Horizon Props.OrderBookProps Props.HistoryProps.
Open Scope list_scope.
Open Scope Z_scope.

(** A level is missing exactly when it was pushed off the end of a full side
    and has not been sent again since. *)
Theorem C102_asks_missing_exactly : forall us ob ob',
  Forall real_price us -> sizes_ok ob -> well_sorted ob -> within_depth ob -> sides_apart ob us ->
  apply_updates us ob = Ret ob' ->
  forall r, In r (asks ob') <-> justified "ask" (asks ob) us r /\ ~ ask_lost us ob r.
Proof. exact shown_asks. Qed.
Theorem C102_bids_missing_exactly : forall us ob ob',
  Forall real_price us -> sizes_ok ob -> well_sorted ob -> within_depth ob -> sides_apart ob us ->
  apply_updates us ob = Ret ob' ->
  forall r, In r (bids ob') <-> justified "bid" (bids ob) us r /\ ~ bid_lost us ob r.
Proof. exact shown_bids. Qed.
(** A side which always had room or reached as far as [q] is complete up to [q]. *)
Theorem C102_asks_complete_up_to : forall us ob ob' q,
  Forall real_price us -> sizes_ok ob -> well_sorted ob -> within_depth ob -> sides_apart ob us ->
  apply_updates us ob = Ret ob' -> asks_reach q us ob ->
  forall r, f64_le (price r) q = true -> In r (asks ob') <-> justified "ask" (asks ob) us r.
Proof. exact reach_asks. Qed.
Theorem C102_bids_complete_up_to : forall us ob ob' q,
  Forall real_price us -> sizes_ok ob -> well_sorted ob -> within_depth ob -> sides_apart ob us ->
  apply_updates us ob = Ret ob' -> bids_reach q us ob ->
  forall r, f64_le q (price r) = true -> In r (bids ob') <-> justified "bid" (bids ob) us r.
Proof. exact reach_bids. Qed.
(** After [n] deletions on a side its best MaxDepth - n rows are right: the
    first rows of the sorted list of all live levels. *)
Theorem C102_best_rows : forall us ob,
  Forall real_price us -> sizes_ok ob -> well_sorted ob -> within_depth ob -> sides_apart ob us ->
  exists ob' fa fb, apply_updates us ob = Ret ob' /\ asks_sorted fa /\ bids_sorted fb /\
    (forall r, In r fa <-> justified "ask" (asks ob) us r) /\
    (forall r, In r fb <-> justified "bid" (bids ob) us r) /\
    take (max_depth ob - deletions "ask" us) (asks ob') = take (max_depth ob - deletions "ask" us) fa /\
    take (max_depth ob - deletions "bid" us) (bids ob') = take (max_depth ob - deletions "bid" us) fb.
Proof. exact best_rows. Qed.
(** A book kept deeper shows at least the same rows. *)
Theorem C102_deeper_shows_more : forall us ob d ob',
  Forall real_price us -> sizes_ok ob -> well_sorted ob -> within_depth ob -> sides_apart ob us ->
  max_depth ob <= d < 2 ^ 53 -> apply_updates us ob = Ret ob' ->
  exists deep, apply_updates us (with_depth d ob) = Ret deep /\
    (forall r, In r (asks ob') -> In r (asks deep)) /\ (forall r, In r (bids ob') -> In r (bids deep)).
Proof. exact deeper_book. Qed.

(** One row more than MaxDepth - n can be wrong: ask 3 is pushed off by 2, then
    1 is deleted; of the live levels 2 and 3 only 2 is shown. *)
Theorem C102_one_row_more_refuted : exists us ob ob' r,
  Forall real_price us /\ sizes_ok ob /\ well_sorted ob /\ within_depth ob /\ sides_apart ob us /\
  apply_updates us ob = Ret ob' /\ max_depth ob = 2 /\ deletions "ask" us = 1 /\
  zlen (asks ob') = 1 /\ justified "ask" (asks ob) us r /\ ~ In r (asks ob').
Proof.
  exists [upd 2 1 "ask"; upd 1 0 "ask"], (mkBook 10 [mk 1 1; mk 3 1] [] 2), (mkBook 10 [mk 2 1] [] 2), (mk 3 1).
  split; [repeat constructor|].
  split; [unfold sizes_ok; vm_compute; repeat split; congruence|].
  split; [repeat split; repeat constructor|].
  split; [unfold within_depth; vm_compute; split; congruence|].
  split; [apply apart_b_ok; vm_compute; reflexivity|].
  split; [reflexivity|]. split; [reflexivity|]. split; [vm_compute; reflexivity|]. split; [reflexivity|].
  split; [right; now left|]. intros [H|[]]. discriminate H.
Qed.
(** Where the sides meet a deeper book can lose rows that a shorter one keeps:
    bid 6 removes asks 5 and 7 from the book of depth 3, but only 5 from the
    book of depth 2, where 7 is the last row. *)
Theorem C102_deeper_when_crossing_refuted : exists us ob,
  Forall real_price us /\ sizes_ok ob /\ well_sorted ob /\ within_depth ob /\ max_depth ob = 2 /\
  shown (apply_updates us ob) = Some ([(7, 1, 0)], [(6, 1, 0)]) /\
  shown (apply_updates us (with_depth 3 ob)) = Some ([(9, 1, 0)], [(6, 1, 0)]).
Proof.
  exists [upd 9 1 "ask"; upd 6 1 "bid"], (mkBook 10 [mk 5 1; mk 7 1] [] 2).
  split; [repeat constructor|].
  split; [unfold sizes_ok; vm_compute; repeat split; congruence|].
  split; [repeat split; repeat constructor|].
  split; [unfold within_depth; vm_compute; split; congruence|].
  split; [reflexivity|]. split; vm_compute; reflexivity.
Qed.

(** Depth 2: ask 3 is pushed off by 2; deleting 1 leaves one row; 4 is set and
    shown, 3 is still missing. *)
Example C102_example : exists us ob,
  Forall real_price us /\ sizes_ok ob /\ well_sorted ob /\ within_depth ob /\ sides_apart ob us /\
  shown (apply_updates us ob) = Some ([(2, 1, 0); (4, 1, 0)], []) /\
  justified "ask" (asks ob) us (mk 3 1) /\ ask_lost us ob (mk 3 1) /\ asks_reach (i2f 2) us ob.
Proof.
  exists [upd 2 1 "ask"; upd 1 0 "ask"; upd 4 1 "ask"], (mkBook 10 [mk 1 1; mk 3 1] [] 2).
  split; [repeat constructor|].
  split; [unfold sizes_ok; vm_compute; repeat split; congruence|].
  split; [repeat split; repeat constructor|].
  split; [unfold within_depth; vm_compute; split; congruence|].
  split; [apply apart_b_ok; vm_compute; reflexivity|].
  split; [vm_compute; reflexivity|]. split; [right; now left|]. split.
  - exists [upd 2 1 "ask"], [upd 1 0 "ask"; upd 4 1 "ask"], (mkBook 10 [mk 1 1; mk 2 1] [] 2).
    split; [reflexivity|]. split; [reflexivity|]. split; [reflexivity|]. split.
    + intros x [<-|[<-|[]]]; reflexivity.
    + intros u [<-|[<-|[]]] _; reflexivity.
  - intros pre post b E H. destruct pre as [|u1 [|u2 [|u3 [|u4 pre]]]]; cbn [app] in E.
    + injection H as <-. right. exists (mk 3 1). split; [right; now left|reflexivity].
    + injection E as <- _. injection H as <-. right. exists (mk 2 1). split; [right; now left|reflexivity].
    + injection E as <- <- _. injection H as <-. left. reflexivity.
    + injection E as <- <- <- _. injection H as <-. right. exists (mk 4 1). split; [right; now left|reflexivity].
    + discriminate E.
Qed.

Print Assumptions C102_asks_missing_exactly.
Print Assumptions C102_bids_missing_exactly.
Print Assumptions C102_asks_complete_up_to.
Print Assumptions C102_bids_complete_up_to.
Print Assumptions C102_best_rows.
Print Assumptions C102_deeper_shows_more.
Print Assumptions C102_one_row_more_refuted.
Print Assumptions C102_deeper_when_crossing_refuted.
