(** Property C94: updates delivered again (market/orderbook.go, ApplyUpdate).
    A client that buffers the stream while it fetches a snapshot, or that
    reconnects, sees some updates twice. Vocabulary: Spec/HistorySpec.v. *)
From Coq Require Import Sorting.Sorted.
From Flocq Require Import BinarySingleNaN.
From Verif Require Import Go.Outcome Go.Int64 Go.Slice Go.Float64 Go.Num
  Model.OrderBook Spec.OrderBookSpec Spec.HistorySpec Proofs.OrderBook Proofs.UpdateThms Proofs.History Proofs.Replay
  Props.OrderBookProps Props.HistoryProps.
Open Scope list_scope.
Open Scope Z_scope.

(** A stream that goes back any number of times and sends updates again ends
    in the same book as the stream itself. *)
Theorem C94_redelivery_is_harmless : forall us vs ob, redelivered us vs ->
  Forall real_price us -> sizes_ok ob -> well_sorted ob -> sides_apart ob us -> room ob us ->
  apply_updates vs ob = apply_updates us ob.
Proof. exact redelivered_same. Qed.
Print Assumptions C94_redelivery_is_harmless.
(** A snapshot taken after [pre ++ us]: applying the buffered [us] to it
    changes nothing at all. *)
Theorem C94_old_updates_change_nothing : forall pre us ob ob',
  Forall real_price (pre ++ us) -> sizes_ok ob -> well_sorted ob -> sides_apart ob (pre ++ us) -> room ob (pre ++ us) ->
  apply_updates (pre ++ us) ob = Ret ob' -> apply_updates us ob' = Ret ob'.
Proof. exact replay_same. Qed.
Print Assumptions C94_old_updates_change_nothing.
(** Room for the different levels is enough for C72 and C73, however long the
    history. *)
Theorem C94_book_is_exactly_the_last_updates : forall us ob,
  Forall real_price us -> sizes_ok ob -> well_sorted ob -> sides_apart ob us -> room ob us ->
  exists ob', apply_updates us ob = Ret ob' /\
    (forall r, In r (asks ob') <-> justified "ask" (asks ob) us r) /\
    (forall r, In r (bids ob') <-> justified "bid" (bids ob) us r).
Proof. exact room_complete. Qed.
Print Assumptions C94_book_is_exactly_the_last_updates.
Theorem C94_only_last_updates_matter : forall us vs ob,
  Forall real_price us -> Forall real_price vs -> sizes_ok ob -> well_sorted ob ->
  sides_apart ob us -> sides_apart ob vs -> room ob us -> room ob vs ->
  (forall p, last_at "ask" p us = last_at "ask" p vs) -> (forall p, last_at "bid" p us = last_at "bid" p vs) ->
  apply_updates us ob = apply_updates vs ob.
Proof. exact room_last. Qed.
Print Assumptions C94_only_last_updates_matter.

(** A history of nine updates on a book of depth 5, longer than the depth. *)
Definition rp_ob : book f64 := mkBook 10 [mk 5 1; mk 6 2; mk 7 3] [mk 4 1; mk 3 2; mk 2 1] 5.
Definition rp_pre : list (update f64) := [upd 8 4 "ask"; upd 6 7 "ask"; upd 1 5 "bid"].
Definition rp_k : list (update f64) := [upd 5 0 "ask"; upd 4 0 "bid"; upd 6 9 "ask"].
Definition rp_rest : list (update f64) := [upd 6 0 "ask"; upd 5 8 "ask"; upd 4 2 "bid"].
Lemma covered_by (ps : list f64) p : existsb (f64_eq p) ps = true -> covers ps p.
Proof. intros H. apply existsb_exists in H. destruct H as (q & H1 & H2). exists q. auto. Qed.
Definition room_b (pa pb : list f64) (ob : book f64) (us : list (update f64)) : bool :=
  (zlen pa <=? max_depth ob) && (zlen pb <=? max_depth ob) &&
  forallb (fun r => existsb (f64_eq (price r)) pa) (asks ob) &&
  forallb (fun r => existsb (f64_eq (price r)) pb) (bids ob) &&
  forallb (fun u => negb (String.eqb (u_side u) "ask") || existsb (f64_eq (u_price u)) pa) us &&
  forallb (fun u => negb (String.eqb (u_side u) "bid") || existsb (f64_eq (u_price u)) pb) us.
Lemma room_b_ok pa pb ob us : room_b pa pb ob us = true -> room ob us.
Proof.
  unfold room_b. rewrite !andb_true_iff, !forallb_forall, !Z.leb_le. intros [[[[[H1 H2] H3] H4] H5] H6].
  exists pa, pb. split; [assumption|]. split; [assumption|].
  split; [intros; apply covered_by; auto|]. split; [intros; apply covered_by; auto|].
  split; intros u Hu Su _; apply covered_by; [specialize (H5 u Hu); rewrite Su in H5; exact H5|
    specialize (H6 u Hu); rewrite Su in H6; exact H6].
Qed.
Example C94_hypotheses : Forall real_price (rp_pre ++ rp_k ++ rp_rest) /\ sizes_ok rp_ob /\ well_sorted rp_ob /\
  sides_apart rp_ob (rp_pre ++ rp_k ++ rp_rest) /\ room rp_ob (rp_pre ++ rp_k ++ rp_rest) /\
  redelivered (rp_pre ++ rp_k ++ rp_rest) (rp_pre ++ rp_k ++ rp_k ++ rp_rest) /\
  zlen (rp_pre ++ rp_k ++ rp_rest) > max_depth rp_ob.
Proof.
  split; [repeat constructor|].
  split; [unfold sizes_ok; vm_compute; repeat split; congruence|].
  split; [repeat split; repeat constructor|].
  split; [apply apart_b_ok; vm_compute; reflexivity|].
  split; [apply (room_b_ok (map i2f [5; 6; 7; 8]) (map i2f [4; 3; 2; 1])); vm_compute; reflexivity|].
  split; [apply rewound, as_sent|reflexivity].
Qed.
Example C94_example :
  shown (apply_updates (rp_pre ++ rp_k ++ rp_rest) rp_ob) =
    Some ([(5, 8, 0); (7, 3, 0); (8, 4, 0)], [(4, 2, 0); (3, 2, 0); (2, 1, 0); (1, 5, 0)]) /\
  shown (apply_updates (rp_pre ++ rp_k ++ rp_k ++ rp_rest) rp_ob) =
    shown (apply_updates (rp_pre ++ rp_k ++ rp_rest) rp_ob).
Proof. vm_compute. auto. Qed.

(** The conditions are needed. Without room: the level 3 was cut off, then
    comes back. *)
Theorem C94_without_room_refuted : exists us ob,
  Forall real_price us /\ sizes_ok ob /\ well_sorted ob /\ within_depth ob /\ sides_apart ob us /\
  shown (apply_updates us ob) = Some ([(2, 1, 0)], []) /\
  shown (apply_updates (us ++ us) ob) = Some ([(2, 1, 0); (3, 1, 0)], []).
Proof.
  exists [upd 3 1 "ask"; upd 1 0 "ask"], (mkBook 10 [mk 1 1; mk 2 1] [] 2).
  split; [repeat constructor|].
  split; [unfold sizes_ok; vm_compute; repeat split; congruence|].
  split; [repeat split; repeat constructor|].
  split; [unfold within_depth; vm_compute; split; congruence|].
  split; [apply apart_b_ok; vm_compute; reflexivity|]. split; vm_compute; reflexivity.
Qed.
(** When a level crosses the other side, a replay eats a further level that was
    never crossed: bid 6 is set and then taken out by ask 5. *)
Theorem C94_across_a_crossing_refuted : exists us ob,
  Forall real_price us /\ sizes_ok ob /\ well_sorted ob /\ unlocked ob /\ room ob us /\
  shown (apply_updates us ob) = Some ([(5, 1, 0); (9, 1, 0)], [(3, 1, 0); (2, 1, 0)]) /\
  shown (apply_updates (us ++ us) ob) = Some ([(5, 1, 0); (9, 1, 0)], [(2, 1, 0)]).
Proof.
  exists [upd 6 1 "bid"; upd 5 1 "ask"], (mkBook 10 [mk 9 1] [mk 4 1; mk 3 1; mk 2 1] 10).
  split; [repeat constructor|].
  split; [unfold sizes_ok; vm_compute; repeat split; congruence|].
  split; [repeat split; repeat constructor|].
  split; [intros b a [<-|[<-|[<-|[]]]] [<-|[]]; vm_compute; reflexivity|].
  split; [apply (room_b_ok (map i2f [5; 9]) (map i2f [6; 4; 3; 2])); vm_compute; reflexivity|].
  split; vm_compute; reflexivity.
Qed.
(** An old update that is not followed by everything sent after it undoes a
    newer one. *)
Theorem C94_stale_update_refuted : exists u v ob,
  Forall real_price [u; v] /\ sizes_ok ob /\ well_sorted ob /\ sides_apart ob [u; v] /\ room ob [u; v] /\
  shown (apply_updates [u; v] ob) = Some ([(5, 2, 0)], []) /\
  shown (apply_updates [u; v; u] ob) = Some ([(5, 1, 0)], []).
Proof.
  exists (upd 5 1 "ask"), (upd 5 2 "ask"), (mkBook 10 [] [] 10).
  split; [repeat constructor|].
  split; [unfold sizes_ok; vm_compute; repeat split; congruence|].
  split; [repeat split; repeat constructor|].
  split; [apply apart_b_ok; vm_compute; reflexivity|].
  split; [apply (room_b_ok (map i2f [5]) []); vm_compute; reflexivity|].
  split; vm_compute; reflexivity.
Qed.
Print Assumptions C94_without_room_refuted.
Print Assumptions C94_across_a_crossing_refuted.
Print Assumptions C94_stale_update_refuted.
