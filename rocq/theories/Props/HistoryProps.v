(** Properties C72 and C73: what a book shows after a whole history of updates
    (market/orderbook.go). Vocabulary: Spec/HistorySpec.v. *)
From Coq Require Import Sorting.Sorted Sorting.Permutation.
From Flocq Require Import BinarySingleNaN.
From Verif Require Import Go.Outcome Go.Int64 Go.Slice Go.Sort Go.Float64 Go.FloatOrder Go.FloatReal Go.Num
  Model.OrderBook Spec.OrderBookSpec Spec.HistorySpec Proofs.Lists Proofs.OrderBook Proofs.Updates Proofs.UpdateThms
  Proofs.NewBook Proofs.History Props.OrderBookProps.
Open Scope list_scope.
Open Scope Z_scope.

(** A history on both sides, with replaced and deleted levels. *)
Definition ex_us : list (update f64) :=
  [upd 8 4 "ask"; upd 6 7 "ask"; upd 1 5 "bid"; upd 5 0 "ask"; upd 4 0 "bid"; upd 6 9 "ask"; upd 9 0 "ask"].
Definition ex_wide : book f64 := mkBook 10 [mk 5 1; mk 6 2; mk 7 3] [mk 4 1; mk 3 2; mk 2 1] 20.

Definition apart_b (ob : book f64) (us : list (update f64)) : bool :=
  forallb (fun u => negb (String.eqb (u_side u) "ask") || forallb (fun b => f64_lt (price b) (u_price u)) (bids ob)) us &&
  forallb (fun u => negb (String.eqb (u_side u) "bid") || forallb (fun a => f64_lt (u_price u) (price a)) (asks ob)) us &&
  forallb (fun u => forallb (fun v => negb (String.eqb (u_side u) "ask") || negb (String.eqb (u_side v) "bid") ||
     f64_lt (u_price v) (u_price u)) us) us.
Lemma apart_b_ok ob us : apart_b ob us = true -> sides_apart ob us.
Proof.
  unfold apart_b. rewrite !andb_true_iff, !forallb_forall. intros [[H1 H2] H3].
  split; [|split].
  - intros u b Hu Hs _ Hb. specialize (H1 u Hu). rewrite Hs in H1. cbn in H1. rewrite forallb_forall in H1. now apply H1.
  - intros u a Hu Hs _ Ha. specialize (H2 u Hu). rewrite Hs in H2. cbn in H2. rewrite forallb_forall in H2. now apply H2.
  - intros u v Hu Hv Su Sv _ _. specialize (H3 u Hu). rewrite forallb_forall in H3. specialize (H3 v Hv).
    rewrite Su, Sv in H3. exact H3.
Qed.
Example ex_wide_ok : sizes_ok ex_wide /\ well_sorted ex_wide /\ within_depth ex_wide /\
  Forall real_price ex_us /\ sides_apart ex_wide ex_us /\
  zlen (asks ex_wide) + zlen ex_us <= max_depth ex_wide /\ zlen (bids ex_wide) + zlen ex_us <= max_depth ex_wide.
Proof.
  split; [unfold sizes_ok; vm_compute; repeat split; congruence|].
  split; [repeat split; repeat constructor|].
  split; [unfold within_depth; vm_compute; split; congruence|].
  split; [repeat constructor|].
  split; [apply apart_b_ok; vm_compute; reflexivity|]. vm_compute. split; congruence.
Qed.

(** ** C72 *)
Theorem C72_every_row_is_last_update_or_initial : forall us ob,
  Forall real_price us -> sizes_ok ob -> well_sorted ob ->
  exists ob', apply_updates us ob = Ret ob' /\
    (forall r, In r (asks ob') -> justified "ask" (asks ob) us r) /\
    (forall r, In r (bids ob') -> justified "bid" (bids ob) us r).
Proof. exact history_origin. Qed.
Print Assumptions C72_every_row_is_last_update_or_initial.
(** The converse needs room for every level and sides that never meet. *)
Theorem C72_book_is_exactly_the_last_updates : forall us ob,
  Forall real_price us -> sizes_ok ob -> well_sorted ob -> sides_apart ob us ->
  zlen (asks ob) + zlen us <= max_depth ob -> zlen (bids ob) + zlen us <= max_depth ob ->
  exists ob', apply_updates us ob = Ret ob' /\
    (forall r, In r (asks ob') <-> justified "ask" (asks ob) us r) /\
    (forall r, In r (bids ob') <-> justified "bid" (bids ob) us r).
Proof. exact history_complete. Qed.
Print Assumptions C72_book_is_exactly_the_last_updates.
(** Without room, a history that only sets levels still shows the best
    MaxDepth of them. *)
Theorem C72_inserts_show_the_best_levels : forall us ob,
  Forall real_price us -> Forall nonzero us -> sizes_ok ob -> well_sorted ob ->
  within_depth ob -> sides_apart ob us ->
  exists ob' fa fb, apply_updates us ob = Ret ob' /\
    asks ob' = take (max_depth ob) fa /\ bids ob' = take (max_depth ob) fb /\
    asks_sorted fa /\ bids_sorted fb /\
    (forall r, In r fa <-> justified "ask" (asks ob) us r) /\
    (forall r, In r fb <-> justified "bid" (bids ob) us r).
Proof. exact history_inserts. Qed.
Print Assumptions C72_inserts_show_the_best_levels.
(** With deletions and too little room the book forgets: MaxDepth 1, asks
    [5], then 6 is set and 5 deleted; the live level 6 is not shown. *)
Theorem C72_complete_without_room_refuted : exists us ob ob' r,
  Forall real_price us /\ sizes_ok ob /\ well_sorted ob /\ within_depth ob /\ sides_apart ob us /\
  apply_updates us ob = Ret ob' /\ zlen (asks ob') < max_depth ob /\
  justified "ask" (asks ob) us r /\ ~ In r (asks ob').
Proof.
  assert (sizes_ok (mkBook 10 [mk 5 1] [] 1)) as Sz by (unfold sizes_ok; vm_compute; repeat split; congruence).
  destruct (updates_total [upd 6 2 "ask"; upd 5 0 "ask"] (mkBook 10 [mk 5 1] [] 1) Sz) as (ob' & E & _).
  assert (shown (apply_updates [upd 6 2 "ask"; upd 5 0 "ask"] (mkBook 10 [mk 5 1] [] 1)) = Some ([], [])) as V
    by (vm_compute; reflexivity).
  rewrite E in V. cbn [shown] in V. injection V as V _. apply map_eq_nil in V.
  exists [upd 6 2 "ask"; upd 5 0 "ask"], (mkBook 10 [mk 5 1] [] 1), ob', (mk 6 2).
  split; [repeat constructor|].
  split; [exact Sz|].
  split; [repeat split; repeat constructor|].
  split; [unfold within_depth; vm_compute; split; congruence|].
  split; [apply apart_b_ok; vm_compute; reflexivity|].
  split; [exact E|]. rewrite V. split; [reflexivity|].
  split; [|intros []]. unfold justified.
  replace (last_at "ask" (price (mk 6 2)) [upd 6 2 "ask"; upd 5 0 "ask"]) with (Some (upd 6 2 "ask")) by reflexivity.
  split; reflexivity.
Qed.
Example C72_example :
  shown (apply_updates ex_us ex_wide) =
    Some ([(6, 9, 0); (7, 3, 0); (8, 4, 0)], [(3, 2, 0); (2, 1, 0); (1, 5, 0)]) /\
  option_map (fun u => f2i (u_volume u)) (last_at "ask" (i2f 6) ex_us) = Some 9 /\
  option_map (fun u => f2i (u_volume u)) (last_at "ask" (i2f 7) ex_us) = None.
Proof. vm_compute. auto. Qed.

(** ** C73 *)
Theorem C73_only_last_updates_matter : forall us vs ob,
  Forall real_price us -> Forall real_price vs -> sizes_ok ob -> well_sorted ob ->
  sides_apart ob us -> sides_apart ob vs -> within_depth ob ->
  Forall nonzero us \/ (zlen (asks ob) + zlen us <= max_depth ob /\ zlen (bids ob) + zlen us <= max_depth ob) ->
  Forall nonzero vs \/ (zlen (asks ob) + zlen vs <= max_depth ob /\ zlen (bids ob) + zlen vs <= max_depth ob) ->
  (forall p, last_at "ask" p us = last_at "ask" p vs) -> (forall p, last_at "bid" p us = last_at "bid" p vs) ->
  apply_updates us ob = apply_updates vs ob.
Proof. exact history_last. Qed.
Print Assumptions C73_only_last_updates_matter.
Theorem C73_order_of_distinct_updates_is_irrelevant : forall us vs ob,
  Forall real_price us -> sizes_ok ob -> well_sorted ob -> within_depth ob ->
  sides_apart ob us -> one_each us ->
  Forall nonzero us \/ (zlen (asks ob) + zlen us <= max_depth ob /\ zlen (bids ob) + zlen us <= max_depth ob) ->
  Permutation us vs -> apply_updates us ob = apply_updates vs ob.
Proof. exact history_perm. Qed.
Print Assumptions C73_order_of_distinct_updates_is_irrelevant.
Theorem C73_snapshot_equals_its_updates : forall now la lb d us,
  nan_free la -> nan_free lb -> distinct_prices la -> distinct_prices lb ->
  (forall r, In r (la ++ lb) -> f64_eq (volume r) (i2f 0) = false) ->
  (forall a b, In a la -> In b lb -> f64_lt (price b) (price a) = true) ->
  zlen la <= 2 ^ 53 -> zlen lb <= 2 ^ 53 -> 0 <= d < 2 ^ 53 ->
  Permutation us (snapshot_updates la lb) ->
  exists ob0 ob1 ob2, new_order_book now [] [] d = Ret ob0 /\ new_order_book now la lb d = Ret ob1 /\
    apply_updates us ob0 = Ret ob2 /\
    b_time ob2 = b_time ob1 /\ max_depth ob2 = max_depth ob1 /\
    map pv (asks ob2) = map pv (asks ob1) /\ map pv (bids ob2) = map pv (bids ob1).
Proof. exact snapshot_equals_updates. Qed.
Print Assumptions C73_snapshot_equals_its_updates.
(** The cumulative volumes differ: ApplyUpdate leaves them at 0. *)
Theorem C73_same_accumulated_volume_refuted : exists now la us ob0,
  nan_free la /\ distinct_prices la /\ Permutation us (snapshot_updates la []) /\
  new_order_book now [] [] 3 = Ret ob0 /\
  shown (new_order_book now la [] 3) = Some ([(5, 1, 1); (6, 2, 3)], []) /\
  shown (apply_updates us ob0) = Some ([(5, 1, 0); (6, 2, 0)], []).
Proof.
  exists 10, [mk 5 1; mk 6 2], [upd 6 2 "ask"; upd 5 1 "ask"], (mkBook 10 [] [] 3).
  split; [repeat constructor|]. split; [repeat constructor|]. split; [apply perm_swap|].
  split; [reflexivity|]. split; vm_compute; reflexivity.
Qed.
(** A shuffled history; and a snapshot of five and three levels cut to two. *)
Definition ex_la : rows := [mk 9 2; mk 5 1; mk 7 3; mk 6 9; mk 8 8].
Definition ex_lb : rows := [mk 2 1; mk 4 1; mk 3 2].
Example C73_example :
  shown (apply_updates [upd 8 4 "ask"; upd 1 5 "bid"; upd 5 0 "ask"; upd 4 0 "bid"; upd 6 9 "ask"] ex_wide) =
  shown (apply_updates [upd 4 0 "bid"; upd 6 9 "ask"; upd 5 0 "ask"; upd 8 4 "ask"; upd 1 5 "bid"] ex_wide) /\
  shown (new_order_book 10 ex_la ex_lb 2) = Some ([(5, 1, 1); (6, 9, 10)], [(4, 1, 1); (3, 2, 3)]) /\
  shown (apply_updates (rev (snapshot_updates ex_la ex_lb)) (mkBook 10 [] [] 2)) =
    Some ([(5, 1, 0); (6, 9, 0)], [(4, 1, 0); (3, 2, 0)]).
Proof. vm_compute. auto. Qed.
Example C73_snapshot_hypotheses : nan_free ex_la /\ nan_free ex_lb /\ distinct_prices ex_la /\ distinct_prices ex_lb /\
  Permutation (rev (snapshot_updates ex_la ex_lb)) (snapshot_updates ex_la ex_lb) /\
  (forall r, In r (ex_la ++ ex_lb) -> f64_eq (volume r) (i2f 0) = false) /\
  (forall a b, In a ex_la -> In b ex_lb -> f64_lt (price b) (price a) = true).
Proof.
  split; [repeat constructor|]. split; [repeat constructor|]. split; [repeat constructor|]. split; [repeat constructor|].
  split; [apply Permutation_sym, Permutation_rev|].
  assert (forallb (fun r : row f64 => negb (f64_eq (volume r) (i2f 0))) (ex_la ++ ex_lb) = true) as H1 by (vm_compute; reflexivity).
  assert (forallb (fun a : row f64 => forallb (fun b : row f64 => f64_lt (price b) (price a)) ex_lb) ex_la = true) as H2 by (vm_compute; reflexivity).
  rewrite forallb_forall in H1, H2. split.
  - intros r Hr. specialize (H1 r Hr). now apply negb_true_iff in H1.
  - intros a b Ha Hb. specialize (H2 a Ha). rewrite forallb_forall in H2. now apply H2.
Qed.
