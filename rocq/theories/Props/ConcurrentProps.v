(** Property C95: one order book used by several goroutines
    (market/orderbook.go). The package has no lock of its own; these theorems
    say what a lock around each call gives, what needs no lock, and what goes
    wrong without one. Model: Model/Concurrent.v, every access to memory is a
    step of its own. Vocabulary: Spec/ConcurrentSpec.v. *)
From Coq Require Import Arith Lia.
From Flocq Require Import BinarySingleNaN.
From Verif Require Import Go.Outcome Go.Int64 Go.Slice Go.Float64 Go.Num Go.Heap
  Model.OrderBook Model.OrderBookHeap Model.Concurrent Spec.OrderBookSpec Spec.HistorySpec Spec.HeapSpec Spec.ConcurrentSpec
  Proofs.OrderBook Proofs.Heap Proofs.Concurrent Proofs.Locked Proofs.Readers
  Props.OrderBookProps Props.HistoryProps Props.ReplayProps.
Open Scope list_scope.
Open Scope Z_scope.

(** The step-by-step programs, left alone, do what the calls do: same book,
    same reply, same panic. *)
Theorem C95_alone_as_called : forall spare k h b, own h b ->
  match seq_call k (book_view h b) with
  | Ret (ob, r) => exists h' b', alone spare (body k) (mkShared (F:=f64) h b) = Ret (r, mkShared h' b') /\
      own h' b' /\ book_view h' b' = ob
  | Panic e => alone spare (body k) (mkShared h b) = Panic e
  end.
Proof. exact alone_body. Qed.
(** With a lock held during each call, whatever the scheduler does: the calls
    returned so far gave the replies they give one after the other, in an order
    that keeps each goroutine's own; whenever the lock is free memory shows the
    book of that order; and a panic is one of that order. *)
Theorem C95_locked_runs_are_sequential : forall spare (calls : list (list (call f64))) h b sched, own h b ->
  match execute spare true sched (start calls (mkShared h b)) with
  | Ret c => serialises_part calls (returned c) /\
      exists ob, seq_calls (map snd (returned c)) (book_view h b) = Ret (ob, replies c) /\
        (cf_owner c = None -> shown_book c = ob)
  | Panic e => exists log, serialises_part calls log /\ seq_calls (map snd log) (book_view h b) = Panic e
  end.
Proof. exact locked_sequential. Qed.
Theorem C95_locked_runs_end_sequentially : forall spare (calls : list (list (call f64))) h b sched c, own h b ->
  execute spare true sched (start calls (mkShared h b)) = Ret c -> finished c ->
  serialises calls (returned c) /\
  seq_calls (map snd (returned c)) (book_view h b) = Ret (shown_book c, replies c).
Proof. exact locked_finished. Qed.
(** There is no deadlock. *)
Theorem C95_locked_runs_never_stuck : forall spare (calls : list (list (call f64))) h b sched c, own h b ->
  execute spare true sched (start calls (mkShared h b)) = Ret c ->
  exists more, match execute spare true more c with Ret c' => finished c' | Panic _ => True end.
Proof. exact never_stuck. Qed.
Theorem C95_locked_updates_never_panic : forall spare uss h b sched, own h b -> sizes_ok (book_view h b) ->
  exists c, execute spare true sched (start (map (map CUpdate) uss) (mkShared h b)) = Ret c.
Proof. exact never_panics. Qed.
(** When no two goroutines update the same level, the final book does not
    depend on the scheduler at all. *)
Theorem C95_own_levels_any_schedule : forall spare uss h b sched c,
  own h b -> sizes_ok (book_view h b) -> well_sorted (book_view h b) ->
  Forall real_price (List.concat uss) -> sides_apart (book_view h b) (List.concat uss) ->
  room (book_view h b) (List.concat uss) -> own_levels uss ->
  execute spare true sched (start (map (map CUpdate) uss) (mkShared h b)) = Ret c -> finished c ->
  apply_updates (List.concat uss) (book_view h b) = Ret (shown_book c).
Proof. exact schedule_irrelevant. Qed.
(** Without any lock, goroutines that only call [GetDepth] never disturb each
    other and leave memory as it was. *)
Theorem C95_readers_need_no_lock : forall spare qss h b sched, own h b ->
  match execute spare false sched (start (map (map CDepth) qss) (mkShared (F:=f64) h b)) with
  | Ret c => cf_shared c = mkShared h b /\ serialises_part (map (map CDepth) qss) (returned c) /\
      (finished c -> serialises (map (map CDepth) qss) (returned c)) /\
      Forall (fun e => exists q r, snd (fst e) = CDepth q /\ snd e = RDepth r /\ get_depth (book_view h b) q = Ret r) (cf_log c)
  | Panic e => exists q, In q (List.concat qss) /\ get_depth (book_view h b) q = Panic e
  end.
Proof. exact readers. Qed.
Print Assumptions C95_alone_as_called.
Print Assumptions C95_locked_runs_are_sequential.
Print Assumptions C95_locked_runs_end_sequentially.
Print Assumptions C95_locked_runs_never_stuck.
Print Assumptions C95_locked_updates_never_panic.
Print Assumptions C95_own_levels_any_schedule.
Print Assumptions C95_readers_need_no_lock.

(** *** A book of three asks and two bids in memory *)
Definition cc_heap : heap (row f64) := [[mk 5 1; mk 6 1; mk 7 1]; [mk 4 1; mk 3 1]].
Definition cc_book : hbook := mkHBook 10 (mkSlice 0 0 3 3) (mkSlice 1 0 2 2) 10.
Definition cc_spare (n : nat) : nat := 2.
Definition turns (l : list (nat * nat)) : list nat := List.concat (map (fun e => repeat (fst e) (snd e)) l).
Definition cc_seen (g : go (config f64)) :
  option (list (Z * Z * Z) * list (Z * Z * Z) * list nat) :=
  match g with
  | Ret c => Some (show (asks (shown_book c)), show (bids (shown_book c)), map (fun e => fst (fst e)) (cf_log c))
  | Panic _ => None
  end.
Definition cc_end (g : go (config f64)) : bool :=
  match g with Ret c => forallb (fun t => match t with Idle [] => true | _ => false end) (cf_threads c) | Panic _ => false end.
Lemma cc_end_ok g c : cc_end g = true -> g = Ret c -> finished c.
Proof.
  intros H ->. cbn [cc_end] in H. rewrite forallb_forall in H. unfold finished. rewrite Forall_forall.
  intros t Ht. specialize (H t Ht). destruct t as [[|]|]; congruence.
Qed.
Definition cc_uss : list (list (update f64)) := [[upd 8 4 "ask"; upd 5 0 "ask"]; [upd 4 2 "bid"; upd 6 3 "ask"]; [upd 2 7 "bid"]].
Lemma cc_own : own cc_heap cc_book.
Proof.
  unfold own, valid, disjoint. cbn. repeat split; try lia; try (left; discriminate); try (right; discriminate); auto.
Qed.
Definition own_levels_b (uss : list (list (update f64))) : bool :=
  forallb (fun ij => Nat.eqb (fst ij) (snd ij) ||
    forallb (fun u => forallb (fun v => negb (String.eqb (u_side u) (u_side v) && f64_eq (u_price u) (u_price v)))
      (nth (snd ij) uss [])) (nth (fst ij) uss []))
    (list_prod (seq 0 (List.length uss)) (seq 0 (List.length uss))).
Lemma own_levels_b_ok uss : own_levels_b uss = true -> own_levels uss.
Proof.
  unfold own_levels_b, own_levels. rewrite forallb_forall. intros H i j u v Hu Hv Es Ep.
  assert (forall k (w : update f64), In w (nth k uss []) -> In k (seq 0 (List.length uss))) as B.
  { intros k w Hw. apply in_seq. destruct (Nat.lt_ge_cases k (List.length uss)) as [L|L]; [lia|].
    rewrite nth_overflow in Hw by assumption. destruct Hw. }
  specialize (H (i, j) (in_prod _ _ _ _ (B i u Hu) (B j v Hv))). cbn [fst snd] in H.
  apply orb_true_iff in H. destruct H as [H|H]; [now apply Nat.eqb_eq|].
  rewrite forallb_forall in H. specialize (H u Hu). rewrite forallb_forall in H. specialize (H v Hv).
  rewrite Es, String.eqb_refl, Ep in H. discriminate.
Qed.
Definition cc_sched : list nat := turns [(2, 5); (0, 30); (2, 60); (0, 7); (1, 9); (0, 60); (1, 60); (0, 60); (1, 60)]%nat.
Example C95_hypotheses : own cc_heap cc_book /\ sizes_ok (book_view cc_heap cc_book) /\
  well_sorted (book_view cc_heap cc_book) /\ Forall real_price (List.concat cc_uss) /\
  sides_apart (book_view cc_heap cc_book) (List.concat cc_uss) /\ room (book_view cc_heap cc_book) (List.concat cc_uss) /\
  own_levels cc_uss.
Proof.
  split; [exact cc_own|].
  split; [unfold sizes_ok; vm_compute; repeat split; congruence|].
  split; [repeat split; repeat constructor|].
  split; [repeat constructor|].
  split; [apply apart_b_ok; vm_compute; reflexivity|].
  split; [apply (room_b_ok (map i2f [5; 6; 7; 8]) (map i2f [4; 3; 2])); vm_compute; reflexivity|].
  apply own_levels_b_ok. vm_compute. reflexivity.
Qed.
Example C95_example :
  cc_seen (execute cc_spare true cc_sched (start (map (map CUpdate) cc_uss) (mkShared cc_heap cc_book))) =
    Some ([(6, 3, 0); (7, 1, 0); (8, 4, 0)], [(4, 2, 0); (3, 1, 0); (2, 7, 0)], [2; 0; 0; 1; 1]%nat) /\
  cc_end (execute cc_spare true cc_sched (start (map (map CUpdate) cc_uss) (mkShared cc_heap cc_book))) = true.
Proof. vm_compute. auto. Qed.
Example C95_readers_example :
  cc_end (execute cc_spare false (turns [(0, 4); (1, 9); (0, 20); (1, 40); (0, 40)]%nat)
    (start (map (map CDepth) [[i2f 5; i2f 6]; [i2f 3]]) (mkShared cc_heap cc_book))) = true.
Proof. vm_compute. reflexivity. Qed.

(** *** Without a lock *)
(** The two orders in which two goroutines can make one call each. *)
Lemma two_orders (a b : call f64) log : serialises [[a]; [b]] log -> map snd log = [a; b] \/ map snd log = [b; a].
Proof.
  intros Ser. pose proof (Ser 0%nat) as S0. pose proof (Ser 1%nat) as S1. unfold made_by in *. cbn [nth] in *.
  assert (forall e, In e log -> fst e = 0%nat \/ fst e = 1%nat) as B.
  { intros [i k] H. cbn [fst]. destruct i as [|[|i]]; auto. exfalso. specialize (Ser (S (S i))). cbn [nth] in Ser.
    replace (match i with O => [] | S _ => [] end) with (@nil (call f64)) in Ser by now destruct i.
    assert (In k (made_by (S (S i)) log)) as In1.
    { unfold made_by. apply in_map_iff. exists (S (S i), k). split; [reflexivity|]. apply filter_In.
      split; [exact H|]. cbn [fst]. apply Nat.eqb_refl. }
    rewrite Ser in In1. destruct In1. }
  assert (forall l : list (nat * call f64), (forall e, In e l -> fst e = 0%nat \/ fst e = 1%nat) ->
    filter (fun e => Nat.eqb (fst e) 0) l = [] -> forall x, map snd (filter (fun e => Nat.eqb (fst e) 1) l) = [x] -> map snd l = [x]) as L0.
  { intros l. induction l as [|[i k] l IH]; intros Bl E x Ex; [exact Ex|]. cbn [filter fst] in E, Ex.
    destruct (Bl (i, k) (or_introl eq_refl)) as [Hi|Hi]; cbn [fst] in Hi; subst i; cbn [Nat.eqb] in E, Ex; [discriminate|].
    cbn [map snd] in Ex. injection Ex as Ek El. cbn [map snd]. f_equal; [exact Ek|].
    destruct l as [|[j k2] l]; [reflexivity|]. exfalso. cbn [filter fst] in E, El.
    destruct (Bl (j, k2) (or_intror (or_introl eq_refl))) as [Hj|Hj]; cbn [fst] in Hj; subst j; cbn [Nat.eqb] in E, El; discriminate. }
  assert (forall l : list (nat * call f64), (forall e, In e l -> fst e = 0%nat \/ fst e = 1%nat) ->
    filter (fun e => Nat.eqb (fst e) 1) l = [] -> forall x, map snd (filter (fun e => Nat.eqb (fst e) 0) l) = [x] -> map snd l = [x]) as L1.
  { intros l. induction l as [|[i k] l IH]; intros Bl E x Ex; [exact Ex|]. cbn [filter fst] in E, Ex.
    destruct (Bl (i, k) (or_introl eq_refl)) as [Hi|Hi]; cbn [fst] in Hi; subst i; cbn [Nat.eqb] in E, Ex; [|discriminate].
    cbn [map snd] in Ex. injection Ex as Ek El. cbn [map snd]. f_equal; [exact Ek|].
    destruct l as [|[j k2] l]; [reflexivity|]. exfalso. cbn [filter fst] in E, El.
    destruct (Bl (j, k2) (or_intror (or_introl eq_refl))) as [Hj|Hj]; cbn [fst] in Hj; subst j; cbn [Nat.eqb] in E, El; discriminate. }
  clear Ser. destruct log as [|[i k] log]; [discriminate|].
  destruct (B (i, k) (or_introl eq_refl)) as [Hi|Hi]; cbn [fst] in Hi; subst i; cbn [filter fst Nat.eqb map snd] in S0, S1 |- *.
  - left. injection S0 as -> E0. f_equal. apply L0; [intros e He; apply B; now right|now apply map_eq_nil in E0|exact S1].
  - right. injection S1 as -> E1. f_equal. apply L1; [intros e He; apply B; now right|now apply map_eq_nil in E1|exact S0].
Qed.
(** The book after the calls one after the other, as integers. *)
Definition cc_seq (ks : list (call f64)) (ob : book f64) : option (list (Z * Z * Z) * list (Z * Z * Z)) :=
  match seq_calls ks ob with Ret (ob', _) => Some (show (asks ob'), show (bids ob')) | Panic _ => None end.
(** No order of the calls ends with this book. *)
Definition no_order (calls : list (list (call f64))) (ob : book f64) (l : list (Z * Z * Z) * list (Z * Z * Z)) : Prop :=
  forall log, serialises calls log -> cc_seq (map snd log) ob <> Some l.
Lemma no_order_two a b ob l : cc_seq [a; b] ob <> Some l -> cc_seq [b; a] ob <> Some l -> no_order [[a]; [b]] ob l.
Proof. intros H1 H2 log S. destruct (two_orders a b log S) as [-> | ->]; assumption. Qed.
Definition bad_run (n : nat) (j k : call f64) : go (config f64) :=
  execute cc_spare false (turns [(0, n); (1, 60); (0, 60)]%nat) (start [[j]; [k]] (mkShared cc_heap cc_book)).

(** An update that returned without error is lost: ask 9 is not in the book. *)
Theorem C95_unlocked_update_lost_refuted : exists n,
  cc_seen (bad_run n (CUpdate (upd 8 1 "ask")) (CUpdate (upd 9 1 "ask"))) =
    Some ([(5, 1, 0); (6, 1, 0); (7, 1, 0); (8, 1, 0)], [(4, 1, 0); (3, 1, 0)], [1; 0]%nat) /\
  cc_end (bad_run n (CUpdate (upd 8 1 "ask")) (CUpdate (upd 9 1 "ask"))) = true /\
  no_order [[CUpdate (upd 8 1 "ask")]; [CUpdate (upd 9 1 "ask")]] (book_view cc_heap cc_book)
    ([(5, 1, 0); (6, 1, 0); (7, 1, 0); (8, 1, 0)], [(4, 1, 0); (3, 1, 0)]).
Proof.
  exists 21%nat. split; [vm_compute; reflexivity|]. split; [vm_compute; reflexivity|].
  apply no_order_two; vm_compute; discriminate.
Qed.
(** The side is no longer sorted. *)
Theorem C95_unlocked_unsorted_refuted : exists n,
  cc_seen (bad_run n (CUpdate (upd 8 1 "ask")) (CUpdate (upd 9 1 "ask"))) =
    Some ([(5, 1, 0); (6, 1, 0); (7, 1, 0); (9, 1, 0); (8, 1, 0)], [(4, 1, 0); (3, 1, 0)], [1; 0]%nat).
Proof. exists 14%nat. vm_compute. reflexivity. Qed.
(** One price twice. *)
Theorem C95_unlocked_price_twice_refuted : exists n,
  cc_seen (bad_run n (CUpdate (upd 8 1 "ask")) (CUpdate (upd 8 2 "ask"))) =
    Some ([(5, 1, 0); (6, 1, 0); (7, 1, 0); (8, 2, 0); (8, 1, 0)], [(4, 1, 0); (3, 1, 0)], [1; 0]%nat).
Proof. exists 5%nat. vm_compute. reflexivity. Qed.
(** A level that was deleted is back. *)
Theorem C95_unlocked_deleted_level_returns_refuted : exists n,
  cc_seen (bad_run n (CUpdate (upd 8 1 "ask")) (CUpdate (upd 5 0 "ask"))) =
    Some ([(5, 1, 0); (6, 1, 0); (7, 1, 0); (8, 1, 0)], [(4, 1, 0); (3, 1, 0)], [1; 0]%nat) /\
  no_order [[CUpdate (upd 8 1 "ask")]; [CUpdate (upd 5 0 "ask")]] (book_view cc_heap cc_book)
    ([(5, 1, 0); (6, 1, 0); (7, 1, 0); (8, 1, 0)], [(4, 1, 0); (3, 1, 0)]).
Proof. exists 22%nat. split; [vm_compute; reflexivity|]. apply no_order_two; vm_compute; discriminate. Qed.
(** The program stops with an index out of range, in a call that cannot panic
    by itself (C01). *)
Theorem C95_unlocked_update_panics_refuted : exists n,
  bad_run n (CUpdate (upd 8 1 "ask")) (CUpdate (upd 5 0 "ask")) = Panic PIndex.
Proof. exists 5%nat. vm_compute. reflexivity. Qed.
(** So it does when one goroutine only reads, though the price asked for is in
    the book before and after. *)
Theorem C95_unlocked_reader_panics_refuted : exists n,
  bad_run n (CDepth (i2f 6)) (CUpdate (upd 7 0 "ask")) = Panic PIndex /\
  cc_seq [CDepth (i2f 6); CUpdate (upd 7 0 "ask"); CDepth (i2f 6)] (book_view cc_heap cc_book) =
    Some ([(5, 1, 0); (6, 1, 0)], [(4, 1, 0); (3, 1, 0)]).
Proof. exists 12%nat. split; vm_compute; reflexivity. Qed.
(** With the lock, but two goroutines updating one level, the scheduler decides
    who is last. *)
Theorem C95_shared_level_any_schedule_refuted : exists uss s1 s2 h b,
  own h b /\ sizes_ok (book_view h b) /\ well_sorted (book_view h b) /\
  Forall real_price (List.concat uss) /\ sides_apart (book_view h b) (List.concat uss) /\
  room (book_view h b) (List.concat uss) /\
  cc_seen (execute cc_spare true s1 (start (map (map CUpdate) uss) (mkShared h b))) =
    Some ([(5, 2, 0); (6, 1, 0); (7, 1, 0)], [(4, 1, 0); (3, 1, 0)], [0; 1]%nat) /\
  cc_seen (execute cc_spare true s2 (start (map (map CUpdate) uss) (mkShared h b))) =
    Some ([(5, 9, 0); (6, 1, 0); (7, 1, 0)], [(4, 1, 0); (3, 1, 0)], [1; 0]%nat).
Proof.
  exists [[upd 5 9 "ask"]; [upd 5 2 "ask"]], (turns [(0, 40); (1, 40)]%nat), (turns [(1, 40); (0, 40)]%nat), cc_heap, cc_book.
  split; [exact cc_own|].
  split; [unfold sizes_ok; vm_compute; repeat split; congruence|].
  split; [repeat split; repeat constructor|].
  split; [repeat constructor|].
  split; [apply apart_b_ok; vm_compute; reflexivity|].
  split; [apply (room_b_ok (map i2f [5; 6; 7]) (map i2f [4; 3])); vm_compute; reflexivity|].
  split; vm_compute; reflexivity.
Qed.
Print Assumptions C95_unlocked_update_lost_refuted.
Print Assumptions C95_unlocked_unsorted_refuted.
Print Assumptions C95_unlocked_price_twice_refuted.
Print Assumptions C95_unlocked_deleted_level_returns_refuted.
Print Assumptions C95_unlocked_update_panics_refuted.
Print Assumptions C95_unlocked_reader_panics_refuted.
Print Assumptions C95_shared_level_any_schedule_refuted.
