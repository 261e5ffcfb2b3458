(** C100: a program that keeps its book or its position as JSON may stop and
    start again between any two steps. *)
From Coq Require Import ZArith Lia List String.
From Flocq Require Import Core BinarySingleNaN.
From Verif Require Import Go.Outcome Go.Float64 Go.Num Go.Json Model.Asset Model.Pair Model.OrderBook Model.Entities Model.Stored
  Spec.JsonSpec Spec.StoredSpec Spec.SymmetrySpec Spec.IntoSpec Spec.PersistSpec Proofs.Stored Proofs.Into Proofs.Persist Props.JsonProps Props.OrderBookProps.
Import ListNotations.
Open Scope string_scope.
Open Scope list_scope.

(** Whatever the rows and updates hold (NaN included): a run with any number of
    restarts ends exactly as the run without. *)
Theorem C100_book_run_same : forall us ob r, int64_ok (b_time ob) -> int64_ok (max_depth ob) ->
  (book_run us ob r <-> r = apply_updates us ob).
Proof. exact book_run_same. Qed.
(** And with finite numbers the book can be stored after every update. *)
Theorem C100_book_always_storable : forall us ob b, book_ok ob -> Forall finite_update us ->
  apply_updates us ob = Ret b -> book_restored b b.
Proof. exact history_storable. Qed.
Theorem C100_position_run_same : forall ts p q, position_texts p -> Forall trade_texts ts ->
  (position_run ts p q <-> q = modify_all p ts).
Proof. exact position_run_same. Qed.

Example C100_example_book : book_ok ex_book /\ Forall finite_update ex_history /\
  (exists b, apply_updates ex_history ex_book = Ret b /\ book_restored b b /\ book_restored ex_book ex_book).
Proof.
  assert (book_ok ex_book) as H1.
  { split; [split; vm_compute; congruence|]. split; [split; vm_compute; congruence|].
    split; repeat (apply Forall_cons; [repeat (apply Forall_cons; [vm_compute; reflexivity|]); apply Forall_nil|]); apply Forall_nil. }
  assert (Forall finite_update ex_history) as H2.
  { repeat (apply Forall_cons; [split; vm_compute; reflexivity|]); apply Forall_nil. }
  split; [exact H1|]. split; [exact H2|].
  assert (match apply_updates ex_history ex_book with Ret _ => true | Panic _ => false end = true) as H by (vm_compute; reflexivity).
  destruct (apply_updates ex_history ex_book) as [b|n] eqn:E; [|discriminate H].
  exists b. split; [reflexivity|]. split; [exact (C100_book_always_storable _ _ _ H1 H2 E)|].
  exact (C100_book_always_storable [] _ _ H1 (Forall_nil _) eq_refl).
Qed.
(** The position opened by the trade of C83_example_trade, its times shown in
    India and in UTC. *)
Example C100_example_position :
  let p := new_position "p1" sample_trade in
  position_texts p /\ Forall trade_texts [sample_trade] /\ position_restored p p /\
  ps_trades (modify_all p [sample_trade]) = ["t1"; "t1"].
Proof.
  cbv zeta.
  assert (position_texts (new_position "p1" sample_trade)) as T.
  { split; [repeat (apply Forall_cons; [text|]); apply Forall_nil|].
    split; [split; repeat (apply Forall_cons; [text|]); apply Forall_nil|].
    split; [repeat (apply Forall_cons; [text|]); apply Forall_nil|].
    split; vm_compute; congruence. }
  split; [exact T|].
  split; [apply Forall_cons; [split; [text|vm_compute; congruence]|apply Forall_nil]|].
  split; [|vm_compute; reflexivity].
  assert (position_ok 19800 0 (new_position "p1" sample_trade)) as K.
  { split; [repeat (apply Forall_cons; [text|]); apply Forall_nil|].
    split; [split; repeat (apply Forall_cons; [text|]); apply Forall_nil|].
    split; [split; [vm_compute; reflexivity|text]|]. split; [split; [vm_compute; reflexivity|text]|].
    split; [split; [exists 330%Z; reflexivity|split; vm_compute; split; congruence]|].
    split; [split; [exists 0%Z; reflexivity|split; vm_compute; split; congruence]|].
    split; [repeat (apply Forall_cons; [text|]); apply Forall_nil|].
    repeat (apply Forall_cons; [vm_compute; reflexivity|]); apply Forall_nil. }
  destruct (C83_position_survives 19800 0 false _ K) as (tx & v & M & U & O).
  exists 19800%Z, 0%Z, false, tx, (zero position_type), v.
  split; [split; [exists 330%Z; reflexivity|split; reflexivity]|]. split; [split; [exists 0%Z; reflexivity|split; reflexivity]|]. split; [apply shaped_zero|]. auto.
Qed.

Print Assumptions C100_book_run_same.
Print Assumptions C100_book_always_storable.
Print Assumptions C100_position_run_same.
