(** Property C127: goroutines asking for the unrealized profit of a position
    (market/position.go:115-122) while others trade on it.  Model:
    Model/PositionReaders.v; vocabulary: Spec/PositionReadSpec.v and
    Spec/SharedPositionSpec.v. *)
From Coq Require Import List String Permutation Reals.
From Verif Require Import Go.Outcome Go.Int64 Go.Float64 Go.Num Go.Heap Model.Asset Model.Pair Model.Entities
  Model.PositionHeap Model.ActionsConcurrent Model.PositionConcurrent Model.PositionReaders Spec.HeapSpec Spec.EntitySpec
  Spec.SharedPositionSpec Spec.PositionReadSpec Proofs.SharedPosition Proofs.SharedPositionRaces Proofs.PositionReaders
  Props.EntityProps Props.TradeOrderProps Props.SharedPositionProps.
Import ListNotations.
Open Scope string_scope.
Open Scope list_scope.
Open Scope nat_scope.
Local Notation run spare := (execute (rexec spare) c_call).
Local Notation ok m := (valid (p_heap (r_mem m)) (hp_trades (p_pos (r_mem m)))).
Local Notation seen m := (shown (r_mem m)).

(** A call nobody interferes with does what the call does in the models without
    goroutines. *)
Theorem C127_alone_as_called : forall spare (m : rmem f64) x,
  alone (rexec spare) (c_call (CProfit x)) m = Ret (mkRMem (r_mem m) (returned m ++ [(x, unrealized_profit (seen m) x)])).
Proof. intros spare m x. apply alone_profit. Qed.

(** With a lock held during each call, whatever the scheduler does, position and
    answers are those of the calls made one after the other, each goroutine's
    in its own order. *)
Theorem C127_locked : forall spare (calls : list (list (pcall f64))) m sched, ok m ->
  exists c log, run spare true sched (start calls m) = Ret c /\ order_so_far calls log /\
    (owner c = None -> seen (shared c) = modify_all (seen m) (trades_of (map snd log)) /\
       returned (shared c) = returned m ++ answers (seen m) (map snd log)) /\
    (finished c -> an_order calls log /\ seen (shared c) = modify_all (seen m) (trades_of (map snd log)) /\
       returned (shared c) = returned m ++ answers (seen m) (map snd log)).
Proof. exact locked_readers. Qed.
(** So every answer, at any moment, is the profit of a position that some of the
    trades lead to: an initial part of each goroutine's. *)
Theorem C127_locked_answers : forall spare (calls : list (list (pcall f64))) m sched c x v, ok m -> returned m = [] ->
  run spare true sched (start calls m) = Ret c -> In (x, v) (returned (shared c)) ->
  exists before, order_so_far calls before /\ v = unrealized_profit (modify_all (seen m) (trades_of (map snd before))) x.
Proof. exact every_answer. Qed.
Theorem C127_never_stuck : forall spare (calls : list (list (pcall f64))) m sched c,
  run spare true sched (start calls m) = Ret c -> exists more c', run spare true more c = Ret c' /\ finished c'.
Proof. exact readers_finish. Qed.

(** While nobody trades no lock is needed. *)
Theorem C127_only_asking : forall spare locked (calls : list (list (pcall f64))) m sched, only_asks calls ->
  exists c, run spare locked sched (start calls m) = Ret c /\ r_mem (shared c) = r_mem m /\
    forall x v, In (x, v) (returned (shared c)) -> In (x, v) (returned m) \/ v = unrealized_profit (seen m) x.
Proof. exact asking_free. Qed.
(** Without a lock, asking disturbs no trade: what becomes of the position can
    also become of it when nobody asks. *)
Theorem C127_asking_unnoticed : forall spare (calls : list (list (pcall f64))) m sched c,
  run spare false sched (start calls m) = Ret c ->
  exists s d, execute (pexec spare) c_modify false s (start (map trades_of calls) (r_mem m)) = Ret d /\
    r_mem (shared c) = shared d /\ (finished c -> finished d).
Proof. exact asking_unnoticed. Qed.

(** Without a lock the answer during any increase of any position can be worked
    out from the new price and the old quantity. *)
Theorem C127_unlocked_new_price_old_quantity_refuted : forall spare t x (m : rmem f64), ok m ->
  t_pair t = ps_pair (seen m) -> increases (ps_type (seen m)) (t_action t) ->
  exists sched c, run spare false sched (start [[CTrade t]; [CProfit x]] m) = Ret c /\ finished c /\
    seen (shared c) = fst (modify (seen m) t) /\
    returned (shared c) = returned m ++
      [(x, unrealized_profit (set_open_price (seen m) (ps_open_price (fst (modify (seen m) t)))) x)].
Proof. exact torn_one. Qed.
(** And during any trade from the old price and the new quantity. *)
Theorem C127_unlocked_old_price_new_quantity_refuted : forall spare t x (m : rmem f64), ok m ->
  exists sched c, run spare false sched (start [[CProfit x]; [CTrade t]] m) = Ret c /\ finished c /\
    seen (shared c) = fst (modify (seen m) t) /\
    returned (shared c) = returned m ++
      [(x, unrealized_profit (set_quantity (seen m) (ps_quantity (fst (modify (seen m) t)))) x)].
Proof. exact torn_two. Qed.

(** One unit is held, bought for 100, and nine more are bought for 200.  At 150
    that is a profit of 50 before and a loss of 400 after; a goroutine asking
    meanwhile can be told of a profit of 500, or of a loss of 40. *)
Definition one_held : rmem f64 := mkRMem held_unit [].
Definition nine_more := tr "b" "buy" 200 9.
Theorem C127_unlocked_answer_refuted : forall spare, ok one_held /\
  f64_eq (unrealized_profit (seen one_held) (i2f 150)) (i2f 50) = true /\
  f64_eq (unrealized_profit (fst (modify (seen one_held) nine_more)) (i2f 150)) (i2f (-400)) = true /\
  (exists sched c v, run spare false sched (start [[CProfit (i2f 150)]; [CTrade nine_more]] one_held) = Ret c /\ finished c /\
     returned (shared c) = [(i2f 150, v)] /\ f64_eq v (i2f 500) = true) /\
  (exists sched c v, run spare false sched (start [[CTrade nine_more]; [CProfit (i2f 150)]] one_held) = Ret c /\ finished c /\
     returned (shared c) = [(i2f 150, v)] /\ f64_eq v (i2f (-40)) = true).
Proof.
  intros spare.
  assert (ok one_held) as V by (split; [apply le_n|intros _; split; apply le_n]).
  split; [exact V|]. split; [vm_compute; reflexivity|]. split; [vm_compute; reflexivity|]. split.
  - destruct (torn_two spare nine_more (i2f 150) one_held V) as (s & c & A1 & A2 & _ & A4).
    eexists s, c, _. split; [exact A1|]. split; [exact A2|]. split; [exact A4|]. vm_compute. reflexivity.
  - destruct (torn_one spare nine_more (i2f 150) one_held V) as (s & c & A1 & A2 & _ & A4); [reflexivity|left; split; reflexivity|].
    eexists s, c, _. split; [exact A1|]. split; [exact A2|]. split; [exact A4|]. vm_compute. reflexivity.
Qed.

(** A lock, and turns at every step: one goroutine buys and asks, the other asks
    twice. *)
Example C127_example :
  ok one_held /\
  match run (fun n => n) true (List.concat (repeat [1; 0] 30))
          (start [[CTrade nine_more; CProfit (i2f 200)]; [CProfit (i2f 150); CProfit (i2f 170)]] one_held) with
  | Ret c => finished c /\ what (seen (shared c)) = (190, 10, ["a"; "b"])%Z /\
      map (fun '(x, v) => (f2i x, f2i v)) (returned (shared c)) = [(150, 50); (170, -200); (200, 100)]%Z
  | Panic _ => False
  end.
Proof.
  split; [split; [apply le_n|intros _; split; apply le_n]|]. vm_compute. repeat split; repeat constructor.
Qed.

Print Assumptions C127_alone_as_called.
Print Assumptions C127_locked.
Print Assumptions C127_locked_answers.
Print Assumptions C127_never_stuck.
Print Assumptions C127_only_asking.
Print Assumptions C127_asking_unnoticed.
Print Assumptions C127_unlocked_new_price_old_quantity_refuted.
Print Assumptions C127_unlocked_old_price_new_quantity_refuted.
Print Assumptions C127_unlocked_answer_refuted.
