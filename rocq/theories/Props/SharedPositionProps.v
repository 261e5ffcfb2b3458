(** Property C124: several goroutines calling Modify on one position
    (market/position.go:125-186).  The package has no lock; these theorems say
    what a lock around each call gives, what holds without one, and what does
    not.  Model: Model/PositionConcurrent.v, every access to a field is a step
    of its own.  Vocabulary: Spec/SharedPositionSpec.v. *)
From Coq Require Import List String Permutation Reals.
From Verif Require Import Go.Outcome Go.Int64 Go.Float64 Go.Num Go.Heap Model.Asset Model.Pair Model.Entities
  Model.PositionHeap Model.ActionsConcurrent Model.PositionConcurrent Spec.HeapSpec Spec.EntitySpec Spec.TradeOrderSpec
  Spec.SharedPositionSpec Proofs.Entities Proofs.SharedPosition Proofs.SharedPositionRaces Props.EntityProps Props.TradeOrderProps.
Import ListNotations.
Open Scope string_scope.
Open Scope list_scope.
Open Scope nat_scope.
Local Notation run spare := (execute (pexec spare) c_modify).
Local Notation ok m := (valid (p_heap m) (hp_trades (p_pos m))).

(** A call nobody interferes with does what the call does in the models without
    goroutines. *)
Theorem C124_alone_as_called : forall spare t (m : pmem f64), ok m ->
  exists m', alone (pexec spare) (c_modify t) m = Ret m' /\ ok m' /\
    p_heap m' = fst (h_modify spare t (p_heap m) (p_pos m)) /\
    hp_trades (p_pos m') = hp_trades (snd (h_modify spare t (p_heap m) (p_pos m))) /\
    shown m' = fst (modify (shown m) t).
Proof. exact alone_modify. Qed.

(** With a lock held during each call, whatever the scheduler does: at every
    moment when nobody holds the lock the position is the one the trades made
    so far give one after the other, each goroutine's in its own order; at the
    end all trades have been made. *)
Theorem C124_locked : forall spare (calls : list (list (trade f64))) m sched, ok m ->
  exists c log, run spare true sched (start calls m) = Ret c /\ order_so_far calls log /\
    (owner c = None -> shown (shared c) = modify_all (shown m) (map snd log)) /\
    (finished c -> an_order calls log /\ shown (shared c) = modify_all (shown m) (map snd log)).
Proof. exact locked_position. Qed.
(** No deadlock. *)
Theorem C124_never_stuck : forall spare (calls : list (list (trade f64))) m sched c,
  run spare true sched (start calls m) = Ret c -> exists more c', run spare true more c = Ret c' /\ finished c'.
Proof. exact position_finish. Qed.

(** With a lock, when all trades increase the position, every one is listed
    behind those that were there. *)
Lemma increases_listed {F} {N : GoFloat F} : forall ts (p : position F),
  (forall t, In t ts -> t_pair t = ps_pair p /\ increases (ps_type p) (t_action t)) ->
  ps_trades (modify_all p ts) = ps_trades p ++ map t_id ts.
Proof.
  induction ts as [|t ts IH]; intros p H; [symmetry; apply app_nil_r|].
  cbn [modify_all]. destruct (H t (or_introl eq_refl)) as (H1 & H2).
  assert (fst (modify p t) = pos_add p t) as ->.
  { unfold modify. rewrite H1, pair_refl. cbn [negb]. destruct H2 as [(Ty & Ac)|(Ty & Ac)]; rewrite Ty, Ac; reflexivity. }
  rewrite IH; [cbn [pos_add ps_trades map]; now rewrite <- app_assoc|]. intros x Hx. apply H. now right.
Qed.
Theorem C124_locked_listed : forall spare (calls : list (list (trade f64))) m sched c, ok m ->
  (forall t, In t (List.concat calls) -> t_pair t = ps_pair (shown m) /\ increases (ps_type (shown m)) (t_action t)) ->
  run spare true sched (start calls m) = Ret c -> finished c ->
  exists ids, Permutation ids (map t_id (List.concat calls)) /\ ps_trades (shown (shared c)) = ps_trades (shown m) ++ ids.
Proof.
  intros spare calls m sched c V H E Hf. destruct (locked_position spare calls m sched V) as (c' & log & E' & _ & _ & K).
  rewrite E in E'. injection E' as <-. destruct (K Hf) as (K1 & K2). apply order_perm in K1.
  exists (map t_id (map snd log)). split; [now apply Permutation_map|]. rewrite K2. apply increases_listed.
  intros t Ht. apply H. now apply (Permutation_in _ K1).
Qed.
(** In exact arithmetic the scheduler then decides nothing but the order of the
    list (in float64 it does more: C107_float_order_refuted). *)
Theorem C124_any_schedule_exact : forall spare (calls : list (list (trade R))) m sched c, ok m -> (0 < ps_quantity (shown m))%R ->
  (forall t, In t (List.concat calls) ->
     t_pair t = ps_pair (shown m) /\ (0 < t_quantity t)%R /\ increases (ps_type (shown m)) (t_action t)) ->
  run spare true sched (start calls m) = Ret c -> finished c ->
  same_but_trades (shown (shared c)) (modify_all (shown m) (List.concat calls)).
Proof.
  intros spare calls m sched c V Q H E Hf. destruct (locked_position spare calls m sched V) as (c' & log & E' & _ & _ & K).
  rewrite E in E'. injection E' as <-. destruct (K Hf) as (K1 & K2). apply order_perm in K1. rewrite K2.
  rewrite (C107_increases_in_any_order (shown m) (List.concat calls) (map snd log) Q (Permutation_sym K1) H). reflexivity.
Qed.

(** With a lock or without one: no call panics, nothing changes what identifies
    the position, and every id listed was there or belongs to one of the
    trades. *)
Theorem C124_always : forall spare locked (calls : list (list (trade f64))) m sched, ok m ->
  exists c, run spare locked sched (start calls m) = Ret c /\ same_identity (shown (shared c)) (shown m) /\
    forall i, In i (ps_trades (shown (shared c))) -> In i (ps_trades (shown m)) \/ In i (map t_id (List.concat calls)).
Proof. intros spare locked calls. exact (always spare calls locked). Qed.

(** Without a lock, of any two increases of any position: both trades can be
    listed and the quantity of either (swap them for the other) missing. *)
Theorem C124_unlocked_quantity_refuted : forall spare (m : pmem f64) t1 t2, ok m ->
  t_pair t1 = ps_pair (shown m) -> t_pair t2 = ps_pair (shown m) ->
  increases (ps_type (shown m)) (t_action t1) -> increases (ps_type (shown m)) (t_action t2) ->
  exists sched c, run spare false sched (start [[t1]; [t2]] m) = Ret c /\ finished c /\
    ps_trades (shown (shared c)) = ps_trades (shown m) ++ [t_id t2; t_id t1] /\
    ps_quantity (shown (shared c)) = fadd (ps_quantity (shown m)) (t_quantity t1).
Proof.
  intros spare m t1 t2 V P1 P2 I1 I2. destruct (quantity_lost spare m t1 t2 V P1 P2 I1 I2) as (s & c & A1 & A2 & A3 & A4 & _).
  exists s, c. auto.
Qed.
(** Or quantity and price count both, and either is missing from the list. *)
Theorem C124_unlocked_listed_refuted : forall spare (m : pmem f64) t1 t2, ok m ->
  t_pair t1 = ps_pair (shown m) -> t_pair t2 = ps_pair (shown m) ->
  increases (ps_type (shown m)) (t_action t1) -> increases (ps_type (shown m)) (t_action t2) ->
  exists sched c, run spare false sched (start [[t1]; [t2]] m) = Ret c /\ finished c /\
    shown (shared c) = with_trades (ps_trades (shown m) ++ [t_id t1]) (modify_all (shown m) [t1; t2]).
Proof. exact id_lost. Qed.

(** One unit is held, bought for 100, and two goroutines buy one more for 100
    each: the position can end with an average price of 150. *)
Definition held_unit : pmem f64 :=
  mkPMem [["a"]] (mkHPos (new_position "p" (tr "a" "buy" 100 1)) (mkSlice 0 0 1 1)).
Theorem C124_unlocked_average_refuted : forall spare, exists sched c,
  run spare false sched (start [[tr "b" "buy" 100 1]; [tr "c" "buy" 100 1]] held_unit) = Ret c /\ finished c /\
  f64_eq (ps_open_price (shown (shared c))) (i2f 150) = true.
Proof.
  intros spare. destruct (quantity_lost spare held_unit (tr "b" "buy" 100 1) (tr "c" "buy" 100 1)) as (s & c & A1 & A2 & _ & _ & A5);
    [split; [apply le_n|intros _; split; apply le_n]|reflexivity|reflexivity|left; split; reflexivity|left; split; reflexivity|].
  exists s, c. split; [exact A1|]. split; [exact A2|]. rewrite A5. vm_compute. reflexivity.
Qed.
(** Ten are held and two goroutines sell six each: both sales can be accepted
    and listed, though in either order the second is refused. *)
Definition held_ten : pmem f64 :=
  mkPMem [["a"]] (mkHPos (new_position "p" (tr "a" "buy" 100 10)) (mkSlice 0 0 1 1)).
Definition sale_b := tr "b" "sell" 100 6.
Definition sale_c := tr "c" "sell" 100 6.
Theorem C124_unlocked_oversold_refuted : ok held_ten /\ (exists sched,
  match run (fun _ => 0) false sched (start [[sale_b]; [sale_c]] held_ten) with
  | Ret c => finished c /\ ps_trades (shown (shared c)) = ["a"; "b"; "c"] /\ f64_eq (ps_quantity (shown (shared c))) (i2f 4) = true
  | Panic _ => False
  end) /\
  forall log, an_order [[sale_b]; [sale_c]] log ->
    ps_trades (modify_all (shown held_ten) (map snd log)) = ["a"; "b"] \/
    ps_trades (modify_all (shown held_ten) (map snd log)) = ["a"; "c"].
Proof.
  split; [split; [apply le_n|intros _; split; apply le_n]|]. split.
  - exists (repeat 0 5 ++ repeat 1 5 ++ repeat 0 9 ++ repeat 1 9). vm_compute. repeat split; repeat constructor.
  - intros log H. apply order_perm in H. cbn [List.concat app] in H. apply Permutation_sym, Permutation_length_2_inv in H.
    destruct H as [-> | ->]; [left|right]; vm_compute; reflexivity.
Qed.

(** Two goroutines, three trades, a lock, and turns at every step. *)
Definition what (p : position f64) : Z * Z * list string := (f2i (ps_open_price p), f2i (ps_quantity p), ps_trades p).
Example C124_example :
  ok held_ten /\
  match run (fun n => n) true (List.concat (repeat [0; 1] 40)) (start [[tr "b" "buy" 400 20]; [sale_c; tr "d" "buy" 190 6]] held_ten) with
  | Ret c => finished c /\ what (shown (shared c)) = (318, 30, ["a"; "b"; "c"; "d"])%Z
  | Panic _ => False
  end.
Proof.
  split; [split; [apply le_n|intros _; split; apply le_n]|]. vm_compute. repeat split; repeat constructor.
Qed.

Print Assumptions C124_alone_as_called.
Print Assumptions C124_locked.
Print Assumptions C124_never_stuck.
Print Assumptions C124_locked_listed.
Print Assumptions C124_any_schedule_exact.
Print Assumptions C124_always.
Print Assumptions C124_unlocked_quantity_refuted.
Print Assumptions C124_unlocked_listed_refuted.
Print Assumptions C124_unlocked_average_refuted.
Print Assumptions C124_unlocked_oversold_refuted.
