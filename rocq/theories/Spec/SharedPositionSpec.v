(** Several goroutines trading on one position. *)
From Coq Require Import List String.
From Verif Require Import Model.Entities.
Import ListNotations.

(** The calls of goroutine [i] in a list of calls with their callers. *)
Definition calls_of {C} (i : nat) (log : list (nat * C)) : list C :=
  map snd (filter (fun e => Nat.eqb (fst e) i) log).
(** [log] has exactly the calls of all goroutines, each goroutine's in its own
    order. *)
Definition an_order {C} (calls : list (list C)) (log : list (nat * C)) : Prop :=
  forall i, calls_of i log = nth i calls [].
(** The same for the calls made so far. *)
Definition order_so_far {C} (calls : list (list C)) (log : list (nat * C)) : Prop :=
  forall i, exists rest, nth i calls [] = calls_of i log ++ rest.

(** What no trade may change. *)
Definition same_identity {F} (p q : position F) : Prop :=
  ps_id p = ps_id q /\ ps_type p = ps_type q /\ ps_pair p = ps_pair q /\ ps_take_profit p = ps_take_profit q /\
  ps_stop_loss p = ps_stop_loss q /\ ps_open_time p = ps_open_time q /\ ps_execution_id p = ps_execution_id q /\
  ps_data p = ps_data q.
