(** Vocabulary of C100: programs that are stopped and started again. *)
From Coq Require Import ZArith List String.
From Verif Require Import Go.Outcome Go.Float64 Go.Json Go.JsonInto Model.Pair Model.OrderBook Model.Entities Model.Stored Spec.JsonSpec Spec.StoredSpec Spec.IntoSpec.
Import ListNotations.

(** [b] is written as JSON (its slices nil or not when empty) and the text is
    read into a variable, fresh or already used, giving [b']. *)
Definition book_restored (b b' : book f64) : Prop :=
  exists na nb text old v, shaped book_type old /\
    marshal book_type (book_val na nb b) = Some text /\ unmarshal_into book_type old text = Some v /\ book_of v = Some b'.

(** Updates applied one after the other; before each of them, and at the end,
    the book may be stored and restored any number of times. *)
Inductive book_run : list (update f64) -> book f64 -> go (book f64) -> Prop :=
| run_done b : book_run [] b (Ret b)
| run_update u us b b' e r : apply_update u b = Ret (b', e) -> book_run us b' r -> book_run (u :: us) b r
| run_panic u us b n : apply_update u b = Panic n -> book_run (u :: us) b (Panic n)
| run_restart us b b' r : book_restored b b' -> book_run us b' r -> book_run us b r.

(** Positions; the two times are shown in locations of whole minutes. *)
Definition whole_minutes (z : Z) : Prop := (60 | z)%Z /\ (-86400 < z < 86400)%Z.
Definition position_restored (p p' : position f64) : Prop :=
  exists z z' nil text old v, whole_minutes z /\ whole_minutes z' /\ shaped position_type old /\
    marshal position_type (position_val z z' nil p) = Some text /\ unmarshal_into position_type old text = Some v /\ position_of v = Some p'.

Inductive position_run : list (trade f64) -> position f64 -> position f64 -> Prop :=
| prun_done p : position_run [] p p
| prun_trade t ts p q : position_run ts (fst (modify p t)) q -> position_run (t :: ts) p q
| prun_restart ts p p' q : position_restored p p' -> position_run ts p' q -> position_run ts p q.

(** Texts in UTF-8 and no instant earlier than 2^62 seconds before 1970;
    nothing is asked of the numbers. *)
Definition not_ancient (t : Z) : Prop := (- 2 ^ 62 <= t / 1000000000)%Z.
Definition position_texts (p : position f64) : Prop :=
  Forall utf8 [ps_id p; ps_type p; ps_execution_id p; ps_data p; co_order_id (ps_take_profit p); co_order_id (ps_stop_loss p)] /\
  pair_ok (ps_pair p) /\ Forall utf8 (ps_trades p) /\ not_ancient (ps_open_time p) /\ not_ancient (ps_close_time p).
Definition trade_texts (t : trade f64) : Prop := utf8 (t_id t) /\ not_ancient (t_time t).
