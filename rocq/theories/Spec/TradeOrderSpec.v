(** Vocabulary of C107: histories that keep a position open, and its sums. *)
From Coq Require Import Reals.
From Verif Require Import Go.Outcome Model.Pair Model.Entities Spec.EntitySpec.
Open Scope string_scope.
Open Scope list_scope.
Open Scope R_scope.

(** All trades have a positive quantity and take effect, and the size of the
    position, [q] at first, is positive after each. *)
Fixpoint stays_open (pr : pair) (ty : string) (q : R) (ts : list (trade R)) : Prop :=
  match ts with
  | [] => True
  | t :: rest => t_pair t = pr /\ 0 < t_quantity t /\
      (increases ty (t_action t) /\ stays_open pr ty (q + t_quantity t) rest \/
       reduces ty (t_action t) /\ t_quantity t < q /\ stays_open pr ty (q - t_quantity t) rest)
  end.
(** [x] counted positive for a trade in the direction of the position. *)
Definition signed (ty : string) (t : trade R) (x : R) : R :=
  if String.eqb (t_action t) (if String.eqb ty "long" then "buy" else "sell") then x else - x.
Definition net_quantity (ty : string) (ts : list (trade R)) : R :=
  fold_right (fun t a => signed ty t (t_quantity t) + a) 0 ts.
Definition net_value (ty : string) (ts : list (trade R)) : R :=
  fold_right (fun t a => signed ty t (t_price t * t_quantity t) + a) 0 ts.
(** The position with another list of trades. *)
Definition with_trades {F} (l : list string) (p : position F) : position F :=
  mkPosition (ps_id p) (ps_type p) (ps_pair p) (ps_open p) (ps_take_profit p) (ps_stop_loss p)
    (ps_open_price p) (ps_close_price p) (ps_quantity p) (ps_profit p) (ps_open_time p) (ps_close_time p)
    l (ps_execution_id p) (ps_data p).
(** Equal in all fields but the list of trades. *)
Definition same_but_trades {F} (p p' : position F) : Prop := with_trades [] p = with_trades [] p'.
(** [t1] and [t2] are two parts of [t]. *)
Definition parts_of (t t1 t2 : trade R) : Prop :=
  t_pair t1 = t_pair t /\ t_pair t2 = t_pair t /\ t_action t1 = t_action t /\ t_action t2 = t_action t /\
  t_price t1 = t_price t /\ t_price t2 = t_price t /\
  0 < t_quantity t1 /\ 0 < t_quantity t2 /\ t_quantity t1 + t_quantity t2 = t_quantity t.
