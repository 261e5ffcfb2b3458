(** Vocabulary of the trade, position, order and pair properties (C36-C52). *)
From Coq Require Import Reals.
From Verif Require Import Go.Outcome Go.Float64 Go.Num Model.Asset Model.Pair Model.Entities.
Open Scope string_scope.
Open Scope list_scope.

(** A trade in the direction of a position of type [ty], or against it. *)
Definition increases (ty action : string) : Prop :=
  ty = "long" /\ action = "buy" \/ ty = "short" /\ action = "sell".
Definition reduces (ty action : string) : Prop :=
  ty = "long" /\ action = "sell" \/ ty = "short" /\ action = "buy".

(** Cash received by a trade (negative for a buy), in exact arithmetic. *)
Definition cash (t : trade R) : R :=
  if String.eqb (t_action t) "buy" then (- (t_price t * t_quantity t))%R
  else (t_price t * t_quantity t)%R.
Definition total_cash (ts : list (trade R)) : R := fold_right (fun t a => (cash t + a)%R) 0%R ts.

(** [open_history pr ty q ts kept q']: trades [ts] applied to an open position
    of pair [pr], type [ty] and size [q] leave it open with size [q']; [kept]
    are those that took effect: trades on another pair, with another action,
    or exceeding the size by more than 0.0001 have none. *)
Inductive open_history (pr : pair) (ty : string) : R -> list (trade R) -> list (trade R) -> R -> Prop :=
| oh_nil q : open_history pr ty q [] [] q
| oh_skip q t ts kept q' :
    t_pair t <> pr \/ (~ increases ty (t_action t) /\ ~ reduces ty (t_action t)) \/
    (reduces ty (t_action t) /\ (t_quantity t > q + 0.0001)%R) ->
    open_history pr ty q ts kept q' -> open_history pr ty q (t :: ts) kept q'
| oh_grow q t ts kept q' :
    t_pair t = pr -> increases ty (t_action t) ->
    open_history pr ty (q + t_quantity t) ts kept q' -> open_history pr ty q (t :: ts) (t :: kept) q'
| oh_shrink q t ts kept q' :
    t_pair t = pr -> reduces ty (t_action t) -> (t_quantity t < q)%R ->
    open_history pr ty (q - t_quantity t) ts kept q' -> open_history pr ty q (t :: ts) (t :: kept) q'.

(** The trades that take effect at float64 level, as an independent ledger
    that only tracks the size [q]. *)
Inductive takes_effect (pr : pair) (ty : string) : f64 -> trade f64 -> f64 -> Prop :=
| te_grow q t : t_pair t = pr -> increases ty (t_action t) ->
    takes_effect pr ty q t (f64_add q (t_quantity t))
| te_shrink q t : t_pair t = pr -> reduces ty (t_action t) ->
    f64_lt (f64_sub q (t_quantity t)) (f64_const (-1) (-4)) = false ->
    f64_le (f64_sub q (t_quantity t)) (i2f 0) = false ->
    takes_effect pr ty q t (f64_sub q (t_quantity t))
| te_close q t : t_pair t = pr -> reduces ty (t_action t) ->
    f64_lt (f64_sub q (t_quantity t)) (f64_const (-1) (-4)) = false ->
    f64_le (f64_sub q (t_quantity t)) (i2f 0) = true ->
    takes_effect pr ty q t q.
Definition no_effect (pr : pair) (ty : string) (q : f64) (t : trade f64) : Prop :=
  t_pair t <> pr \/ (~ increases ty (t_action t) /\ ~ reduces ty (t_action t)) \/
  (reduces ty (t_action t) /\ f64_lt (f64_sub q (t_quantity t)) (f64_const (-1) (-4)) = true).

(** [recorded pr ty q ts kept]: of [ts], applied from size [q], exactly [kept]
    take effect. *)
Inductive recorded (pr : pair) (ty : string) : f64 -> list (trade f64) -> list (trade f64) -> Prop :=
| rec_nil q : recorded pr ty q [] []
| rec_skip q t ts kept : no_effect pr ty q t -> recorded pr ty q ts kept -> recorded pr ty q (t :: ts) kept
| rec_keep q q' t ts kept : takes_effect pr ty q t q' -> recorded pr ty q' ts kept ->
    recorded pr ty q (t :: ts) (t :: kept).

Definition gt_zero (x : f64) : Prop := f64_lt (i2f 0) x = true.

(** The character [ch] occurs nowhere in [s]. *)
Fixpoint avoids (ch : ascii) (s : string) : Prop :=
  match s with
  | EmptyString => True
  | String c r => c <> ch /\ avoids ch r
  end.

(** January 1, year 1, 00:00 UTC in nanoseconds since January 1, 1970: 719162
    days earlier. *)
Definition year_one : Z := (- 719162 * 86400 * 1000000000)%Z.
