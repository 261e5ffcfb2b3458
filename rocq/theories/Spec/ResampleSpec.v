(** Changes of the input of ModifyInterval that only change its output in the
    obvious way. *)
From Verif Require Import Go.Outcome Go.Float64 Model.Candle Spec.CandleSpec.
Open Scope list_scope.
Open Scope Z_scope.

(** The candle [s] seconds later. *)
Definition later (s : Z) (c : candle f64) : candle f64 :=
  mkCandle (c_time c + s) (c_open c) (c_high c) (c_low c) (c_close c) (c_volume c).
(** The chart upside down. *)
Definition flipped (c : candle f64) : candle f64 :=
  mkCandle (c_time c) (f64_neg (c_open c)) (f64_neg (c_low c)) (f64_neg (c_high c)) (f64_neg (c_close c)) (c_volume c).
(** The four prices in another unit. *)
Definition repriced (f : f64 -> f64) (c : candle f64) : candle f64 :=
  mkCandle (c_time c) (f (c_open c)) (f (c_high c)) (f (c_low c)) (f (c_close c)) (c_volume c).
(** [f] keeps the order of the values of [l], within the supported range. *)
Definition keeps_order (f : f64 -> f64) (l : list f64) : Prop :=
  Forall sane l /\ Forall sane (map f l) /\
  forall x y, In x l -> In y l -> f64_lt (f x) (f y) = f64_lt x y.

(** The same outcome with every candle changed by [g]. *)
Definition changed (g : candle f64 -> candle f64) (o : go (list (candle f64) * option err))
  : go (list (candle f64) * option err) :=
  match o with Ret (l, e) => Ret (map g l, e) | Panic p => Panic p end.

(** [p] is the first candle of [cs] that starts an interval. *)
Definition first_start (tz : Z -> Z) (n : Z) (cs : list (candle f64)) (p : candle f64) : Prop :=
  exists skipped rest, cs = skipped ++ p :: rest /\
    Forall (fun c => ~ starts_interval tz n (c_time c)) skipped /\ starts_interval tz n (c_time p).
