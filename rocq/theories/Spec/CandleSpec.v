(** What the candle properties say, in terms of the fields a caller sees.
    Nothing here uses the functions of Model/Candle.v, only its record. *)
From Coq Require Import Reals.
From Flocq Require Import Core BinarySingleNaN.
From Verif Require Import Go.Outcome Go.Int64 Go.Slice Go.Float64 Go.FloatReal Go.Num Model.Candle.
Open Scope list_scope.
Open Scope Z_scope.

Notation candles F := (list (candle F)).

(** Whole minutes between two instants. *)
Definition minutes_apart (p t : Z) : Z := Z.abs (t - p) / 60.
(** [t] is a whole number of [n]-minute steps away from [p] (in whole minutes). *)
Definition on_boundary (p n t : Z) : Prop := (n | minutes_apart p t).

(** Minute of the hour shown by a clock [tz t] seconds east of UTC. *)
Definition local_minute (tz : Z -> Z) (t : Z) : Z := ((t + tz t) / 60) mod 60.
(** Minute 0, or a multiple of the interval (of the part of it beyond whole
    hours for intervals above an hour). *)
Definition starts_interval (tz : Z -> Z) (n t : Z) : Prop :=
  local_minute tz t = 0 \/ (n <= 60 /\ (n | local_minute tz t)) \/
  (60 < n /\ (n mod 60 | local_minute tz t)).

(** Times whose differences cannot overflow or lose precision: within 2^53
    seconds (285 million years) of each other. *)
Definition near_times {F} (cs : candles F) : Prop :=
  forall a b, In a cs -> In b cs -> Z.abs (c_time b - c_time a) < 2 ^ 53.

(** First and last element. *)
Definition first_is {A} (l : list A) (a : A) : Prop := exists r, l = a :: r.
Definition last_is {A} (l : list A) (a : A) : Prop := exists r, l = r ++ [a].

(** Largest and smallest of a list of float64. *)
Definition maximum (l : list f64) (m : f64) : Prop :=
  In m l /\ forall x, In x l -> f64_le x m = true.
Definition minimum (l : list f64) (m : f64) : Prop :=
  In m l /\ forall x, In x l -> f64_le m x = true.

(** A price between -1e308 and 1e308 (not NaN). *)
Definition sane (x : f64) : Prop :=
  f64_le (f64_const (-1) 308) x = true /\ f64_le x (f64_const 1 308) = true.

(** The nearest multiple of 0.00001, ties to even. *)
Definition to5 (r : R) : R := round radix10 (FIX_exp (-5)) ZnearestE r.
(** [y] is the float64 nearest to [x] rounded to 5 decimals. *)
Definition rounded5 (x y : f64) : Prop :=
  (is_finite x = true -> is_finite y = true /\ B2R y = rnd (to5 (B2R x))) /\
  (is_finite x = false -> y = x).

(** Left-to-right float64 sum. *)
Definition fsum (l : list f64) : f64 := fold_left f64_add l (i2f 0).

(** [c] summarises the candles [g]. *)
Definition summary (g : candles f64) (c : candle f64) : Prop :=
  (exists f, first_is g f /\ c_time c = c_time f /\ c_open c = c_open f) /\
  (exists l, last_is g l /\ c_close c = c_close l) /\
  (Forall (fun v => sane (c_high v)) g -> maximum (map c_high g) (c_high c)) /\
  (Forall (fun v => sane (c_low v)) g -> minimum (map c_low g) (c_low c)) /\
  rounded5 (fsum (map c_volume g)) (c_volume c).

(** [cs] is [skipped] followed by the groups [gs]: [skipped] ends at the first
    candle that starts an interval. *)
Definition grouped (tz : Z -> Z) (n : Z) (cs skipped : candles f64) (gs : list (candles f64)) : Prop :=
  cs = skipped ++ List.concat gs /\
  Forall (fun c => ~ starts_interval tz n (c_time c)) skipped /\
  (exists p, first_is (List.concat gs) p /\ starts_interval tz n (c_time p)) /\
  Forall (fun g => g <> []) gs.

(** Groups begin exactly at the boundaries counted from [p]. *)
Definition cut_at_boundaries (p n : Z) (gs : list (candles f64)) : Prop :=
  (forall g h r, In g gs -> g = h :: r -> Forall (fun c => ~ on_boundary p n (c_time c)) r) /\
  (forall g0 rest g h r, gs = g0 :: rest -> In g rest -> g = h :: r -> on_boundary p n (c_time h)).

(** A series spaced exactly [d] minutes from [t0] on. *)
Definition regular {F} (t0 d : Z) (cs : candles F) : Prop :=
  forall i c, nth_error cs i = Some c -> c_time c = t0 + Z.of_nat i * (60 * d).

(** Time and prices of a candle. *)
Definition ohlc {F} (c : candle F) : Z * F * F * F * F := (c_time c, c_open c, c_high c, c_low c, c_close c).

(** High and Low in the supported range. *)
Definition sane_candle (c : candle f64) : Prop := sane (c_high c) /\ sane (c_low c).

(** Total volume in exact arithmetic. *)
Definition vol_sum (l : list (candle R)) : R := fold_right (fun c a => (c_volume c + a)%R) 0%R l.

(** Time differences of neighbours. *)
Fixpoint gaps {F} (cs : candles F) : list Z :=
  match cs with
  | a :: (b :: _) as rest => Z.abs (c_time b - c_time a) :: gaps rest
  | _ => []
  end.
