(** Vocabulary of C120: turning points of groups of candles. *)
From Coq Require Import List.
From Verif Require Import Go.Float64 Model.Candle Model.Indicators Spec.IndicatorSpec.
Import ListNotations.
Open Scope list_scope.

(** Every price of the group is on the inner side of [p]. *)
Definition inside (ft : ftype) (p : f64) (g : list (candle f64)) : Prop :=
  Forall (fun c => below ft (price_of ft c) p = true) g.
(** Some price of the group is beyond [p]. *)
Definition beyond (ft : ftype) (p : f64) (g : list (candle f64)) : Prop :=
  exists c, In c g /\ below ft p (price_of ft c) = true.
(** [p] is the outermost price of the group. *)
Definition outermost (ft : ftype) (p : f64) (g : list (candle f64)) : Prop :=
  (exists c, In c g /\ price_of ft c = p) /\ ~ beyond ft p g.
(** At least two of the groups are inside. *)
Definition two_inside (ft : ftype) (p : f64) (gs : list (list (candle f64))) : Prop :=
  exists u g v h w, gs = u ++ g :: v ++ h :: w /\ inside ft p g /\ inside ft p h.

(** Group number [j] turns at [p]: [p] is its outermost price, the two groups
    before it are inside, and a group that goes beyond [p] only comes after two
    that are inside. *)
Definition turns (ft : ftype) (p : f64) (gs : list (list (candle f64))) (j : nat) : Prop :=
  exists before a b x right, gs = before ++ a :: b :: x :: right /\ (List.length before + 2 = j)%nat /\
    inside ft p a /\ inside ft p b /\ outermost ft p x /\
    forall pre g post, right = pre ++ g :: post -> beyond ft p g -> two_inside ft p pre.
