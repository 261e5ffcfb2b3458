(** Vocabulary of C126: quantities that are whole multiples of a lot of 2^e. *)
From Coq Require Import List ZArith Reals.
From Flocq Require Import Core BinarySingleNaN.
From Verif Require Import Go.Outcome Go.Float64 Model.Asset Model.Pair Model.Entities Spec.EntitySpec Spec.TickSpec.
Import ListNotations.
Open Scope string_scope.
Open Scope list_scope.
Open Scope Z_scope.

(** The books of a position kept in whole lots: size, open or not, trades. *)
Record books : Type := Books { size : Z; is_open : bool; listed : list string }.
(** [m] lots, but not m + 1, fit into the 0.0001 of Position.substract. *)
Definition tolerance (e m : Z) : Prop :=
  (IZR m * bpow radix2 e <= - B2R (f64_const (-1) (-4)) < IZR (m + 1) * bpow radix2 e)%R.
(** One trade of [k] lots. *)
Inductive dealt (pr : pair) (ty : string) (m : Z) (b : books) (t : trade f64) (k : Z) : books -> Prop :=
| dealt_refused : t_pair t <> pr \/ (~ increases ty (t_action t) /\ ~ reduces ty (t_action t)) \/
    (reduces ty (t_action t) /\ size b + m < k) -> dealt pr ty m b t k b
| dealt_more : t_pair t = pr -> increases ty (t_action t) ->
    dealt pr ty m b t k (Books (size b + k) (is_open b) (listed b ++ [t_id t]))
| dealt_less : t_pair t = pr -> reduces ty (t_action t) -> k < size b ->
    dealt pr ty m b t k (Books (size b - k) (is_open b) (listed b ++ [t_id t]))
| dealt_out : t_pair t = pr -> reduces ty (t_action t) -> size b <= k <= size b + m ->
    dealt pr ty m b t k (Books (size b) false (listed b ++ [t_id t])).
Inductive dealt_all (pr : pair) (ty : string) (m : Z) : books -> list (trade f64) -> list Z -> books -> Prop :=
| dealt_none b : dealt_all pr ty m b [] [] b
| dealt_next b t k b' ts ks b'' : dealt pr ty m b t k b' -> dealt_all pr ty m b' ts ks b'' ->
    dealt_all pr ty m b (t :: ts) (k :: ks) b''.

(** Lots bought less lots sold (for a short position the other way round). *)
Definition signed (ty : string) (t : trade f64) (k : Z) : Z :=
  if String.eqb ty "long" then (if String.eqb (t_action t) "buy" then k else - k)
  else (if String.eqb (t_action t) "buy" then - k else k).
Fixpoint net (ty : string) (ts : list (trade f64)) (ks : list Z) : Z :=
  match ts, ks with t :: ts, k :: ks => signed ty t k + net ty ts ks | _, _ => 0 end.
