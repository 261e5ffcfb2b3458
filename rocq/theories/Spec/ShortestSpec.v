(** Vocabulary of C112: what it means to be the shortest decimal for a machine
    number. *)
From Coq Require Import ZArith Reals String Ascii.
From Flocq Require Import Core BinarySingleNaN.
From Verif Require Import Go.Float64 Spec.DecimalSpec.
Open Scope string_scope.
Open Scope Z_scope.

(** [r] can be written with [k] significant digits. *)
Definition has_digits (k : Z) (r : R) : Prop :=
  exists n e, Z.abs n < 10 ^ k /\ r = (IZR n * powerRZ 10 e)%R.

(** [r] is read as [v]. *)
Definition read_as (v r : R) : Prop := nearest r = v.

(** [r] is the shortest decimal for [v], with [k] digits: it is read as [v];
    nothing with fewer digits is; of those with [k] digits that are it is the
    nearest to [v], and if another one is equally near, then [r] is the even
    one: an even multiple of their distance. *)
Definition shortest_for (v : R) (k : Z) (r : R) : Prop :=
  read_as v r /\ 0 <= k /\ has_digits k r /\
  (forall j r', 0 <= j -> has_digits j r' -> read_as v r' -> k <= j) /\
  (forall r', has_digits k r' -> read_as v r' -> (Rabs (r - v) <= Rabs (r' - v))%R) /\
  (forall r', has_digits k r' -> read_as v r' -> (Rabs (r - v) = Rabs (r' - v))%R -> r' <> r ->
     exists n, r = (2 * IZR n * Rabs (r - r'))%R).

(** Notation without needless characters. *)
(** A whole number without zeros in front. *)
Definition tidy_front (s : string) : Prop := s = "0" \/ (s <> "" /\ forall t, s <> String "0" t).
(** The same, but at least two digits. *)
Definition tidy_two (s : string) : Prop :=
  (2 <= String.length s)%nat /\ (String.length s = 2%nat \/ forall t, s <> String "0" t).
(** Nothing, or a point and digits of which the last is not zero. *)
Definition tidy_back (s : string) : Prop :=
  s = "" \/ exists d, s = String "." d /\ d <> "" /\ forall t, d <> (t ++ "0")%string.

(** [t] writes [r] as digits with a point if needed. *)
Definition plain_text (t : string) (r : R) : Prop :=
  exists ip n fr m k, t = (ip ++ fr)%string /\ digits ip n /\ tidy_front ip /\ fraction fr m k /\ tidy_back fr /\
    r = (IZR n + IZR m / powerRZ 10 k)%R.
(** [t] writes [r] with one digit from 1 to 9 before the point and a power of
    ten, whose digits satisfy [tidy]. *)
Definition power_text (tidy : string -> Prop) (t : string) (r : R) : Prop :=
  exists c fr m k neg ed e,
    t = String c (fr ++ "e" ++ (if neg : bool then "-" else "+") ++ ed)%string /\
    49 <= byte c <= 57 /\ fraction fr m k /\ tidy_back fr /\ digits ed e /\ tidy ed /\ (neg = true -> 0 < e) /\
    r = ((IZR (byte c - 48) + IZR m / powerRZ 10 k) * powerRZ 10 (signed_Z neg e))%R.

(** The text of a positive number for %v: with a power of ten below 0.0001 and
    from a million on. *)
Definition v_text (t : string) (r : R) : Prop :=
  if Rlt_dec r (powerRZ 10 (-4)) then power_text tidy_two t r
  else if Rlt_dec r (powerRZ 10 6) then plain_text t r
  else power_text tidy_two t r.
(** The text of a positive number in JSON: the form depends on the machine
    number [v] itself. *)
Definition json_text (v : R) (t : string) (r : R) : Prop :=
  if Rlt_dec v (nearest (powerRZ 10 (-6))) then power_text tidy_front t r
  else if Rlt_dec v (powerRZ 10 21) then plain_text t r
  else power_text tidy_front t r.
(** The sign in front. *)
Definition minus (x : f64) : string := if Rlt_dec (B2R x) 0 then "-" else "".
