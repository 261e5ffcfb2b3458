(** Vocabulary of the calendar property (C66): the proleptic Gregorian
    calendar, stated without reference to the code's formulas. *)
From Coq Require Import ZArith Ascii String List Bool.
Import ListNotations.
Open Scope string_scope.
Open Scope Z_scope.

Definition leap_year (y : Z) : Prop := (4 | y) /\ (~ (100 | y) \/ (400 | y)).

(** [n] is the number of days of month [m] of year [y]. *)
Definition month_length (y m n : Z) : Prop :=
  (In m [1; 3; 5; 7; 8; 10; 12]%list /\ n = 31) \/
  (In m [4; 6; 9; 11]%list /\ n = 30) \/
  (m = 2 /\ ((leap_year y /\ n = 29) \/ (~ leap_year y /\ n = 28))).

Definition valid_date (y m d : Z) : Prop :=
  0 <= y <= 9999 /\ 1 <= m <= 12 /\ 1 <= d /\ exists n, month_length y m n /\ d <= n.

(** The day after. *)
Definition next_day (y m d y' m' d' : Z) : Prop :=
  exists n, month_length y m n /\
  ((d < n /\ y' = y /\ m' = m /\ d' = d + 1) \/
   (d = n /\ m < 12 /\ y' = y /\ m' = m + 1 /\ d' = 1) \/
   (d = n /\ m = 12 /\ y' = y + 1 /\ m' = 1 /\ d' = 1)).

(** Earlier date. *)
Definition earlier (y m d y' m' d' : Z) : Prop :=
  y < y' \/ (y = y' /\ (m < m' \/ (m = m' /\ d < d'))).

(** YYYY-MM-DD *)
Definition digit (z : Z) : ascii := ascii_of_N (48 + Z.to_N z).
Definition two (z : Z) : string := String (digit (z / 10)) (String (digit (z mod 10)) "").
Definition date_text (y m d : Z) : string :=
  two (y / 100) ++ two (y mod 100) ++ "-" ++ two m ++ "-" ++ two d.
