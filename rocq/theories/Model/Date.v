(** utils/date.go, with the parts of package time it uses: time.Parse for the
    layout time.RFC3339 ("2006-01-02T15:04:05Z07:00", src/time/format.go,
    func parse) and time.Date in UTC (src/time/time.go). *)
From Verif Require Import Go.Outcome Go.Text.
Open Scope string_scope.
Open Scope Z_scope.

(** time.getnum: one or two digits ([fixed]: exactly two). *)
Definition getnum (s : string) (fixed : bool) : option (Z * string) :=
  match s with
  | String c r =>
      if is_digit c then
        match r with
        | String c' r' =>
            if is_digit c' then
              Some (Z.of_N (digit_val c) * 10 + Z.of_N (digit_val c'), r')
            else if fixed then None else Some (Z.of_N (digit_val c), r)
        | EmptyString => if fixed then None else Some (Z.of_N (digit_val c), r)
        end
      else None
  | EmptyString => None
  end.

(** time.atoi on the four bytes of the year (a leading sign is ruled out by
    the digit check before it). *)
Definition get_year (s : string) : option (Z * string) :=
  match s with
  | String a (String b (String c (String d r))) =>
      if is_digit a && is_digit b && is_digit c && is_digit d then
        Some (Z.of_N (digits_val (String a (String b (String c (String d "")))) 0), r)
      else None
  | _ => None
  end.

(** A literal byte of the layout (time.skip). *)
Definition lit (c : ascii) (s : string) : option string :=
  match s with
  | String c' r => if Ascii.eqb c c' then Some r else None
  | EmptyString => None
  end.

(** Fractional seconds after the seconds field, skipped when present
    (src/time/format.go, "Special case: do we have a fractional second").
    Returns the rest; the digits themselves are kept as text. *)
Fixpoint take_digits (s : string) : string * string :=
  match s with
  | String c r =>
      if is_digit c then let '(d, r') := take_digits r in (String c d, r') else ("", s)
  | EmptyString => ("", "")
  end.
(** src/time/format.go (Go): the digits after the point, skipped. *)
Definition skip_fraction (s : string) : string * string :=
  match s with
  | String p (String c r) =>
      if (Ascii.eqb p "." || Ascii.eqb p ",") && is_digit c
      then take_digits (String c r) else ("", s)
  | _ => ("", s)
  end.

(** The zone "Z07:00": "Z", or a signed offset hh:mm; result is the offset in
    seconds. *)
Definition get_zone (s : string) : option (Z * string) :=
  match s with
  | String c r =>
      if Ascii.eqb c "Z" then Some (0, r)
      else if Ascii.eqb c "+" || Ascii.eqb c "-" then
        match getnum r true with
        | Some (hh, r1) =>
            match lit ":" r1 with
            | Some r2 =>
                match getnum r2 true with
                | Some (mm, r3) =>
                    if (hh <=? 24) && (mm <? 60) then
                      Some ((if Ascii.eqb c "-" then -1 else 1) * (hh * 3600 + mm * 60), r3)
                    else None
                | None => None
                end
            | None => None
            end
        | None => None
        end
      else None
  | EmptyString => None
  end.

(** src/time/time.go (Go): isLeap. *)
Definition is_leap (y : Z) : bool :=
  (Z.rem y 4 =? 0) && (negb (Z.rem y 100 =? 0) || (Z.rem y 400 =? 0)).

(** time.daysBefore *)
Definition days_before (m : Z) : Z :=
  match m with
  | 0 => 0 | 1 => 31 | 2 => 59 | 3 => 90 | 4 => 120 | 5 => 151 | 6 => 181
  | 7 => 212 | 8 => 243 | 9 => 273 | 10 => 304 | 11 => 334 | _ => 365
  end.

(** time.daysIn *)
Definition days_in (m y : Z) : Z :=
  if (m =? 2) && is_leap y then 29 else days_before m - days_before (m - 1).

(** src/time/time.go: absoluteZeroYear, absoluteToInternal, internalToUnix. *)
Definition absolute_zero_year : Z := -292277022399.
(** src/time/time.go (Go): secondsPerDay. *)
Definition seconds_per_day : Z := 86400.
(** src/time/time.go (Go): absoluteToInternal + internalToUnix. *)
Definition absolute_to_unix : Z :=
  (absolute_zero_year - 1) * 365 * 86400 + (Z.div (absolute_zero_year - 1) 4
   - Z.div (absolute_zero_year - 1) 100 + Z.div (absolute_zero_year - 1) 400) * 86400
  - (1969 * 365 + 1969 / 4 - 1969 / 100 + 1969 / 400) * 86400.

(** time.daysSinceEpoch *)
Definition days_since_epoch (year : Z) : Z :=
  let y := year - absolute_zero_year in
  let n := y / 400 in let y := y - 400 * n in
  let d := 146097 * n in
  let n := y / 100 in let y := y - 100 * n in
  let d := d + 36524 * n in
  let n := y / 4 in let y := y - 4 * n in
  let d := d + 1461 * n in
  d + 365 * y.

(** time.Date(year, month, day, hour, min, sec, 0, UTC).Unix() for a month in
    1..12. *)
Definition date_unix (year month day hour min sec : Z) : Z :=
  let d := days_since_epoch year in
  let d := d + days_before (month - 1) in
  let d := if is_leap year && (3 <=? month) then d + 1 else d in
  let d := d + (day - 1) in
  d * seconds_per_day + hour * 3600 + min * 60 + sec + absolute_to_unix.

(** time.Parse(time.RFC3339, s): Unix seconds, and the digits of a fractional
    second.  ([rangeErr] and syntax errors are not distinguished.) *)
Definition parse_rfc3339 (s : string) : option (Z * string) :=
  match get_year s with None => None | Some (year, s) =>
  match lit "-" s with None => None | Some s =>
  match getnum s true with None => None | Some (month, s) =>
  if (month <=? 0) || (12 <? month) then None else
  match lit "-" s with None => None | Some s =>
  match getnum s true with None => None | Some (day, s) =>
  match lit "T" s with None => None | Some s =>
  match getnum s false with None => None | Some (hour, s) =>
  if 24 <=? hour then None else
  match lit ":" s with None => None | Some s =>
  match getnum s true with None => None | Some (min, s) =>
  if 60 <=? min then None else
  match lit ":" s with None => None | Some s =>
  match getnum s true with None => None | Some (sec, s) =>
  if 60 <=? sec then None else
  let '(frac, s) := skip_fraction s in
  match get_zone s with None => None | Some (off, s) =>
  if negb (String.eqb s "") then None
  else if (day <? 1) || (days_in month year <? day) then None
  else Some (date_unix year month day hour min sec - off, frac)
  end end end end end end end end end end end end.

(** utils/date.go:9-18: the time as Unix seconds (the zero time.Time on
    error). *)
Definition raw_date_to_rfc3339 (date : string) : Z * option err :=
  match parse_rfc3339 (date ++ "T00:00:00Z") with
  | Some (t, _) => (t, None)
  | None => (-62135596800, Some (EWrap "RawDateToRFC3339" (EExt "time.Parse")))
  end.
