(** market/candle.go. *)
From Verif Require Import Go.Outcome Go.Int64 Go.Slice Go.Float64 Go.Text Go.Num.
Open Scope list_scope.
Open Scope Z_scope.

(** market/candle.go:13-20 *)
Record candle (F : Type) := mkCandle {
  c_time : Z; c_open : F; c_high : F; c_low : F; c_close : F; c_volume : F }.
Arguments mkCandle {F} c_time c_open c_high c_low c_close c_volume.
Arguments c_time {F} c.
Arguments c_open {F} c.
Arguments c_high {F} c.
Arguments c_low {F} c.
Arguments c_close {F} c.
Arguments c_volume {F} c.

(** [time.Unix(t, 0).Minute()], market/candle.go:121.  [tz t] is the offset
    (seconds east of UTC) of the machine's local zone at instant [t].  Not
    modelled: overflow inside package time for instants beyond +-9.2e18 s. *)
Definition minute_of (tz : Z -> Z) (t : Z) : Z := ((t + tz t) mod 3600) / 60.

(** market/candle.go:107-113 *)
Definition mod_minutes (minuteInterval : Z) : Z :=
  let m := if 60 <? minuteInterval then Z.rem minuteInterval 60 else minuteInterval in
  if m =? 0 then 60 else m.

(** market/candle.go:122 ([modMinutes] is never 0). *)
Definition aligned (tz : Z -> Z) (minuteInterval t : Z) : bool :=
  let m := minute_of tz t in
  (Z.rem m (mod_minutes minuteInterval) =? 0) || (m =? 0).

Section Candle.
Context {F : Type} {N : GoFloat F}.
Notation candle := (candle F).

(** The zero value of market/candle.go:13-20, as returned at market/candle.go:160. *)
Definition zero_candle : candle :=
  mkCandle 0 (fofZ 0) (fofZ 0) (fofZ 0) (fofZ 0) (fofZ 0).

(** The operation named in findFirstIndex, market/candle.go:103-130. *)
Definition ffi_op : string := "market.findFirstCandle".
(** market/candle.go:118 *)
Definition no_first : err := ENew ffi_op EINVALID "Could not find the initial candle".

(** market/candle.go:115-129: the loop from index [i] on. *)
Fixpoint first_index_from (tz : Z -> Z) (n : Z) (cs : list candle) (i : Z) : Z * option err :=
  match cs with
  | [] => (-1, Some no_first)
  | c :: rest => if aligned tz n (c_time c) then (i, None) else first_index_from tz n rest (i + 1)
  end.

(** market/candle.go:103-130 *)
Definition find_first_index (tz : Z -> Z) (cs : list candle) (n : Z) : Z * option err :=
  first_index_from tz n cs 0.

(** market/candle.go:149-157: the fold computing low, high and accum. *)
Definition cc_step (st : F * F * F) (v : candle) : F * F * F :=
  let '(low, high, acc) := st in
  let low' := if flt (c_low v) low then c_low v else low in
  let high' := if flt high (c_high v) then c_high v else high in
  (low', high', fadd acc (c_volume v)).

(** market/candle.go:134-166 *)
Definition compress_candle (cs : list candle) (start end_ : Z) : go (candle * option err) :=
  first <- index cs start ;;
  last <- index cs (end_ - 1) ;;
  grp <- reslice cs start end_ ;;
  let '(low, high, acc) :=
    fold_left cc_step grp (fconst 1 308, fconst (-1) 308, fofZ 0) in
  match fround5 acc with
  | None => Ret (zero_candle, Some (EWrap "candle.CompressCandle" (EExt "strconv.ParseFloat")))
  | Some v => Ret (mkCandle (c_time first) (c_open first) high low (c_close last) v, None)
  end.

(** market/candle.go:64: the boundary test for a candle at time [t]. *)
Definition boundary (pivot n t : Z) : go bool :=
  d <- idiv (wrap64 (t - pivot)) 60 ;;
  r <- imod (f2i (f64_abs (i2f d))) n ;;
  Ret (r =? 0).

(** market/candle.go:63-72: [rest] are the candles from absolute index [idx]
    on, [start] the start of the current group, [acc] the output so far. *)
Fixpoint mi_loop (cs : list candle) (pivot n : Z) (rest : list candle) (idx start : Z)
    (acc : list candle) : go ((list candle * Z) + err) :=
  match rest with
  | [] => Ret (inl (acc, start))
  | v :: rest' =>
      b <- boundary pivot n (c_time v) ;;
      if b then
        '(c, e) <- compress_candle cs start idx ;;
        match e with
        | Some e' => Ret (inr e')
        | None => mi_loop cs pivot n rest' (idx + 1) idx (acc ++ [c])
        end
      else mi_loop cs pivot n rest' (idx + 1) start acc
  end.

(** The operation named in ModifyInterval, market/candle.go:36-83. *)
Definition mi_op : string := "market.ModifyInterval".
(** market/candle.go:48 *)
Definition mi_no1 : err := ENew mi_op ECONFLICT "No 1 minute interval exists".
(** market/candle.go:52 *)
Definition mi_conflict (n delta : Z) : err :=
  ENew mi_op ECONFLICT
    ("The retrieved candles cannot be modified to the " ++  fmt_int n ++
     " minutes timeframe, the delta between candles is " ++ fmt_int delta ++ " minutes")%string.

(** market/candle.go:36-83 *)
Definition modify_interval (tz : Z -> Z) (cs : list candle) (n : Z)
  : go (list candle * option err) :=
  if zlen cs =? 1 then Ret (cs, None)
  else
    c1 <- index cs 1 ;;
    c0 <- index cs 0 ;;
    delta <- idiv (wrap64 (c_time c1 - c_time c0)) 60 ;;
    if negb (delta =? 1) && (n =? 1) then Ret ([], Some mi_no1)
    else
      r <- imod n delta ;;
      if negb (r =? 0) then Ret ([], Some (mi_conflict n delta))
      else
        match find_first_index tz cs n with
        | (_, Some e) => Ret ([], Some (EWrap mi_op e))
        | (start, None) =>
            p <- index cs start ;;
            rest <- reslice cs (start + 1) (zlen cs) ;;
            lr <- mi_loop cs (c_time p) n rest (start + 1) start [] ;;
            match lr with
            | inr e => Ret ([], Some e)
            | inl (acc, start') =>
                '(c, e) <- compress_candle cs start' (zlen cs) ;;
                match e with
                | Some e' => Ret ([], Some e')
                | None => Ret (acc ++ [c], None)
                end
            end
        end.

(** market/candle.go:89-97: fold over neighbouring pairs. *)
Fixpoint min_diff (prev : Z) (cs : list candle) (m : f64) : f64 :=
  match cs with
  | [] => m
  | c :: rest =>
      let d := f64_abs (i2f (wrap64 (c_time c - prev))) in
      min_diff (c_time c) rest (if f64_lt d m then d else m)
  end.

(** market/candle.go:87-99 ([int(minDiff)] on amd64 for the out-of-range case). *)
Definition get_min_interval (cs : list candle) : Z :=
  let m := match cs with
           | [] => f64_maxfloat
           | c :: rest => min_diff (c_time c) rest f64_maxfloat
           end in
  Z.quot (f2i m) 60.

End Candle.
