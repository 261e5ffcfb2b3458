(** indicators/ma.go, rsi.go, ewv.go, williams_fractals.go.  The candle slice
    argument is a [gslice] where the code can see nil or the capacity. *)
From Verif Require Import Go.Outcome Go.Int64 Go.Slice Go.Sort Go.Float64 Go.Num Model.Candle.
Open Scope string_scope.
Open Scope list_scope.
Open Scope Z_scope.

Section Indicators.
Context {F : Type} {N : GoFloat F}.
Notation candle := (candle F).

(** indicators/ma.go:38-44 *)
Definition sum_close (cs : list candle) : F :=
  fold_left (fun acc c => fadd acc (c_close c)) cs (fofZ 0).
(** indicators/ma.go:38-44 *)
Definition average (cs : list candle) : F := fdiv (sum_close cs) (fofZ (zlen cs)).

(** indicators/ma.go:24-33: [k] iterations remain before j = len(candles). *)
Fixpoint ma_loop (cs : list candle) (i j : Z) (k : nat) : go (list F) :=
  match k with
  | O => Ret []
  | S k' =>
      w <- reslice cs i (j + 1) ;;
      rest <- ma_loop cs (i + 1) (j + 1) k' ;;
      Ret (average w :: rest)
  end.

(** indicators/ma.go:12, 50, 81 and indicators/rsi.go:27 *)
Definition missing (op : string) : err := ENew op EINVALID "Candle array missing".
(** indicators/ma.go:14, 52 *)
Definition too_short (op : string) : err :=
  ENew op EINVALID "Period argument is larger than the length of candles".
(** indicators/ma.go:16, 54, 85 *)
Definition bad_period (op : string) : err := ENew op EINVALID "Period can't be less than 1".

(** indicators/ma.go:8-36.  The loop counts [j] from period-1 up to
    len(candles), i.e. len - (period-1) iterations. *)
Definition moving_average (s : gslice candle) (period : Z) : go (list F * option err) :=
  let op := "indicators.MovingAverage" in
  let cs := vis s in
  if is_nil s then Ret ([], Some (missing op))
  else if zlen cs <? period then Ret ([], Some (too_short op))
  else if period <=? 0 then Ret ([], Some (bad_period op))
  else
    r <- ma_loop cs 0 (period - 1) (Z.to_nat (zlen cs - (period - 1))) ;;
    Ret (r, None).

(** indicators/ma.go:60-72: [rest] are the candles from index [i] on. *)
Fixpoint ema_loop (cs : list candle) (period : Z) (p : F) (rest : list candle) (i : Z)
    (acc : list F) : go (list F) :=
  match rest with
  | [] => Ret acc
  | c :: rest' =>
      if i <? period then ema_loop cs period p rest' (i + 1) acc
      else if zlen acc =? 0 then
        w <- reslice cs 0 period ;;
        ema_loop cs period p rest' (i + 1) (acc ++ [average w])
      else
        last <- index acc (zlen acc - 1) ;;
        let ema := fadd (fmul (c_close c) p) (fmul last (fsub (fofZ 1) p)) in
        ema_loop cs period p rest' (i + 1) (acc ++ [ema])
  end.

(** indicators/ma.go:46-75 *)
Definition exponential_moving_average (s : gslice candle) (period : Z)
  : go (list F * option err) :=
  let op := "indicators.ExponentialMovingAverage" in
  let cs := vis s in
  if is_nil s then Ret ([], Some (missing op))
  else if zlen cs <? period then Ret ([], Some (too_short op))
  else if period <=? 0 then Ret ([], Some (bad_period op))
  else
    let p := fdiv (fofZ 2) (fadd (fofZ period) (fofZ 1)) in
    r <- ema_loop cs period p cs 0 [] ;;
    Ret (r, None).

(** indicators/ma.go:83, 122 *)
Definition smma_short (op : string) : err :=
  ENew op EINVALID "Period is larger than the amount of candles".

(** indicators/ma.go:118-131 *)
Definition closing_sum (cs : list candle) (period : Z) : go (F * option err) :=
  if zlen cs <? period then Ret (fofZ 0, Some (smma_short "indicators.closingSum"))
  else
    w <- reslice cs (zlen cs - period) (zlen cs) ;;
    Ret (fold_left (fun sum c => fadd sum (c_close c)) w (fofZ 0), None).

(** indicators/ma.go:78 *)
Definition smma_op : string := "indicators.SmoothedMovingAverage".

(** indicators/ma.go:90-113 *)
Fixpoint smma_loop (cs : list candle) (period : Z) (rest : list candle) (i : Z)
    (acc : list F) : go (list F * option err) :=
  match rest with
  | [] => Ret (acc, None)
  | c :: rest' =>
      if i <? period - 1 then smma_loop cs period rest' (i + 1) acc
      else
        pre <- reslice cs 0 (i + 1) ;;
        '(sum, e) <- closing_sum pre period ;;
        match e with
        | Some e' => Ret ([], Some (EWrap smma_op e'))
        | None =>
            if zlen acc =? 0 then
              smma_loop cs period rest' (i + 1) (acc ++ [fdiv sum (fofZ period)])
            else if zlen acc =? 1 then
              s0 <- index acc 0 ;;
              let s2 := fdiv (fadd (fmul s0 (fsub (fofZ period) (fofZ 1))) (c_close c)) (fofZ period) in
              smma_loop cs period rest' (i + 1) (acc ++ [s2])
            else
              prev <- index acc (zlen acc - 1) ;;
              let prevSum := fmul prev (fofZ period) in
              let si := fdiv (fadd (fsub prevSum prev) (c_close c)) (fofZ period) in
              smma_loop cs period rest' (i + 1) (acc ++ [si])
        end
  end.

(** indicators/ma.go:77-116 *)
Definition smoothed_moving_average (s : gslice candle) (period : Z)
  : go (list F * option err) :=
  let cs := vis s in
  if is_nil s then Ret ([], Some (missing smma_op))
  else if zlen cs <? period then Ret ([], Some (smma_short smma_op))
  else if period <=? 0 then Ret ([], Some (bad_period smma_op))
  else smma_loop cs period cs 0 [].

(** indicators/ewv.go:7-17 *)
Definition ewv (cs : list candle) (beta : F) : F :=
  fold_left (fun v c =>
    fadd (fmul beta v) (fmul (fsub (fofZ 1) beta) (fsub (c_high c) (c_low c)))) cs (fofZ 0).

(** indicators/rsi.go:11-17: the two running sums; [prev] is candles[i-1]. *)
Fixpoint rsi_sums (prev : candle) (cs : list candle) (up down : F) : F * F :=
  match cs with
  | [] => (up, down)
  | c :: rest =>
      if flt (c_close prev) (c_close c) then
        rsi_sums c rest (fadd up (fsub (c_close c) (c_close prev))) down
      else if flt (c_close c) (c_close prev) then
        rsi_sums c rest up (fadd down (fsub (c_close prev) (c_close c)))
      else rsi_sums c rest up down
  end.

(** indicators/rsi.go:8-21, before the conversion to float32. *)
Definition rsi_value (cs : list candle) : F :=
  let '(up, down) :=
    match cs with
    | [] => (fofZ 0, fofZ 0)
    | c :: rest => rsi_sums c rest (fofZ 0) (fofZ 0)
    end in
  let rs := fdiv up down in
  fsub (fofZ 100) (fdiv (fofZ 100) (fadd (fofZ 1) rs)).

(** indicators/rsi.go:37-46.  [fuel] bounds the iterations; the slice
    expression panics before it runs out (Proofs/RSI.v, rsi_fuel). *)
Fixpoint rsi_loop {F32} (to32 : F -> F32) (s : gslice candle) (fuel : nat) (i j : Z)
  : go (list F32) :=
  match fuel with
  | O => Panic PSlice
  | S f =>
      if j =? zlen (vis s) then Ret []
      else
        w <- gsub s i (j + 2) ;;
        rest <- rsi_loop to32 s f (i + 1) (j + 1) ;;
        Ret (to32 (rsi_value w) :: rest)
  end.

(** No repository counterpart: enough iterations for the loop at indicators/rsi.go:37-46. *)
Definition rsi_fuel (s : gslice candle) : nat :=
  Z.to_nat (zlen (vis s) + zlen (hid s) + 4).

(** indicators/rsi.go:23-48; [to32] is the conversion float32(x). *)
Definition rsi {F32} (to32 : F -> F32) (s : gslice candle) (period : Z)
  : go (list F32 * option err) :=
  let op := "movingAverage" in
  if is_nil s then Ret ([], Some (missing op))
  else if zlen (vis s) <? 14 then
    Ret ([], Some (ENew op EINVALID "Cannot calculate RSI with less than 14 candles"))
  else
    r <- rsi_loop to32 s (rsi_fuel s) 0 (period - 1) ;;
    Ret (r, None).

(** indicators/williams_fractals.go:11-18 *)
Inductive ftype := FractalUp | FractalDown.

(** indicators/williams_fractals.go:20-24 *)
Record fractal := mkFractal { fr_time : Z; fr_price : F; fr_type : ftype }.

(** indicators/williams_fractals.go:65 *)
Definition ff_op : string := "findFractal".

(** indicators/williams_fractals.go:80-88, one candle on the left. *)
Definition left_ok (ft : ftype) (third c : candle) : bool :=
  match ft with
  | FractalUp => negb (fle (c_high third) (c_high c))
  | FractalDown => negb (fle (c_low c) (c_low third))
  end.

(** indicators/williams_fractals.go:82, 86 *)
Definition left_err (ft : ftype) : err :=
  match ft with
  | FractalUp => ENew ff_op EINVALID "[FractalUp] Third candle doesn't have two preceding lows"
  | FractalDown => ENew ff_op EINVALID "[FractalDown] Third candle doesn't have two preceding highs"
  end.
(** indicators/williams_fractals.go:100, 108 *)
Definition right_err (ft : ftype) : err :=
  match ft with
  | FractalUp => ENew ff_op EINVALID "[FractalUp] No fractal, as new high found"
  | FractalDown => ENew ff_op EINVALID "[FractalDown] No fractal, as new low found"
  end.

(** indicators/williams_fractals.go:91-116: the scan to the right. *)
Fixpoint scan_right (ft : ftype) (third : candle) (rest : list candle) (count : Z) : option err :=
  match rest with
  | [] => None
  | c :: rest' =>
      if count =? 2 then None
      else
        match ft with
        | FractalUp =>
            if flt (c_high third) (c_high c) then Some (right_err ft)
            else if flt (c_high c) (c_high third) then scan_right ft third rest' (count + 1)
            else scan_right ft third rest' count
        | FractalDown =>
            if flt (c_low c) (c_low third) then Some (right_err ft)
            else if flt (c_low third) (c_low c) then scan_right ft third rest' (count + 1)
            else scan_right ft third rest' count
        end
  end.

(** indicators/williams_fractals.go:64-117 *)
Definition find_fractal (cs : list candle) (start : Z) (ft : ftype)
  : go (fractal * option err) :=
  third <- index cs (start + 2) ;;
  let fr := mkFractal (c_time third)
              (match ft with FractalUp => c_high third | FractalDown => c_low third end) ft in
  c0 <- index cs start ;;
  if negb (left_ok ft third c0) then Ret (fr, Some (left_err ft))
  else
    c1 <- index cs (start + 1) ;;
    if negb (left_ok ft third c1) then Ret (fr, Some (left_err ft))
    else Ret (fr, scan_right ft third (skipn (Z.to_nat (start + 3)) cs) 0).

(** indicators/williams_fractals.go:45-62 *)
Definition find_fractals (cs : list candle) (start : Z) : go (list fractal) :=
  '(up, e1) <- find_fractal cs start FractalUp ;;
  '(down, e2) <- find_fractal cs start FractalDown ;;
  let l1 := match e1 with None => [up] | Some _ => [] end in
  let l2 := match e2 with None => [down] | Some _ => [] end in
  Ret (slice_stable (fun a b => fr_time a <? fr_time b) (l1 ++ l2)).

(** indicators/williams_fractals.go:37-41: [k] iterations from [i]. *)
Fixpoint wf_loop (cs : list candle) (i : Z) (k : nat) : go (list fractal) :=
  match k with
  | O => Ret []
  | S k' =>
      l <- find_fractals cs i ;;
      rest <- wf_loop cs (i + 1) k' ;;
      Ret (l ++ rest)
  end.

(** indicators/williams_fractals.go:30-43 *)
Definition william_fractals (cs : list candle) : go (list fractal) :=
  if zlen cs <? 5 then Ret []
  else wf_loop cs 0 (Z.to_nat (zlen cs - 5 + 1)).

End Indicators.
Arguments fractal F : clear implicits.
