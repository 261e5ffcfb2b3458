(** The float64 expressions of the library in which a compiler may fuse a
    product with the addition or subtraction that takes it (Go specification,
    "Floating-point operators"; the gc compiler does so on arm64, ppc64, s390x
    and riscv64).  Every definition follows its namesake in the other model
    files, with the expressions of the form x*y + z, z - x*y, x*y - z replaced;
    a choice is made at each evaluation of an expression, so that any compiled
    program is among them.  The other expressions of the library have no
    product as an operand of an addition or subtraction. *)
From Flocq Require Import Core BinarySingleNaN.
From Verif Require Import Go.Outcome Go.Int64 Go.Slice Go.Float64 Go.Num Model.Asset Model.Pair Model.Candle Model.Indicators Model.OrderBook Model.Entities.
Open Scope string_scope.
Open Scope list_scope.
Open Scope Z_scope.

(** x*y + z rounded once (IEEE 754 fusedMultiplyAdd; math.FMA). *)
Definition f64_fma (x y z : f64) : f64 := Bfma mode_NE x y z.

(** z + x*y, z - x*y, x*y - z, fused or not. *)
Definition add_product (fuse : bool) (z x y : f64) : f64 :=
  if fuse then f64_fma x y z else f64_add z (f64_mul x y).
(** z - x*y, as the compiler may fuse it on some machines. *)
Definition sub_product (fuse : bool) (z x y : f64) : f64 :=
  if fuse then f64_fma (f64_neg x) y z else f64_sub z (f64_mul x y).
(** x*y - z, as the compiler may fuse it. *)
Definition product_sub (fuse : bool) (x y z : f64) : f64 :=
  if fuse then f64_fma x y (f64_neg z) else f64_sub (f64_mul x y) z.
(** x*y + z, as the compiler may fuse it. *)
Definition product_add (fuse : bool) (x y z : f64) : f64 :=
  if fuse then f64_fma x y z else f64_add (f64_mul x y) z.
(** x*y + z*w: at most one of the products is fused. *)
Inductive fusing := Apart | First | Second.
(** x*y + z*w, as at indicators/ewv.go:7-17. *)
Definition two_products (c : fusing) (x y z w : f64) : f64 :=
  match c with
  | Apart => f64_add (f64_mul x y) (f64_mul z w)
  | First => f64_fma x y (f64_mul z w)
  | Second => f64_fma z w (f64_mul x y)
  end.

(** indicators/ma.go:60-72 (as [ema_loop]); [f i] is the choice made for candle
    [i]. *)
Fixpoint ema_loop_fused (f : Z -> fusing) (cs : list (candle f64)) (period : Z) (p : f64) (rest : list (candle f64)) (i : Z)
    (acc : list f64) : go (list f64) :=
  match rest with
  | [] => Ret acc
  | c :: rest' =>
      if i <? period then ema_loop_fused f cs period p rest' (i + 1) acc
      else if zlen acc =? 0 then
        w <- reslice cs 0 period ;;
        ema_loop_fused f cs period p rest' (i + 1) (acc ++ [average w])
      else
        last <- index acc (zlen acc - 1) ;;
        let ema := two_products (f i) (c_close c) p last (f64_sub (i2f 1) p) in
        ema_loop_fused f cs period p rest' (i + 1) (acc ++ [ema])
  end.

(** indicators/ma.go:46-75 *)
Definition exponential_moving_average_fused (f : Z -> fusing) (s : gslice (candle f64)) (period : Z)
  : go (list f64 * option err) :=
  let op := "indicators.ExponentialMovingAverage" in
  let cs := vis s in
  if is_nil s then Ret ([], Some (missing op))
  else if zlen cs <? period then Ret ([], Some (too_short op))
  else if period <=? 0 then Ret ([], Some (bad_period op))
  else
    let p := f64_div (i2f 2) (f64_add (i2f period) (i2f 1)) in
    r <- ema_loop_fused f cs period p cs 0 [] ;;
    Ret (r, None).

(** indicators/ma.go:90-113 (as [smma_loop]). *)
Fixpoint smma_loop_fused (f : Z -> bool) (cs : list (candle f64)) (period : Z) (rest : list (candle f64)) (i : Z)
    (acc : list f64) : go (list f64 * option err) :=
  match rest with
  | [] => Ret (acc, None)
  | c :: rest' =>
      if i <? period - 1 then smma_loop_fused f cs period rest' (i + 1) acc
      else
        pre <- reslice cs 0 (i + 1) ;;
        '(sum, e) <- closing_sum pre period ;;
        match e with
        | Some e' => Ret ([], Some (EWrap smma_op e'))
        | None =>
            if zlen acc =? 0 then
              smma_loop_fused f cs period rest' (i + 1) (acc ++ [f64_div sum (i2f period)])
            else if zlen acc =? 1 then
              s0 <- index acc 0 ;;
              let s2 := f64_div (product_add (f i) s0 (f64_sub (i2f period) (i2f 1)) (c_close c)) (i2f period) in
              smma_loop_fused f cs period rest' (i + 1) (acc ++ [s2])
            else
              prev <- index acc (zlen acc - 1) ;;
              let si := f64_div (f64_add (product_sub (f i) prev (i2f period) prev) (c_close c)) (i2f period) in
              smma_loop_fused f cs period rest' (i + 1) (acc ++ [si])
        end
  end.

(** indicators/ma.go:77-116 *)
Definition smoothed_moving_average_fused (f : Z -> bool) (s : gslice (candle f64)) (period : Z)
  : go (list f64 * option err) :=
  let cs := vis s in
  if is_nil s then Ret ([], Some (missing smma_op))
  else if zlen cs <? period then Ret ([], Some (smma_short smma_op))
  else if period <=? 0 then Ret ([], Some (bad_period smma_op))
  else smma_loop_fused f cs period cs 0 [].

(** indicators/ewv.go:7-17 *)
Fixpoint ewv_loop_fused (f : Z -> fusing) (beta : f64) (cs : list (candle f64)) (i : Z) (v : f64) : f64 :=
  match cs with
  | [] => v
  | c :: rest =>
      ewv_loop_fused f beta rest (i + 1)
        (two_products (f i) beta v (f64_sub (i2f 1) beta) (f64_sub (c_high c) (c_low c)))
  end.
(** indicators/ewv.go:7-17 *)
Definition ewv_fused (f : Z -> fusing) (cs : list (candle f64)) (beta : f64) : f64 :=
  ewv_loop_fused f beta cs 0 (i2f 0).

(** market/orderbook.go:311-320 and 321-323 (as [overlap_sell], [overlap_cost]). *)
Fixpoint overlap_sell_fused (f : Z -> bool) (l : list (row f64)) (i : Z) (total vol res : f64) : f64 :=
  match l with
  | [] => res
  | v :: rest =>
      if f64_lt total (f64_add vol (volume v)) then
        add_product (f i) res (f64_sub total vol) (price v)
      else
        overlap_sell_fused f rest (i + 1) total (f64_add vol (volume v)) (add_product (f i) res (price v) (volume v))
  end.
(** market/orderbook.go:321-323 (as [overlap_cost]). *)
Fixpoint overlap_cost_fused (f : Z -> bool) (l : list (row f64)) (i : Z) (res : f64) : f64 :=
  match l with
  | [] => res
  | v :: rest => overlap_cost_fused f rest (i + 1) (add_product (f i) res (price v) (volume v))
  end.

(** market/orderbook.go:288-326, overlapCalculation; [f] for the bids, [g] for
    the asks. *)
Definition overlap_calculation_fused (f g : Z -> bool) (obA obB : book f64) : go (f64 * option err) :=
  '(ia, volA) <- (match asks obA with
                  | [] => Ret (0, fzero)
                  | _ => b0 <- index (bids obB) 0 ;;
                         Ret (overlap_scan (fun r => flt (price b0) (price r)) (asks obA) 0 fzero)
                  end) ;;
  '(ib, volB) <- (match bids obB with
                  | [] => Ret (0, fzero)
                  | _ => a0 <- index (asks obA) 0 ;;
                         Ret (overlap_scan (fun r => flt (price r) (price a0)) (bids obB) 0 fzero)
                  end) ;;
  bs <- reslice (bids obB) 0 ib ;;
  let resB := overlap_sell_fused f (rev bs) 0 volA fzero fzero in
  as_ <- reslice (asks obA) 0 ia ;;
  let resA := overlap_cost_fused g as_ 0 fzero in
  Ret (f64_abs (f64_sub resA resB), None).

(** market/orderbook.go:328-341, CalculateOverlap. *)
Definition calculate_overlap_fused (f g : Z -> bool) (obA obB : book f64) : go (f64 * option err) :=
  aA <- index (asks obA) 0 ;;
  bB <- index (bids obB) 0 ;;
  if f64_lt (price aA) (price bB) then overlap_calculation_fused f g obA obB
  else
    bA <- index (bids obA) 0 ;;
    aB <- index (asks obB) 0 ;;
    if f64_lt (price aB) (price bA) then overlap_calculation_fused f g obB obA
    else Ret (i2f (-1), Some no_overlap).

(** market/trade.go:26-49 *)
Definition new_trade_fused (fuse : bool) (id : string) (tm : gotime) (action otype : string) (pr : pair)
    (price quantity cost : f64) : trade f64 :=
  let fee := if String.eqb action BuyAction
             then sub_product fuse cost price quantity
             else product_sub fuse price quantity cost in
  mkTrade id tm action otype pr price quantity fee cost "".

(** market/position.go:158-186 *)
Definition pos_substract_fused (fuse : bool) (p : position f64) (t : trade f64) : position f64 * option err :=
  let total := f64_sub (ps_quantity p) (t_quantity t) in
  if f64_lt total f0 && f64_lt total (f64_const (-1) (-4)) then (p, Some sub_err)
  else if f64_le total f0 then
    let cp := t_price t in
    let profit := if String.eqb (ps_type p) LongPosition
                  then f64_mul (f64_sub cp (ps_open_price p)) (ps_quantity p)
                  else f64_mul (f64_sub (ps_open_price p) cp) (ps_quantity p) in
    (mkPosition (ps_id p) (ps_type p) (ps_pair p) false (ps_take_profit p) (ps_stop_loss p)
       (ps_open_price p) cp (ps_quantity p) profit (ps_open_time p) (t_time t)
       (ps_trades p ++ [t_id t]) (ps_execution_id p) (ps_data p), None)
  else
    let op := f64_div (f64_mul (sub_product fuse (ps_open_price p) (t_price t) (f64_div (t_quantity t) (ps_quantity p)))
                               (ps_quantity p)) total in
    (mkPosition (ps_id p) (ps_type p) (ps_pair p) (ps_open p) (ps_take_profit p) (ps_stop_loss p)
       op (ps_close_price p) total (ps_profit p) (ps_open_time p) (ps_close_time p)
       (ps_trades p ++ [t_id t]) (ps_execution_id p) (ps_data p), None).

(** market/position.go:125-143 *)
Definition modify_fused (fuse : bool) (p : position f64) (t : trade f64) : position f64 * option err :=
  if negb (pair_eqb (ps_pair p) (t_pair t)) then (p, Some pair_err)
  else if String.eqb (ps_type p) LongPosition && String.eqb (t_action t) BuyAction then
    (pos_add p t, None)
  else if String.eqb (ps_type p) LongPosition && String.eqb (t_action t) SellAction then
    (fst (pos_substract_fused fuse p t), None)
  else if String.eqb (ps_type p) ShortPosition && String.eqb (t_action t) BuyAction then
    (fst (pos_substract_fused fuse p t), None)
  else if String.eqb (ps_type p) ShortPosition && String.eqb (t_action t) SellAction then
    (pos_add p t, None)
  else (p, None).

(** A history of Modify calls (the caller's loop). *)
Fixpoint modify_all_fused (p : position f64) (ts : list (bool * trade f64)) : position f64 :=
  match ts with
  | [] => p
  | (fuse, t) :: rest => modify_all_fused (fst (modify_fused fuse p t)) rest
  end.
