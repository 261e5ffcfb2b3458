(** market/orderbook.go and market/orderbook_types.go.
    Slices are modelled as the lists of their visible elements (aliasing of
    backing arrays: see Model/OrderBookHeap.v). *)
From Verif Require Import Go.Outcome Go.Int64 Go.Slice Go.Sort Go.Float64 Go.Num.
Open Scope Z_scope.

(** market/orderbook_types.go:6-10 *)
Record row (F : Type) := mkRow { price : F; volume : F; accum : F }.
Arguments mkRow {F} price volume accum.
Arguments price {F} r.
Arguments volume {F} r.
Arguments accum {F} r.

(** market/orderbook_types.go:16-20 *)
Record update (F : Type) := mkUpdate { u_price : F; u_volume : F; u_side : string }.
Arguments mkUpdate {F} u_price u_volume u_side.
Arguments u_price {F} u.
Arguments u_volume {F} u.
Arguments u_side {F} u.

(** market/orderbook.go:12-17 *)
Record book (F : Type) := mkBook {
  b_time : Z; asks : list (row F); bids : list (row F); max_depth : Z }.
Arguments mkBook {F} b_time asks bids max_depth.
Arguments b_time {F} b.
Arguments asks {F} b.
Arguments bids {F} b.
Arguments max_depth {F} b.

Section Book.
Context {F : Type} {N : GoFloat F}.

(** The constant 0 of market/orderbook.go. *)
Definition fzero : F := fofZ 0.

(** market/orderbook.go:48-54 and 56-62: running AccumVolume. *)
Fixpoint accum_rows (prev : option F) (l : list (row F)) : list (row F) :=
  match l with
  | [] => []
  | r :: rest =>
      let a := match prev with
               | None => volume r
               | Some p => fadd (volume r) p
               end in
      mkRow (price r) (volume r) a :: accum_rows (Some a) rest
  end.

(** market/orderbook.go:42-46: [int(math.Min(float64(len), float64(MaxDepth)))]. *)
Definition depth_of (len depth : Z) : Z := f2i (f64_min (i2f len) (i2f depth)).

(** market/orderbook.go:33-63, method sort. *)
Definition sort_book (ob : book F) : go (book F) :=
  let a := slice_stable (fun x y => flt (price x) (price y)) (asks ob) in
  let b := slice_stable (fun x y => flt (price y) (price x)) (bids ob) in
  a' <- reslice a 0 (depth_of (zlen a) (max_depth ob)) ;;
  b' <- reslice b 0 (depth_of (zlen b) (max_depth ob)) ;;
  Ret (mkBook (b_time ob) (accum_rows None a') (accum_rows None b') (max_depth ob)).

(** market/orderbook.go:19-31.  [now] is time.Now().Unix(). *)
Definition new_order_book (now : Z) (asks bids : list (row F)) (maxDepth : Z) : go (book F) :=
  sort_book (mkBook now asks bids maxDepth).

(** market/orderbook.go:65-73, method limit. *)
Definition limit_side (l : list (row F)) (d : Z) : go (list (row F)) :=
  if d <? zlen l then reslice l 0 d else Ret l.
(** market/orderbook.go:65-73 *)
Definition limit (ob : book F) : go (book F) :=
  a <- limit_side (asks ob) (max_depth ob) ;;
  b <- limit_side (bids ob) (max_depth ob) ;;
  Ret (mkBook (b_time ob) a b (max_depth ob)).

(** First index whose row satisfies [test] ("for i := range ... if test"). *)
Fixpoint find_from (test : row F -> bool) (l : list (row F)) (i : Z) : option Z :=
  match l with
  | [] => None
  | r :: rest => if test r then Some i else find_from test rest (i + 1)
  end.

(** The common tail of the two loops of removeInvalid
    (market/orderbook.go:102-106 and 121-125) for the found index [i]. *)
Definition cut_from (l : list (row F)) (i : Z) : go (Z * list (row F)) :=
  let startIndex := f2i (f64_min (i2f (i + 1)) (i2f (zlen l - 1))) in
  let rowsRemoved := zlen l - i in
  l' <- reslice l startIndex (zlen l) ;;
  Ret (rowsRemoved, l').

(** market/orderbook.go:91-134, method removeInvalid. *)
Definition remove_invalid (side : string) (p : F) (ob : book F) : go (Z * book F) :=
  if String.eqb side "ask" then
    if zlen (asks ob) =? 0 then Ret (0, ob) else
    a0 <- index (asks ob) 0 ;;
    if flt p (price a0) then Ret (0, ob)
    else
      match find_from (fun r => negb (flt (price r) p)) (asks ob) 0 with
      | Some i =>
          '(n, l) <- cut_from (asks ob) i ;;
          Ret (n, mkBook (b_time ob) l (bids ob) (max_depth ob))
      | None => Ret (0, mkBook (b_time ob) [] (bids ob) (max_depth ob))
      end
  else if String.eqb side "bid" then
    if zlen (bids ob) =? 0 then Ret (0, ob) else
    b0 <- index (bids ob) 0 ;;
    if flt (price b0) p then Ret (0, ob)
    else
      match find_from (fun r => negb (flt p (price r))) (bids ob) 0 with
      | Some i =>
          '(n, l) <- cut_from (bids ob) i ;;
          Ret (n, mkBook (b_time ob) (asks ob) l (max_depth ob))
      | None => Ret (0, mkBook (b_time ob) (asks ob) [] (max_depth ob))
      end
  else Ret (-1, ob).

(** [s[i] = r] for an index in range. *)
Fixpoint set_nth (i : nat) (r : row F) (l : list (row F)) : list (row F) :=
  match l, i with
  | [], _ => []
  | _ :: rest, O => r :: rest
  | x :: rest, S j => x :: set_nth j r rest
  end.

(** [copy(s[i+1:], s[i:])]: shift right by one from [i], dropping the last. *)
Definition copy_shift (l : list (row F)) (i : nat) : list (row F) :=
  firstn (i + 1) l ++ firstn (List.length l - i - 1) (skipn i l).

(** market/orderbook.go:171-173 / 224-226: append an empty row, shift, store. *)
Definition insert_row (i : nat) (r : row F) (l : list (row F)) : list (row F) :=
  set_nth i r (copy_shift (l ++ [mkRow fzero fzero fzero]) i).

(** market/orderbook.go:251-253, removeElement. *)
Definition remove_element (l : list (row F)) (i : nat) : list (row F) :=
  firstn i l ++ skipn (i + 1) l.

(** Assignment to [ob.Asks] in market/orderbook.go:136-249. *)
Definition with_asks (ob : book F) (l : list (row F)) : book F :=
  mkBook (b_time ob) l (bids ob) (max_depth ob).
(** Assignment to [ob.Bids] in market/orderbook.go:136-249. *)
Definition with_bids (ob : book F) (l : list (row F)) : book F :=
  mkBook (b_time ob) (asks ob) l (max_depth ob).

(** market/orderbook.go:245 *)
Definition bad_side : err :=
  ENew "OrderBook.ApplyUpdate" EINVALID "update side must be ask or bid".

(** market/orderbook.go:136-249, method ApplyUpdate: the new book and the
    returned error. *)
Definition apply_update (u : update F) (ob : book F) : go (book F * option err) :=
  let p := u_price u in
  let new := mkRow p (u_volume u) fzero in
  if String.eqb (u_side u) "ask" then
    if negb (feq (u_volume u) fzero) then
      '(_, ob1) <- remove_invalid "bid" p ob ;;
      match find_from (fun r => feq (price r) p) (asks ob1) 0 with
      | Some i =>                                             (* 143-150 *)
          ob2 <- limit (with_asks ob1 (set_nth (Z.to_nat i) new (asks ob1))) ;;
          Ret (ob2, None)
      | None =>
          if zlen (asks ob1) =? 0 then                        (* 152-156 *)
            ob2 <- limit (with_asks ob1 (asks ob1 ++ [new])) ;; Ret (ob2, None)
          else if zlen (asks ob1) =? 1 then                   (* 157-168 *)
            r0 <- index (asks ob1) 0 ;;
            if flt p (price r0) then
              ob2 <- limit (with_asks ob1 (set_nth 0 new (asks ob1 ++ [r0]))) ;; Ret (ob2, None)
            else
              ob2 <- limit (with_asks ob1 (asks ob1 ++ [new])) ;; Ret (ob2, None)
          else
            match find_from (fun r => flt p (price r)) (asks ob1) 0 with
            | Some i =>                                       (* 169-177 *)
                ob2 <- limit (with_asks ob1 (insert_row (Z.to_nat i) new (asks ob1))) ;;
                Ret (ob2, None)
            | None =>                                         (* 178-180 *)
                ob2 <- limit (with_asks ob1 (asks ob1 ++ [new])) ;; Ret (ob2, None)
            end
      end
    else
      match find_from (fun r => feq (price r) p) (asks ob) 0 with
      | Some i =>                                             (* 183-189 *)
          ob2 <- limit (with_asks ob (remove_element (asks ob) (Z.to_nat i))) ;;
          Ret (ob2, None)
      | None => Ret (ob, None)
      end
  else if String.eqb (u_side u) "bid" then
    if negb (feq (u_volume u) fzero) then
      '(_, ob1) <- remove_invalid "ask" p ob ;;
      match find_from (fun r => feq (price r) p) (bids ob1) 0 with
      | Some i =>                                             (* 196-203 *)
          ob2 <- limit (with_bids ob1 (set_nth (Z.to_nat i) new (bids ob1))) ;;
          Ret (ob2, None)
      | None =>
          if zlen (bids ob1) =? 0 then                        (* 205-209 *)
            ob2 <- limit (with_bids ob1 (bids ob1 ++ [new])) ;; Ret (ob2, None)
          else if zlen (bids ob1) =? 1 then                   (* 210-221 *)
            r0 <- index (bids ob1) 0 ;;
            if flt (price r0) p then
              ob2 <- limit (with_bids ob1 (set_nth 0 new (bids ob1 ++ [r0]))) ;; Ret (ob2, None)
            else
              ob2 <- limit (with_bids ob1 (bids ob1 ++ [new])) ;; Ret (ob2, None)
          else
            match find_from (fun r => flt (price r) p) (bids ob1) 0 with
            | Some i =>                                       (* 222-230 *)
                ob2 <- limit (with_bids ob1 (insert_row (Z.to_nat i) new (bids ob1))) ;;
                Ret (ob2, None)
            | None =>                                         (* 231-233 *)
                ob2 <- limit (with_bids ob1 (bids ob1 ++ [new])) ;; Ret (ob2, None)
            end
      end
    else
      match find_from (fun r => feq (price r) p) (bids ob) 0 with
      | Some i =>                                             (* 236-242 *)
          ob2 <- limit (with_bids ob (remove_element (bids ob) (Z.to_nat i))) ;;
          Ret (ob2, None)
      | None => Ret (ob, None)
      end
  else Ret (ob, Some bad_side).

(** A history: updates applied one after the other (the caller's loop). *)
Fixpoint apply_updates (us : list (update F)) (ob : book F) : go (book F) :=
  match us with
  | [] => Ret ob
  | u :: rest => '(ob', _) <- apply_update u ob ;; apply_updates rest ob'
  end.

(** The operation named in GetDepth, market/orderbook.go:257-286. *)
Definition gd_op : string := "OrderBook.GetDepth".
(** market/orderbook.go:261 *)
Definition gd_invalid : err := ENew gd_op EINVALID "Price can't be equal or below zero".
(** market/orderbook.go:285 *)
Definition gd_notfound : err := ENew gd_op ENOTFOUND "No depth for the selected price".

(** market/orderbook.go:257-286, method GetDepth. *)
Definition get_depth (ob : book F) (p : F) : go (F * option err) :=
  if fle p fzero then Ret (fzero, Some gd_invalid)
  else
    firstAsk <- index (asks ob) 0 ;;
    lastAsk <- index (asks ob) (zlen (asks ob) - 1) ;;
    firstBid <- index (bids ob) 0 ;;
    lastBid <- index (bids ob) (zlen (bids ob) - 1) ;;
    if fle (price firstAsk) p && fle p (price lastAsk) then
      match find_from (fun r => flt p (price r)) (asks ob) 0 with
      | Some k =>
          r <- index (asks ob) (f2i (f64_max (i2f 0) (i2f (k - 1)))) ;;
          Ret (price r, None)
      | None => Ret (price lastAsk, None)
      end
    else if fle (price lastBid) p && fle p (price firstBid) then
      match find_from (fun r => flt (price r) p) (bids ob) 0 with
      | Some k =>
          r <- index (bids ob) (f2i (f64_max (i2f 0) (i2f (k - 1)))) ;;
          Ret (price r, None)
      | None => Ret (price lastBid, None)
      end
    else Ret (fzero, Some gd_notfound).

(** market/orderbook.go:291-298 and 299-306: the index at which [stop] first
    holds (0 if it never does) and the volume accumulated before it. *)
Fixpoint overlap_scan (stop : row F -> bool) (l : list (row F)) (i : Z) (acc : F) : Z * F :=
  match l with
  | [] => (0, acc)
  | r :: rest =>
      if stop r then (i, acc) else overlap_scan stop rest (i + 1) (fadd acc (volume r))
  end.

(** market/orderbook.go:311-320, over the rows in the order visited. *)
Fixpoint overlap_sell (l : list (row F)) (total vol res : F) : F :=
  match l with
  | [] => res
  | v :: rest =>
      if flt total (fadd vol (volume v)) then
        fadd res (fmul (fsub total vol) (price v))
      else
        overlap_sell rest total (fadd vol (volume v)) (fadd res (fmul (price v) (volume v)))
  end.

(** market/orderbook.go:321-323. *)
Fixpoint overlap_cost (l : list (row F)) (res : F) : F :=
  match l with
  | [] => res
  | v :: rest => overlap_cost rest (fadd res (fmul (price v) (volume v)))
  end.

(** market/orderbook.go:288-326, overlapCalculation.  (The loops index
    [obB.Bids[0]] and [obA.Asks[0]] at each iteration; they are read once here,
    under the condition that the loop body runs.) *)
Definition overlap_calculation (obA obB : book F) : go (F * option err) :=
  '(ia, volA) <- (match asks obA with
                  | [] => Ret (0, fzero)
                  | _ => b0 <- index (bids obB) 0 ;;
                         Ret (overlap_scan (fun r => flt (price b0) (price r)) (asks obA) 0 fzero)
                  end) ;;
  '(ib, volB) <- (match bids obB with
                  | [] => Ret (0, fzero)
                  | _ => a0 <- index (asks obA) 0 ;;
                         Ret (overlap_scan (fun r => flt (price r) (price a0)) (bids obB) 0 fzero)
                  end) ;;
  bs <- reslice (bids obB) 0 ib ;;
  let resB := overlap_sell (rev bs) volA fzero fzero in
  as_ <- reslice (asks obA) 0 ia ;;
  let resA := overlap_cost as_ fzero in
  Ret (fabs (fsub resA resB), None).

(** market/orderbook.go:332 *)
Definition no_overlap : err := ENew "OrderBook.CalculateOverlap" ENOTFOUND "No overlap".

(** market/orderbook.go:328-341, CalculateOverlap. *)
Definition calculate_overlap (obA obB : book F) : go (F * option err) :=
  aA <- index (asks obA) 0 ;;
  bB <- index (bids obB) 0 ;;
  if flt (price aA) (price bB) then overlap_calculation obA obB
  else
    bA <- index (bids obA) 0 ;;
    aB <- index (asks obB) 0 ;;
    if flt (price aB) (price bA) then overlap_calculation obB obA
    else Ret (fofZ (-1), Some no_overlap).

End Book.
