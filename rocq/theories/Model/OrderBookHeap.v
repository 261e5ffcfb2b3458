(** market/orderbook.go with explicit backing arrays (compare
    Model/OrderBook.v, where slices are plain lists).  [spare] gives the extra
    capacity of each reallocation; it is arbitrary. *)
From Verif Require Import Go.Outcome Go.Int64 Go.Slice Go.Sort Go.Float64 Go.Num Go.Heap Model.OrderBook.
Open Scope list_scope.
Open Scope Z_scope.

(** market/orderbook.go:12-17 *)
Record hbook : Type := mkHBook { hb_time : Z; hb_asks : slice; hb_bids : slice; hb_depth : Z }.

Section HeapBook.
Context {F : Type} {N : GoFloat F}.
Variable spare : nat -> nat.

(** The arrays behind the slices of market/orderbook.go:14-15. *)
Definition rheap : Type := heap (row F).
(** The zero value of market/orderbook_types.go:6-10. *)
Definition zero_row : row F := mkRow fzero fzero fzero.

(** What the two slices of a book show. *)
Definition book_view (h : rheap) (b : hbook) : book F :=
  mkBook (hb_time b) (view h (hb_asks b)) (view h (hb_bids b)) (hb_depth b).

(** len of a slice. *)
Definition slen (s : slice) : Z := Z.of_nat (s_len s).

(** market/orderbook.go:48-54 / 56-62: the loop stores AccumVolume element by
    element; done here for the whole slice at once. *)
Definition h_accum (h : rheap) (s : slice) : rheap := store h s 0 (accum_rows None (view h s)).

(** market/orderbook.go:33-63.  sort.SliceStable permutes the elements in
    place. *)
Definition h_sort (h : rheap) (b : hbook) : go (rheap * hbook) :=
  let h1 := store h (hb_asks b) 0 (slice_stable (fun x y => flt (price x) (price y)) (view h (hb_asks b))) in
  let h2 := store h1 (hb_bids b) 0 (slice_stable (fun x y => flt (price y) (price x)) (view h1 (hb_bids b))) in
  a <- sub_slice (hb_asks b) 0 (depth_of (slen (hb_asks b)) (hb_depth b)) ;;
  c <- sub_slice (hb_bids b) 0 (depth_of (slen (hb_bids b)) (hb_depth b)) ;;
  let h3 := h_accum h2 a in
  let h4 := h_accum h3 c in
  Ret (h4, mkHBook (hb_time b) a c (hb_depth b)).

(** market/orderbook.go:19-31: the caller's slices are kept. *)
Definition h_new_order_book (now : Z) (h : rheap) (asks bids : slice) (maxDepth : Z) : go (rheap * hbook) :=
  h_sort h (mkHBook now asks bids maxDepth).

(** market/orderbook.go:65-73 *)
Definition h_limit_side (s : slice) (d : Z) : go slice :=
  if d <? slen s then sub_slice s 0 d else Ret s.
(** market/orderbook.go:65-73 *)
Definition h_limit (b : hbook) : go hbook :=
  a <- h_limit_side (hb_asks b) (hb_depth b) ;;
  c <- h_limit_side (hb_bids b) (hb_depth b) ;;
  Ret (mkHBook (hb_time b) a c (hb_depth b)).

(** One branch of market/orderbook.go:91-134: [before] is the comparison of
    line 95 (114), [skip] that of line 99 (118).  [[]OrderBookRow{}] has length
    and capacity 0. *)
Definition h_remove_side (before skip : F -> F -> bool) (h : rheap) (p : F) (s : slice) : go slice :=
  if slen s =? 0 then Ret s else
  r0 <- get_elem h s 0 ;;
  if before p (price r0) then Ret s
  else
    match find_from (fun r => negb (skip (price r) p)) (view h s) 0 with
    | Some i => sub_slice s (f2i (f64_min (i2f (i + 1)) (i2f (slen s - 1)))) (slen s)
    | None => Ret nil_slice
    end.

(** market/orderbook.go:143-181 (196-234), the side that gets the new row:
    [better p q] is the test [q > p] for asks, [q < p] for bids.  The first
    array allocated by [append] gets [spare] of the number of arrays. *)
Definition h_insert (better : F -> F -> bool) (h : rheap) (s : slice) (new : row F) : go (rheap * slice) :=
  let p := price new in
  let k := spare (List.length h) in
  match find_from (fun r => feq (price r) p) (view h s) 0 with
  | Some i => h1 <- set_elem h s i new ;; Ret (h1, s)
  | None =>
      if slen s =? 0 then Ret (append_slice zero_row k h s [new])
      else if slen s =? 1 then
        r0 <- get_elem h s 0 ;;
        if better p (price r0) then
          let '(h1, s1) := append_slice zero_row k h s [r0] in
          h2 <- set_elem h1 s1 0 new ;; Ret (h2, s1)
        else Ret (append_slice zero_row k h s [new])
      else
        match find_from (fun r => better p (price r)) (view h s) 0 with
        | Some i =>
            let '(h1, s1) := append_slice zero_row k h s [zero_row] in
            dst <- sub_slice s1 (i + 1) (slen s1) ;;
            src <- sub_slice s1 i (slen s1) ;;
            h2 <- set_elem (copy_slice h1 dst src) s1 i new ;; Ret (h2, s1)
        | None => Ret (append_slice zero_row k h s [new])
        end
  end.

(** market/orderbook.go:251-253: [append(slice[:s], slice[s+1:]...)]. *)
Definition h_remove_element (h : rheap) (s : slice) (i : Z) : go (rheap * slice) :=
  hd <- sub_slice s 0 i ;;
  tl <- sub_slice s (i + 1) (slen s) ;;
  Ret (append_slice zero_row 0 h hd (view h tl)).

(** market/orderbook.go:183-190 (236-243) *)
Definition h_delete (h : rheap) (s : slice) (p : F) : go (option (rheap * slice)) :=
  match find_from (fun r => feq (price r) p) (view h s) 0 with
  | Some i => r <- h_remove_element h s i ;; Ret (Some r)
  | None => Ret None
  end.

(** market/orderbook.go:136-249 *)
Definition h_apply_update (u : update F) (h : rheap) (b : hbook) : go (rheap * hbook * option err) :=
  let p := u_price u in
  let new := mkRow p (u_volume u) fzero in
  if String.eqb (u_side u) "ask" then
    if negb (feq (u_volume u) fzero) then
      c <- h_remove_side (fun p q => flt q p) (fun q p => flt p q) h p (hb_bids b) ;;
      '(h1, a) <- h_insert (fun p q => flt p q) h (hb_asks b) new ;;
      b1 <- h_limit (mkHBook (hb_time b) a c (hb_depth b)) ;; Ret (h1, b1, None)
    else
      r <- h_delete h (hb_asks b) p ;;
      match r with
      | Some (h1, a) => b1 <- h_limit (mkHBook (hb_time b) a (hb_bids b) (hb_depth b)) ;; Ret (h1, b1, None)
      | None => Ret (h, b, None)
      end
  else if String.eqb (u_side u) "bid" then
    if negb (feq (u_volume u) fzero) then
      a <- h_remove_side (fun p q => flt p q) (fun q p => flt q p) h p (hb_asks b) ;;
      '(h1, c) <- h_insert (fun p q => flt q p) h (hb_bids b) new ;;
      b1 <- h_limit (mkHBook (hb_time b) a c (hb_depth b)) ;; Ret (h1, b1, None)
    else
      r <- h_delete h (hb_bids b) p ;;
      match r with
      | Some (h1, c) => b1 <- h_limit (mkHBook (hb_time b) (hb_asks b) c (hb_depth b)) ;; Ret (h1, b1, None)
      | None => Ret (h, b, None)
      end
  else Ret (h, b, Some bad_side).

(** A history: market/orderbook.go:136-249 called once per update. *)
Fixpoint h_apply_updates (us : list (update F)) (h : rheap) (b : hbook) : go (rheap * hbook) :=
  match us with
  | [] => Ret (h, b)
  | u :: rest => '(h1, b1, _) <- h_apply_update u h b ;; h_apply_updates rest h1 b1
  end.

(** Updates of two books in any order ([true]: of the first). *)
Fixpoint h_apply_updates2 (us : list (bool * update F)) (h : rheap) (b c : hbook) : go (rheap * hbook * hbook) :=
  match us with
  | [] => Ret (h, b, c)
  | (true, u) :: rest => '(h1, b1, _) <- h_apply_update u h b ;; h_apply_updates2 rest h1 b1 c
  | (false, u) :: rest => '(h1, c1, _) <- h_apply_update u h c ;; h_apply_updates2 rest h1 b c1
  end.

End HeapBook.
