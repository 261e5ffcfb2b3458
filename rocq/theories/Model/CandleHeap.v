(** market/candle.go, ModifyInterval with explicit backing arrays: every read of
    [candles] goes to memory at the moment it is made, while the result grows by
    append (compare Model/Candle.v, where both are plain lists).  [spare] gives
    the extra capacity of each reallocation; it is arbitrary. *)
From Verif Require Import Go.Outcome Go.Int64 Go.Slice Go.Float64 Go.Num Go.Heap Model.Candle.
Open Scope list_scope.
Open Scope Z_scope.

Section CandleHeap.
Context {F : Type} {N : GoFloat F}.
Variable spare : nat -> nat.
Implicit Types (h : heap (candle F)) (s : slice).

(** market/candle.go:134-166 *)
Definition h_compress h s (start end_ : Z) : go (candle F * option err) :=
  first <- get_elem h s start ;;
  last <- get_elem h s (end_ - 1) ;;
  grp <- sub_slice s start end_ ;;
  let '(low, high, acc) := fold_left cc_step (view h grp) (fconst 1 308, fconst (-1) 308, fofZ 0) in
  match fround5 acc with
  | None => Ret (zero_candle, Some (EWrap "candle.CompressCandle" (EExt "strconv.ParseFloat")))
  | Some v => Ret (mkCandle (c_time first) (c_open first) high low (c_close last) v, None)
  end.

(** The appends at market/candle.go:69 and 80. *)
Definition h_append_candle h s (c : candle F) : heap (candle F) * slice :=
  append_slice zero_candle (spare (List.length h)) h s [c].

(** market/candle.go:63-72: [range] fixes the slice [rs] and its length, and
    reads element [k] when iteration [k] begins. *)
Fixpoint h_mi_loop s rs (pivot n : Z) (todo : nat) (k idx start : Z) h (out : slice)
  : go ((heap (candle F) * slice * Z) + err) :=
  match todo with
  | O => Ret (inl (h, out, start))
  | S t =>
      v <- get_elem h rs k ;;
      b <- boundary pivot n (c_time v) ;;
      if b then
        '(c, e) <- h_compress h s start idx ;;
        match e with
        | Some e' => Ret (inr e')
        | None => let '(h1, out1) := h_append_candle h out c in
                  h_mi_loop s rs pivot n t (k + 1) (idx + 1) idx h1 out1
        end
      else h_mi_loop s rs pivot n t (k + 1) (idx + 1) start h out
  end.

(** market/candle.go:36-83: one candle is returned as the caller's own slice. *)
Definition h_modify_interval (tz : Z -> Z) h s (n : Z) : go (heap (candle F) * slice * option err) :=
  if Z.of_nat (s_len s) =? 1 then Ret (h, s, None)
  else
    c1 <- get_elem h s 1 ;;
    c0 <- get_elem h s 0 ;;
    delta <- idiv (wrap64 (c_time c1 - c_time c0)) 60 ;;
    if negb (delta =? 1) && (n =? 1) then Ret (h, nil_slice, Some mi_no1)
    else
      r <- imod n delta ;;
      if negb (r =? 0) then Ret (h, nil_slice, Some (mi_conflict n delta))
      else
        match find_first_index tz (view h s) n with
        | (_, Some e) => Ret (h, nil_slice, Some (EWrap mi_op e))
        | (start, None) =>
            p <- get_elem h s start ;;
            rs <- sub_slice s (start + 1) (Z.of_nat (s_len s)) ;;
            lr <- h_mi_loop s rs (c_time p) n (s_len rs) 0 (start + 1) start h nil_slice ;;
            match lr with
            | inr e => Ret (h, nil_slice, Some e)
            | inl (h1, out, start') =>
                '(c, e) <- h_compress h1 s start' (Z.of_nat (s_len s)) ;;
                match e with
                | Some e' => Ret (h1, nil_slice, Some e')
                | None => let '(h2, out2) := h_append_candle h1 out c in Ret (h2, out2, None)
                end
            end
        end.

End CandleHeap.
