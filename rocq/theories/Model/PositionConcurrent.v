(** market/position.go:125-186 once more, now as a program that accesses the
    position field by field, so that goroutines sharing a [*Position] can be
    interleaved between any two accesses (machine: Model/ActionsConcurrent.v).
    Each mention of [p.Quantity] in the source is a read here.

    Simplifications: a field (a string, a Pair, a slice header, a time.Time) is
    read and written as a whole, [append] is one operation, operands are read
    from left to right, and memory is sequentially consistent.  A program that
    locks has exactly these behaviours; one that races has these and more, so
    what is refuted here is refuted of Go.  Trades are not modified by anybody.
    The error [Modify] returns is left out: it depends on the pair only, which
    no call changes. *)
From Verif Require Import Go.Outcome Go.Int64 Go.Float64 Go.Num Go.Heap Model.Pair Model.Entities Model.PositionHeap
  Model.ActionsConcurrent.
Open Scope string_scope.
Open Scope list_scope.
Open Scope Z_scope.

Section Shared.
Context {F : Type} {N : GoFloat F}.
(** Extra capacity of each reallocation, as in Model/PositionHeap.v. *)
Variable spare : nat -> nat.

(** Memory: the arrays of strings, and the position. *)
Record pmem : Type := mkPMem { p_heap : heap string; p_pos : hposition F }.
(** What a reader sees when nobody writes. *)
Definition shown (m : pmem) : position F := pos_view (p_heap m) (p_pos m).

(** One access to memory. *)
Inductive pop : Type -> Type :=
| GetPair : pop pair                              (* p.Pair *)
| GetType : pop string                            (* p.Type *)
| GetQuantity : pop F                             (* p.Quantity *)
| GetOpenPrice : pop F                            (* p.OpenPrice *)
| GetClosePrice : pop F                           (* p.ClosePrice *)
| GetTrades : pop slice                           (* p.Trades *)
| SetQuantity (x : F) : pop unit                  (* p.Quantity = x *)
| SetOpenPrice (x : F) : pop unit
| SetClosePrice (x : F) : pop unit
| SetProfit (x : F) : pop unit
| SetOpen (b : bool) : pop unit
| SetCloseTime (z : Z) : pop unit
| SetTrades (s : slice) : pop unit
| AppendId (s : slice) (i : string) : pop slice.  (* append(s, i) *)

(** Assignments to the fields (market/position.go:33-49). *)
Definition set_quantity (p : position F) (x : F) : position F :=
  mkPosition (ps_id p) (ps_type p) (ps_pair p) (ps_open p) (ps_take_profit p) (ps_stop_loss p) (ps_open_price p)
    (ps_close_price p) x (ps_profit p) (ps_open_time p) (ps_close_time p) (ps_trades p) (ps_execution_id p) (ps_data p).
(** Assignment to OpenPrice, a field of market/position.go:33-49. *)
Definition set_open_price (p : position F) (x : F) : position F :=
  mkPosition (ps_id p) (ps_type p) (ps_pair p) (ps_open p) (ps_take_profit p) (ps_stop_loss p) x
    (ps_close_price p) (ps_quantity p) (ps_profit p) (ps_open_time p) (ps_close_time p) (ps_trades p) (ps_execution_id p) (ps_data p).
(** Assignment to ClosePrice, a field of market/position.go:33-49. *)
Definition set_close_price (p : position F) (x : F) : position F :=
  mkPosition (ps_id p) (ps_type p) (ps_pair p) (ps_open p) (ps_take_profit p) (ps_stop_loss p) (ps_open_price p)
    x (ps_quantity p) (ps_profit p) (ps_open_time p) (ps_close_time p) (ps_trades p) (ps_execution_id p) (ps_data p).
(** Assignment to Profit, a field of market/position.go:33-49. *)
Definition set_profit (p : position F) (x : F) : position F :=
  mkPosition (ps_id p) (ps_type p) (ps_pair p) (ps_open p) (ps_take_profit p) (ps_stop_loss p) (ps_open_price p)
    (ps_close_price p) (ps_quantity p) x (ps_open_time p) (ps_close_time p) (ps_trades p) (ps_execution_id p) (ps_data p).
(** Assignment to Open, a field of market/position.go:33-49. *)
Definition set_open (p : position F) (b : bool) : position F :=
  mkPosition (ps_id p) (ps_type p) (ps_pair p) b (ps_take_profit p) (ps_stop_loss p) (ps_open_price p)
    (ps_close_price p) (ps_quantity p) (ps_profit p) (ps_open_time p) (ps_close_time p) (ps_trades p) (ps_execution_id p) (ps_data p).
(** Assignment to CloseTime, a field of market/position.go:33-49. *)
Definition set_close_time (p : position F) (z : Z) : position F :=
  mkPosition (ps_id p) (ps_type p) (ps_pair p) (ps_open p) (ps_take_profit p) (ps_stop_loss p) (ps_open_price p)
    (ps_close_price p) (ps_quantity p) (ps_profit p) (ps_open_time p) z (ps_trades p) (ps_execution_id p) (ps_data p).
(** An assignment to a field of market/position.go:33-49, in memory. *)
Definition on_fields (f : position F -> position F) (m : pmem) : pmem :=
  mkPMem (p_heap m) (mkHPos (f (hp_fields (p_pos m))) (hp_trades (p_pos m))).

(** What a single access of market/position.go:125-186 does to memory. *)
Definition pexec (X : Type) (o : pop X) (m : pmem) : go (X * pmem) :=
  let p := hp_fields (p_pos m) in
  match o in pop X return go (X * pmem) with
  | GetPair => Ret (ps_pair p, m)
  | GetType => Ret (ps_type p, m)
  | GetQuantity => Ret (ps_quantity p, m)
  | GetOpenPrice => Ret (ps_open_price p, m)
  | GetClosePrice => Ret (ps_close_price p, m)
  | GetTrades => Ret (hp_trades (p_pos m), m)
  | SetQuantity x => Ret (tt, on_fields (fun p => set_quantity p x) m)
  | SetOpenPrice x => Ret (tt, on_fields (fun p => set_open_price p x) m)
  | SetClosePrice x => Ret (tt, on_fields (fun p => set_close_price p x) m)
  | SetProfit x => Ret (tt, on_fields (fun p => set_profit p x) m)
  | SetOpen b => Ret (tt, on_fields (fun p => set_open p b) m)
  | SetCloseTime z => Ret (tt, on_fields (fun p => set_close_time p z) m)
  | SetTrades s => Ret (tt, mkPMem (p_heap m) (mkHPos p s))
  | AppendId s i =>
      let '(h, t) := append_slice "" (spare (List.length (p_heap m))) (p_heap m) s [i] in Ret (t, mkPMem h (p_pos m))
  end.

(** market/position.go:152, 183: [p.Trades = append(p.Trades, trade.ID)] *)
Definition c_append (t : trade F) : prog pop :=
  Do GetTrades (fun s => Do (AppendId s (t_id t)) (fun s' => Do (SetTrades s') (fun _ => Done))).
(** market/position.go:146-155 *)
Definition c_add (t : trade F) : prog pop :=
  Do GetQuantity (fun q0 => let total := fadd q0 (t_quantity t) in
  Do GetOpenPrice (fun op => Do GetQuantity (fun q1 =>
  Do (SetOpenPrice (fadd (fdiv (fmul op q1) total) (fdiv (fmul (t_price t) (t_quantity t)) total))) (fun _ =>
  Do (SetQuantity total) (fun _ => c_append t))))).
(** market/position.go:168-177 *)
Definition c_close (t : trade F) : prog pop :=
  Do (SetClosePrice (t_price t)) (fun _ =>
  Do GetType (fun ty =>
    let rest := Do (SetOpen false) (fun _ => Do (SetCloseTime (t_time t)) (fun _ => c_append t)) in
    if String.eqb ty LongPosition then
      Do GetClosePrice (fun cp => Do GetOpenPrice (fun op => Do GetQuantity (fun q =>
      Do (SetProfit (fmul (fsub cp op) q)) (fun _ => rest))))
    else
      Do GetOpenPrice (fun op => Do GetClosePrice (fun cp => Do GetQuantity (fun q =>
      Do (SetProfit (fmul (fsub op cp) q)) (fun _ => rest)))))).
(** market/position.go:178-181 *)
Definition c_reduce (t : trade F) (total : F) : prog pop :=
  Do GetOpenPrice (fun op => Do GetQuantity (fun q1 => Do GetQuantity (fun q2 =>
  Do (SetOpenPrice (fdiv (fmul (fsub op (fmul (t_price t) (fdiv (t_quantity t) q1))) q2) total)) (fun _ =>
  Do (SetQuantity total) (fun _ => c_append t))))).
(** market/position.go:158-186 *)
Definition c_substract (t : trade F) : prog pop :=
  Do GetQuantity (fun q0 => let total := fsub q0 (t_quantity t) in
    if flt total f0 && flt total (fconst (-1) (-4)) then Done
    else if fle total f0 then c_close t
    else c_reduce t total).
(** market/position.go:125-143 *)
Definition c_modify (t : trade F) : prog pop :=
  let a := t_action t in
  Do GetPair (fun pr => if negb (pair_eqb pr (t_pair t)) then Done else
  Do GetType (fun t1 => if String.eqb t1 LongPosition && String.eqb a BuyAction then c_add t else
  Do GetType (fun t2 => if String.eqb t2 LongPosition && String.eqb a SellAction then c_substract t else
  Do GetType (fun t3 => if String.eqb t3 ShortPosition && String.eqb a BuyAction then c_substract t else
  Do GetType (fun t4 => if String.eqb t4 ShortPosition && String.eqb a SellAction then c_add t else Done))))).
End Shared.
Arguments pmem F : clear implicits.
Arguments pop F X : clear implicits.
