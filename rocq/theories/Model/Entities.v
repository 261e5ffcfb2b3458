(** market/trade.go, market/order.go, market/order_request.go,
    market/position.go, market/ticker.go, market/balances.go and the
    annotation record of strategy/annotation.go. *)
From Verif Require Import Go.Outcome Go.Float64 Go.Num Model.Asset Model.Pair.
Open Scope string_scope.
Open Scope list_scope.

(** time.Time: nanoseconds since the Unix epoch.  Simplification: the location
    pointer and the monotonic reading are left out. *)
Definition gotime : Type := Z.
(** The zero time.Time: January 1, year 1, 00:00:00 UTC. *)
Definition time_zero : gotime := (-62135596800 * 1000000000)%Z.

(** market/order.go:12-19, 22-36, 39-50 *)
Definition BuyAction : string := "buy".
(** market/order.go:18 *)
Definition SellAction : string := "sell".
(** market/order.go:26 *)
Definition MarketOrder : string := "market".
(** market/order.go:28 *)
Definition ClosePosition : string := "close_position".
(** market/order.go:31 *)
Definition LimitOrder : string := "limit".
(** market/order.go:33 *)
Definition TakeProfit : string := "take_profit".
(** market/order.go:35 *)
Definition StopLoss : string := "stop_loss".
(** market/order.go:43 *)
Definition FulfilledOrder : string := "fulfilled".
(** market/order.go:45 *)
Definition PartialyFilledOrder : string := "partial_fill".
(** market/order.go:47 *)
Definition UnfilledOrder : string := "unfilled".
(** market/order.go:49 *)
Definition CanceledOrder : string := "canceled".
(** market/position.go:13-20 *)
Definition LongPosition : string := "long".
(** market/position.go:19 *)
Definition ShortPosition : string := "short".

(** market/order.go:53-71 *)
Record order (F : Type) := mkOrder {
  o_id : string; o_action : string; o_type : string; o_pair : option pair;
  o_price : F; o_volume : F; o_exec_volume : F; o_fee : F; o_cost : F;
  o_status : string; o_open_time : gotime; o_close_time : gotime;
  o_trades : list string; o_take_profit : F; o_stop_loss : F;
  o_position_id : string; o_execution_id : string }.

(** market/trade.go:12-23 *)
Record trade (F : Type) := mkTrade {
  t_id : string; t_time : gotime; t_action : string; t_order_type : string;
  t_pair : pair; t_price : F; t_quantity : F; t_fee : F; t_cost : F;
  t_execution_id : string }.
Arguments mkTrade {F}.
Arguments t_id {F} t.
Arguments t_time {F} t.
Arguments t_action {F} t.
Arguments t_order_type {F} t.
Arguments t_pair {F} t.
Arguments t_price {F} t.
Arguments t_quantity {F} t.
Arguments t_fee {F} t.
Arguments t_cost {F} t.
Arguments t_execution_id {F} t.
Arguments mkOrder {F}.
Arguments o_status {F} o.
Arguments o_id {F} o.
Arguments o_pair {F} o.

(** market/position.go:23-26 *)
Record close_order (F : Type) := mkClose { co_price : F; co_order_id : string }.
Arguments mkClose {F}.
Arguments co_price {F} c.
Arguments co_order_id {F} c.

(** market/position.go:33-49 *)
Record position (F : Type) := mkPosition {
  ps_id : string; ps_type : string; ps_pair : pair; ps_open : bool;
  ps_take_profit : close_order F; ps_stop_loss : close_order F;
  ps_open_price : F; ps_close_price : F; ps_quantity : F; ps_profit : F;
  ps_open_time : gotime; ps_close_time : gotime; ps_trades : list string;
  ps_execution_id : string; ps_data : string }.
Arguments mkPosition {F}.
Arguments ps_id {F} p.
Arguments ps_type {F} p.
Arguments ps_pair {F} p.
Arguments ps_open {F} p.
Arguments ps_take_profit {F} p.
Arguments ps_stop_loss {F} p.
Arguments ps_open_price {F} p.
Arguments ps_close_price {F} p.
Arguments ps_quantity {F} p.
Arguments ps_profit {F} p.
Arguments ps_open_time {F} p.
Arguments ps_close_time {F} p.
Arguments ps_trades {F} p.
Arguments ps_execution_id {F} p.
Arguments ps_data {F} p.

(** strategy/annotation.go:23-31 *)
Record annotation (F : Type) := mkAnnotation {
  an_id : string; an_time : Z; an_creation_time : Z; an_price : F;
  an_execution_id : string; an_label : string; an_tooltip : string }.
Arguments mkAnnotation {F}.
Arguments an_id {F} a.

(** market/order_request.go:10-19 *)
Record order_request (F : Type) := mkRequest {
  r_action : string; r_type : string; r_pair : pair; r_price : F;
  r_take_profit : F; r_stop_loss : F; r_quantity : F; r_total : F }.
Arguments mkRequest {F}.
Arguments r_action {F} o.
Arguments r_type {F} o.
Arguments r_pair {F} o.
Arguments r_price {F} o.
Arguments r_take_profit {F} o.
Arguments r_stop_loss {F} o.
Arguments r_quantity {F} o.
Arguments r_total {F} o.

Section Entities.
Context {F : Type} {N : GoFloat F}.

(** The constant 0 compared with in market/order_request.go and market/position.go. *)
Definition f0 : F := fofZ 0.

(** market/trade.go:26-49 *)
Definition new_trade (id : string) (tm : gotime) (action otype : string) (pr : pair)
    (price quantity cost : F) : trade F :=
  let fee := if String.eqb action BuyAction
             then fsub cost (fmul price quantity)
             else fsub (fmul price quantity) cost in
  mkTrade id tm action otype pr price quantity fee cost "".

(** market/order.go:121-126 *)
Definition is_open (o : order F) : bool :=
  if String.eqb (o_status o) FulfilledOrder || String.eqb (o_status o) CanceledOrder
  then false else true.

(** market/order_request.go:22-51; [None] is the nil pointer. *)
Definition nor_op : string := "market.NewOrderRequest".
(** market/order_request.go:22-51 *)
Definition new_order_request (pr : pair) (action otype : string) (quantity price total : F)
  : option (order_request F) * option err :=
  if String.eqb (a_symbol (p_base pr)) "" then
    (None, Some (ENew nor_op EINVALID "Order must have a pair defined"))
  else if String.eqb action "" || String.eqb otype "" then
    (None, Some (ENew nor_op EINVALID "Order must have an action and a type defined"))
  else if String.eqb otype LimitOrder && feq price f0 then
    (None, Some (ENew nor_op EINVALID "LimitOrders must have a priced defined"))
  else if feq quantity f0 && feq total f0 then
    (None, Some (ENew nor_op EINVALID "Total and quantity can't be both zero"))
  else (Some (mkRequest action otype pr price f0 f0 quantity total), None).

(** market/order_request.go:66-95: the returned pointer and error.  (The
    receiver is not written: Go copies [*o] first.) *)
Definition cf_op : string := "OrderRequest.CalculateFields".
(** Assignment to Total in market/order_request.go:66-95. *)
Definition with_total (o : order_request F) (t : F) : order_request F :=
  mkRequest (r_action o) (r_type o) (r_pair o) (r_price o) (r_take_profit o) (r_stop_loss o)
    (r_quantity o) t.
(** Assignment to Quantity in market/order_request.go:66-95. *)
Definition with_quantity (o : order_request F) (q : F) : order_request F :=
  mkRequest (r_action o) (r_type o) (r_pair o) (r_price o) (r_take_profit o) (r_stop_loss o)
    q (r_total o).
(** market/order_request.go:66-95 *)
Definition calculate_fields (o : order_request F) (currentPrice : F)
  : option (order_request F) * option err :=
  if feq (r_total o) f0 && feq (r_quantity o) f0 then
    (None, Some (ENew cf_op EINVALID "Total and quantity can't be both zero"))
  else if negb (feq (r_total o) f0) && negb (feq (r_quantity o) f0) then
    (None, Some (ENew cf_op EINVALID "Either total or quantity must be zero"))
  else if String.eqb (r_type o) MarketOrder then
    if negb (feq (r_quantity o) f0)
    then (Some (with_total o (fmul (r_quantity o) currentPrice)), None)
    else (Some (with_quantity o (fdiv (r_total o) currentPrice)), None)
  else
    if negb (feq (r_quantity o) f0)
    then (Some (with_total o (fmul (r_quantity o) (r_price o))), None)
    else (Some (with_quantity o (fdiv (r_total o) (r_price o))), None).

(** market/position.go:52-73; [id] is the result of xid.New().String(). *)
Definition new_position (id : string) (t : trade F) : position F :=
  let ty := if String.eqb (t_action t) BuyAction then LongPosition
            else if String.eqb (t_action t) SellAction then ShortPosition else "" in
  mkPosition id ty (t_pair t) true (mkClose f0 "") (mkClose f0 "")
    (t_price t) f0 (t_quantity t) f0 (t_time t) time_zero [t_id t] "" "".

(** market/position.go:116-122 *)
Definition unrealized_profit (p : position F) (currentPrice : F) : F :=
  if String.eqb (ps_type p) LongPosition
  then fmul (fsub currentPrice (ps_open_price p)) (ps_quantity p)
  else fmul (fsub (ps_open_price p) currentPrice) (ps_quantity p).

(** market/position.go:146-155 (always returns nil). *)
Definition pos_add (p : position F) (t : trade F) : position F :=
  let total := fadd (ps_quantity p) (t_quantity t) in
  let op := fadd (fdiv (fmul (ps_open_price p) (ps_quantity p)) total)
                 (fdiv (fmul (t_price t) (t_quantity t)) total) in
  mkPosition (ps_id p) (ps_type p) (ps_pair p) (ps_open p) (ps_take_profit p) (ps_stop_loss p)
    op (ps_close_price p) total (ps_profit p) (ps_open_time p) (ps_close_time p)
    (ps_trades p ++ [t_id t]) (ps_execution_id p) (ps_data p).

(** market/position.go:164 *)
Definition sub_err : err :=
  ENew "Position.substract" EINVALID
    "Trade volume is larger than the position size, this would not only close the position but open a new opossite one".

(** market/position.go:158-186 *)
Definition pos_substract (p : position F) (t : trade F) : position F * option err :=
  let total := fsub (ps_quantity p) (t_quantity t) in
  if flt total f0 && flt total (fconst (-1) (-4)) then (p, Some sub_err)
  else if fle total f0 then
    let cp := t_price t in
    let profit := if String.eqb (ps_type p) LongPosition
                  then fmul (fsub cp (ps_open_price p)) (ps_quantity p)
                  else fmul (fsub (ps_open_price p) cp) (ps_quantity p) in
    (mkPosition (ps_id p) (ps_type p) (ps_pair p) false (ps_take_profit p) (ps_stop_loss p)
       (ps_open_price p) cp (ps_quantity p) profit (ps_open_time p) (t_time t)
       (ps_trades p ++ [t_id t]) (ps_execution_id p) (ps_data p), None)
  else
    let op := fdiv (fmul (fsub (ps_open_price p)
                               (fmul (t_price t) (fdiv (t_quantity t) (ps_quantity p))))
                         (ps_quantity p)) total in
    (mkPosition (ps_id p) (ps_type p) (ps_pair p) (ps_open p) (ps_take_profit p) (ps_stop_loss p)
       op (ps_close_price p) total (ps_profit p) (ps_open_time p) (ps_close_time p)
       (ps_trades p ++ [t_id t]) (ps_execution_id p) (ps_data p), None).

(** market/position.go:129 *)
Definition pair_err : err :=
  ENew "position.Modify" EINVALID "A trade must have same pair as the position".

(** market/position.go:125-143: the error of [substract] is dropped. *)
Definition modify (p : position F) (t : trade F) : position F * option err :=
  if negb (pair_eqb (ps_pair p) (t_pair t)) then (p, Some pair_err)
  else if String.eqb (ps_type p) LongPosition && String.eqb (t_action t) BuyAction then
    (pos_add p t, None)
  else if String.eqb (ps_type p) LongPosition && String.eqb (t_action t) SellAction then
    (fst (pos_substract p t), None)
  else if String.eqb (ps_type p) ShortPosition && String.eqb (t_action t) BuyAction then
    (fst (pos_substract p t), None)
  else if String.eqb (ps_type p) ShortPosition && String.eqb (t_action t) SellAction then
    (pos_add p t, None)
  else (p, None).

(** A history of Modify calls (the caller's loop). *)
Fixpoint modify_all (p : position F) (ts : list (trade F)) : position F :=
  match ts with
  | [] => p
  | t :: rest => modify_all (fst (modify p t)) rest
  end.

(** The dynamic values an [interface{}] argument of Update may hold, as far as
    the code distinguishes them; [None] is a typed nil pointer. *)
Inductive dyn : Type :=
| DOrder (o : option (order F))
| DTrade (t : option (trade F))
| DPosition (p : option (position F))
| DAnnotation (a : option (annotation F))
| DOther.

(** The error of the Update methods, market/order.go:89, market/position.go:91 and the same in trade.go:62-73 and annotation.go. *)
Definition upd_err (op what : string) : err :=
  ENew op EINVALID ("Provided interface is not of type " ++ what)%string.

(** market/order.go:84-95: the receiver after the call, and the error. *)
Definition order_update (self : order F) (i : dyn) : go (order F * option err) :=
  match i with
  | DOrder (Some o) => Ret (o, None)
  | DOrder None => Panic PNil
  | _ => Ret (self, Some (upd_err "Order.Update" "Order"))
  end.
(** market/trade.go:62-73 *)
Definition trade_update (self : trade F) (i : dyn) : go (trade F * option err) :=
  match i with
  | DTrade (Some t) => Ret (t, None)
  | DTrade None => Panic PNil
  | _ => Ret (self, Some (upd_err "Trade.Update" "Trade"))
  end.
(** market/position.go:86-97 *)
Definition position_update (self : position F) (i : dyn) : go (position F * option err) :=
  match i with
  | DPosition (Some p) => Ret (p, None)
  | DPosition None => Panic PNil
  | _ => Ret (self, Some (upd_err "Position.Update" "Position"))
  end.
(** strategy/annotation.go:56-67 *)
Definition annotation_update (self : annotation F) (i : dyn) : go (annotation F * option err) :=
  match i with
  | DAnnotation (Some a) => Ret (a, None)
  | DAnnotation None => Panic PNil
  | _ => Ret (self, Some (upd_err "Annotation.Update" "Annotation"))
  end.

(** GetSchema (order.go:74-76, trade.go:52-54, position.go:76-78,
    annotation.go:46-48): table name and primary key. *)
Definition order_schema : string * string := ("orders", "id").
(** market/trade.go:52-54 *)
Definition trade_schema : string * string := ("trades", "id").
(** market/position.go:76-78 *)
Definition position_schema : string * string := ("positions", "id").
(** strategy/annotation.go:46-48 *)
Definition annotation_schema : string * string := ("annotations", "id").

(** GetID (order.go:79-81, trade.go:57-59, position.go:81-83, annotation.go:51-53) *)
Definition order_get_id (o : order F) : string := o_id o.
(** market/trade.go:57-59 *)
Definition trade_get_id (t : trade F) : string := t_id t.
(** market/position.go:81-83 *)
Definition position_get_id (p : position F) : string := ps_id p.
(** strategy/annotation.go:51-53 *)
Definition annotation_get_id (a : annotation F) : string := an_id a.

(** strategy/annotation.go:69-77; [id] is the result of xid.New().String(). *)
Definition new_annotation (id : string) (t : Z) (price : F) (label tooltip : string)
  : annotation F :=
  mkAnnotation id t 0%Z price "" label tooltip.

End Entities.
