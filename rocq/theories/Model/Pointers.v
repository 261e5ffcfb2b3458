(** Calls through nil pointers.  A pointer is an [option]; [None] is nil.  The
    other model files describe the same methods on the pointed-to values. *)
From Verif Require Import Go.Outcome Go.Float64 Go.Num Model.OrderBook Model.Candle Model.CandleFile Model.Entities Model.Strategy.
Open Scope string_scope.
Open Scope list_scope.

(** Reading or writing a field of [*p]. *)
Definition deref {A} (p : option A) : go A :=
  match p with Some a => Ret a | None => Panic PNil end.

(** market/candle_load.go:13-29: the file is created (emptied) at line 16, the
    pointer is dereferenced only at line 22. *)
Definition save_candles_p (create_err : option string) (faults : nat -> option nat)
    (d : fs) (cs : option (list (candle f64))) (path : string) : fs * go (option err) :=
  match create_err, cs with
  | Some m, _ => (d, Ret (Some (EWrap "market.SaveCandlesToFile" (EExt m))))
  | None, None => (fs_set d path EmptyString, Panic PNil)
  | None, Some l => (fst (save_candles None faults d l path), Ret (snd (save_candles None faults d l path)))
  end.

Section Pointers.
Context {F : Type} {N : GoFloat F}.

(** market/orderbook.go:136-249: the side is looked at before the book. *)
Definition apply_update_p (u : update F) (ob : option (book F)) : go (option (book F) * option err) :=
  if String.eqb (u_side u) "ask" || String.eqb (u_side u) "bid" then
    b <- deref ob ;;
    '(b', e) <- apply_update u b ;;
    Ret (Some b', e)
  else Ret (ob, Some bad_side).
(** market/orderbook.go:257-286: the price is looked at before the book. *)
Definition get_depth_p (ob : option (book F)) (p : F) : go (F * option err) :=
  if fle p fzero then Ret (fzero, Some gd_invalid)
  else b <- deref ob ;; get_depth b p.

(** market/position.go:52-73 *)
Definition new_position_p (id : string) (t : option (trade F)) : go (position F) :=
  t' <- deref t ;; Ret (new_position id t').
(** market/position.go:125-143: line 128 reads both. *)
Definition modify_p (p : option (position F)) (t : option (trade F)) : go (position F * option err) :=
  p' <- deref p ;; t' <- deref t ;; Ret (modify p' t').
(** market/position.go:116-122 *)
Definition unrealized_profit_p (p : option (position F)) (current : F) : go F :=
  p' <- deref p ;; Ret (unrealized_profit p' current).
(** market/order_request.go:66-96 *)
Definition calculate_fields_p (o : option (order_request F)) (current : F) : go (option (order_request F) * option err) :=
  o' <- deref o ;; Ret (calculate_fields o' current).
(** market/order.go:121-126 *)
Definition is_open_p (o : option (order F)) : go bool := o' <- deref o ;; Ret (is_open o').

(** Update (order.go:84-95, trade.go:62-73, position.go:86-97,
    annotation.go:56-67): the receiver is written only after the type
    assertion. *)
Definition order_update_p (self : option (order F)) (i : @dyn F) : go (option (order F) * option err) :=
  match i with
  | DOrder o => _ <- deref self ;; o' <- deref o ;; Ret (Some o', None)
  | _ => Ret (self, Some (upd_err "Order.Update" "Order"))
  end.
(** market/trade.go:62-73 *)
Definition trade_update_p (self : option (trade F)) (i : @dyn F) : go (option (trade F) * option err) :=
  match i with
  | DTrade o => _ <- deref self ;; o' <- deref o ;; Ret (Some o', None)
  | _ => Ret (self, Some (upd_err "Trade.Update" "Trade"))
  end.
(** market/position.go:86-97 *)
Definition position_update_p (self : option (position F)) (i : @dyn F) : go (option (position F) * option err) :=
  match i with
  | DPosition o => _ <- deref self ;; o' <- deref o ;; Ret (Some o', None)
  | _ => Ret (self, Some (upd_err "Position.Update" "Position"))
  end.
(** strategy/annotation.go:56-67 *)
Definition annotation_update_p (self : option (annotation F)) (i : @dyn F) : go (option (annotation F) * option err) :=
  match i with
  | DAnnotation o => _ <- deref self ;; o' <- deref o ;; Ret (Some o', None)
  | _ => Ret (self, Some (upd_err "Annotation.Update" "Annotation"))
  end.

(** GetSchema (order.go:74-76, trade.go:52-54, position.go:76-78,
    annotation.go:46-48) does not look at its receiver; GetID (order.go:79-81,
    trade.go:57-59, position.go:81-83, annotation.go:51-53) does. *)
Definition order_schema_p (self : option (order F)) : go (string * string) := Ret order_schema.
(** market/trade.go:52-54 *)
Definition trade_schema_p (self : option (trade F)) : go (string * string) := Ret trade_schema.
(** market/position.go:76-78 *)
Definition position_schema_p (self : option (position F)) : go (string * string) := Ret position_schema.
(** strategy/annotation.go:46-48 *)
Definition annotation_schema_p (self : option (annotation F)) : go (string * string) := Ret annotation_schema.
(** market/order.go:79-81 *)
Definition order_get_id_p (self : option (order F)) : go string := o <- deref self ;; Ret (order_get_id o).
(** market/trade.go:57-59 *)
Definition trade_get_id_p (self : option (trade F)) : go string := o <- deref self ;; Ret (trade_get_id o).
(** market/position.go:81-83 *)
Definition position_get_id_p (self : option (position F)) : go string := o <- deref self ;; Ret (position_get_id o).
(** strategy/annotation.go:51-53 *)
Definition annotation_get_id_p (self : option (annotation F)) : go string := o <- deref self ;; Ret (annotation_get_id o).

(** strategy/strategy.go:21-37 *)
Definition get_local_time_p (t : option (@tick F)) : go ztime := t' <- deref t ;; get_local_time t'.
(** strategy/strategy.go:26-37: the zone is loaded first. *)
Definition get_location_time_p (load : string -> string + string) (t : option (@tick F)) (location : string)
  : go (ztime * option err) :=
  match load location with
  | inr m => Ret (ztime_zero, Some (EWrap "Tick.GetLocationTime" (EExt m)))
  | inl _ => t' <- deref t ;; get_location_time load t' location
  end.
(** strategy/actions.go:13-22: line 14 reads the receiver even when there is
    nothing to add; likewise lines 24-70. *)
Definition add_create_orders_p ids n (a : option (actions F)) l : go (actions F) := a' <- deref a ;; add_create_orders ids n a' l.
(** strategy/actions.go:24-33 *)
Definition add_update_orders_p ids n (a : option (actions F)) l : go (actions F) := a' <- deref a ;; add_update_orders ids n a' l.
(** strategy/actions.go:35-44 *)
Definition add_cancel_orders_p ids n (a : option (actions F)) l : go (actions F) := a' <- deref a ;; add_cancel_orders ids n a' l.
(** strategy/actions.go:46-55 *)
Definition add_update_positions_p ids n (a : option (actions F)) l : go (actions F) := a' <- deref a ;; add_update_positions ids n a' l.
(** strategy/actions.go:57-66 *)
Definition add_close_positions_p ids n (a : option (actions F)) l : go (actions F) := a' <- deref a ;; add_close_positions ids n a' l.
(** strategy/actions.go:68-70 *)
Definition add_annotations_p (a : option (actions F)) l : go (actions F) := a' <- deref a ;; Ret (add_annotations a' l).
End Pointers.
