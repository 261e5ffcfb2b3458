(** The struct types of the repository as package encoding/json sees them: the
    exported fields in order, under the names of their json tags (the Go name
    where there is no tag).  No field has omitempty or "-".  Named string types
    (ActionType, OrderType, OrderStatus, PositionType, FractalType) are strings;
    int is 64 bits wide.  For each struct: its values as [goval]s and back.
    A slice of the model without elements stands for both the nil and the empty
    slice: [nil] tells which; times get their offset from UTC, which the rest of
    the model leaves out. *)
From Coq Require Import ZArith NArith List String Bool.
From Verif Require Import Go.Outcome Go.Float64 Go.Num Go.Json
  Model.Asset Model.Pair Model.Candle Model.OrderBook Model.Entities Model.Strings Model.Strategy Model.Indicators.
Import ListNotations.
Open Scope string_scope.
Open Scope list_scope.

(** No repository counterpart: a slice as encoding/json meets it. *)
Definition slice_val {A} (f : A -> goval) (nil : bool) (l : list A) : goval :=
  match l with [] => if nil then VSlice None else VSlice (Some []) | _ => VSlice (Some (map f l)) end.
(** No repository counterpart: a slice read back. *)
Definition slice_of {A} (f : goval -> option A) (v : goval) : option (list A) :=
  match v with VSlice None => Some [] | VSlice (Some l) => all_some (map f l) | _ => None end.
(** No repository counterpart: a pointer as encoding/json meets it. *)
Definition ptr_val {A} (f : A -> goval) (o : option A) : goval := VPtr (option_map f o).
(** No repository counterpart: a pointer read back. *)
Definition ptr_of {A} (f : goval -> option A) (v : goval) : option (option A) :=
  match v with VPtr None => Some None | VPtr (Some x) => option_map Some (f x) | _ => None end.
(** No repository counterpart: a string read back. *)
Definition str_of (v : goval) : option string := match v with VStr s => Some s | _ => None end.

(** market/asset.go:10-14 *)
Definition asset_type : gotype := TStruct [("name", TStr); ("symbol", TStr); ("alt_symbol", TStr)].
(** market/asset.go:10-14, a struct as encoding/json meets it. *)
Definition asset_val (a : asset) : goval := VStruct [VStr (a_name a); VStr (a_symbol a); VStr (a_alt a)].
(** market/asset.go:10-14, the struct read back. *)
Definition asset_of (v : goval) : option asset :=
  match v with VStruct [VStr n; VStr s; VStr a] => Some (mkAsset n s a) | _ => None end.

(** market/pair.go:8-11 *)
Definition pair_type : gotype := TStruct [("base", asset_type); ("quote", asset_type)].
(** market/pair.go:8-11, a struct as encoding/json meets it. *)
Definition pair_val (p : pair) : goval := VStruct [asset_val (p_base p); asset_val (p_quote p)].
(** market/pair.go:8-11, the struct read back. *)
Definition pair_of (v : goval) : option pair :=
  match v with
  | VStruct [b; q] => match asset_of b, asset_of q with Some b, Some q => Some (mkPair b q) | _, _ => None end
  | _ => None
  end.

(** market/candle.go:13-20 *)
Definition candle_type : gotype :=
  TStruct [("time", TInt); ("open", TFloat); ("high", TFloat); ("low", TFloat); ("close", TFloat); ("volume", TFloat)].
(** market/candle.go:13-20, a struct as encoding/json meets it. *)
Definition candle_val (c : candle f64) : goval :=
  VStruct [VInt (c_time c); VFloat (c_open c); VFloat (c_high c); VFloat (c_low c); VFloat (c_close c); VFloat (c_volume c)].
(** market/candle.go:13-20, the struct read back. *)
Definition candle_of (v : goval) : option (candle f64) :=
  match v with
  | VStruct [VInt t; VFloat o; VFloat h; VFloat l; VFloat c; VFloat w] => Some (mkCandle t o h l c w)
  | _ => None
  end.

(** market/orderbook_types.go:6-10 *)
Definition row_type : gotype := TStruct [("price", TFloat); ("volume", TFloat); ("accum_volume", TFloat)].
(** market/orderbook_types.go:6-10, a struct as encoding/json meets it. *)
Definition row_val (r : row f64) : goval := VStruct [VFloat (price r); VFloat (volume r); VFloat (accum r)].
(** market/orderbook_types.go:6-10, the struct read back. *)
Definition row_of (v : goval) : option (row f64) :=
  match v with VStruct [VFloat p; VFloat w; VFloat a] => Some (mkRow p w a) | _ => None end.

(** market/orderbook_types.go:16-20 *)
Definition update_type : gotype := TStruct [("price", TFloat); ("volume", TFloat); ("side", TStr)].
(** market/orderbook_types.go:16-20, a struct as encoding/json meets it. *)
Definition update_val (u : update f64) : goval := VStruct [VFloat (u_price u); VFloat (u_volume u); VStr (u_side u)].
(** market/orderbook_types.go:16-20, the struct read back. *)
Definition update_of (v : goval) : option (update f64) :=
  match v with VStruct [VFloat p; VFloat w; VStr s] => Some (mkUpdate p w s) | _ => None end.

(** market/orderbook.go:12-17 *)
Definition book_type : gotype :=
  TStruct [("time", TInt); ("asks", TSlice row_type); ("bids", TSlice row_type); ("max_depth", TInt)].
(** market/orderbook.go:12-17, a struct as encoding/json meets it. *)
Definition book_val (nil_asks nil_bids : bool) (b : book f64) : goval :=
  VStruct [VInt (b_time b); slice_val row_val nil_asks (asks b); slice_val row_val nil_bids (bids b); VInt (max_depth b)].
(** market/orderbook.go:12-17, the struct read back. *)
Definition book_of (v : goval) : option (book f64) :=
  match v with
  | VStruct [VInt t; a; b; VInt d] =>
      match slice_of row_of a, slice_of row_of b with Some a, Some b => Some (mkBook t a b d) | _, _ => None end
  | _ => None
  end.

(** market/ticker.go:6-13 *)
Definition ticker_type : gotype :=
  TStruct [("time", TInt); ("ask", TFloat); ("bid", TFloat); ("last", TFloat); ("volume", TFloat); ("vwap", TFloat)].
(** market/ticker.go:6-13, a struct as encoding/json meets it. *)
Definition ticker_val (t : ticker) : goval :=
  VStruct [VInt (tk_time t); VFloat (tk_ask t); VFloat (tk_bid t); VFloat (tk_last t); VFloat (tk_volume t); VFloat (tk_vwap t)].
(** market/ticker.go:6-13, the struct read back. *)
Definition ticker_of (v : goval) : option ticker :=
  match v with
  | VStruct [VInt t; VFloat a; VFloat b; VFloat l; VFloat w; VFloat p] => Some (mkTicker t a b l w p)
  | _ => None
  end.

(** market/trade.go:12-23 *)
Definition trade_type : gotype :=
  TStruct [("id", TStr); ("execution_time", TTime); ("action", TStr); ("order_type", TStr); ("pair", pair_type);
    ("price", TFloat); ("quantity", TFloat); ("fee", TFloat); ("cost", TFloat); ("execution_id", TStr)].
(** market/trade.go:12-23, a struct as encoding/json meets it. *)
Definition trade_val (zone : Z) (t : trade f64) : goval :=
  VStruct [VStr (t_id t); VTime zone (t_time t); VStr (t_action t); VStr (t_order_type t); pair_val (t_pair t);
    VFloat (t_price t); VFloat (t_quantity t); VFloat (t_fee t); VFloat (t_cost t); VStr (t_execution_id t)].
(** market/trade.go:12-23, the struct read back. *)
Definition trade_of (v : goval) : option (trade f64) :=
  match v with
  | VStruct [VStr i; VTime _ x; VStr a; VStr o; p; VFloat r; VFloat q; VFloat f; VFloat c; VStr e] =>
      option_map (fun p => mkTrade i x a o p r q f c e) (pair_of p)
  | _ => None
  end.

(** market/order.go:53-71 *)
Definition order_type : gotype :=
  TStruct [("id", TStr); ("action", TStr); ("type", TStr); ("pair", TPtr pair_type); ("price", TFloat); ("volume", TFloat);
    ("executed_volume", TFloat); ("fee", TFloat); ("cost", TFloat); ("status", TStr); ("open_time", TTime); ("close_time", TTime);
    ("trades", TSlice TStr); ("take_profit", TFloat); ("stop_loss", TFloat); ("position_id", TStr); ("execution_id", TStr)].
(** market/order.go:53-71, a struct as encoding/json meets it. *)
Definition order_val (zone zone' : Z) (nil : bool) (o : order f64) : goval :=
  VStruct [VStr (@o_id _ o); VStr (@o_action _ o); VStr (@o_type _ o); ptr_val pair_val (@o_pair _ o); VFloat (@o_price _ o); VFloat (@o_volume _ o);
    VFloat (@o_exec_volume _ o); VFloat (@o_fee _ o); VFloat (@o_cost _ o); VStr (o_status o); VTime zone (@o_open_time _ o); VTime zone' (@o_close_time _ o);
    slice_val VStr nil (@o_trades _ o); VFloat (@o_take_profit _ o); VFloat (@o_stop_loss _ o); VStr (@o_position_id _ o); VStr (@o_execution_id _ o)].
(** market/order.go:53-71, the struct read back. *)
Definition order_of (v : goval) : option (order f64) :=
  match v with
  | VStruct [VStr i; VStr a; VStr t; p; VFloat r; VFloat w; VFloat x; VFloat f; VFloat c; VStr s; VTime _ o; VTime _ d; l; VFloat tp; VFloat sl;
             VStr pi; VStr ei] =>
      match ptr_of pair_of p, slice_of str_of l with
      | Some p, Some l => Some (mkOrder i a t p r w x f c s o d l tp sl pi ei)
      | _, _ => None
      end
  | _ => None
  end.

(** market/position.go:23-26 *)
Definition close_order_type : gotype := TStruct [("price", TFloat); ("order_id", TStr)].
(** market/position.go:23-26, a struct as encoding/json meets it. *)
Definition close_order_val (c : close_order f64) : goval := VStruct [VFloat (co_price c); VStr (co_order_id c)].
(** market/position.go:23-26, the struct read back. *)
Definition close_order_of (v : goval) : option (close_order f64) :=
  match v with VStruct [VFloat p; VStr i] => Some (mkClose p i) | _ => None end.

(** market/position.go:33-49 *)
Definition position_type : gotype :=
  TStruct [("id", TStr); ("type", TStr); ("pair", pair_type); ("open", TBool); ("take_profit", close_order_type); ("stop_loss", close_order_type);
    ("open_price", TFloat); ("close_price", TFloat); ("quantity", TFloat); ("profit", TFloat); ("open_time", TTime); ("close_time", TTime);
    ("trades", TSlice TStr); ("execution_id", TStr); ("data", TStr)].
(** market/position.go:33-49, a struct as encoding/json meets it. *)
Definition position_val (zone zone' : Z) (nil : bool) (p : position f64) : goval :=
  VStruct [VStr (ps_id p); VStr (ps_type p); pair_val (ps_pair p); VBool (ps_open p); close_order_val (ps_take_profit p); close_order_val (ps_stop_loss p);
    VFloat (ps_open_price p); VFloat (ps_close_price p); VFloat (ps_quantity p); VFloat (ps_profit p); VTime zone (ps_open_time p);
    VTime zone' (ps_close_time p); slice_val VStr nil (ps_trades p); VStr (ps_execution_id p); VStr (ps_data p)].
(** market/position.go:33-49, the struct read back. *)
Definition position_of (v : goval) : option (position f64) :=
  match v with
  | VStruct [VStr i; VStr t; p; VBool b; tp; sl; VFloat op; VFloat cp; VFloat q; VFloat pr; VTime _ ot; VTime _ ct; l; VStr e; VStr d] =>
      match pair_of p, close_order_of tp, close_order_of sl, slice_of str_of l with
      | Some p, Some tp, Some sl, Some l => Some (mkPosition i t p b tp sl op cp q pr ot ct l e d)
      | _, _, _, _ => None
      end
  | _ => None
  end.

(** market/order_request.go:10-19, no tags *)
Definition request_type : gotype :=
  TStruct [("Action", TStr); ("Type", TStr); ("Pair", pair_type); ("Price", TFloat); ("TakeProfit", TFloat); ("StopLoss", TFloat);
    ("Quantity", TFloat); ("Total", TFloat)].
(** market/order_request.go:10-19, a struct as encoding/json meets it. *)
Definition request_val (r : order_request f64) : goval :=
  VStruct [VStr (r_action r); VStr (r_type r); pair_val (r_pair r); VFloat (r_price r); VFloat (r_take_profit r); VFloat (r_stop_loss r);
    VFloat (r_quantity r); VFloat (r_total r)].
(** market/order_request.go:10-19, the struct read back. *)
Definition request_of (v : goval) : option (order_request f64) :=
  match v with
  | VStruct [VStr a; VStr t; p; VFloat r; VFloat tp; VFloat sl; VFloat q; VFloat w] =>
      option_map (fun p => mkRequest a t p r tp sl q w) (pair_of p)
  | _ => None
  end.

(** market/balances.go:6-11 *)
Definition balance_snapshot_type : gotype :=
  TStruct [("balance", TFloat); ("equity", TFloat); ("margin", TFloat); ("free_margin", TFloat)].
(** market/balances.go:6-11, a struct as encoding/json meets it. *)
Definition balance_snapshot_val (b : balance_snapshot) : goval :=
  VStruct [VFloat (bs_balance b); VFloat (bs_equity b); VFloat (bs_margin b); VFloat (bs_free b)].
(** market/balances.go:6-11, the struct read back. *)
Definition balance_snapshot_of (v : goval) : option balance_snapshot :=
  match v with VStruct [VFloat a; VFloat b; VFloat c; VFloat d] => Some (mkBalSnap a b c d) | _ => None end.

(** market/balances.go:28-31 *)
Definition balance_type : gotype := TStruct [("asset", TPtr asset_type); ("amount", TFloat)].
(** market/balances.go:28-31, a struct as encoding/json meets it. *)
Definition balance_val (b : balance) : goval := VStruct [ptr_val asset_val (bl_asset b); VFloat (bl_amount b)].
(** market/balances.go:28-31, the struct read back. *)
Definition balance_of (v : goval) : option balance :=
  match v with VStruct [p; VFloat a] => option_map (fun p => mkBalance p a) (ptr_of asset_of p) | _ => None end.

(** market/balances.go:18-21 *)
Definition assets_snapshot_type : gotype := TStruct [("time", TFloat); ("assets", TSlice balance_type)].
(** market/balances.go:18-21, a struct as encoding/json meets it. *)
Definition assets_snapshot_val (nil : bool) (a : assets_snapshot) : goval :=
  VStruct [VFloat (as_time a); slice_val balance_val nil (as_assets a)].
(** market/balances.go:18-21, the struct read back. *)
Definition assets_snapshot_of (v : goval) : option assets_snapshot :=
  match v with VStruct [VFloat t; l] => option_map (mkAssetSnap t) (slice_of balance_of l) | _ => None end.

(** strategy/annotation.go:23-31 *)
Definition annotation_type : gotype :=
  TStruct [("id", TStr); ("time", TInt); ("creation_time", TInt); ("price", TFloat); ("execution_id", TStr); ("label", TStr); ("tooltip", TStr)].
(** strategy/annotation.go:23-31, a struct as encoding/json meets it. *)
Definition annotation_val (a : annotation f64) : goval :=
  VStruct [VStr (an_id a); VInt (@an_time _ a); VInt (@an_creation_time _ a); VFloat (@an_price _ a); VStr (@an_execution_id _ a); VStr (@an_label _ a);
    VStr (@an_tooltip _ a)].
(** strategy/annotation.go:23-31, the struct read back. *)
Definition annotation_of (v : goval) : option (annotation f64) :=
  match v with
  | VStruct [VStr i; VInt t; VInt c; VFloat p; VStr e; VStr l; VStr o] => Some (mkAnnotation i t c p e l o)
  | _ => None
  end.

(** strategy/order_actions.go:8-18, 24-32, 38-41 *)
Definition create_order_type : gotype :=
  TStruct [("id", TStr); ("symbol", TStr); ("action_type", TStr); ("order_type", TStr); ("price", TFloat); ("volume", TFloat);
    ("stop_loss", TFloat); ("take_profit", TFloat); ("slippage", TFloat)].
(** strategy/order_actions.go:8-18, a struct as encoding/json meets it. *)
Definition create_order_val (c : create_order f64) : goval :=
  VStruct [VStr (co_id c); VStr (@co_symbol _ c); VStr (@co_action _ c); VStr (@co_otype _ c); VFloat (@cr_price _ c); VFloat (@cr_volume _ c);
    VFloat (@cr_stop _ c); VFloat (@cr_take _ c); VFloat (@cr_slip _ c)].
(** strategy/order_actions.go:8-18, the struct read back. *)
Definition create_order_of (v : goval) : option (create_order f64) :=
  match v with
  | VStruct [VStr i; VStr s; VStr a; VStr o; VFloat p; VFloat w; VFloat sl; VFloat tp; VFloat x] => Some (mkCreate i s a o p w sl tp x)
  | _ => None
  end.
(** strategy/order_actions.go:24-32, the type. *)
Definition update_order_type : gotype :=
  TStruct [("id", TStr); ("order_id", TStr); ("price", TFloat); ("volume", TFloat); ("stop_loss", TFloat); ("take_profit", TFloat);
    ("slippage", TFloat)].
(** strategy/order_actions.go:24-32, a struct as encoding/json meets it. *)
Definition update_order_val (u : update_order f64) : goval :=
  VStruct [VStr (uo_id u); VStr (@uo_order _ u); VFloat (@uo_price _ u); VFloat (@uo_volume _ u); VFloat (@uo_stop _ u); VFloat (@uo_take _ u);
    VFloat (@uo_slip _ u)].
(** strategy/order_actions.go:24-32, the struct read back. *)
Definition update_order_of (v : goval) : option (update_order f64) :=
  match v with
  | VStruct [VStr i; VStr o; VFloat p; VFloat w; VFloat sl; VFloat tp; VFloat x] => Some (mkUpdOrder i o p w sl tp x)
  | _ => None
  end.
(** strategy/order_actions.go:38-41, the type. *)
Definition cancel_order_type : gotype := TStruct [("id", TStr); ("order_id", TStr)].
(** strategy/order_actions.go:38-41, a struct as encoding/json meets it. *)
Definition cancel_order_val (c : cancel_order) : goval := VStruct [VStr (ca_id c); VStr (ca_order c)].
(** strategy/order_actions.go:38-41, the struct read back. *)
Definition cancel_order_of (v : goval) : option cancel_order :=
  match v with VStruct [VStr i; VStr o] => Some (mkCancel i o) | _ => None end.

(** strategy/position_actions.go:8-17, 23-26 *)
Definition update_position_type : gotype :=
  TStruct [("id", TStr); ("position_id", TStr); ("action_type", TStr); ("order_type", TStr); ("volume", TFloat); ("stop_loss", TFloat);
    ("take_profit", TFloat); ("slippage", TFloat)].
(** strategy/position_actions.go:8-17, a struct as encoding/json meets it. *)
Definition update_position_val (u : update_position f64) : goval :=
  VStruct [VStr (up_id u); VStr (@up_position _ u); VStr (@up_action _ u); VStr (@up_otype _ u); VFloat (@up_volume _ u); VFloat (@up_stop _ u);
    VFloat (@up_take _ u); VFloat (@up_slip _ u)].
(** strategy/position_actions.go:8-17, the struct read back. *)
Definition update_position_of (v : goval) : option (update_position f64) :=
  match v with
  | VStruct [VStr i; VStr p; VStr a; VStr o; VFloat w; VFloat sl; VFloat tp; VFloat x] => Some (mkUpdPos i p a o w sl tp x)
  | _ => None
  end.
(** strategy/position_actions.go:23-26, the type. *)
Definition close_position_type : gotype := TStruct [("id", TStr); ("position_id", TStr)].
(** strategy/position_actions.go:23-26, a struct as encoding/json meets it. *)
Definition close_position_val (c : close_position) : goval := VStruct [VStr (cp_id c); VStr (cp_position c)].
(** strategy/position_actions.go:23-26, the struct read back. *)
Definition close_position_of (v : goval) : option close_position :=
  match v with VStruct [VStr i; VStr p] => Some (mkClosePos i p) | _ => None end.

(** strategy/actions.go:4-11 and strategy/strategy.go:11-18, no tags; their maps
    are used as lists of entries in key order, not as the functions of
    Model/Strategy.v. *)
Definition actions_type : gotype :=
  TStruct [("CreateOrders", TMap create_order_type); ("UpdateOrders", TMap update_order_type); ("CancelOrders", TMap cancel_order_type);
    ("UpdatePositions", TMap update_position_type); ("ClosePositions", TMap close_position_type); ("Annotations", TSlice annotation_type)].
(** strategy/strategy.go:11-18, the type. *)
Definition tick_type : gotype :=
  TStruct [("Candle", TPtr candle_type); ("PendingActions", TPtr actions_type); ("OpenOrders", TMap order_type);
    ("OpenPositions", TMap position_type); ("ClosedPositions", TMap position_type); ("Capital", TFloat)].

(** indicators/williams_fractals.go:20-24, no tags (there is no constructor of
    the model for a FractalType other than "up" and "down"). *)
Definition fractal_type : gotype := TStruct [("Time", TInt); ("Price", TFloat); ("Type", TStr)].
(** indicators/williams_fractals.go:11-17 *)
Definition ftype_text (t : ftype) : string := match t with FractalUp => "up" | FractalDown => "down" end.
(** indicators/williams_fractals.go:20-24, a struct as encoding/json meets it. *)
Definition fractal_val (f : @fractal f64) : goval := VStruct [VInt (fr_time f); VFloat (fr_price f); VStr (ftype_text (fr_type f))].
(** indicators/williams_fractals.go:20-24, the struct read back. *)
Definition fractal_of (v : goval) : option (@fractal f64) :=
  match v with
  | VStruct [VInt t; VFloat p; VStr s] =>
      if String.eqb s "up" then Some (mkFractal t p FractalUp)
      else if String.eqb s "down" then Some (mkFractal t p FractalDown) else None
  | _ => None
  end.
