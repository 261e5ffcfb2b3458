(** C83, C84: the structs of the repository written to JSON and read back. *)
From Coq Require Import ZArith NArith List String Ascii Bool.
Import ListNotations.
From Flocq Require Import Core BinarySingleNaN.
From Verif Require Import Go.Float64 Go.Text Go.Json Model.Asset Model.Pair Model.Candle Model.OrderBook Model.Entities Model.Strings
  Model.Strategy Model.Indicators Model.Stored Spec.JsonSpec Spec.StoredSpec Proofs.JsonValue Proofs.Stored.
Open Scope string_scope.
Open Scope list_scope.

(** ** C83 *)
Theorem C83_asset_survives : forall a, asset_ok a -> survives asset_type asset_val asset_of a.
Proof. exact asset_survives. Qed.
Theorem C83_pair_survives : forall p, pair_ok p -> survives pair_type pair_val pair_of p.
Proof. exact pair_survives. Qed.
Theorem C83_candle_survives : forall c, candle_ok c -> survives candle_type candle_val candle_of c.
Proof. exact candle_survives. Qed.
Theorem C83_row_survives : forall r, row_ok r -> survives row_type row_val row_of r.
Proof. exact row_survives. Qed.
Theorem C83_update_survives : forall u, update_ok u -> survives update_type update_val update_of u.
Proof. exact update_survives. Qed.
Theorem C83_book_survives : forall na nb b, book_ok b -> survives book_type (book_val na nb) book_of b.
Proof. exact book_survives. Qed.
Theorem C83_ticker_survives : forall t, ticker_ok t -> survives ticker_type ticker_val ticker_of t.
Proof. exact ticker_survives. Qed.
Theorem C83_trade_survives : forall z t, trade_ok z t -> survives trade_type (trade_val z) trade_of t.
Proof. exact trade_survives. Qed.
Theorem C83_order_survives : forall z z' nil o, order_ok z z' o -> survives order_type (order_val z z' nil) order_of o.
Proof. exact order_survives. Qed.
Theorem C83_position_survives : forall z z' nil p, position_ok z z' p -> survives position_type (position_val z z' nil) position_of p.
Proof. exact position_survives. Qed.
Theorem C83_request_survives : forall r, request_ok r -> survives request_type request_val request_of r.
Proof. exact request_survives. Qed.
Theorem C83_balance_snapshot_survives : forall b, balance_snapshot_ok b -> survives balance_snapshot_type balance_snapshot_val balance_snapshot_of b.
Proof. exact balance_snapshot_survives. Qed.
Theorem C83_balance_survives : forall b, balance_ok b -> survives balance_type balance_val balance_of b.
Proof. exact balance_survives. Qed.
Theorem C83_assets_snapshot_survives : forall nil a, assets_snapshot_ok a -> survives assets_snapshot_type (assets_snapshot_val nil) assets_snapshot_of a.
Proof. exact assets_snapshot_survives. Qed.
Theorem C83_annotation_survives : forall a, annotation_ok a -> survives annotation_type annotation_val annotation_of a.
Proof. exact annotation_survives. Qed.
Theorem C83_create_order_survives : forall c, create_order_ok c -> survives create_order_type create_order_val create_order_of c.
Proof. exact create_order_survives. Qed.
Theorem C83_update_order_survives : forall u, update_order_ok u -> survives update_order_type update_order_val update_order_of u.
Proof. exact update_order_survives. Qed.
Theorem C83_cancel_order_survives : forall c, cancel_order_ok c -> survives cancel_order_type cancel_order_val cancel_order_of c.
Proof. exact cancel_order_survives. Qed.
Theorem C83_update_position_survives : forall u, update_position_ok u -> survives update_position_type update_position_val update_position_of u.
Proof. exact update_position_survives. Qed.
Theorem C83_close_position_survives : forall c, close_position_ok c -> survives close_position_type close_position_val close_position_of c.
Proof. exact close_position_survives. Qed.
Theorem C83_fractal_survives : forall f, fractal_ok f -> survives fractal_type fractal_val fractal_of f.
Proof. exact fractal_survives. Qed.
Theorem C83_actions_survive : forall v, storable actions_type v -> exists s, marshal actions_type v = Some s /\ unmarshal actions_type s = Some v.
Proof. exact actions_survive. Qed.
Theorem C83_tick_survives : forall v, storable tick_type v -> exists s, marshal tick_type v = Some s /\ unmarshal tick_type s = Some v.
Proof. exact tick_survives. Qed.
Theorem C83_candle_text : forall c, candle_ok c -> exists o h l k w,
  Forall2 (fun t x => parse_float t = inl x) [o; h; l; k; w] [c_open c; c_high c; c_low c; c_close c; c_volume c] /\
  marshal candle_type (candle_val c) =
    Some ("{""time"":" ++ fmt_int (c_time c) ++ ",""open"":" ++ o ++ ",""high"":" ++ h ++ ",""low"":" ++ l ++
          ",""close"":" ++ k ++ ",""volume"":" ++ w ++ "}")%string.
Proof. exact candle_text. Qed.
(** The member names are the json tags, or the field names where there are none. *)
Theorem C83_member_names :
  written_as fractal_type ["Time"; "Price"; "Type"] /\
  written_as asset_type ["name"; "symbol"; "alt_symbol"] /\
  written_as balance_snapshot_type ["balance"; "equity"; "margin"; "free_margin"] /\
  written_as assets_snapshot_type ["time"; "assets"] /\
  written_as balance_type ["asset"; "amount"] /\
  written_as candle_type ["time"; "open"; "high"; "low"; "close"; "volume"] /\
  written_as order_type ["id"; "action"; "type"; "pair"; "price"; "volume"; "executed_volume"; "fee"; "cost"; "status"; "open_time"; "close_time"; "trades"; "take_profit"; "stop_loss"; "position_id"; "execution_id"] /\
  written_as request_type ["Action"; "Type"; "Pair"; "Price"; "TakeProfit"; "StopLoss"; "Quantity"; "Total"] /\
  written_as book_type ["time"; "asks"; "bids"; "max_depth"] /\
  written_as row_type ["price"; "volume"; "accum_volume"] /\
  written_as update_type ["price"; "volume"; "side"] /\
  written_as pair_type ["base"; "quote"] /\
  written_as close_order_type ["price"; "order_id"] /\
  written_as position_type ["id"; "type"; "pair"; "open"; "take_profit"; "stop_loss"; "open_price"; "close_price"; "quantity"; "profit"; "open_time"; "close_time"; "trades"; "execution_id"; "data"] /\
  written_as ticker_type ["time"; "ask"; "bid"; "last"; "volume"; "vwap"] /\
  written_as trade_type ["id"; "execution_time"; "action"; "order_type"; "pair"; "price"; "quantity"; "fee"; "cost"; "execution_id"] /\
  written_as actions_type ["CreateOrders"; "UpdateOrders"; "CancelOrders"; "UpdatePositions"; "ClosePositions"; "Annotations"] /\
  written_as annotation_type ["id"; "time"; "creation_time"; "price"; "execution_id"; "label"; "tooltip"] /\
  written_as create_order_type ["id"; "symbol"; "action_type"; "order_type"; "price"; "volume"; "stop_loss"; "take_profit"; "slippage"] /\
  written_as update_order_type ["id"; "order_id"; "price"; "volume"; "stop_loss"; "take_profit"; "slippage"] /\
  written_as cancel_order_type ["id"; "order_id"] /\
  written_as update_position_type ["id"; "position_id"; "action_type"; "order_type"; "volume"; "stop_loss"; "take_profit"; "slippage"] /\
  written_as close_position_type ["id"; "position_id"] /\
  written_as tick_type ["Candle"; "PendingActions"; "OpenOrders"; "OpenPositions"; "ClosedPositions"; "Capital"].
Proof.
  repeat split; first [exact (written _ _ named_fractal eq_refl)|exact (written _ _ named_asset eq_refl)|exact (written _ _ named_balance_snapshot eq_refl)|exact (written _ _ named_assets_snapshot eq_refl)|exact (written _ _ named_balance eq_refl)|exact (written _ _ named_candle eq_refl)|exact (written _ _ named_order eq_refl)|exact (written _ _ named_request eq_refl)|exact (written _ _ named_book eq_refl)|exact (written _ _ named_row eq_refl)|exact (written _ _ named_update eq_refl)|exact (written _ _ named_pair eq_refl)|exact (written _ _ named_close eq_refl)|exact (written _ _ named_position eq_refl)|exact (written _ _ named_ticker eq_refl)|exact (written _ _ named_trade eq_refl)|exact (written _ _ named_actions eq_refl)|exact (written _ _ named_annotation eq_refl)|exact (written _ _ named_create eq_refl)|exact (written _ _ named_upd_order eq_refl)|exact (written _ _ named_cancel eq_refl)|exact (written _ _ named_upd_pos eq_refl)|exact (written _ _ named_close_pos eq_refl)|exact (written _ _ named_tick eq_refl)].
Qed.

Definition sample_asset : asset := mkAsset "Bit""coin" "BTC" "XBT".
Definition sample_pair : pair := mkPair sample_asset (mkAsset "Dollar" "USD" "").
Definition sample_candle : candle f64 :=
  mkCandle 1609459200 (f64_of_dec false 289235 (-1)) (f64_of_dec false 1 21) (f64_of_dec true 5 (-7)) (f64_of_dec false 3 2) (B754_zero true).
Example C83_example_candle : candle_ok sample_candle /\
  marshal candle_type (candle_val sample_candle) =
  Some "{""time"":1609459200,""open"":28923.5,""high"":1e+21,""low"":-5e-7,""close"":300,""volume"":-0}".
Proof. split; [split; [split; vm_compute; congruence|repeat (constructor; [vm_compute; reflexivity|]); constructor]|vm_compute; reflexivity]. Qed.
Definition sample_trade : trade f64 :=
  mkTrade "t1" (1609459200123 * 1000000)%Z "buy" "market" sample_pair (f64_of_dec false 10 0) (f64_of_dec false 25 (-1)) (f64_of_dec false 1 (-1))
    (f64_of_dec false 25 0) "<e&1>".
Example C83_example_trade : trade_ok 19800 sample_trade /\
  marshal trade_type (trade_val 19800 sample_trade) =
  Some "{""id"":""t1"",""execution_time"":""2021-01-01T05:30:00.123+05:30"",""action"":""buy"",""order_type"":""market"",""pair"":{""base"":{""name"":""Bit\""coin"",""symbol"":""BTC"",""alt_symbol"":""XBT""},""quote"":{""name"":""Dollar"",""symbol"":""USD"",""alt_symbol"":""""}},""price"":10,""quantity"":2.5,""fee"":0.1,""cost"":25,""execution_id"":""\u003ce\u00261\u003e""}".
Proof.
  split; [|vm_compute; reflexivity].
  split; [repeat (constructor; [text|]); constructor|].
  split; [split; [exists 330%Z; reflexivity|split; vm_compute; split; congruence]|].
  split; [split; repeat (constructor; [text|]); constructor|].
  repeat (constructor; [vm_compute; reflexivity|]); constructor.
Qed.

(** ** C84 *)
Theorem C84_candle_refused : forall c, int64_ok (c_time c) ->
  (marshal candle_type (candle_val c) = None <-> bad [c_open c; c_high c; c_low c; c_close c; c_volume c]).
Proof. exact candle_refused. Qed.
Theorem C84_ticker_refused : forall t, int64_ok (tk_time t) ->
  (marshal ticker_type (ticker_val t) = None <-> bad [tk_ask t; tk_bid t; tk_last t; tk_volume t; tk_vwap t]).
Proof. exact ticker_refused. Qed.
Theorem C84_book_refused : forall na nb b, int64_ok (b_time b) -> int64_ok (max_depth b) ->
  (marshal book_type (book_val na nb b) = None <-> Exists (fun r => bad [price r; volume r; accum r]) (asks b ++ bids b)).
Proof. exact book_refused. Qed.
Theorem C84_trade_refused : forall z t, clock z (t_time t) ->
  (marshal trade_type (trade_val z t) = None <-> bad [t_price t; t_quantity t; t_fee t; t_cost t] \/ ~ dated z (t_time t)).
Proof. exact trade_refused. Qed.
Theorem C84_order_refused : forall z z' nil o, clock z (@o_open_time _ o) -> clock z' (@o_close_time _ o) ->
  (marshal order_type (order_val z z' nil o) = None <->
   bad [@o_price _ o; @o_volume _ o; @o_exec_volume _ o; @o_fee _ o; @o_cost _ o; @o_take_profit _ o; @o_stop_loss _ o] \/
   ~ dated z (@o_open_time _ o) \/ ~ dated z' (@o_close_time _ o)).
Proof. exact order_refused. Qed.
Theorem C84_position_refused : forall z z' nil p, clock z (ps_open_time p) -> clock z' (ps_close_time p) ->
  (marshal position_type (position_val z z' nil p) = None <->
   bad [co_price (ps_take_profit p); co_price (ps_stop_loss p); ps_open_price p; ps_close_price p; ps_quantity p; ps_profit p] \/
   ~ dated z (ps_open_time p) \/ ~ dated z' (ps_close_time p)).
Proof. exact position_refused. Qed.
Theorem C84_asset_survives_iff : forall a, survives asset_type asset_val asset_of a <-> asset_ok a.
Proof. exact asset_survives_iff. Qed.
Theorem C84_any_value : forall t v, typed t v -> (marshal t v = None <-> beyond_json t v).
Proof. exact marshal_none. Qed.
(** Nothing is reported: two different assets have the same text. *)
Theorem C84_injective_refuted : exists a b s, a <> b /\ marshal asset_type (asset_val a) = Some s /\ marshal asset_type (asset_val b) = Some s.
Proof.
  exists (mkAsset (String "255" "") "" ""), (mkAsset (String "254" "") "" ""), "{""name"":""\ufffd"",""symbol"":"""",""alt_symbol"":""""}".
  split; [discriminate|]. split; vm_compute; reflexivity.
Qed.
Example C84_example_refused : marshal candle_type (candle_val (mkCandle 60 B754_nan B754_nan B754_nan B754_nan B754_nan)) = None /\
  bad [B754_nan].
Proof. split; [vm_compute; reflexivity|constructor; discriminate]. Qed.
Example C84_example_altered : ~ asset_ok (mkAsset (String "255" "") "" "") /\
  match marshal asset_type (asset_val (mkAsset (String "255" "") "" "")) with
  | Some s => match unmarshal asset_type s with Some v => match asset_of v with Some a => a_name a | None => "" end | None => "" end
  | None => ""
  end = String "239" (String "191" (String "189" "")).
Proof.
  split; [|vm_compute; reflexivity]. intros H. apply C84_asset_survives_iff in H. destruct H as (s & v & H1 & H2 & H3).
  vm_compute in H1. injection H1 as <-. vm_compute in H2. injection H2 as <-. vm_compute in H3. discriminate.
Qed.
(** The zero time.Time (1 January of the year 1) is a date JSON can hold. *)
Example C84_example_zero_time : dated 0 (-62135596800 * 1000000000) /\ clock 0 (-62135596800 * 1000000000).
Proof. split; [vm_compute; split; congruence|]. split; [exists 0%Z; reflexivity|split; vm_compute; [split|]; congruence]. Qed.

(** ** C85 *)
Theorem C85_order_key : forall z z' nil o, order_ok z z' o ->
  keyed_by order_type (order_val z z' nil o) (snd order_schema) (order_get_id o).
Proof. intros z z' nil o H. apply keyed; [exact named_order|exact (order_store z z' nil o H)|cbn; intuition discriminate]. Qed.
Theorem C85_trade_key : forall z t, trade_ok z t ->
  keyed_by trade_type (trade_val z t) (snd trade_schema) (trade_get_id t).
Proof. intros z t H. apply keyed; [exact named_trade|exact (trade_store z t H)|cbn; intuition discriminate]. Qed.
Theorem C85_position_key : forall z z' nil p, position_ok z z' p ->
  keyed_by position_type (position_val z z' nil p) (snd position_schema) (position_get_id p).
Proof. intros z z' nil p H. apply keyed; [exact named_position|exact (position_store z z' nil p H)|cbn; intuition discriminate]. Qed.
Theorem C85_annotation_key : forall a, annotation_ok a ->
  keyed_by annotation_type (annotation_val a) (snd annotation_schema) (annotation_get_id a).
Proof. intros a H. apply keyed; [exact named_annotation|exact (annotation_store a H)|cbn; intuition discriminate]. Qed.
Theorem C85_tables_distinct : NoDup (map fst [order_schema; trade_schema; position_schema; annotation_schema]).
Proof. repeat (constructor; [cbn; intuition discriminate|]). constructor. Qed.
Theorem C85_new_annotation : forall id t (p : f64) label tooltip,
  let a := new_annotation id t p label tooltip in
  annotation_get_id a = id /\ an_time _ a = t /\ an_price _ a = p /\ an_label _ a = label /\ an_tooltip _ a = tooltip /\
  an_creation_time _ a = 0%Z /\ an_execution_id _ a = "".
Proof. intros. repeat split. Qed.
Example C85_example : trade_ok 19800 sample_trade /\ trade_get_id sample_trade = "t1".
Proof. split; [exact (proj1 C83_example_trade)|reflexivity]. Qed.

Print Assumptions C83_asset_survives.
Print Assumptions C83_pair_survives.
Print Assumptions C83_candle_survives.
Print Assumptions C83_row_survives.
Print Assumptions C83_update_survives.
Print Assumptions C83_book_survives.
Print Assumptions C83_ticker_survives.
Print Assumptions C83_trade_survives.
Print Assumptions C83_order_survives.
Print Assumptions C83_position_survives.
Print Assumptions C83_request_survives.
Print Assumptions C83_balance_snapshot_survives.
Print Assumptions C83_balance_survives.
Print Assumptions C83_assets_snapshot_survives.
Print Assumptions C83_annotation_survives.
Print Assumptions C83_create_order_survives.
Print Assumptions C83_update_order_survives.
Print Assumptions C83_cancel_order_survives.
Print Assumptions C83_update_position_survives.
Print Assumptions C83_close_position_survives.
Print Assumptions C83_fractal_survives.
Print Assumptions C83_actions_survive.
Print Assumptions C83_tick_survives.
Print Assumptions C83_candle_text.
Print Assumptions C83_member_names.
Print Assumptions C84_candle_refused.
Print Assumptions C84_ticker_refused.
Print Assumptions C84_book_refused.
Print Assumptions C84_trade_refused.
Print Assumptions C84_order_refused.
Print Assumptions C84_position_refused.
Print Assumptions C84_asset_survives_iff.
Print Assumptions C84_any_value.
Print Assumptions C84_injective_refuted.
Print Assumptions C85_order_key.
Print Assumptions C85_trade_key.
Print Assumptions C85_position_key.
Print Assumptions C85_annotation_key.
Print Assumptions C85_tables_distinct.
Print Assumptions C85_new_annotation.
