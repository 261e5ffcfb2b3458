(** What a struct of the repository must satisfy for a JSON text to hold it
    (C83): strings in UTF-8, finite numbers, integers of 64 bits, times of the
    years 0 to 9999. *)
From Coq Require Import ZArith List String.
From Flocq Require Import Core BinarySingleNaN.
From Verif Require Import Go.Float64 Go.Json Model.Asset Model.Pair Model.Candle Model.OrderBook Model.Entities Model.Strings
  Model.Strategy Model.Indicators Spec.JsonSpec.
Import ListNotations.

Definition finite (x : f64) : Prop := is_finite x = true.
Definition asset_ok (a : asset) : Prop := Forall utf8 [a_name a; a_symbol a; a_alt a].
Definition pair_ok (p : pair) : Prop := asset_ok (p_base p) /\ asset_ok (p_quote p).
Definition candle_ok (c : candle f64) : Prop :=
  int64_ok (c_time c) /\ Forall finite [c_open c; c_high c; c_low c; c_close c; c_volume c].
Definition row_ok (r : row f64) : Prop := Forall finite [price r; volume r; accum r].
Definition update_ok (u : update f64) : Prop := Forall finite [u_price u; u_volume u] /\ utf8 (u_side u).
Definition book_ok (b : book f64) : Prop :=
  int64_ok (b_time b) /\ int64_ok (max_depth b) /\ Forall row_ok (asks b) /\ Forall row_ok (bids b).
Definition ticker_ok (t : ticker) : Prop :=
  int64_ok (tk_time t) /\ Forall finite [tk_ask t; tk_bid t; tk_last t; tk_volume t; tk_vwap t].
Definition trade_ok (zone : Z) (t : trade f64) : Prop :=
  Forall utf8 [t_id t; t_action t; t_order_type t; t_execution_id t] /\ time_ok zone (t_time t) /\ pair_ok (t_pair t) /\
  Forall finite [t_price t; t_quantity t; t_fee t; t_cost t].
Definition order_ok (zone zone' : Z) (o : order f64) : Prop :=
  Forall utf8 [@o_id _ o; @o_action _ o; @o_type _ o; @o_status _ o; @o_position_id _ o; @o_execution_id _ o] /\
  match @o_pair _ o with Some p => pair_ok p | None => True end /\
  time_ok zone (@o_open_time _ o) /\ time_ok zone' (@o_close_time _ o) /\ Forall utf8 (@o_trades _ o) /\
  Forall finite [@o_price _ o; @o_volume _ o; @o_exec_volume _ o; @o_fee _ o; @o_cost _ o; @o_take_profit _ o; @o_stop_loss _ o].
Definition close_order_ok (c : close_order f64) : Prop := finite (co_price c) /\ utf8 (co_order_id c).
Definition position_ok (zone zone' : Z) (p : position f64) : Prop :=
  Forall utf8 [ps_id p; ps_type p; ps_execution_id p; ps_data p] /\ pair_ok (ps_pair p) /\
  close_order_ok (ps_take_profit p) /\ close_order_ok (ps_stop_loss p) /\
  time_ok zone (ps_open_time p) /\ time_ok zone' (ps_close_time p) /\ Forall utf8 (ps_trades p) /\
  Forall finite [ps_open_price p; ps_close_price p; ps_quantity p; ps_profit p].
Definition request_ok (r : order_request f64) : Prop :=
  Forall utf8 [r_action r; r_type r] /\ pair_ok (r_pair r) /\
  Forall finite [r_price r; r_take_profit r; r_stop_loss r; r_quantity r; r_total r].
Definition balance_snapshot_ok (b : balance_snapshot) : Prop := Forall finite [bs_balance b; bs_equity b; bs_margin b; bs_free b].
Definition balance_ok (b : balance) : Prop :=
  match bl_asset b with Some a => asset_ok a | None => True end /\ finite (bl_amount b).
Definition assets_snapshot_ok (a : assets_snapshot) : Prop := finite (as_time a) /\ Forall balance_ok (as_assets a).
Definition annotation_ok (a : annotation f64) : Prop :=
  Forall utf8 [@an_id _ a; @an_execution_id _ a; @an_label _ a; @an_tooltip _ a] /\
  int64_ok (@an_time _ a) /\ int64_ok (@an_creation_time _ a) /\ finite (@an_price _ a).
Definition create_order_ok (c : create_order f64) : Prop :=
  Forall utf8 [@co_id _ c; @co_symbol _ c; @co_action _ c; @co_otype _ c] /\
  Forall finite [@cr_price _ c; @cr_volume _ c; @cr_stop _ c; @cr_take _ c; @cr_slip _ c].
Definition update_order_ok (u : update_order f64) : Prop :=
  Forall utf8 [@uo_id _ u; @uo_order _ u] /\ Forall finite [@uo_price _ u; @uo_volume _ u; @uo_stop _ u; @uo_take _ u; @uo_slip _ u].
Definition cancel_order_ok (c : cancel_order) : Prop := Forall utf8 [ca_id c; ca_order c].
Definition update_position_ok (u : update_position f64) : Prop :=
  Forall utf8 [@up_id _ u; @up_position _ u; @up_action _ u; @up_otype _ u] /\
  Forall finite [@up_volume _ u; @up_stop _ u; @up_take _ u; @up_slip _ u].
Definition close_position_ok (c : close_position) : Prop := Forall utf8 [cp_id c; cp_position c].
Definition fractal_ok (f : @fractal f64) : Prop := int64_ok (fr_time f) /\ finite (fr_price f).

(** Marshal, then Unmarshal into a fresh variable: the struct comes back. *)
Definition survives {A} (t : gotype) (val : A -> goval) (of : goval -> option A) (a : A) : Prop :=
  exists text v, marshal t (val a) = Some text /\ unmarshal t text = Some v /\ of v = Some a.

(** Some number of the list is a NaN or an infinity (C84). *)
Definition bad (l : list f64) : Prop := Exists (fun x => ~ finite x) l.
(** The instants a location shown [zone] seconds east of UTC dates within the
    years 0 to 9999. *)
Definition dated (zone t : Z) : Prop := (-62167219200 <= t / 1000000000 + zone < 253402300800)%Z.
(** A location of whole minutes, and an instant not absurdly far in the past. *)
Definition clock (zone t : Z) : Prop := ((60 | zone) /\ -86400 < zone < 86400 /\ - 2 ^ 62 <= t / 1000000000)%Z.

(** The text of any storable value of type [t] is an object with these member
    names, in this order (C83). *)
Definition written_as (t : gotype) (names : list string) : Prop :=
  forall v, storable t v -> exists text members,
    marshal t v = Some text /\ parse_json text = Some (JObj members) /\ map fst members = names.

(** The text of [v] is an object with exactly one member called [key]; it is a
    string and reads [id] (C85). *)
Definition keyed_by (t : gotype) (v : goval) (key id : string) : Prop :=
  exists text before raw after,
    marshal t v = Some text /\ parse_json text = Some (JObj (before ++ (key, JStr raw) :: after)) /\
    unquote raw = id /\ ~ In key (map fst (before ++ after)).
