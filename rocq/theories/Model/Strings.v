(** The String methods of packages market, strategy and indicators, and
    OrderBook.Print.  The receivers are pointers; a nil receiver (which panics
    in all of them) is not modelled.  The text of a time.Time depends on the
    zone and on package time: it is the parameter [tt]. *)
From Verif Require Import Go.Outcome Go.Int64 Go.Slice Go.Float64 Go.Text Model.Asset Model.Pair
  Model.Candle Model.CandleFile Model.OrderBook Model.Entities Model.Indicators.
Open Scope string_scope.
Open Scope list_scope.
Open Scope Z_scope.

(** An argument of fmt.Sprintf.  [AStr] is a string or any value whose %s / %v
    text is given. *)
Inductive arg : Type := AStr (s : string) | AInt (z : Z) | AFloat (x : f64) | ABool (b : bool).

(** What Go writes for a verb without a fitting argument starts with "%!"; the
    details are not modelled. *)
Definition bad_verb : string := "%!".

(** package fmt: one argument under one verb. *)
Definition show_verb (v : ascii) (prec : nat) (a : arg) : string :=
  match a with
  | AStr s => if Ascii.eqb v "s" || Ascii.eqb v "v" then s else bad_verb
  | AInt z => if Ascii.eqb v "d" || Ascii.eqb v "v" then fmt_int z else bad_verb
  | AFloat x => if Ascii.eqb v "f" then sprintf_f prec x
                else if Ascii.eqb v "v" then fmt_v x else bad_verb
  | ABool b => if Ascii.eqb v "t" || Ascii.eqb v "v" then (if b then "true" else "false") else bad_verb
  end.

(** package fmt: the verb takes the next argument. *)
Definition next_arg (v : ascii) (prec : nat) (args : list arg) : string * list arg :=
  match args with
  | [] => (bad_verb, [])
  | a :: rest => (show_verb v prec a, rest)
  end.

(** fmt.Sprintf for the formats used in the repository: verbs with an optional
    one-digit precision (6 digits by default for %f). *)
Fixpoint sprintf (fmt : string) (args : list arg) : string :=
  match fmt with
  | EmptyString => match args with [] => "" | _ => bad_verb end
  | String c r =>
      if Ascii.eqb c "%" then
        match r with
        | EmptyString => bad_verb
        | String v r1 =>
            if Ascii.eqb v "." then
              match r1 with
              | String d (String w r2) =>
                  let '(t, rest) := next_arg w (N.to_nat (digit_val d)) args in (t ++ sprintf r2 rest)%string
              | _ => bad_verb
              end
            else let '(t, rest) := next_arg v 6 args in (t ++ sprintf r1 rest)%string
        end
      else String c (sprintf r args)
  end.

(** "\n" *)
Definition nl : string := String newline "".

(** %v of a slice: elements separated by spaces, in brackets. *)
Fixpoint spaced (l : list string) : string :=
  match l with
  | [] => ""
  | [a] => a
  | a :: rest => (a ++ " " ++ spaced rest)%string
  end.
(** package fmt: %v of a slice. *)
Definition show_slice (l : list string) : string := ("[" ++ spaced l ++ "]")%string.
(** %s / %v of a struct value without a String method: its fields in braces. *)
Definition show_struct (l : list string) : string := ("{" ++ spaced l ++ "}")%string.

(** market/balances.go:6-11, 13-15 *)
Record balance_snapshot := mkBalSnap { bs_balance : f64; bs_equity : f64; bs_margin : f64; bs_free : f64 }.
(** market/balances.go:13-15 *)
Definition balance_snapshot_string (b : balance_snapshot) : string :=
  sprintf ("Balance: %f, Equity: %f, Margin: %f, Free Margin: %f" ++ nl)
    [AFloat (bs_balance b); AFloat (bs_equity b); AFloat (bs_margin b); AFloat (bs_free b)].

(** market/balances.go:28-31; [None] is the nil pointer. *)
Record balance := mkBalance { bl_asset : option asset; bl_amount : f64 }.
(** market/balances.go:33-35: [b.Asset.String()] dereferences the pointer. *)
Definition balance_string (b : balance) : go string :=
  match bl_asset b with
  | None => Panic PNil
  | Some a => Ret (sprintf ("Asset: %s, Amount: %f" ++ nl) [AStr (asset_string a); AFloat (bl_amount b)])
  end.

(** market/balances.go:18-21, 23-25.  The elements are printed by reflection:
    Balance has String only on the pointer, so it is a struct; its field is a
    *Asset, whose String method fmt calls, and for which fmt recovers the panic
    of a nil pointer and writes "<nil>". *)
Record assets_snapshot := mkAssetSnap { as_time : f64; as_assets : list balance }.
(** package fmt: %v of market/balances.go:28-31. *)
Definition show_balance (b : balance) : string :=
  show_struct [match bl_asset b with None => "<nil>" | Some a => asset_string a end; fmt_v (bl_amount b)].
(** market/balances.go:23-25 *)
Definition assets_snapshot_string (a : assets_snapshot) : string :=
  sprintf ("Time: %f, Assets: %v" ++ nl)
    [AFloat (as_time a); AStr (show_slice (map show_balance (as_assets a)))].

(** market/ticker.go:6-13, 15-17 *)
Record ticker := mkTicker { tk_time : Z; tk_ask : f64; tk_bid : f64; tk_last : f64; tk_volume : f64; tk_vwap : f64 }.
(** market/ticker.go:15-17 *)
Definition ticker_string (t : ticker) : string :=
  sprintf ("Time: %d, Ask: %f, Bid: %f, Last: %f, Volume: %f, VWAP: %f" ++ nl)
    [AInt (tk_time t); AFloat (tk_ask t); AFloat (tk_bid t); AFloat (tk_last t);
     AFloat (tk_volume t); AFloat (tk_vwap t)].

(** market/orderbook_types.go:12-14 *)
Definition row_string (r : row f64) : string :=
  sprintf ("Price: %.3f, Volume: %.3f, AccumVolume: %.3f" ++ nl)
    [AFloat (price r); AFloat (volume r); AFloat (accum r)].

(** %v of an OrderBookRow value (String is on the pointer, so not used). *)
Definition show_row (r : row f64) : string :=
  show_struct [fmt_v (price r); fmt_v (volume r); fmt_v (accum r)].

(** market/orderbook.go:75-77 *)
Definition book_string (ob : book f64) : string :=
  sprintf ("Time: %v, Asks: %v, Bids: %v" ++ nl)
    [AInt (b_time ob); AStr (show_slice (map show_row (asks ob))); AStr (show_slice (map show_row (bids ob)))].

(** market/orderbook.go:79-89: what is written to standard output. *)
Fixpoint print_asks (l : list (row f64)) (n i : Z) (todo : nat) : go string :=
  match todo with
  | O => Ret ""
  | S k => r <- index l (n - 1 - i) ;;
           rest <- print_asks l n (i + 1) k ;;
           Ret (println (show_row r) ++ rest)%string
  end.
(** market/orderbook.go:79-89: the loop over the bids. *)
Fixpoint print_bids (l : list (row f64)) : string :=
  match l with
  | [] => ""
  | r :: rest => (println (show_row r) ++ print_bids rest)%string
  end.
(** market/orderbook.go:79-89 *)
Definition book_print (ob : book f64) : go string :=
  a <- print_asks (asks ob) (zlen (asks ob)) 0 (List.length (asks ob)) ;;
  Ret (println "======= OrderBook =======" ++ a ++
       println "-------------------------" ++ print_bids (bids ob))%string.

(** market/position.go:28-30 *)
Definition close_order_string (c : close_order f64) : string :=
  sprintf ("Price: %f, OrderID: %s" ++ nl) [AFloat (co_price c); AStr (co_order_id c)].

(** market/order_request.go:53-64 *)
Definition order_request_string (o : order_request f64) : string :=
  sprintf ("Action: %s | Type: %s | Pair: %s | Quantity: %.4f | Price: $%.4f | Total: $%.4f" ++ nl)
    [AStr (r_action o); AStr (r_type o); AStr (pair_string (r_pair o)); AFloat (r_quantity o);
     AFloat (r_price o); AFloat (r_total o)].

(** indicators/williams_fractals.go:26-28 *)
Definition fractal_string (f : @fractal f64) : string :=
  sprintf ("%d %f %v" ++ nl)
    [AInt (fr_time f); AFloat (fr_price f); AStr (match fr_type f with FractalUp => "up" | FractalDown => "down" end)].

(** strategy/annotation.go:33-43 *)
Definition annotation_string (a : annotation f64) : string :=
  sprintf ("ID: %s, Time: %d, Creation Time: %d, Price: %f, ExecutionID: %s, Label: %s, Tooltip: %s" ++ nl)
    [AStr (an_id a); AInt (an_time _ a); AInt (an_creation_time _ a); AFloat (an_price _ a);
     AStr (an_execution_id _ a); AStr (an_label _ a); AStr (an_tooltip _ a)].

(** strategy/annotation.go:14-20 *)
Definition add_annotations_string (l : list (annotation f64)) : string :=
  fold_left (fun str v => (str ++ sprintf ("%s" ++ nl) [AStr (annotation_string v)])%string) l
    ("Annotations:" ++ nl)%string.

(** %s of a Pair value (market/trade.go:80): String is on *Pair and *Asset, so
    the structs are printed field by field. *)
Definition show_asset (a : asset) : string := show_struct [a_name a; a_symbol a; a_alt a].
(** package fmt: %s of market/pair.go:8-11. *)
Definition show_pair (p : pair) : string := show_struct [show_asset (p_base p); show_asset (p_quote p)].

Section Times.
Variable tt : gotime -> string.

(** market/candle.go:22-32 *)
Definition candle_string (c : candle f64) : string :=
  sprintf ("Time: %s | Open: %.4f | High: %.4f | Low: %.4f | Close: %.4f | Volume: %.4f" ++ nl)
    [AStr (tt (c_time c * 1000000000)); AFloat (c_open c); AFloat (c_high c); AFloat (c_low c);
     AFloat (c_close c); AFloat (c_volume c)].

(** market/order.go:97-119 *)
Definition order_string (o : order f64) : string :=
  let pairStr := match o_pair o with None => "" | Some p => pair_string p end in
  sprintf ("ID: %s | Action: %s | Type: %s | Pair: %s | Price: %.4f | Volume: %.4f | ExecVolume: %.4f | Fee: $%.4f | Cost: $%.4f | Status: %s | OT: %s | CT: %s" ++ nl)
    [AStr (o_id o); AStr (o_action _ o); AStr (o_type _ o); AStr pairStr; AFloat (o_price _ o);
     AFloat (o_volume _ o); AFloat (o_exec_volume _ o); AFloat (o_fee _ o); AFloat (o_cost _ o);
     AStr (o_status o); AStr (tt (o_open_time _ o)); AStr (tt (o_close_time _ o))].

(** market/trade.go:75-87 *)
Definition trade_string (t : trade f64) : string :=
  sprintf ("ID: %s Execution Time: %s Action: %s Type: %s Pair: %s Price: $%.2f Quantity: %.4f Fee: $%.2f Cost: $%.2f" ++ nl)
    [AStr (t_id t); AStr (tt (t_time t)); AStr (t_action t); AStr (t_order_type t);
     AStr (show_pair (t_pair t)); AFloat (t_price t); AFloat (t_quantity t); AFloat (t_fee t);
     AFloat (t_cost t)].

(** [s[0:8]] of a string, market/position.go:101. *)
Definition first8 (s : string) : go string :=
  if str_len s <? 8 then Panic PSlice else Ret (substring 0 8 s).

(** market/position.go:99-113 *)
Definition position_string (p : position f64) : go string :=
  id <- first8 (ps_id p) ;;
  Ret (sprintf ("ID: %s Type: %s Pair: %s Open: %t OpenPrice: %.2f ClosePrice: %.2f Quantity: %.4f Profit: %.2f OpenTime: %s CloseTime: %s # Trades: %d" ++ nl)
    [AStr id; AStr (ps_type p); AStr (pair_string (ps_pair p)); ABool (ps_open p);
     AFloat (ps_open_price p); AFloat (ps_close_price p); AFloat (ps_quantity p); AFloat (ps_profit p);
     AStr (tt (ps_open_time p)); AStr (tt (ps_close_time p)); AInt (zlen (ps_trades p))]).
End Times.
