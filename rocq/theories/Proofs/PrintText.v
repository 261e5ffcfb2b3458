(** The texts of the String methods written out. *)
From Verif Require Import Go.Outcome Go.Int64 Go.Slice Go.Float64 Go.Text Go.Num Model.Asset Model.Pair
  Model.Candle Model.CandleFile Model.OrderBook Model.Entities Model.Indicators Model.Strings Spec.FileSpec Spec.PrintSpec
  Proofs.Lex Proofs.FileText Proofs.Printing.
Open Scope string_scope.
Open Scope list_scope.
Open Scope Z_scope.

Lemma first8_ok s : 8 <= Z.of_nat (String.length s) -> first8 s = Ret (substring 0 8 s).
Proof. intros H. unfold first8, str_len. destruct (Z.ltb_spec (Z.of_nat (String.length s)) 8); [lia|reflexivity]. Qed.
Lemma first8_short s : Z.of_nat (String.length s) < 8 -> first8 s = Panic PSlice.
Proof. intros H. unfold first8, str_len. destruct (Z.ltb_spec (Z.of_nat (String.length s)) 8); [reflexivity|lia]. Qed.
Lemma bool_text_if b : bool_text b (if b then "true" else "false").
Proof. reflexivity. Qed.

Lemma balance_snapshot_eq : forall (b : balance_snapshot), 
  balance_snapshot_string b =
  ("Balance: " ++ (sprintf_f 6 (bs_balance b)) ++ ", Equity: " ++ (sprintf_f 6 (bs_equity b)) ++ ", Margin: " ++ (sprintf_f 6 (bs_margin b)) ++ ", Free Margin: " ++ (sprintf_f 6 (bs_free b)) ++ nl)%string.
Proof. intros. reflexivity. Qed.
Lemma ticker_eq : forall (t : ticker), 
  ticker_string t =
  ("Time: " ++ (fmt_int (tk_time t)) ++ ", Ask: " ++ (sprintf_f 6 (tk_ask t)) ++ ", Bid: " ++ (sprintf_f 6 (tk_bid t)) ++ ", Last: " ++ (sprintf_f 6 (tk_last t)) ++ ", Volume: " ++ (sprintf_f 6 (tk_volume t)) ++ ", VWAP: " ++ (sprintf_f 6 (tk_vwap t)) ++ nl)%string.
Proof. intros. reflexivity. Qed.
Lemma row_eq : forall (r : row f64), 
  row_string r =
  ("Price: " ++ (sprintf_f 3 (price r)) ++ ", Volume: " ++ (sprintf_f 3 (volume r)) ++ ", AccumVolume: " ++ (sprintf_f 3 (accum r)) ++ nl)%string.
Proof. intros. reflexivity. Qed.
Lemma close_order_eq : forall (c : close_order f64), 
  close_order_string c =
  ("Price: " ++ (sprintf_f 6 (co_price c)) ++ ", OrderID: " ++ (co_order_id c) ++ nl)%string.
Proof. intros. reflexivity. Qed.
Lemma order_request_eq : forall (o : order_request f64), 
  order_request_string o =
  ("Action: " ++ (r_action o) ++ " | Type: " ++ (r_type o) ++ " | Pair: " ++ (pair_string (r_pair o)) ++ " | Quantity: " ++ (sprintf_f 4 (r_quantity o)) ++ " | Price: $" ++ (sprintf_f 4 (r_price o)) ++ " | Total: $" ++ (sprintf_f 4 (r_total o)) ++ nl)%string.
Proof. intros. reflexivity. Qed.
Lemma annotation_eq : forall (a : annotation f64), 
  annotation_string a =
  ("ID: " ++ (an_id a) ++ ", Time: " ++ (fmt_int (an_time _ a)) ++ ", Creation Time: " ++ (fmt_int (an_creation_time _ a)) ++ ", Price: " ++ (sprintf_f 6 (an_price _ a)) ++ ", ExecutionID: " ++ (an_execution_id _ a) ++ ", Label: " ++ (an_label _ a) ++ ", Tooltip: " ++ (an_tooltip _ a) ++ nl)%string.
Proof. intros. reflexivity. Qed.
Lemma candle_eq : forall (c : candle f64) tt, 
  candle_string tt c =
  ("Time: " ++ (tt (c_time c * 1000000000)%Z) ++ " | Open: " ++ (sprintf_f 4 (c_open c)) ++ " | High: " ++ (sprintf_f 4 (c_high c)) ++ " | Low: " ++ (sprintf_f 4 (c_low c)) ++ " | Close: " ++ (sprintf_f 4 (c_close c)) ++ " | Volume: " ++ (sprintf_f 4 (c_volume c)) ++ nl)%string.
Proof. intros. reflexivity. Qed.
Lemma trade_eq : forall (t : trade f64) tt, 
  trade_string tt t =
  ("ID: " ++ (t_id t) ++ " Execution Time: " ++ (tt (t_time t)) ++ " Action: " ++ (t_action t) ++ " Type: " ++ (t_order_type t) ++ " Pair: " ++ (show_pair (t_pair t)) ++ " Price: $" ++ (sprintf_f 2 (t_price t)) ++ " Quantity: " ++ (sprintf_f 4 (t_quantity t)) ++ " Fee: $" ++ (sprintf_f 2 (t_fee t)) ++ " Cost: $" ++ (sprintf_f 2 (t_cost t)) ++ nl)%string.
Proof. intros. reflexivity. Qed.
Lemma order_eq : forall (o : order f64) tt, 
  order_string tt o =
  ("ID: " ++ (o_id o) ++ " | Action: " ++ (o_action _ o) ++ " | Type: " ++ (o_type _ o) ++ " | Pair: " ++ (match o_pair o with None => "" | Some p => pair_string p end) ++ " | Price: " ++ (sprintf_f 4 (o_price _ o)) ++ " | Volume: " ++ (sprintf_f 4 (o_volume _ o)) ++ " | ExecVolume: " ++ (sprintf_f 4 (o_exec_volume _ o)) ++ " | Fee: $" ++ (sprintf_f 4 (o_fee _ o)) ++ " | Cost: $" ++ (sprintf_f 4 (o_cost _ o)) ++ " | Status: " ++ (o_status o) ++ " | OT: " ++ (tt (o_open_time _ o)) ++ " | CT: " ++ (tt (o_close_time _ o)) ++ nl)%string.
Proof. intros. reflexivity. Qed.
Lemma fractal_eq : forall (f : @fractal f64), 
  fractal_string f =
  ((fmt_int (fr_time f)) ++ " " ++ (sprintf_f 6 (fr_price f)) ++ " " ++ (match fr_type f with FractalUp => "up" | FractalDown => "down" end) ++ nl)%string.
Proof. intros. reflexivity. Qed.
Lemma position_eq : forall (p : position f64) tt, 8 <= Z.of_nat (String.length (ps_id p)) ->
  position_string tt p =
  Ret ("ID: " ++ (substring 0 8 (ps_id p)) ++ " Type: " ++ (ps_type p) ++ " Pair: " ++ (pair_string (ps_pair p)) ++ " Open: " ++ (if (ps_open p) then "true" else "false") ++ " OpenPrice: " ++ (sprintf_f 2 (ps_open_price p)) ++ " ClosePrice: " ++ (sprintf_f 2 (ps_close_price p)) ++ " Quantity: " ++ (sprintf_f 4 (ps_quantity p)) ++ " Profit: " ++ (sprintf_f 2 (ps_profit p)) ++ " OpenTime: " ++ (tt (ps_open_time p)) ++ " CloseTime: " ++ (tt (ps_close_time p)) ++ " # Trades: " ++ (fmt_int (Z.of_nat (List.length (ps_trades p)))) ++ nl)%string.
Proof. intros p tt H. unfold position_string. rewrite first8_ok by assumption. reflexivity. Qed.
Lemma balance_eq b a : bl_asset b = Some a ->
  balance_string b = Ret ("Asset: " ++ asset_string a ++ ", Amount: " ++ sprintf_f 6 (bl_amount b) ++ nl)%string.
Proof. intros H. unfold balance_string. rewrite H. reflexivity. Qed.
Lemma assets_snapshot_eq a : assets_snapshot_string a =
  ("Time: " ++ sprintf_f 6 (as_time a) ++ ", Assets: " ++ show_slice (map show_balance (as_assets a)) ++ nl)%string.
Proof. reflexivity. Qed.

Lemma pair_newlines p : without newline (a_symbol (p_base p)) -> without newline (a_symbol (p_quote p)) -> newlines (pair_string p) = 1%nat.
Proof. rewrite !newlines_without. intros H1 H2. unfold pair_string. rewrite !newlines_app, H1, H2. reflexivity. Qed.
Lemma asset_newlines a : without newline (a_name a) -> without newline (a_symbol a) -> newlines (asset_string a) = 1%nat.
Proof. rewrite !newlines_without. intros H1 H2. unfold asset_string. rewrite !newlines_app, H1, H2. reflexivity. Qed.
Lemma substring_newlines i k s : newlines s = 0%nat -> newlines (substring i k s) = 0%nat.
Proof.
  revert i k. induction s as [|c r IH]; intros [|i] [|k] H; cbn [newlines substring] in *; try reflexivity.
  - rewrite IH by lia. lia.
  - apply IH. lia.
  - apply IH. lia.
Qed.
