(** Properties C67, C69-C71: the String methods and OrderBook.Print.
    Model: Model/Strings.v; vocabulary: Spec/PrintSpec.v.  [tt] is the text of
    a time.Time. *)
From Coq Require Import Reals Lra Lia.
From Flocq Require Import Core BinarySingleNaN.
From Verif Require Import Go.Outcome Go.Int64 Go.Slice Go.Float64 Go.FloatOrder Go.FloatReal Go.Num Go.Text Model.Asset Model.Pair
  Model.Candle Model.CandleFile Model.OrderBook Model.Entities Model.Indicators Model.Strings Spec.FileSpec Spec.PrintSpec
  Proofs.RoundTrip Proofs.Lex Proofs.FileText Proofs.Printing Proofs.PrintText.
Open Scope string_scope.
Open Scope list_scope.
Open Scope Z_scope.

Lemma Ret_inj {A} (a b : A) : Ret a = Ret b -> a = b.
Proof. congruence. Qed.

Definition eur : asset := mkAsset "Euro" "EUR" "".
Definition usd : asset := mkAsset "Dollar" "USD" "".
Definition zero_position : position f64 :=
  mkPosition "" "" (mkPair empty_asset empty_asset) false (mkClose (i2f 0) "") (mkClose (i2f 0) "")
    (i2f 0) (i2f 0) (i2f 0) (i2f 0) time_zero time_zero [] "" "".
Definition no_times : gotime -> string := fun _ => "T".

(** ** C67 *)
Theorem C67_position_prints_iff : forall tt (p : position f64),
  (exists s, position_string tt p = Ret s) <-> 8 <= Z.of_nat (String.length (ps_id p)).
Proof.
  intros tt p. split.
  - intros [s H]. destruct (Z_lt_le_dec (Z.of_nat (String.length (ps_id p))) 8) as [L|L]; [|assumption].
    unfold position_string in H. rewrite first8_short in H by assumption. discriminate.
  - intros H. eexists. now apply position_eq.
Qed.
Theorem C67_balance_prints_iff : forall b,
  (exists s, balance_string b = Ret s) <-> exists a, bl_asset b = Some a.
Proof.
  intros b. unfold balance_string. destruct (bl_asset b) as [a|]; split; intros [x H]; try discriminate; eauto.
Qed.
(** A position made by NewPosition (xid ids have 20 characters) prints at every
    point of its history. *)
Theorem C67_real_positions_print : forall tt id t (ts : list (trade f64)), 8 <= Z.of_nat (String.length id) ->
  exists s, position_string tt (modify_all (new_position id t) ts) = Ret s.
Proof. intros tt id t ts H. apply C67_position_prints_iff. rewrite modify_all_id. exact H. Qed.
Theorem C67_zero_position_panics_refuted : exists p : position f64, forall tt, position_string tt p = Panic PSlice.
Proof. exists zero_position. reflexivity. Qed.
Theorem C67_nil_asset_panics_refuted : exists b, balance_string b = Panic PNil.
Proof. exists (mkBalance None (i2f 1)). reflexivity. Qed.
(** The same balance inside a snapshot prints. *)
Theorem C67_nil_asset_in_snapshot : forall x,
  assets_snapshot_string (mkAssetSnap x [mkBalance None (i2f 1)]) =
  ("Time: " ++ sprintf_f 6 x ++ ", Assets: [{<nil> 1}]" ++ nl)%string.
Proof. intros x. reflexivity. Qed.
Theorem C67_print_total : forall ob, exists s, book_print ob = Ret s.
Proof. intros ob. eexists. apply book_print_eq. Qed.
Example C67_example :
  let t := mkTrade "t1" 0 "buy" "market" (mkPair eur usd) (i2f 3) (i2f 2) (i2f 0) (i2f 6) "" in
  position_string no_times (@new_position f64 f64_num "c8l1v2k3m4n5o6p7q8r9" t) =
  Ret ("ID: c8l1v2k3 Type: long Pair: EUR/USD" ++ nl ++ " Open: true OpenPrice: 3.00 ClosePrice: 0.00 Quantity: 2.0000 Profit: 0.00 OpenTime: T CloseTime: T # Trades: 1" ++ nl)%string.
Proof. vm_compute. reflexivity. Qed.

(** ** C69 *)
Ltac count_lines := rewrite ?newlines_app, ?sprintf_f_newlines, ?fmt_int_newlines, ?fmt_v_newlines.

Theorem C69_number_records : forall b t r (f : @fractal f64),
  newlines (balance_snapshot_string b) = 1%nat /\ newlines (ticker_string t) = 1%nat /\
  newlines (row_string r) = 1%nat /\ newlines (fractal_string f) = 1%nat.
Proof.
  intros b t r f. rewrite balance_snapshot_eq, ticker_eq, row_eq, fractal_eq. count_lines.
  repeat split. destruct (fr_type f); reflexivity.
Qed.
Theorem C69_close_order : forall c, without newline (co_order_id c) -> newlines (close_order_string c) = 1%nat.
Proof. intros c H. apply newlines_without in H. rewrite close_order_eq. count_lines. rewrite H. reflexivity. Qed.
Theorem C69_annotation : forall a : annotation f64,
  without newline (an_id a) -> without newline (an_execution_id _ a) -> without newline (an_label _ a) -> without newline (an_tooltip _ a) ->
  newlines (annotation_string a) = 1%nat.
Proof. intros a. rewrite !newlines_without. intros H1 H2 H3 H4. rewrite annotation_eq. count_lines. rewrite H1, H2, H3, H4. reflexivity. Qed.
Theorem C69_candle : forall tt c, (forall t, without newline (tt t)) -> newlines (candle_string tt c) = 1%nat.
Proof. intros tt c H. rewrite candle_eq. count_lines. pose proof (proj1 (newlines_without _) (H (c_time c * 1000000000))) as ->. reflexivity. Qed.
Theorem C69_trade : forall tt (t : trade f64), (forall x, without newline (tt x)) ->
  without newline (t_id t) -> without newline (t_action t) -> without newline (t_order_type t) ->
  (forall a, a = p_base (t_pair t) \/ a = p_quote (t_pair t) ->
    without newline (a_name a) /\ without newline (a_symbol a) /\ without newline (a_alt a)) ->
  newlines (trade_string tt t) = 1%nat.
Proof.
  intros tt t Ht H1 H2 H3 Ha. rewrite trade_eq. unfold show_pair, show_asset, show_struct. cbn [spaced].
  destruct (Ha (p_base (t_pair t)) (or_introl eq_refl)) as (B1 & B2 & B3).
  destruct (Ha (p_quote (t_pair t)) (or_intror eq_refl)) as (Q1 & Q2 & Q3).
  specialize (Ht (t_time t)). rewrite newlines_without in *. count_lines.
  rewrite H1, H2, H3, B1, B2, B3, Q1, Q2, Q3, Ht. reflexivity.
Qed.
Theorem C69_order_without_pair : forall tt (o : order f64), (forall x, without newline (tt x)) -> o_pair o = None ->
  without newline (o_id o) -> without newline (o_action _ o) -> without newline (o_type _ o) -> without newline (o_status o) ->
  newlines (order_string tt o) = 1%nat.
Proof.
  intros tt o Ht Hp H1 H2 H3 H4. rewrite order_eq, Hp. pose proof (Ht (o_open_time _ o)) as T1. pose proof (Ht (o_close_time _ o)) as T2.
  rewrite newlines_without in *. count_lines. rewrite H1, H2, H3, H4, T1, T2. reflexivity.
Qed.
(** The text of a pair ends its line, so records with a pair are broken in two. *)
Theorem C69_order_broken : forall tt (o : order f64) p, (forall x, without newline (tt x)) -> o_pair o = Some p ->
  without newline (o_id o) -> without newline (o_action _ o) -> without newline (o_type _ o) -> without newline (o_status o) ->
  without newline (a_symbol (p_base p)) -> without newline (a_symbol (p_quote p)) ->
  newlines (order_string tt o) = 2%nat.
Proof.
  intros tt o p Ht Hp H1 H2 H3 H4 H5 H6. rewrite order_eq, Hp. pose proof (Ht (o_open_time _ o)) as T1. pose proof (Ht (o_close_time _ o)) as T2.
  pose proof (pair_newlines p H5 H6) as P.
  rewrite newlines_without in *. count_lines. rewrite H1, H2, H3, H4, T1, T2, P. reflexivity.
Qed.
Theorem C69_order_request_broken : forall o : order_request f64,
  without newline (r_action o) -> without newline (r_type o) ->
  without newline (a_symbol (p_base (r_pair o))) -> without newline (a_symbol (p_quote (r_pair o))) ->
  newlines (order_request_string o) = 2%nat.
Proof.
  intros o H1 H2 H3 H4. pose proof (pair_newlines _ H3 H4) as P. rewrite order_request_eq. rewrite newlines_without in *.
  count_lines. rewrite H1, H2, P. reflexivity.
Qed.
Theorem C69_position_broken : forall tt (p : position f64) s, (forall x, without newline (tt x)) ->
  without newline (ps_id p) -> without newline (ps_type p) ->
  without newline (a_symbol (p_base (ps_pair p))) -> without newline (a_symbol (p_quote (ps_pair p))) ->
  position_string tt p = Ret s -> newlines s = 2%nat.
Proof.
  intros tt p s Ht H1 H2 H3 H4 Hs. pose proof (pair_newlines _ H3 H4) as P.
  assert (8 <= Z.of_nat (String.length (ps_id p))) as L by (apply (C67_position_prints_iff tt); eauto).
  pose proof (Ht (ps_open_time p)) as T1. pose proof (Ht (ps_close_time p)) as T2.
  rewrite position_eq in Hs by assumption. apply Ret_inj in Hs as <-. rewrite newlines_without in *. count_lines.
  rewrite (substring_newlines 0 8 _ H1), H2, P, T1, T2. destruct (ps_open p); reflexivity.
Qed.
Theorem C69_balance_broken : forall b a s, bl_asset b = Some a -> without newline (a_name a) -> without newline (a_symbol a) ->
  balance_string b = Ret s -> newlines s = 2%nat.
Proof.
  intros b a s Ha H1 H2 Hs. pose proof (asset_newlines a H1 H2) as A. rewrite (balance_eq b a Ha) in Hs. apply Ret_inj in Hs as <-.
  count_lines. rewrite A. reflexivity.
Qed.
Theorem C69_one_line_refuted : exists o : order f64, newlines (order_string no_times o) = 2%nat.
Proof.
  exists (mkOrder "o1" "buy" "limit" (Some (mkPair eur usd)) (i2f 1) (i2f 1) (i2f 0) (i2f 0) (i2f 1) "unfilled" 0 0 [] (i2f 0) (i2f 0) "" "").
  vm_compute. reflexivity.
Qed.
Example C69_example : newlines (ticker_string (mkTicker 5 (i2f 1) (i2f 2) (i2f 3) (i2f 4) (i2f 5))) = 1%nat /\
  newlines (order_request_string (mkRequest "buy" "limit" (mkPair eur usd) (i2f 1) (i2f 0) (i2f 0) (i2f 1) (i2f 1))) = 2%nat.
Proof. vm_compute. split; reflexivity. Qed.

(** ** C70 *)
Theorem C70_book_text_determines_book : forall ob ob' : book f64, book_string ob = book_string ob' ->
  b_time ob = b_time ob' /\ asks ob = asks ob' /\ bids ob = bids ob'.
Proof. exact book_string_inj. Qed.
(** Print: asks from the last to the first, then bids from the first to the last. *)
Theorem C70_print : forall ob : book f64, exists als bls,
  book_print ob = Ret (text_of (["======= OrderBook ======="] ++ als ++ ["-------------------------"] ++ bls) "") /\
  Forall2 row_line (rev (asks ob)) als /\ Forall2 row_line (bids ob) bls.
Proof.
  intros ob. exists (map show_row (rev (asks ob))), (map show_row (bids ob)). split; [apply book_print_eq|].
  assert (forall l, Forall2 row_line l (map show_row l)) as K.
  { induction l; constructor; [apply row_line_show|assumption]. }
  auto.
Qed.
Example C70_example :
  let ob := mkBook 7 [mkRow (f64_const 15 (-1)) (i2f 2) (i2f 2); mkRow (i2f 3) (i2f 4) (i2f 6)] [mkRow (i2f 1) (i2f 9) (i2f 9)] 5 in
  book_string ob = ("Time: 7, Asks: [{1.5 2 2} {3 4 6}], Bids: [{1 9 9}]" ++ nl)%string /\
  book_print ob = Ret (text_of ["======= OrderBook ======="; "{3 4 6}"; "{1.5 2 2}"; "-------------------------"; "{1 9 9}"] "").
Proof. vm_compute. split; reflexivity. Qed.

(** ** C71 *)
Theorem C71_balance_snapshot : forall (b : balance_snapshot), 
  exists s0 s1 s2 s3,
    decimal_text 6 (bs_balance b) s0 /\ decimal_text 6 (bs_equity b) s1 /\ decimal_text 6 (bs_margin b) s2 /\ decimal_text 6 (bs_free b) s3 /\
    balance_snapshot_string b =
    ("Balance: " ++ s0 ++ ", Equity: " ++ s1 ++ ", Margin: " ++ s2 ++ ", Free Margin: " ++ s3 ++ nl)%string.
Proof.
  intros b. exists (sprintf_f 6 (bs_balance b)), (sprintf_f 6 (bs_equity b)), (sprintf_f 6 (bs_margin b)), (sprintf_f 6 (bs_free b)).
  repeat match goal with |- _ /\ _ => split; [auto using fmt_int_text, sprintf_f_text, bool_text_if|] end.
  now apply balance_snapshot_eq.
Qed.
Theorem C71_ticker : forall (t : ticker), 
  exists s0 s1 s2 s3 s4 s5,
    int_text (tk_time t) s0 /\ decimal_text 6 (tk_ask t) s1 /\ decimal_text 6 (tk_bid t) s2 /\ decimal_text 6 (tk_last t) s3 /\ decimal_text 6 (tk_volume t) s4 /\ decimal_text 6 (tk_vwap t) s5 /\
    ticker_string t =
    ("Time: " ++ s0 ++ ", Ask: " ++ s1 ++ ", Bid: " ++ s2 ++ ", Last: " ++ s3 ++ ", Volume: " ++ s4 ++ ", VWAP: " ++ s5 ++ nl)%string.
Proof.
  intros t. exists (fmt_int (tk_time t)), (sprintf_f 6 (tk_ask t)), (sprintf_f 6 (tk_bid t)), (sprintf_f 6 (tk_last t)), (sprintf_f 6 (tk_volume t)), (sprintf_f 6 (tk_vwap t)).
  repeat match goal with |- _ /\ _ => split; [auto using fmt_int_text, sprintf_f_text, bool_text_if|] end.
  now apply ticker_eq.
Qed.
Theorem C71_row : forall (r : row f64), 
  exists s0 s1 s2,
    decimal_text 3 (price r) s0 /\ decimal_text 3 (volume r) s1 /\ decimal_text 3 (accum r) s2 /\
    row_string r =
    ("Price: " ++ s0 ++ ", Volume: " ++ s1 ++ ", AccumVolume: " ++ s2 ++ nl)%string.
Proof.
  intros r. exists (sprintf_f 3 (price r)), (sprintf_f 3 (volume r)), (sprintf_f 3 (accum r)).
  repeat match goal with |- _ /\ _ => split; [auto using fmt_int_text, sprintf_f_text, bool_text_if|] end.
  now apply row_eq.
Qed.
Theorem C71_close_order : forall (c : close_order f64), 
  exists s0,
    decimal_text 6 (co_price c) s0 /\
    close_order_string c =
    ("Price: " ++ s0 ++ ", OrderID: " ++ (co_order_id c) ++ nl)%string.
Proof.
  intros c. exists (sprintf_f 6 (co_price c)).
  repeat match goal with |- _ /\ _ => split; [auto using fmt_int_text, sprintf_f_text, bool_text_if|] end.
  now apply close_order_eq.
Qed.
Theorem C71_order_request : forall (o : order_request f64), 
  exists s0 s1 s2,
    decimal_text 4 (r_quantity o) s0 /\ decimal_text 4 (r_price o) s1 /\ decimal_text 4 (r_total o) s2 /\
    order_request_string o =
    ("Action: " ++ (r_action o) ++ " | Type: " ++ (r_type o) ++ " | Pair: " ++ (pair_string (r_pair o)) ++ " | Quantity: " ++ s0 ++ " | Price: $" ++ s1 ++ " | Total: $" ++ s2 ++ nl)%string.
Proof.
  intros o. exists (sprintf_f 4 (r_quantity o)), (sprintf_f 4 (r_price o)), (sprintf_f 4 (r_total o)).
  repeat match goal with |- _ /\ _ => split; [auto using fmt_int_text, sprintf_f_text, bool_text_if|] end.
  now apply order_request_eq.
Qed.
Theorem C71_annotation : forall (a : annotation f64), 
  exists s0 s1 s2,
    int_text (an_time _ a) s0 /\ int_text (an_creation_time _ a) s1 /\ decimal_text 6 (an_price _ a) s2 /\
    annotation_string a =
    ("ID: " ++ (an_id a) ++ ", Time: " ++ s0 ++ ", Creation Time: " ++ s1 ++ ", Price: " ++ s2 ++ ", ExecutionID: " ++ (an_execution_id _ a) ++ ", Label: " ++ (an_label _ a) ++ ", Tooltip: " ++ (an_tooltip _ a) ++ nl)%string.
Proof.
  intros a. exists (fmt_int (an_time _ a)), (fmt_int (an_creation_time _ a)), (sprintf_f 6 (an_price _ a)).
  repeat match goal with |- _ /\ _ => split; [auto using fmt_int_text, sprintf_f_text, bool_text_if|] end.
  now apply annotation_eq.
Qed.
Theorem C71_candle : forall (c : candle f64) tt, 
  exists s0 s1 s2 s3 s4,
    decimal_text 4 (c_open c) s0 /\ decimal_text 4 (c_high c) s1 /\ decimal_text 4 (c_low c) s2 /\ decimal_text 4 (c_close c) s3 /\ decimal_text 4 (c_volume c) s4 /\
    candle_string tt c =
    ("Time: " ++ (tt (c_time c * 1000000000)%Z) ++ " | Open: " ++ s0 ++ " | High: " ++ s1 ++ " | Low: " ++ s2 ++ " | Close: " ++ s3 ++ " | Volume: " ++ s4 ++ nl)%string.
Proof.
  intros c tt. exists (sprintf_f 4 (c_open c)), (sprintf_f 4 (c_high c)), (sprintf_f 4 (c_low c)), (sprintf_f 4 (c_close c)), (sprintf_f 4 (c_volume c)).
  repeat match goal with |- _ /\ _ => split; [auto using fmt_int_text, sprintf_f_text, bool_text_if|] end.
  now apply candle_eq.
Qed.
Theorem C71_trade : forall (t : trade f64) tt, 
  exists s0 s1 s2 s3,
    decimal_text 2 (t_price t) s0 /\ decimal_text 4 (t_quantity t) s1 /\ decimal_text 2 (t_fee t) s2 /\ decimal_text 2 (t_cost t) s3 /\
    trade_string tt t =
    ("ID: " ++ (t_id t) ++ " Execution Time: " ++ (tt (t_time t)) ++ " Action: " ++ (t_action t) ++ " Type: " ++ (t_order_type t) ++ " Pair: " ++ (show_pair (t_pair t)) ++ " Price: $" ++ s0 ++ " Quantity: " ++ s1 ++ " Fee: $" ++ s2 ++ " Cost: $" ++ s3 ++ nl)%string.
Proof.
  intros t tt. exists (sprintf_f 2 (t_price t)), (sprintf_f 4 (t_quantity t)), (sprintf_f 2 (t_fee t)), (sprintf_f 2 (t_cost t)).
  repeat match goal with |- _ /\ _ => split; [auto using fmt_int_text, sprintf_f_text, bool_text_if|] end.
  now apply trade_eq.
Qed.
Theorem C71_order : forall (o : order f64) tt, 
  exists s0 s1 s2 s3 s4,
    decimal_text 4 (o_price _ o) s0 /\ decimal_text 4 (o_volume _ o) s1 /\ decimal_text 4 (o_exec_volume _ o) s2 /\ decimal_text 4 (o_fee _ o) s3 /\ decimal_text 4 (o_cost _ o) s4 /\
    order_string tt o =
    ("ID: " ++ (o_id o) ++ " | Action: " ++ (o_action _ o) ++ " | Type: " ++ (o_type _ o) ++ " | Pair: " ++ (match o_pair o with None => "" | Some p => pair_string p end) ++ " | Price: " ++ s0 ++ " | Volume: " ++ s1 ++ " | ExecVolume: " ++ s2 ++ " | Fee: $" ++ s3 ++ " | Cost: $" ++ s4 ++ " | Status: " ++ (o_status o) ++ " | OT: " ++ (tt (o_open_time _ o)) ++ " | CT: " ++ (tt (o_close_time _ o)) ++ nl)%string.
Proof.
  intros o tt. exists (sprintf_f 4 (o_price _ o)), (sprintf_f 4 (o_volume _ o)), (sprintf_f 4 (o_exec_volume _ o)), (sprintf_f 4 (o_fee _ o)), (sprintf_f 4 (o_cost _ o)).
  repeat match goal with |- _ /\ _ => split; [auto using fmt_int_text, sprintf_f_text, bool_text_if|] end.
  now apply order_eq.
Qed.
Theorem C71_fractal : forall (f : @fractal f64), 
  exists s0 s1,
    int_text (fr_time f) s0 /\ decimal_text 6 (fr_price f) s1 /\
    fractal_string f =
    (s0 ++ " " ++ s1 ++ " " ++ (match fr_type f with FractalUp => "up" | FractalDown => "down" end) ++ nl)%string.
Proof.
  intros f. exists (fmt_int (fr_time f)), (sprintf_f 6 (fr_price f)).
  repeat match goal with |- _ /\ _ => split; [auto using fmt_int_text, sprintf_f_text, bool_text_if|] end.
  now apply fractal_eq.
Qed.
Theorem C71_position : forall (p : position f64) tt, 8 <= Z.of_nat (String.length (ps_id p)) ->
  exists s0 s1 s2 s3 s4 s5,
    bool_text (ps_open p) s0 /\ decimal_text 2 (ps_open_price p) s1 /\ decimal_text 2 (ps_close_price p) s2 /\ decimal_text 4 (ps_quantity p) s3 /\ decimal_text 2 (ps_profit p) s4 /\ int_text (Z.of_nat (List.length (ps_trades p))) s5 /\
    position_string tt p =
    Ret ("ID: " ++ (substring 0 8 (ps_id p)) ++ " Type: " ++ (ps_type p) ++ " Pair: " ++ (pair_string (ps_pair p)) ++ " Open: " ++ s0 ++ " OpenPrice: " ++ s1 ++ " ClosePrice: " ++ s2 ++ " Quantity: " ++ s3 ++ " Profit: " ++ s4 ++ " OpenTime: " ++ (tt (ps_open_time p)) ++ " CloseTime: " ++ (tt (ps_close_time p)) ++ " # Trades: " ++ s5 ++ nl)%string.
Proof.
  intros p tt H. exists (if (ps_open p) then "true" else "false"), (sprintf_f 2 (ps_open_price p)), (sprintf_f 2 (ps_close_price p)), (sprintf_f 4 (ps_quantity p)), (sprintf_f 2 (ps_profit p)), (fmt_int (Z.of_nat (List.length (ps_trades p)))).
  repeat match goal with |- _ /\ _ => split; [auto using fmt_int_text, sprintf_f_text, bool_text_if|] end.
  now apply position_eq.
Qed.
Theorem C71_balance : forall b a, bl_asset b = Some a -> exists s0, decimal_text 6 (bl_amount b) s0 /\
  balance_string b = Ret ("Asset: " ++ a_name a ++ ": " ++ a_symbol a ++ nl ++ ", Amount: " ++ s0 ++ nl)%string.
Proof.
  intros b a H. exists (sprintf_f 6 (bl_amount b)). split; [apply sprintf_f_text|]. rewrite (balance_eq b a H).
  unfold asset_string. rewrite !sapp_assoc. reflexivity.
Qed.
(** The balances of a snapshot, all of them and in order, each amount written
    so that reading it gives it back; a balance without an asset is shown with
    "<nil>". *)
Theorem C71_assets_snapshot : forall a, exists s0 texts, decimal_text 6 (as_time a) s0 /\
  Forall2 (fun b s => exists v, parse_float v = inl (bl_amount b) /\ without " " v /\
    s = match bl_asset b with
        | None => ("{<nil> " ++ v ++ "}")%string
        | Some x => ("{" ++ a_name x ++ ": " ++ a_symbol x ++ nl ++ " " ++ v ++ "}")%string
        end) (as_assets a) texts /\
  assets_snapshot_string a = ("Time: " ++ s0 ++ ", Assets: [" ++ String.concat " " texts ++ "]" ++ nl)%string.
Proof.
  intros a. exists (sprintf_f 6 (as_time a)), (map show_balance (as_assets a)). split; [apply sprintf_f_text|]. split.
  - induction (as_assets a) as [|b l IH]; constructor; [|exact IH]. exists (fmt_v (bl_amount b)).
    split; [apply parse_fmt_v|]. split; [eapply without_all; [apply fmt_v_chars|reflexivity]|].
    unfold show_balance, show_struct, asset_string. cbn [spaced]. destruct (bl_asset b); now rewrite ?sapp_assoc.
  - rewrite assets_snapshot_eq. unfold show_slice.
    assert (forall l, spaced l = String.concat " " l) as K.
    { induction l as [|x [|y l] IH]; [reflexivity|reflexivity|]. cbn [spaced String.concat] in *. now rewrite IH. }
    rewrite K, !sapp_assoc. reflexivity.
Qed.
Example C71_assets_example :
  assets_snapshot_string (mkAssetSnap (i2f 5) [mkBalance (Some eur) (i2f 3); mkBalance None (f64_const 25 (-1))]) =
  ("Time: 5.000000, Assets: [{Euro: EUR" ++ nl ++ " 3} {<nil> 2.5}]" ++ nl)%string.
Proof. vm_compute. reflexivity. Qed.
Theorem C71_annotations : forall l, exists body, add_annotations_string l = ("Annotations:" ++ nl ++ body)%string /\
  body = List.fold_right (fun a t => (annotation_string a ++ nl ++ t)%string) "" l.
Proof.
  intros l. eexists. split; [|reflexivity]. unfold add_annotations_string.
  change ("Annotations:" ++ nl ++ ?b)%string with (("Annotations:" ++ nl) ++ b)%string.
  generalize ("Annotations:" ++ nl)%string. induction l as [|a l IH]; intros s; cbn [fold_left fold_right]; [now rewrite sapp_nil_r|].
  rewrite IH, sapp_assoc. f_equal.
  change (sprintf ("%s" ++ nl) [AStr (annotation_string a)]) with (annotation_string a ++ nl)%string. now rewrite sapp_assoc.
Qed.
Example C71_example :
  candle_string no_times (mkCandle 60 (f64_const 12345678 (-6)) (i2f 13) (f64_const (-5) (-5)) (f64_const 25 (-5)) (i2f 0)) =
  ("Time: T | Open: 12.3457 | High: 13.0000 | Low: -0.0001 | Close: 0.0003 | Volume: 0.0000" ++ nl)%string.
Proof. vm_compute. reflexivity. Qed.

(** Nothing is left open by [decimal_text]: at most one text satisfies it, and
    ties go to the even last digit. *)
Theorem C71_text_determined : forall k x s t, decimal_text k x s -> decimal_text k x t -> s = t.
Proof. exact decimal_text_unique. Qed.
Theorem C71_every_value_has_text : forall k x, exists s, decimal_text (S k) x s.
Proof. intros k x. exists (sprintf_f (S k) x). apply sprintf_f_text. Qed.
(** 1/16 and 3/16 lie in the middle between two texts with three decimals. *)
Example C71_tie_example :
  row_string (mkRow (f64_const 625 (-4)) (f64_const 1875 (-4)) (f64_const (-625) (-4))) =
  ("Price: 0.062, Volume: 0.188, AccumVolume: -0.062" ++ nl)%string /\
  decimal_text 3 (f64_const 625 (-4)) "0.062" /\ ~ decimal_text 3 (f64_const 625 (-4)) "0.063".
Proof.
  assert (decimal_text 3 (f64_const 625 (-4)) "0.062") as A.
  { assert ("0.062" = sprintf_f 3 (f64_const 625 (-4))) as -> by (vm_compute; reflexivity). apply sprintf_f_text. }
  split; [vm_compute; reflexivity|]. split; [exact A|].
  intros B. discriminate (decimal_text_unique _ _ _ _ A B).
Qed.
