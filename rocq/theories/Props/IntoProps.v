(** C101: JSON read into a variable that already holds a value. *)
From Coq Require Import ZArith Lia List Bool String Sorted.
From Flocq Require Import Core BinarySingleNaN.
From Verif Require Import Go.Float64 Go.Json Go.JsonInto Model.Asset Model.Pair Model.Candle Model.OrderBook Model.Entities Model.Strings
  Model.Strategy Model.Indicators Model.Stored Spec.JsonSpec Spec.StoredSpec Spec.DecimalSpec Spec.JsonReadSpec Spec.IntoSpec
  Proofs.JsonValue Proofs.JsonStrict Proofs.Stored Proofs.Into Proofs.IntoRead Proofs.IntoParts Proofs.JsonText Proofs.JsonRead Props.JsonProps Props.JsonReadProps Props.JsonStrictProps.
Import ListNotations.
Open Scope string_scope.
Open Scope list_scope.

(** Unmarshal into a fresh variable is the special case of the zero value. *)
Theorem C101_fresh : forall t s, unmarshal t s = unmarshal_into t (zero t) s.
Proof. exact (fun t s => eq_refl). Qed.
(** Any JSON text, over any value. *)
Theorem C101_read_over : forall t old j s v, well_cased t -> shaped t old -> document j s -> ~ too_deep j -> denotes_over t old j v ->
  unmarshal_into t old s = Some v.
Proof. exact read_over. Qed.
(** The text of a stored value, over any value. *)
Theorem C101_stored_over : forall t v old, (type_levels t <=? max_nesting)%Z = true -> well_named t -> storable t v -> shaped t old ->
  exists s r, marshal t v = Some s /\ unmarshal_into t old s = Some r /\ over t old v r.
Proof. exact marshal_into. Qed.
Theorem C101_without_maps : forall t old v r, without_maps t -> over t old v r -> r = v.
Proof. exact (fun t old v r H => over_no_maps t H old v r). Qed.
Theorem C101_asset_replaced : forall a, asset_ok a -> replaces asset_type asset_val asset_of a.
Proof. exact asset_replaces. Qed.
Theorem C101_pair_replaced : forall p, pair_ok p -> replaces pair_type pair_val pair_of p.
Proof. exact pair_replaces. Qed.
Theorem C101_candle_replaced : forall c, candle_ok c -> replaces candle_type candle_val candle_of c.
Proof. exact candle_replaces. Qed.
Theorem C101_row_replaced : forall r, row_ok r -> replaces row_type row_val row_of r.
Proof. exact row_replaces. Qed.
Theorem C101_update_replaced : forall u, update_ok u -> replaces update_type update_val update_of u.
Proof. exact update_replaces. Qed.
Theorem C101_book_replaced : forall na nb b, book_ok b -> replaces book_type (book_val na nb) book_of b.
Proof. exact book_replaces. Qed.
Theorem C101_ticker_replaced : forall t, ticker_ok t -> replaces ticker_type ticker_val ticker_of t.
Proof. exact ticker_replaces. Qed.
Theorem C101_trade_replaced : forall z t, trade_ok z t -> replaces trade_type (trade_val z) trade_of t.
Proof. exact trade_replaces. Qed.
Theorem C101_order_replaced : forall z z' nil o, order_ok z z' o -> replaces order_type (order_val z z' nil) order_of o.
Proof. exact order_replaces. Qed.
Theorem C101_position_replaced : forall z z' nil p, position_ok z z' p -> replaces position_type (position_val z z' nil) position_of p.
Proof. exact position_replaces. Qed.
Theorem C101_request_replaced : forall r, request_ok r -> replaces request_type request_val request_of r.
Proof. exact request_replaces. Qed.
Theorem C101_balance_snapshot_replaced : forall b, balance_snapshot_ok b -> replaces balance_snapshot_type balance_snapshot_val balance_snapshot_of b.
Proof. exact balance_snapshot_replaces. Qed.
Theorem C101_balance_replaced : forall b, balance_ok b -> replaces balance_type balance_val balance_of b.
Proof. exact balance_replaces. Qed.
Theorem C101_assets_snapshot_replaced : forall nil a, assets_snapshot_ok a -> replaces assets_snapshot_type (assets_snapshot_val nil) assets_snapshot_of a.
Proof. exact assets_snapshot_replaces. Qed.
Theorem C101_annotation_replaced : forall a, annotation_ok a -> replaces annotation_type annotation_val annotation_of a.
Proof. exact annotation_replaces. Qed.
Theorem C101_create_order_replaced : forall c, create_order_ok c -> replaces create_order_type create_order_val create_order_of c.
Proof. exact create_order_replaces. Qed.
Theorem C101_update_order_replaced : forall u, update_order_ok u -> replaces update_order_type update_order_val update_order_of u.
Proof. exact update_order_replaces. Qed.
Theorem C101_cancel_order_replaced : forall c, cancel_order_ok c -> replaces cancel_order_type cancel_order_val cancel_order_of c.
Proof. exact cancel_order_replaces. Qed.
Theorem C101_update_position_replaced : forall u, update_position_ok u -> replaces update_position_type update_position_val update_position_of u.
Proof. exact update_position_replaces. Qed.
Theorem C101_close_position_replaced : forall c, close_position_ok c -> replaces close_position_type close_position_val close_position_of c.
Proof. exact close_position_replaces. Qed.
Theorem C101_fractal_replaced : forall f, fractal_ok f -> replaces fractal_type fractal_val fractal_of f.
Proof. exact fractal_replaces. Qed.

(** Two of the repository's types contain maps; a stored Tick without open
    orders, read over a Tick with one, leaves that order open. *)
Definition no_orders : goval := VStruct [VPtr None; VPtr None; VMap (Some []); VMap None; VMap None; VFloat (B754_zero false)].
Definition one_order : goval := VStruct [VPtr None; VPtr None; VMap (Some [("o1", zero order_type)]); VMap None; VMap None; VFloat (B754_zero false)].
Theorem C101_tick_replaced_refuted : exists v old s, storable tick_type v /\ shaped tick_type old /\ marshal tick_type v = Some s /\
  exists x r, unmarshal_into tick_type old s = Some r /\ r <> v /\
    r = VStruct [VPtr None; VPtr None; VMap (Some [("o1", x)]); VMap None; VMap None; VFloat (B754_zero false)].
Proof.
  exists no_orders, one_order, "{""Candle"":null,""PendingActions"":null,""OpenOrders"":{},""OpenPositions"":null,""ClosedPositions"":null,""Capital"":0}".
  split; [cbn; repeat split; constructor|]. split.
  - split; [exact I|]. split; [exact I|]. split; [|cbn; tauto].
    split; [apply Forall_cons; [apply shaped_zero|apply Forall_nil]|apply SSorted_cons; [apply SSorted_nil|apply Forall_nil]].
  - split; [vm_compute; reflexivity|]. exists (zero order_type), one_order. split; [vm_compute; reflexivity|]. split; [intros E; discriminate E|reflexivity].
Qed.
(** An element of an array need not mention all fields; the fields it leaves out
    are those of the element that was there before, not zero. *)
Definition row_volume (v : option goval) : option f64 :=
  match v with Some (VSlice (Some [r])) => option_map (@volume f64) (row_of r) | _ => None end.
Theorem C101_left_out_is_zero_refuted : exists old s, shaped (TSlice row_type) old /\
  match row_volume (unmarshal (TSlice row_type) s), row_volume (unmarshal_into (TSlice row_type) old s) with
  | Some x, Some y => (f64_eq x (i2f 0) && f64_eq y (i2f 5))%bool
  | _, _ => false
  end = true.
Proof.
  exists (VSlice (Some [row_val (mkRow (i2f 4) (i2f 5) (i2f 6))])), "[{""price"":1}]".
  split; [apply Forall_cons; [cbn; tauto|apply Forall_nil]|vm_compute; reflexivity].
Qed.

(** An object is read member by member: its first members, then the others over
    the result.  So of two members for one field or key the later one decides. *)
Theorem C101_in_parts : forall t old ms ms' s s1 s2,
  loose_document (JObj (ms ++ ms')) s -> loose_document (JObj ms) s1 -> loose_document (JObj ms') s2 -> ~ too_deep (JObj (ms ++ ms')) ->
  unmarshal_into t old s = match unmarshal_into t old s1 with Some v => unmarshal_into t v s2 | None => None end.
Proof.
  intros t old ms ms' s s1 s2 H H1 H2. apply C93_accepts in H, H1, H2. exact (into_parts t old ms ms' s s1 s2 H H1 H2).
Qed.
(** The last member of an object read into a map is the entry of its key, whatever
    the map or earlier members held there; other keys keep theirs. *)
Theorem C101_map_entry : forall t old ms raw k j s s0 sj m,
  loose_document (JObj (ms ++ [(raw, j)])) s -> loose_document (JObj ms) s0 -> loose_document j sj -> contents raw k ->
  unmarshal_into (TMap t) old s = Some (VMap (Some m)) ->
  exists v m0, unmarshal t sj = Some v /\ unmarshal_into (TMap t) old s0 = Some (VMap (Some m0)) /\
    entry k m = Some v /\ forall k', k' <> k -> entry k' m = entry k' m0.
Proof.
  intros t old ms raw k j s s0 sj m H H0 Hj Hk E. apply C93_accepts in H, H0, Hj. unfold unmarshal, unmarshal_into in *. rewrite H in E. rewrite H0, Hj.
  pose proof (proj1 (nesting_parts ms [(raw, j)])) as N0. pose proof (nesting_last ms raw j) as N1.
  destruct (Z.leb_spec (nesting (JObj (ms ++ [(raw, j)]))) max_nesting) as [D|]; [|discriminate E].
  destruct (decode_map_last _ _ _ _ _ _ E) as (m0 & v & E0 & Ev & ->). exists v, m0.
  rewrite (proj2 (Z.leb_le (nesting (JObj ms)) _)) by lia. rewrite (proj2 (Z.leb_le (nesting j) _)) by lia.
  rewrite (contents_unquote _ _ Hk). split; [exact Ev|]. split; [exact E0|]. split; [apply entry_put|].
  intros k' Hk'. now apply entry_put_other.
Qed.
(** The zero time is the first moment of year 1, in UTC. *)
Theorem C101_zero_time : exists i, moment "0001-01-01T00:00:00Z" 0 i /\ zero TTime = VTime 0 i.
Proof.
  destruct (C92_calendar 1 1 1) as (n & D); [split; [lia|]; split; [lia|]; split; [lia|]; exists 31%Z; split; [left; cbn; auto|lia]|].
  assert (moment "0001-01-01T00:00:00Z" 0 ((n * 86400 + 0 * 3600 + 0 * 60 + 0 - 0) * 10 ^ 9 + 0)) as M.
  { exists 1%Z, 1%Z, 1%Z, n, 0%Z, 0%Z, 0%Z, "", 0%Z, "Z". split; [vm_compute; reflexivity|]. split; [exact D|].
    repeat (split; [lia|]). split; [constructor|]. split; [constructor|reflexivity]. }
  set (x := ((n * 86400 + 0 * 3600 + 0 * 60 + 0 - 0) * 10 ^ 9 + 0)%Z) in *.
  assert (read_time "0001-01-01T00:00:00Z" = Some (0%Z, x)) as E by (apply C92_time; exact M).
  exists x. split; [exact M|]. clearbody x. vm_compute in E. injection E as E. cbn [zero]. now rewrite <- E.
Qed.
(** A symbol given twice: the second one; a key given twice: the second one. *)
Example C101_twice :
  unmarshal asset_type "{""symbol"":""BTC"",""symbol"":""XBT""}" = Some (asset_val (mkAsset "" "XBT" "")) /\
  unmarshal (TMap TStr) "{""a"":""1"",""b"":""2"",""a"":""3""}" = Some (VMap (Some [("a", VStr "3"); ("b", VStr "2")])).
Proof. split; vm_compute; reflexivity. Qed.

(** The symbol of an asset is replaced, the rest stays. *)
Definition old_asset : goval := asset_val (mkAsset "Bitcoin" "XBT" "XXBT").
Example C101_example : well_cased asset_type /\ shaped asset_type old_asset /\ document (JObj [("symbol", JStr "BTC")]) "{""symbol"":""BTC""}" /\
  denotes_over asset_type old_asset (JObj [("symbol", JStr "BTC")]) (asset_val (mkAsset "Bitcoin" "BTC" "XXBT")) /\
  asset_ok (mkAsset "Bitcoin" "BTC" "XXBT") /\ without_maps asset_type.
Proof.
  assert (contents "symbol" "symbol") as C1 by plain. assert (contents "BTC" "BTC") as C2 by plain.
  split; [pose proof C92_repo_types as H; inversion H; assumption|]. split; [cbn; tauto|]. split.
  - exists "", "{""symbol"":""BTC""}", "". split; [reflexivity|]. split; [constructor|]. split; [|constructor].
    set (well := fun raw => exists s, contents raw s).
    assert (well "symbol") as W1 by (exists "symbol"; exact C1). assert (well "BTC") as W2 by (exists "BTC"; exact C2).
    assert (blank "") as B0 by blanks.
    exact (text_obj _ _ _ (members_last _ _ _ (member_intro _ "" "symbol" "" "" (JStr "BTC") """BTC""" "" B0 W1 B0 B0 (text_str _ _ W2) B0))).
  - split; [|split; [repeat (apply Forall_cons; [text|]); apply Forall_nil|cbn; tauto]].
    right. split; [discriminate|]. exists [("symbol", JStr "BTC")]. eexists. split; [reflexivity|]. split; [reflexivity|].
    split; [apply Forall_cons; [exists "symbol"; split; [exact C1|vm_compute; tauto]|apply Forall_nil]|].
    assert (forall n, in_lower_case "symbol" <> in_lower_case n -> Forall (fun m => ~ named n m) [("symbol", JStr "BTC")]) as N.
    { intros n H. apply Forall_cons; [|apply Forall_nil]. intros (k & C & E). apply H. rewrite <- E.
      cbn [fst] in C. rewrite <- (contents_unquote _ _ C), <- (contents_unquote _ _ C1). reflexivity. }
    split; [left; split; [reflexivity|apply N; vm_compute; discriminate]|].
    split; [|split; [left; split; [reflexivity|apply N; vm_compute; discriminate]|exact I]].
    right. exists [], ("symbol", JStr "BTC"), []. split; [reflexivity|]. split; [exists "symbol"; split; [exact C1|reflexivity]|].
    split; [apply Forall_nil|]. right. split; [discriminate|]. right. split; [discriminate|]. exists "BTC". split; [reflexivity|exact C2].
Qed.

Print Assumptions C101_fresh.
Print Assumptions C101_read_over.
Print Assumptions C101_stored_over.
Print Assumptions C101_without_maps.
Print Assumptions C101_asset_replaced.
Print Assumptions C101_pair_replaced.
Print Assumptions C101_candle_replaced.
Print Assumptions C101_row_replaced.
Print Assumptions C101_update_replaced.
Print Assumptions C101_book_replaced.
Print Assumptions C101_ticker_replaced.
Print Assumptions C101_trade_replaced.
Print Assumptions C101_order_replaced.
Print Assumptions C101_position_replaced.
Print Assumptions C101_request_replaced.
Print Assumptions C101_balance_snapshot_replaced.
Print Assumptions C101_balance_replaced.
Print Assumptions C101_assets_snapshot_replaced.
Print Assumptions C101_annotation_replaced.
Print Assumptions C101_create_order_replaced.
Print Assumptions C101_update_order_replaced.
Print Assumptions C101_cancel_order_replaced.
Print Assumptions C101_update_position_replaced.
Print Assumptions C101_close_position_replaced.
Print Assumptions C101_fractal_replaced.
Print Assumptions C101_tick_replaced_refuted.
Print Assumptions C101_left_out_is_zero_refuted.
Print Assumptions C101_in_parts.
Print Assumptions C101_map_entry.
Print Assumptions C101_zero_time.
