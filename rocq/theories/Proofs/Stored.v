(** The structs of the repository through JSON (C83). *)
From Coq Require Import Lia ZArith NArith List Bool String Ascii.
Import ListNotations.
From Flocq Require Import Core BinarySingleNaN.
From Verif Require Import Go.Outcome Go.Float64 Go.Json Model.Asset Model.Pair Model.Candle Model.OrderBook Model.Entities Model.Strings
  Model.Strategy Model.Indicators Model.Stored Spec.JsonSpec Spec.StoredSpec Go.Text Proofs.Lex Proofs.JsonText Proofs.JsonTree Proofs.JsonValue.
Open Scope string_scope.
Open Scope list_scope.

Ltac text := repeat (apply utf8_1; [reflexivity|]); constructor.
Ltac names :=
  cbn [well_named]; split;
  [cbn [map fst]; repeat (constructor; [cbn [In]; intuition discriminate|]); constructor|].
Lemma named_asset : well_named asset_type.
Proof. names. repeat (split; [text|]; split; [exact I|]). exact I. Qed.
Lemma named_pair : well_named pair_type.
Proof. names. repeat (split; [text|]; split; [exact named_asset|]). exact I. Qed.
Ltac flat := names; repeat (split; [text|]; split; [first [exact I|exact named_asset|exact named_pair]|]); exact I.
Lemma named_candle : well_named candle_type. Proof. flat. Qed.
Lemma named_row : well_named row_type. Proof. flat. Qed.
Lemma named_update : well_named update_type. Proof. flat. Qed.
Lemma named_book : well_named book_type.
Proof. names. repeat (split; [text|]; split; [first [exact I|exact named_row]|]). exact I. Qed.
Lemma named_ticker : well_named ticker_type. Proof. flat. Qed.
Lemma named_trade : well_named trade_type. Proof. flat. Qed.
Lemma named_order : well_named order_type. Proof. flat. Qed.
Lemma named_close : well_named close_order_type. Proof. flat. Qed.
Lemma named_position : well_named position_type.
Proof. names. repeat (split; [text|]; split; [first [exact I|exact named_pair|exact named_close]|]). exact I. Qed.
Lemma named_request : well_named request_type. Proof. flat. Qed.
Lemma named_balance_snapshot : well_named balance_snapshot_type. Proof. flat. Qed.
Lemma named_balance : well_named balance_type. Proof. flat. Qed.
Lemma named_assets_snapshot : well_named assets_snapshot_type.
Proof. names. repeat (split; [text|]; split; [first [exact I|exact named_balance]|]). exact I. Qed.
Lemma named_annotation : well_named annotation_type. Proof. flat. Qed.
Lemma named_create : well_named create_order_type. Proof. flat. Qed.
Lemma named_upd_order : well_named update_order_type. Proof. flat. Qed.
Lemma named_cancel : well_named cancel_order_type. Proof. flat. Qed.
Lemma named_upd_pos : well_named update_position_type. Proof. flat. Qed.
Lemma named_close_pos : well_named close_position_type. Proof. flat. Qed.
Lemma named_fractal : well_named fractal_type. Proof. flat. Qed.
Lemma named_actions : well_named actions_type.
Proof. names. repeat (split; [text|]; split; [first [exact named_create|exact named_upd_order|exact named_cancel|exact named_upd_pos|exact named_close_pos|exact named_annotation]|]). exact I. Qed.
Lemma named_tick : well_named tick_type.
Proof. names. repeat (split; [text|]; split; [first [exact I|exact named_candle|exact named_actions|exact named_order|exact named_position]|]). exact I. Qed.

Lemma survive {A} t (val : A -> goval) of a : (type_levels t <=? max_nesting)%Z = true -> well_named t -> storable t (val a) -> of (val a) = Some a -> survives t val of a.
Proof. intros L W S E. destruct (marshal_unmarshal t (val a) L W S) as (s & E1 & E2). exists s, (val a). auto. Qed.
Ltac surv := apply survive; [vm_compute; reflexivity| | |].

Ltac alls := repeat match goal with
  | H : Forall _ (_ :: _) |- _ => apply Forall_cons_iff in H; destruct H
  | H : _ /\ _ |- _ => destruct H
  end.
Lemma asset_store a : asset_ok a -> storable asset_type (asset_val a).
Proof. unfold asset_ok. intros H. alls. cbn. auto. Qed.
Lemma asset_back a : asset_of (asset_val a) = Some a. Proof. destruct a; reflexivity. Qed.
Lemma pair_store p : pair_ok p -> storable pair_type (pair_val p).
Proof. intros [H1 H2]. repeat split; try exact I; [apply (asset_store _ H1)..|apply (asset_store _ H2)|apply (asset_store _ H2)|apply (asset_store _ H2)]. Qed.
Lemma pair_back p : pair_of (pair_val p) = Some p.
Proof. destruct p as [b q]. unfold pair_val. cbn [pair_of p_base p_quote]. now rewrite !asset_back. Qed.

Lemma slice_store {A} t (f : A -> goval) nil l : Forall (fun a => storable t (f a)) l -> storable (TSlice t) (slice_val f nil l).
Proof.
  intros H. destruct l as [|a l]; [destruct nil; cbn; auto|]. cbn [slice_val storable]. rewrite Forall_map. exact H.
Qed.
Lemma all_back {A} (f : A -> goval) of l : (forall a, of (f a) = Some a) -> all_some (map of (map f l)) = Some l.
Proof. intros H. induction l as [|a l IH]; [reflexivity|]. cbn [map all_some]. now rewrite H, IH. Qed.
Lemma slice_back {A} (f : A -> goval) of nil l : (forall a, of (f a) = Some a) -> slice_of of (slice_val f nil l) = Some l.
Proof. intros H. destruct l as [|a l]; [destruct nil; reflexivity|]. cbn [slice_val slice_of]. now apply all_back. Qed.
Lemma ptr_store {A} t (f : A -> goval) (o : option A) : has_nil t = false -> match o with Some a => storable t (f a) | None => True end ->
  storable (TPtr t) (ptr_val f o).
Proof. intros N H. destruct o; cbn; auto. Qed.
Lemma ptr_back {A} (f : A -> goval) of o : (forall a, of (f a) = Some a) -> ptr_of of (ptr_val f o) = Some o.
Proof. intros H. destruct o; cbn; [now rewrite H|reflexivity]. Qed.
Lemma row_store r : row_ok r -> storable row_type (row_val r).
Proof. unfold row_ok. intros H. alls. cbn. auto. Qed.
Lemma row_back r : row_of (row_val r) = Some r. Proof. destruct r; reflexivity. Qed.
Lemma balance_store b : balance_ok b -> storable balance_type (balance_val b).
Proof.
  intros [H1 H2]. split; [|split; [exact H2|exact I]]. apply ptr_store; [reflexivity|]. destruct (bl_asset b); [now apply asset_store|exact I].
Qed.
Lemma balance_back b : balance_of (balance_val b) = Some b.
Proof. destruct b as [o x]. unfold balance_val. cbn [balance_of bl_asset bl_amount]. now rewrite (ptr_back _ _ _ asset_back). Qed.
Lemma close_store c : close_order_ok c -> storable close_order_type (close_order_val c).
Proof. intros [H1 H2]. cbn. auto. Qed.
Lemma close_back c : close_order_of (close_order_val c) = Some c. Proof. destruct c; reflexivity. Qed.

Theorem asset_survives a : asset_ok a -> survives asset_type asset_val asset_of a.
Proof. intros H. surv; [exact named_asset|now apply asset_store|apply asset_back]. Qed.
Theorem pair_survives p : pair_ok p -> survives pair_type pair_val pair_of p.
Proof. intros H. surv; [exact named_pair|now apply pair_store|apply pair_back]. Qed.
Theorem candle_survives c : candle_ok c -> survives candle_type candle_val candle_of c.
Proof. intros H. surv; [exact named_candle| |destruct c; reflexivity]. unfold candle_ok in H. alls. cbn. auto 10. Qed.
Theorem row_survives r : row_ok r -> survives row_type row_val row_of r.
Proof. intros H. surv; [exact named_row|now apply row_store|apply row_back]. Qed.
Theorem update_survives u : update_ok u -> survives update_type update_val update_of u.
Proof. intros H. surv; [exact named_update| |destruct u; reflexivity]. unfold update_ok in H. alls. cbn. auto. Qed.
Theorem book_survives na nb b : book_ok b -> survives book_type (book_val na nb) book_of b.
Proof.
  intros (H1 & H2 & H3 & H4). surv; [exact named_book| |].
  - split; [exact H1|]. split; [apply slice_store; eapply Forall_impl; [exact row_store|exact H3]|].
    split; [apply slice_store; eapply Forall_impl; [exact row_store|exact H4]|]. split; [exact H2|exact I].
  - destruct b as [t a d m]. unfold book_val. cbn [book_of b_time asks bids max_depth]. now rewrite !(slice_back _ _ _ _ row_back).
Qed.
Theorem ticker_survives t : ticker_ok t -> survives ticker_type ticker_val ticker_of t.
Proof. intros H. surv; [exact named_ticker| |destruct t; reflexivity]. unfold ticker_ok in H. alls. cbn. auto 10. Qed.
Lemma trade_store z t : trade_ok z t -> storable trade_type (trade_val z t).
Proof.
  intros H. unfold trade_ok in H. destruct H as (H1 & H2 & H3 & H4). alls. apply pair_store in H3.
    split; [assumption|]. split; [assumption|]. do 2 (split; [assumption|]). split; [exact H3|]. cbn. auto 10.
Qed.
Theorem trade_survives z t : trade_ok z t -> survives trade_type (trade_val z) trade_of t.
Proof.
  intros H. surv; [exact named_trade|now apply trade_store|].
  unfold trade_val. cbn [trade_of]. rewrite pair_back. destruct t; reflexivity.
Qed.
Lemma order_store z z' nil o : order_ok z z' o -> storable order_type (order_val z z' nil o).
Proof.
  intros H. destruct H as (H1 & H2 & H3 & H4 & H5 & H6). alls. do 3 (split; [assumption|]).
    split; [apply ptr_store; [reflexivity|]; destruct (@o_pair _ o); [now apply pair_store|exact I]|].
    do 6 (split; [assumption|]). split; [exact H3|]. split; [exact H4|]. split; [apply slice_store; exact H5|]. cbn. auto 10.
Qed.
Theorem order_survives z z' nil o : order_ok z z' o -> survives order_type (order_val z z' nil) order_of o.
Proof.
  intros H. surv; [exact named_order|now apply order_store|].
  unfold order_val. cbn [order_of]. rewrite (ptr_back _ _ _ pair_back), (slice_back VStr str_of) by reflexivity. destruct o; reflexivity.
Qed.
Lemma position_store z z' nil p : position_ok z z' p -> storable position_type (position_val z z' nil p).
Proof.
  intros H. destruct H as (H1 & H2 & H3 & H4 & H5 & H6 & H7 & H8). apply pair_store in H2. apply close_store in H3, H4. alls. do 2 (split; [assumption|]).
    split; [exact H2|]. split; [exact I|]. split; [exact H3|]. split; [exact H4|].
    do 4 (split; [assumption|]). split; [exact H5|]. split; [exact H6|]. split; [apply slice_store; exact H7|]. cbn. auto 10.
Qed.
Theorem position_survives z z' nil p : position_ok z z' p -> survives position_type (position_val z z' nil) position_of p.
Proof.
  intros H. surv; [exact named_position|now apply position_store|].
  unfold position_val. cbn [position_of].
    rewrite pair_back, !close_back, (slice_back VStr str_of) by reflexivity. destruct p; reflexivity.
Qed.
Theorem request_survives r : request_ok r -> survives request_type request_val request_of r.
Proof.
  intros H. surv; [exact named_request| |].
  - destruct H as (H1 & H2 & H3). apply pair_store in H2. alls. do 2 (split; [assumption|]). split; [exact H2|]. cbn. auto 10.
  - unfold request_val. cbn [request_of]. rewrite pair_back. destruct r; reflexivity.
Qed.
Theorem balance_snapshot_survives b : balance_snapshot_ok b -> survives balance_snapshot_type balance_snapshot_val balance_snapshot_of b.
Proof. intros H. surv; [exact named_balance_snapshot| |destruct b; reflexivity]. unfold balance_snapshot_ok in H. alls. cbn. auto. Qed.
Theorem balance_survives b : balance_ok b -> survives balance_type balance_val balance_of b.
Proof. intros H. surv; [exact named_balance|now apply balance_store|apply balance_back]. Qed.
Theorem assets_snapshot_survives nil a : assets_snapshot_ok a -> survives assets_snapshot_type (assets_snapshot_val nil) assets_snapshot_of a.
Proof.
  intros [H1 H2]. surv; [exact named_assets_snapshot| |].
  - split; [exact H1|]. split; [|exact I]. apply slice_store. eapply Forall_impl; [exact balance_store|exact H2].
  - unfold assets_snapshot_val. cbn [assets_snapshot_of]. rewrite (slice_back _ _ _ _ balance_back). destruct a; reflexivity.
Qed.
Lemma annotation_store a : annotation_ok a -> storable annotation_type (annotation_val a).
Proof. unfold annotation_ok. intros H. alls. cbn. auto 10. Qed.
Theorem annotation_survives a : annotation_ok a -> survives annotation_type annotation_val annotation_of a.
Proof. intros H. surv; [exact named_annotation|now apply annotation_store|destruct a; reflexivity]. Qed.
Theorem create_order_survives c : create_order_ok c -> survives create_order_type create_order_val create_order_of c.
Proof. intros H. surv; [exact named_create| |destruct c; reflexivity]. unfold create_order_ok in H. alls. cbn. auto 10. Qed.
Theorem update_order_survives u : update_order_ok u -> survives update_order_type update_order_val update_order_of u.
Proof. intros H. surv; [exact named_upd_order| |destruct u; reflexivity]. unfold update_order_ok in H. alls. cbn. auto 10. Qed.
Theorem cancel_order_survives c : cancel_order_ok c -> survives cancel_order_type cancel_order_val cancel_order_of c.
Proof. intros H. surv; [exact named_cancel| |destruct c; reflexivity]. unfold cancel_order_ok in H. alls. cbn. auto. Qed.
Theorem update_position_survives u : update_position_ok u -> survives update_position_type update_position_val update_position_of u.
Proof. intros H. surv; [exact named_upd_pos| |destruct u; reflexivity]. unfold update_position_ok in H. alls. cbn. auto 10. Qed.
Theorem close_position_survives c : close_position_ok c -> survives close_position_type close_position_val close_position_of c.
Proof. intros H. surv; [exact named_close_pos| |destruct c; reflexivity]. unfold close_position_ok in H. alls. cbn. auto. Qed.
Theorem fractal_survives f : fractal_ok f -> survives fractal_type fractal_val fractal_of f.
Proof.
  intros [H1 H2]. surv; [exact named_fractal| |destruct f as [? ? []]; reflexivity].
  split; [exact H1|]. split; [exact H2|]. split; [|exact I]. destruct (fr_type f); cbn [ftype_text storable]; text.
Qed.

(** Actions and Tick: their maps as lists of entries. *)
Theorem actions_survive v : storable actions_type v -> exists s, marshal actions_type v = Some s /\ unmarshal actions_type s = Some v.
Proof. apply marshal_unmarshal; [vm_compute; reflexivity|exact named_actions]. Qed.
Theorem tick_survives v : storable tick_type v -> exists s, marshal tick_type v = Some s /\ unmarshal tick_type s = Some v.
Proof. apply marshal_unmarshal; [vm_compute; reflexivity|exact named_tick]. Qed.

(** *** The text of a candle *)
Lemma float_text x : finite x -> exists t, json_float x = Some t /\ parse_float t = inl x.
Proof. intros H. destruct (json_float_back x H) as (t & E & _ & P). eauto. Qed.
Theorem candle_text c : candle_ok c -> exists o h l k w,
  Forall2 (fun t x => parse_float t = inl x) [o; h; l; k; w] [c_open c; c_high c; c_low c; c_close c; c_volume c] /\
  marshal candle_type (candle_val c) =
    Some ("{""time"":" ++ fmt_int (c_time c) ++ ",""open"":" ++ o ++ ",""high"":" ++ h ++ ",""low"":" ++ l ++
          ",""close"":" ++ k ++ ",""volume"":" ++ w ++ "}")%string.
Proof.
  unfold candle_ok. intros H. alls.
  destruct (float_text (c_open c)) as (o & Eo & Po); [assumption|]. destruct (float_text (c_high c)) as (h & Eh & Ph); [assumption|].
  destruct (float_text (c_low c)) as (l & El & Pl); [assumption|]. destruct (float_text (c_close c)) as (k & Ek & Pk); [assumption|].
  destruct (float_text (c_volume c)) as (w & Ew & Pw); [assumption|]. exists o, h, l, k, w.
  split; [repeat (constructor; [assumption|]); constructor|].
  unfold marshal, candle_val, candle_type. cbn [encode]. rewrite Eo, Eh, El, Ek, Ew. cbn [option_map print map sep_by fst snd].
  unfold quoted. cbn. repeat (rewrite sapp_assoc; cbn [append]). reflexivity.
Qed.

(** *** What cannot be written *)
Lemma nonfinite_iff (x : f64) : ~ finite x <-> is_finite x = false.
Proof. unfold finite. destruct (is_finite x); split; congruence. Qed.
Lemma bad_cons x l : bad (x :: l) <-> is_finite x = false \/ bad l.
Proof. unfold bad. now rewrite Exists_cons, nonfinite_iff. Qed.
Lemma bad_nil : bad [] <-> False.
Proof. unfold bad. now rewrite Exists_nil. Qed.
Theorem candle_refused c : int64_ok (c_time c) ->
  (marshal candle_type (candle_val c) = None <-> bad [c_open c; c_high c; c_low c; c_close c; c_volume c]).
Proof. intros T. rewrite marshal_none by (cbn; auto 10). rewrite !bad_cons, bad_nil. cbn. tauto. Qed.
Theorem ticker_refused t : int64_ok (tk_time t) ->
  (marshal ticker_type (ticker_val t) = None <-> bad [tk_ask t; tk_bid t; tk_last t; tk_volume t; tk_vwap t]).
Proof. intros T. rewrite marshal_none by (cbn; auto 10). rewrite !bad_cons, bad_nil. cbn. tauto. Qed.
Lemma slice_typed {A} t (f : A -> goval) nil l : (forall a, typed t (f a)) -> typed (TSlice t) (slice_val f nil l).
Proof.
  intros H. destruct l as [|a l]; [destruct nil; cbn; auto|]. cbn [slice_val typed]. rewrite Forall_map. apply Forall_forall. auto.
Qed.
Lemma slice_beyond {A} t (f : A -> goval) nil l : beyond_json (TSlice t) (slice_val f nil l) <-> Exists (fun a => beyond_json t (f a)) l.
Proof.
  destruct l as [|a l]; [rewrite Exists_nil; destruct nil; cbn; [tauto|now rewrite Exists_nil]|]. cbn [slice_val beyond_json]. apply Exists_map.
Qed.
Lemma row_beyond r : beyond_json row_type (row_val r) <-> bad [price r; volume r; accum r].
Proof. rewrite !bad_cons, bad_nil. cbn. tauto. Qed.
Theorem book_refused na nb b : int64_ok (b_time b) -> int64_ok (max_depth b) ->
  (marshal book_type (book_val na nb b) = None <-> Exists (fun r => bad [price r; volume r; accum r]) (asks b ++ bids b)).
Proof.
  intros T M. rewrite marshal_none.
  2:{ split; [exact T|]. split; [apply slice_typed; cbn; auto|]. split; [apply slice_typed; cbn; auto|]. split; [exact M|exact I]. }
  assert (forall l, Exists (fun r => bad [price r; volume r; accum r]) l <-> Exists (fun r => beyond_json row_type (row_val r)) l) as R
    by (intros l; apply Exists_ext_in; intros r _; symmetry; apply row_beyond).
  rewrite Exists_app, !R, <- (slice_beyond row_type row_val na), <- (slice_beyond row_type row_val nb).
  change (beyond_json book_type (book_val na nb b)) with
    (False \/ beyond_json (TSlice row_type) (slice_val row_val na (asks b)) \/ beyond_json (TSlice row_type) (slice_val row_val nb (bids b)) \/ False \/ False).
  tauto.
Qed.

Lemma asset_typed a : typed asset_type (asset_val a). Proof. cbn. auto. Qed.
Lemma asset_fine a : ~ beyond_json asset_type (asset_val a). Proof. cbn. tauto. Qed.
Lemma pair_typed p : typed pair_type (pair_val p). Proof. cbn. auto 10. Qed.
Lemma pair_fine p : ~ beyond_json pair_type (pair_val p). Proof. cbn. tauto. Qed.
Lemma pptr_typed o : typed (TPtr pair_type) (ptr_val pair_val o). Proof. destruct o; [apply pair_typed|exact I]. Qed.
Lemma pptr_fine o : ~ beyond_json (TPtr pair_type) (ptr_val pair_val o). Proof. destruct o; [apply pair_fine|exact (fun H => H)]. Qed.
Lemma strs_typed nil l : typed (TSlice TStr) (slice_val VStr nil l). Proof. apply slice_typed. exact (fun _ => I). Qed.
Lemma strs_fine nil l : ~ beyond_json (TSlice TStr) (slice_val VStr nil l).
Proof. rewrite slice_beyond, Exists_exists. intros (x & _ & []). Qed.
Theorem trade_refused z t : clock z (t_time t) ->
  (marshal trade_type (trade_val z t) = None <-> bad [t_price t; t_quantity t; t_fee t; t_cost t] \/ ~ dated z (t_time t)).
Proof.
  intros C. rewrite marshal_none.
  2:{ split; [exact I|]. split; [exact C|]. do 2 (split; [exact I|]). split; [apply pair_typed|]. cbn. auto 10. }
  rewrite !bad_cons, bad_nil. pose proof (pair_fine (t_pair t)) as Hp. unfold trade_type, trade_val.
  remember pair_type as tp eqn:Etp. cbn. clear Etp. unfold dated. tauto.
Qed.
Theorem order_refused z z' nil o : clock z (@o_open_time _ o) -> clock z' (@o_close_time _ o) ->
  (marshal order_type (order_val z z' nil o) = None <->
   bad [@o_price _ o; @o_volume _ o; @o_exec_volume _ o; @o_fee _ o; @o_cost _ o; @o_take_profit _ o; @o_stop_loss _ o] \/
   ~ dated z (@o_open_time _ o) \/ ~ dated z' (@o_close_time _ o)).
Proof.
  intros C C'. rewrite marshal_none.
  2:{ do 3 (split; [exact I|]). split; [apply pptr_typed|]. do 6 (split; [exact I|]). split; [exact C|]. split; [exact C'|].
      split; [apply strs_typed|]. cbn. auto 10. }
  rewrite !bad_cons, bad_nil. pose proof (pptr_fine (@o_pair _ o)) as Hp. pose proof (strs_fine nil (@o_trades _ o)) as Hs. unfold order_type, order_val.
  remember (TPtr pair_type) as tp eqn:Etp. remember (TSlice TStr) as ts eqn:Ets. remember (ptr_val pair_val (@o_pair _ o)) as vp eqn:Evp.
  remember (slice_val VStr nil (@o_trades _ o)) as vs eqn:Evs. cbn. clear Etp Ets Evp Evs. unfold dated. tauto.
Qed.
Theorem position_refused z z' nil p : clock z (ps_open_time p) -> clock z' (ps_close_time p) ->
  (marshal position_type (position_val z z' nil p) = None <->
   bad [co_price (ps_take_profit p); co_price (ps_stop_loss p); ps_open_price p; ps_close_price p; ps_quantity p; ps_profit p] \/
   ~ dated z (ps_open_time p) \/ ~ dated z' (ps_close_time p)).
Proof.
  intros C C'. rewrite marshal_none.
  2:{ do 2 (split; [exact I|]). split; [apply pair_typed|]. split; [exact I|]. do 2 (split; [cbn; auto|]). do 4 (split; [exact I|]).
      split; [exact C|]. split; [exact C'|]. split; [apply strs_typed|]. cbn. auto 10. }
  rewrite !bad_cons, bad_nil. pose proof (pair_fine (ps_pair p)) as Hp. pose proof (strs_fine nil (ps_trades p)) as Hs. unfold position_type, position_val.
  remember pair_type as tp eqn:Etp. remember (TSlice TStr) as ts eqn:Ets.
  remember (slice_val VStr nil (ps_trades p)) as vs eqn:Evs. remember (pair_val (ps_pair p)) as vp eqn:Evp. cbn. clear Etp Ets Evp Evs. unfold dated. tauto.
Qed.

(** *** Strings that are no UTF-8 *)
Theorem asset_reads a : exists s, marshal asset_type (asset_val a) = Some s /\
  unmarshal asset_type s = Some (VStruct [VStr (unquote (escape (a_name a))); VStr (unquote (escape (a_symbol a))); VStr (unquote (escape (a_alt a)))]).
Proof.
  eexists. split; [reflexivity|]. unfold unmarshal. rewrite parse_print; [reflexivity|].
  constructor. repeat (constructor; [split; [intros r; reflexivity|constructor; intros r; apply scan_escape]|]). constructor.
Qed.
Theorem asset_survives_iff a : survives asset_type asset_val asset_of a <-> asset_ok a.
Proof.
  split; [|apply asset_survives]. intros (s & v & M & U & B). destruct (asset_reads a) as (s' & M' & U').
  rewrite M in M'. injection M' as <-. rewrite U in U'. injection U' as ->. cbn [asset_of] in B. injection B as <-.
  unfold asset_ok. cbn [a_name a_symbol a_alt]. repeat (constructor; [apply utf8_escape|]). constructor.
Qed.

(** *** Member names *)
Lemma enc_fields_names fs : forall vs ms, enc_fields fs vs = Some ms -> map fst ms = map (fun f => escape (fst f)) fs.
Proof.
  induction fs as [|[n t] fs IH]; intros [|v vs] ms E; try discriminate E.
  - injection E as <-. reflexivity.
  - change (match encode t v, enc_fields fs vs with Some j, Some l => Some ((escape n, j) :: l) | _, _ => None end = Some ms) in E.
    destruct (encode t v); [|discriminate]. destruct (enc_fields fs vs) as [l|] eqn:El; [|discriminate]. injection E as <-.
    cbn [map fst]. now rewrite (IH _ _ El).
Qed.
Lemma written fs names : well_named (TStruct fs) -> map (fun f => escape (fst f)) fs = names -> written_as (TStruct fs) names.
Proof.
  intros W N v S. destruct (encode_decode _ v W S) as (j & E1 & E2 & _ & _). exists (print j).
  destruct v; try contradiction S. cbn [encode] in E1. change (option_map JObj (enc_fields fs vs) = Some j) in E1.
  destruct (enc_fields fs vs) as [ms|] eqn:Em; [|discriminate]. injection E1 as <-. exists ms.
  split; [unfold marshal; cbn [encode]; fold enc_fields; now rewrite Em|]. split; [now apply parse_print|].
  now rewrite (enc_fields_names _ _ _ Em).
Qed.

(** *** The primary key (C85) *)
Lemma keyed fs id vs : well_named (TStruct (("id", TStr) :: fs)) -> storable (TStruct (("id", TStr) :: fs)) (VStruct (VStr id :: vs)) ->
  ~ In "id" (map (fun f => escape (fst f)) fs) -> keyed_by (TStruct (("id", TStr) :: fs)) (VStruct (VStr id :: vs)) "id" id.
Proof.
  intros W S N. destruct (encode_decode _ _ W S) as (j & E1 & E2 & _ & _).
  cbn [encode] in E1. change (option_map JObj (match enc_fields fs vs with Some l => Some (("id", JStr (escape id)) :: l) | None => None end) = Some j) in E1.
  destruct (enc_fields fs vs) as [ms|] eqn:Em; [|discriminate]. cbn [option_map] in E1. injection E1 as <-.
  exists (print (JObj (("id", JStr (escape id)) :: ms))), [], (escape id), ms.
  split; [unfold marshal; cbn [encode]; fold enc_fields; now rewrite Em|]. split; [now apply parse_print|].
  split; [apply unquote_escape; exact (proj1 S)|]. cbn [app]. now rewrite (enc_fields_names _ _ _ Em).
Qed.
