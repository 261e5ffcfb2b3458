(** Property C109: exactly when each exported function panics (pointers other
    than nil; nil pointers are C110). *)
From Coq Require Import Lia.
From Verif Require Import Go.Outcome Go.Int64 Go.Slice Go.Sort Go.Float64 Go.Num Go.Text Model.OrderBook Model.Candle Model.CandleFile
  Model.Indicators Model.Entities Model.Strategy Model.Strings Spec.OrderBookSpec Spec.CandleSpec Spec.FileSpec Spec.PanicSpec
  Proofs.FileText Proofs.Fractals Proofs.Panics
  Props.OrderBookProps Props.DepthProps Props.CandleProps Props.IndicatorProps Props.EntityProps Props.PrintProps.
Open Scope list_scope.
Open Scope Z_scope.

(** ** Order book *)
Theorem C109_new_order_book : forall now (la lb : rows) d, zlen la <= 2 ^ 53 -> zlen lb <= 2 ^ 53 ->
  (panics (new_order_book now la lb d) <-> d < 0).
Proof. exact new_book_panics. Qed.
Theorem C109_apply_update : forall u ob, zlen (asks ob) + 1 < 2 ^ 53 -> zlen (bids ob) + 1 < 2 ^ 53 ->
  (panics (apply_update u ob) <-> max_depth ob < 0 /\
     ((u_side u = "ask"%string /\ (nonzero u \/ listed (u_price u) (asks ob))) \/
      (u_side u = "bid"%string /\ (nonzero u \/ listed (u_price u) (bids ob))))).
Proof. exact update_panics. Qed.
Theorem C109_get_depth : forall ob p, zlen (asks ob) <= 2 ^ 53 -> zlen (bids ob) <= 2 ^ 53 ->
  (panics (get_depth ob p) <-> f64_le p (i2f 0) = false /\ (asks ob = [] \/ bids ob = [])).
Proof. exact depth_panics. Qed.
Theorem C109_calculate_overlap : forall A B : book f64,
  panics (calculate_overlap A B) <->
  asks A = [] \/ bids B = [] \/
  exists a b, best_ask A a /\ best_bid B b /\ f64_lt a b = false /\ (bids A = [] \/ asks B = []).
Proof.
  intros A B. destruct (C14_overlap_panics_exactly A B) as [H K]. rewrite <- H. split.
  - intros [p E]. rewrite <- (K p E). exact E.
  - intros E. exists PIndex. exact E.
Qed.
(** A book made with a depth of zero or more survives every history, and then
    only GetDepth on a one-sided book panics. *)
Theorem C109_session : forall now la lb d us, 0 <= d ->
  zlen la + zlen us < 2 ^ 53 -> zlen lb + zlen us < 2 ^ 53 ->
  exists ob ob', new_order_book now la lb d = Ret ob /\ apply_updates us ob = Ret ob' /\
    forall p, panics (get_depth ob' p) <-> f64_le p (i2f 0) = false /\ (asks ob' = [] \/ bids ob' = []).
Proof.
  intros now la lb d us Hd La Lb. pose proof (zlen_nonneg us). assert (zlen la <= 2 ^ 53) as La' by lia. assert (zlen lb <= 2 ^ 53) as Lb' by lia.
  pose proof (NewBook.new_book_ok (F := f64) now la lb d La' Lb' Hd) as E. eexists. rewrite E.
  match type of E with _ = Ret ?b => destruct (history_sizes us b) as (ob' & E' & A & B) end; [exact Hd| | |].
  - cbn [asks]. rewrite accum_zlen. pose proof (take_zlen d (slice_stable (fun x y => flt (price x) (price y)) la) Hd). rewrite NewBook.sort_len in *. lia.
  - cbn [bids]. rewrite accum_zlen. pose proof (take_zlen d (slice_stable (fun x y => flt (price y) (price x)) lb) Hd). rewrite NewBook.sort_len in *. lia.
  - exists ob'. split; [reflexivity|]. split; [exact E'|]. intros p. now apply depth_panics.
Qed.

(** ** Candles *)
(** Two first candles less than a minute apart, or interval 0 and a candle
    before the last on the full hour. *)
Theorem C109_modify_interval : forall tz (a b : candle f64) rest n, in_int64 (c_time b - c_time a) ->
  (panics (modify_interval tz (a :: b :: rest) n) <->
   (n <> 1 /\ Z.abs (c_time b - c_time a) < 60) \/
   (n = 0 /\ exists pre p post, a :: b :: rest = pre ++ p :: post /\ post <> [] /\ local_minute tz (c_time p) = 0)).
Proof. exact modify_panics. Qed.
Theorem C109_modify_interval_short : forall tz (c : candle f64) n,
  panics (modify_interval tz (@nil (candle f64)) n) /\ ~ panics (modify_interval tz [c] n).
Proof. intros. split; [exists PIndex; reflexivity|apply not_panics]. Qed.
Theorem C109_load : forall d path lines tail, d path = Some (text_of lines tail) ->
  Forall (without newline) lines -> without newline tail ->
  (panics (load_candles None None d path) <->
   exists good cs l more, lines ++ (if (tail =? "")%string then [] else [tail]) = good ++ l :: more /\
     Forall2 (fun l c => scannable l /\ reads (drop_cr l) c) good cs /\ scannable l /\ crashes (drop_cr l)).
Proof. exact load_panics. Qed.
Theorem C109_load_missing : forall open_err read_ok d path, open_err <> None \/ d path = None ->
  ~ panics (load_candles open_err read_ok d path).
Proof. intros [m|] r d path H; [apply not_panics|]. destruct H as [H|H]; [contradiction|]. unfold load_candles. rewrite H. apply not_panics. Qed.

(** ** Indicators *)
Theorem C109_averages_never : forall (s : gslice (candle f64)) n,
  ~ panics (moving_average s n) /\ ~ panics (exponential_moving_average s n) /\ ~ panics (smoothed_moving_average s n).
Proof.
  intros s n. destruct (C53_total s n) as [B|(cs & spare & k & -> & -> & K)].
  - destruct (C53_bad_input s n B) as (e1 & -> & _). destruct (C54_bad_input s n B) as (e2 & -> & _). destruct (C55_bad_input s n B) as (e3 & -> & _).
    repeat split; apply not_panics.
  - rewrite C53_windowed_sums by assumption. rewrite C54_recurrence by assumption. rewrite C55_recurrence by assumption. repeat split; apply not_panics.
Qed.
Theorem C109_rsi : forall (v spare : list (candle f64)) period,
  panics (rsi f64_to_f32 (GSlice v spare) period) <->
  14 <= zlen v /\ (period < -1 \/ zlen v + 1 < period \/ (period <= zlen v /\ spare = [])).
Proof.
  intros v spare period. destruct (C59_complete (GSlice v spare) period) as [H1 H2]. destruct (Z.lt_ge_cases (zlen v) 14) as [L|L].
  - destruct H1 as (e & -> & _); [now right|]. split; [intros P; now apply not_panics in P|lia].
  - destruct (H2 v spare eq_refl L) as [[E|[out E]] H3].
    + rewrite E. split; [|intros _; exists PSlice; reflexivity]. intros _. split; [lia|].
      destruct (Z.lt_ge_cases period (-1)); [auto|]. destruct (Z.lt_ge_cases (zlen v + 1) period); [auto|]. right. right.
      assert (~ (period = zlen v + 1 \/ (-1 <= period <= zlen v /\ spare <> []))) as Nk by (intros K; apply H3 in K as [o K]; rewrite E in K; discriminate).
      split; [destruct (Z.eq_dec period (zlen v + 1)); [exfalso; auto|lia]|]. destruct spare; [reflexivity|]. exfalso. apply Nk.
      destruct (Z.eq_dec period (zlen v + 1)); [auto|]. right. split; [lia|discriminate].
    + rewrite E. split; [intros P; now apply not_panics in P|]. intros [_ K]. exfalso.
      destruct (proj1 H3 (ex_intro _ out E)) as [Q|[Q Hs]]; [lia|]. destruct K as [K|[K|[_ K]]]; [lia|lia|contradiction].
Qed.
Theorem C109_rsi_nil : forall period, ~ panics (rsi f64_to_f32 GNil period).
Proof. intros. apply not_panics. Qed.
Theorem C109_fractals_never : forall cs : list (candle f64), ~ panics (william_fractals cs).
Proof. intros cs. rewrite wf_keys. apply not_panics. Qed.

(** ** Texts, updates and ticks *)
Theorem C109_position_string : forall tt (p : position f64),
  panics (position_string tt p) <-> Z.of_nat (String.length (ps_id p)) < 8.
Proof.
  intros tt p. pose proof (C67_position_prints_iff tt p) as H. destruct (position_string tt p) as [s|q] eqn:E.
  - split; [intros P; now apply not_panics in P|]. intros L. assert (8 <= Z.of_nat (String.length (ps_id p))) by (apply H; eauto). lia.
  - split; [|intros _; now exists q]. intros _. destruct (Z.lt_ge_cases (Z.of_nat (String.length (ps_id p))) 8) as [L|L]; [exact L|]. apply H in L as [s L]. discriminate.
Qed.
Theorem C109_balance_string : forall b, panics (balance_string b) <-> bl_asset b = None.
Proof.
  intros b. unfold balance_string. destruct (bl_asset b); [split; [intros P; now apply not_panics in P|discriminate]|]. split; [reflexivity|]. intros _. now exists PNil.
Qed.
Theorem C109_print_never : forall ob, ~ panics (book_print ob).
Proof. intros ob. destruct (C67_print_total ob) as [s ->]. apply not_panics. Qed.
Theorem C109_update : forall (o : order f64) (t : trade f64) (p : position f64) (a : annotation f64) (i : @dyn f64),
  (panics (order_update o i) <-> i = DOrder None) /\ (panics (trade_update t i) <-> i = DTrade None) /\
  (panics (position_update p i) <-> i = DPosition None) /\ (panics (annotation_update a i) <-> i = DAnnotation None).
Proof.
  intros o t p a i.
  destruct i as [[x|]|[x|]|[x|]|[x|]|]; repeat split; intros P; try discriminate P; try (now apply not_panics in P); try reflexivity; now exists PNil.
Qed.
Theorem C109_tick : forall load (t : @tick f64) location,
  (panics (get_local_time t) <-> tk_candle t = None) /\
  (panics (get_location_time load t location) <-> tk_candle t = None /\ exists zone, load location = inl zone).
Proof.
  intros load t location. unfold get_local_time, get_location_time. destruct (tk_candle t) as [c|], (load location) as [z|m];
    (split; split; [intros P|intros K|intros P|intros K]); try (now apply not_panics in P); try (now exists PNil); try reflexivity; try discriminate; eauto;
    try (destruct K as [K _]; discriminate); try (destruct K as [_ [z K]]; discriminate).
Qed.

(** ** Witnesses *)
Example C109_example_update :
  panics (apply_update (upd 5 0 "ask") (mkBook 0 [mk 5 1] [] (-1))) /\ ~ panics (apply_update (upd 6 0 "ask") (mkBook 0 [mk 5 1] [] (-1))).
Proof. split; [exists PSlice; vm_compute; reflexivity|]. assert (apply_update (upd 6 0 "ask") (mkBook 0 [mk 5 1] [] (-1)) = Ret (mkBook 0 [mk 5 1] [] (-1), None)) as -> by reflexivity. apply not_panics. Qed.
Example C109_example_interval : panics (modify_interval utc [cd 60 1 1 1 1 1; cd 61 1 1 1 1 1] 0) /\ local_minute utc 3600 = 0.
Proof. split; [exists PDivZero|]; vm_compute; reflexivity. Qed.
Example C109_example_depth : panics (get_depth (mkBook 0 [mk 5 1] [] 3) (i2f 5)) /\ zlen (asks (mkBook 0 [mk 5 1] [] 3)) <= 2 ^ 53.
Proof. split; [exists PIndex; vm_compute; reflexivity|vm_compute; discriminate]. Qed.
