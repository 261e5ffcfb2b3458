(** Property C110: calls through nil pointers.  Model: Model/Pointers.v. *)
From Coq Require Import Lia.
From Verif Require Import Go.Outcome Go.Int64 Go.Slice Go.Float64 Go.Num Go.Text Model.OrderBook Model.Candle Model.CandleFile
  Model.Entities Model.Strategy Model.Pointers Spec.OrderBookSpec Spec.PanicSpec Spec.FileSpec Proofs.FileText Proofs.OrderBook Proofs.Panics
  Props.OrderBookProps Props.FileProps.
Open Scope string_scope.
Open Scope list_scope.
Open Scope Z_scope.

(** Through a pointer to a value the calls are those of the other files. *)
Theorem C110_not_nil : forall (ob : book f64) u q (p : position f64) (t : trade f64) (o : order f64) (a : annotation f64)
    (r : order_request f64) (k : @tick f64) load location (i : @dyn f64) id,
  apply_update_p u (Some ob) = ('(ob', e) <- apply_update u ob ;; Ret (Some ob', e)) /\
  get_depth_p (Some ob) q = get_depth ob q /\
  new_position_p id (Some t) = Ret (new_position id t) /\ modify_p (Some p) (Some t) = Ret (modify p t) /\
  calculate_fields_p (Some r) q = Ret (calculate_fields r q) /\ is_open_p (Some o) = Ret (is_open o) /\
  order_update_p (Some o) i = ('(x, e) <- order_update o i ;; Ret (Some x, e)) /\
  trade_update_p (Some t) i = ('(x, e) <- trade_update t i ;; Ret (Some x, e)) /\
  position_update_p (Some p) i = ('(x, e) <- position_update p i ;; Ret (Some x, e)) /\
  annotation_update_p (Some a) i = ('(x, e) <- annotation_update a i ;; Ret (Some x, e)) /\
  get_local_time_p (Some k) = get_local_time k /\ get_location_time_p load (Some k) location = get_location_time load k location.
Proof.
  intros. repeat split; try reflexivity.
  - unfold apply_update_p. destruct (String.eqb_spec (u_side u) "ask") as [E|E]; [reflexivity|]. destruct (String.eqb_spec (u_side u) "bid") as [E'|E']; [reflexivity|].
    cbn [orb]. cbv iota. rewrite OrderBook.apply_bad_side by assumption. reflexivity.
  - unfold get_depth_p, get_depth. destruct (fle q fzero); reflexivity.
  - destruct i as [[x|]|[x|]|[x|]|[x|]|]; reflexivity.
  - destruct i as [[x|]|[x|]|[x|]|[x|]|]; reflexivity.
  - destruct i as [[x|]|[x|]|[x|]|[x|]|]; reflexivity.
  - destruct i as [[x|]|[x|]|[x|]|[x|]|]; reflexivity.
  - unfold get_location_time_p, get_location_time. destruct (load location); reflexivity.
Qed.

Theorem C110_not_nil_more : forall (p : position f64) (t : trade f64) (o : order f64) (a : annotation f64) (x : f64) ids n (k : actions f64)
    lc lu lx lp lq la,
  unrealized_profit_p (Some p) x = Ret (unrealized_profit p x) /\
  order_get_id_p (Some o) = Ret (o_id o) /\ trade_get_id_p (Some t) = Ret (t_id t) /\
  position_get_id_p (Some p) = Ret (ps_id p) /\ annotation_get_id_p (Some a) = Ret (annotation_get_id a) /\
  order_schema_p (Some o) = Ret order_schema /\ trade_schema_p (Some t) = Ret trade_schema /\
  position_schema_p (Some p) = Ret position_schema /\ annotation_schema_p (Some a) = Ret annotation_schema /\
  add_create_orders_p ids n (Some k) lc = add_create_orders ids n k lc /\
  add_update_orders_p ids n (Some k) lu = add_update_orders ids n k lu /\
  add_cancel_orders_p ids n (Some k) lx = add_cancel_orders ids n k lx /\
  add_update_positions_p ids n (Some k) lp = add_update_positions ids n k lp /\
  add_close_positions_p ids n (Some k) lq = add_close_positions ids n k lq /\
  add_annotations_p (Some k) la = Ret (add_annotations k la).
Proof. intros. repeat split; reflexivity. Qed.

(** A nil book: the arguments that are refused anyway are refused, everything
    else panics. *)
Theorem C110_nil_book : forall (u : update f64) p,
  (panics (apply_update_p u None) <-> u_side u = "ask" \/ u_side u = "bid") /\
  (panics (get_depth_p (@None (book f64)) p) <-> f64_le p (i2f 0) = false).
Proof.
  intros u p. split.
  - unfold apply_update_p. destruct (String.eqb_spec (u_side u) "ask") as [E|E]; [split; [auto|intros _; now exists PNil]|].
    destruct (String.eqb_spec (u_side u) "bid") as [E'|E']; [split; [auto|intros _; now exists PNil]|].
    split; [intros P; now apply not_panics in P|tauto].
  - unfold get_depth_p. change (fle p fzero) with (f64_le p (i2f 0)). destruct (f64_le p (i2f 0)); split; try discriminate; try reflexivity.
    + intros P. now apply not_panics in P.
    + intros _. now exists PNil.
Qed.

(** Positions and trades. *)
Theorem C110_nil_trade : forall id (p : option (position f64)) (t : option (trade f64)),
  (panics (new_position_p id t) <-> t = None) /\ (panics (modify_p p t) <-> p = None \/ t = None) /\
  (forall x, panics (unrealized_profit_p p x) <-> p = None).
Proof.
  intros id p t. destruct p as [p|], t as [t|]; repeat split; intros;
    try (match goal with P : panics _ |- _ => now apply not_panics in P end); try (now exists PNil); auto; try discriminate;
    match goal with K : _ \/ _ |- _ => destruct K; discriminate end.
Qed.

(** Update never writes through a nil receiver; a value of another type is
    refused before the receiver is looked at.  GetSchema works on nil. *)
Theorem C110_nil_receiver : forall (i : @dyn f64),
  (panics (order_update_p (@None (order f64)) i) <-> exists o, i = DOrder o) /\
  (panics (trade_update_p (@None (trade f64)) i) <-> exists t, i = DTrade t) /\
  (panics (position_update_p (@None (position f64)) i) <-> exists p, i = DPosition p) /\
  (panics (annotation_update_p (@None (annotation f64)) i) <-> exists a, i = DAnnotation a) /\
  order_schema_p (@None (order f64)) = Ret order_schema /\ trade_schema_p (@None (trade f64)) = Ret trade_schema /\
  position_schema_p (@None (position f64)) = Ret position_schema /\ annotation_schema_p (@None (annotation f64)) = Ret annotation_schema /\
  panics (order_get_id_p (@None (order f64))) /\ panics (trade_get_id_p (@None (trade f64))) /\
  panics (position_get_id_p (@None (position f64))) /\ panics (annotation_get_id_p (@None (annotation f64))).
Proof.
  intros i. repeat split; try (now exists PNil);
    first [ solve [intros H; destruct i; try (now apply not_panics in H); eauto] | intros [x E]; rewrite E; now exists PNil ].
Qed.
(** Adding to a nil Actions panics even when nothing is added. *)
Theorem C110_nil_actions : forall ids n,
  panics (add_create_orders_p ids n (@None (actions f64)) []) /\ panics (add_update_orders_p ids n (@None (actions f64)) []) /\
  panics (add_cancel_orders_p ids n (@None (actions f64)) []) /\ panics (add_update_positions_p ids n (@None (actions f64)) []) /\
  panics (add_close_positions_p ids n (@None (actions f64)) []) /\ panics (add_annotations_p (@None (actions f64)) []).
Proof. repeat split; now exists PNil. Qed.
Theorem C110_nil_tick : forall load location,
  panics (get_local_time_p (@None (@tick f64))) /\
  (panics (get_location_time_p load (@None (@tick f64)) location) <-> exists zone, load location = inl zone).
Proof.
  intros load location. split; [now exists PNil|]. unfold get_location_time_p. destruct (load location) as [z|m].
  - split; [eauto|]. intros _. now exists PNil.
  - split; [intros P; now apply not_panics in P|intros [z K]; discriminate].
Qed.

(** SaveCandlesToFile: a nil list panics after the old file has been emptied;
    what was stored at the path is lost. *)
Theorem C110_save_nil : forall faults d path,
  let (d', outcome) := save_candles_p None faults d None path in
  panics outcome /\ d' path = Some "" /\ (forall q, q <> path -> d' q = d q) /\ load_candles None None d' path = Ret ([], None).
Proof.
  intros faults d path. cbv beta iota zeta delta [save_candles_p]. split; [now exists PNil|]. unfold fs_set, load_candles. rewrite String.eqb_refl.
  split; [reflexivity|]. split; [|reflexivity]. intros q Hq. destruct (String.eqb_spec q path); [contradiction|reflexivity].
Qed.
Theorem C110_save : forall create_err faults d cs path,
  (panics (snd (save_candles_p create_err faults d cs path)) <-> create_err = None /\ cs = None) /\
  (forall l, cs = Some l -> save_candles_p create_err faults d cs path =
     (fst (save_candles create_err faults d l path), Ret (snd (save_candles create_err faults d l path)))) /\
  (forall m, create_err = Some m -> fst (save_candles_p create_err faults d cs path) = d).
Proof.
  intros [m|] faults d [l|] path; repeat split; intros; try discriminate; try reflexivity;
    try (match goal with P : panics _ |- _ => now apply not_panics in P end); try (match goal with K : _ /\ _ |- _ => destruct K; discriminate end);
    try (match goal with K : Some _ = Some _ |- _ => injection K as <-; reflexivity end). now exists PNil.
Qed.
(** Expected: a call that panics or fails leaves the stored candles alone. *)
Theorem C110_save_keeps_old_refuted : exists d path cs, load_candles None None d path = Ret (cs, None) /\ cs <> [] /\
  panics (snd (save_candles_p None no_faults d None path)) /\
  load_candles None None (fst (save_candles_p None no_faults d None path)) path = Ret ([], None).
Proof.
  destruct (C31_round_trip (fun _ => None) [awkward] "f") as (d & _ & L & _); [repeat constructor; vm_compute; congruence|].
  exists d, "f", [awkward]. split; [exact L|]. split; [discriminate|]. pose proof (C110_save_nil no_faults d "f") as H.
  destruct (save_candles_p None no_faults d None "f") as [d' o]. cbn [fst snd]. tauto.
Qed.
Example C110_example : match apply_update_p (upd 5 1 "Ask") None, get_depth_p (@None (book f64)) (i2f 0) with
  | Ret (None, Some e), Ret (_, Some e') => err_code e = Some EINVALID /\ err_code e' = Some EINVALID
  | _, _ => False end.
Proof. vm_compute. split; reflexivity. Qed.
