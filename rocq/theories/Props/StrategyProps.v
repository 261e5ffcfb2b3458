(** Properties C64-C66: strategy/actions.go, strategy/strategy.go, utils/date.go.
    Models: Model/Strategy.v, Model/Date.v; vocabulary: Spec/DateSpec.v. *)
From Coq Require Import Lia.
From Verif Require Import Go.Outcome Go.Float64 Model.Candle Model.Entities Model.Strategy Model.Date
  Spec.DateSpec Proofs.Actions Proofs.Date.
Open Scope string_scope.
Open Scope list_scope.
Open Scope Z_scope.
Local Notation length := List.length.

(** ** C64 *)
(** The next [k] generated ids differ from each other. *)
Definition fresh_ids (ids : nat -> string) (n k : nat) : Prop :=
  forall i j, (i < k)%nat -> (j < k)%nat -> ids (n + i)%nat = ids (n + j)%nat -> i = j.
(** [m'] is [m] with the entries [entry i] under the keys [ids n], ...,
    [ids (n+k-1)], and nothing else changed. *)
Definition grown {A} (ids : nat -> string) (n k : nat) (m m' : gmap A) (entry : nat -> A -> Prop) : Prop :=
  (forall key, (forall i, (i < k)%nat -> key <> ids (n + i)%nat) -> map_get m' key = map_get m key) /\
  (forall i, (i < k)%nat -> exists a, map_get m' (ids (n + i)%nat) = Some a /\ entry i a).

Theorem C64_create_orders : forall ids n (a : actions f64) l, fresh_ids ids n (length l) ->
  exists a', add_create_orders ids n a l = Ret a' /\
    grown ids n (length l) (create_orders a) (create_orders a') (fun i x => exists y, nth_error l i = Some y /\
      x = mkCreate (ids (n + i)%nat) (co_symbol _ y) (co_action _ y) (co_otype _ y) (cr_price _ y) (cr_volume _ y) (cr_stop _ y) (cr_take _ y) (cr_slip _ y)) /\
    update_orders a' = update_orders a /\ cancel_orders a' = cancel_orders a /\
    update_positions a' = update_positions a /\ close_positions a' = close_positions a /\ annotations a' = annotations a.
Proof.
  intros ids n a l D. unfold add_create_orders.
  assert (forall id (y : create_order f64), co_id (create_gen id y) = id) as G by (intros id []; reflexivity).
  destruct (add_loop_init create_gen co_id G ids l n (create_orders a)) as (f & -> & K1 & K2). cbn [bind].
  eexists. split; [reflexivity|]. cbn [create_orders update_orders cancel_orders update_positions close_positions annotations].
  split; [|auto]. split; [exact K1|]. intros i Hi. apply nth_error_Some in Hi. destruct (nth_error l i) as [y|] eqn:E; [|congruence].
  exists (create_gen (ids (n + i)%nat) y). split; [now apply K2|]. exists y. split; [reflexivity|]. destruct y; reflexivity.
Qed.
Theorem C64_update_orders : forall ids n (a : actions f64) l, fresh_ids ids n (length l) ->
  exists a', add_update_orders ids n a l = Ret a' /\
    grown ids n (length l) (update_orders a) (update_orders a') (fun i x => exists y, nth_error l i = Some y /\
      x = mkUpdOrder (ids (n + i)%nat) (uo_order _ y) (uo_price _ y) (uo_volume _ y) (uo_stop _ y) (uo_take _ y) (uo_slip _ y)) /\
    create_orders a' = create_orders a /\ cancel_orders a' = cancel_orders a /\
    update_positions a' = update_positions a /\ close_positions a' = close_positions a /\ annotations a' = annotations a.
Proof.
  intros ids n a l D. unfold add_update_orders.
  assert (forall id (y : update_order f64), uo_id (update_gen id y) = id) as G by (intros id []; reflexivity).
  destruct (add_loop_init update_gen uo_id G ids l n (update_orders a)) as (f & -> & K1 & K2). cbn [bind].
  eexists. split; [reflexivity|]. cbn [create_orders update_orders cancel_orders update_positions close_positions annotations].
  split; [|auto]. split; [exact K1|]. intros i Hi. apply nth_error_Some in Hi. destruct (nth_error l i) as [y|] eqn:E; [|congruence].
  exists (update_gen (ids (n + i)%nat) y). split; [now apply K2|]. exists y. split; [reflexivity|]. destruct y; reflexivity.
Qed.
Theorem C64_cancel_orders : forall ids n (a : actions f64) l, fresh_ids ids n (length l) ->
  exists a', add_cancel_orders ids n a l = Ret a' /\
    grown ids n (length l) (cancel_orders a) (cancel_orders a') (fun i x => exists y, nth_error l i = Some y /\
      x = mkCancel (ids (n + i)%nat) (ca_order y)) /\
    create_orders a' = create_orders a /\ update_orders a' = update_orders a /\
    update_positions a' = update_positions a /\ close_positions a' = close_positions a /\ annotations a' = annotations a.
Proof.
  intros ids n a l D. unfold add_cancel_orders.
  assert (forall id y, ca_id (cancel_gen id y) = id) as G by (intros id []; reflexivity).
  destruct (add_loop_init cancel_gen ca_id G ids l n (cancel_orders a)) as (f & -> & K1 & K2). cbn [bind].
  eexists. split; [reflexivity|]. cbn [create_orders update_orders cancel_orders update_positions close_positions annotations].
  split; [|auto]. split; [exact K1|]. intros i Hi. apply nth_error_Some in Hi. destruct (nth_error l i) as [y|] eqn:E; [|congruence].
  exists (cancel_gen (ids (n + i)%nat) y). split; [now apply K2|]. exists y. split; reflexivity.
Qed.
Theorem C64_update_positions : forall ids n (a : actions f64) l, fresh_ids ids n (length l) ->
  exists a', add_update_positions ids n a l = Ret a' /\
    grown ids n (length l) (update_positions a) (update_positions a') (fun i x => exists y, nth_error l i = Some y /\
      x = mkUpdPos (ids (n + i)%nat) (up_position _ y) (up_action _ y) (up_otype _ y) (up_volume _ y) (up_stop _ y) (up_take _ y) (up_slip _ y)) /\
    create_orders a' = create_orders a /\ update_orders a' = update_orders a /\ cancel_orders a' = cancel_orders a /\
    close_positions a' = close_positions a /\ annotations a' = annotations a.
Proof.
  intros ids n a l D. unfold add_update_positions.
  assert (forall id (y : update_position f64), up_id (uppos_gen id y) = id) as G by (intros id []; reflexivity).
  destruct (add_loop_init uppos_gen up_id G ids l n (update_positions a)) as (f & -> & K1 & K2). cbn [bind].
  eexists. split; [reflexivity|]. cbn [create_orders update_orders cancel_orders update_positions close_positions annotations].
  split; [|auto]. split; [exact K1|]. intros i Hi. apply nth_error_Some in Hi. destruct (nth_error l i) as [y|] eqn:E; [|congruence].
  exists (uppos_gen (ids (n + i)%nat) y). split; [now apply K2|]. exists y. split; [reflexivity|]. destruct y; reflexivity.
Qed.
Theorem C64_close_positions : forall ids n (a : actions f64) l, fresh_ids ids n (length l) ->
  exists a', add_close_positions ids n a l = Ret a' /\
    grown ids n (length l) (close_positions a) (close_positions a') (fun i x => exists y, nth_error l i = Some y /\
      x = mkClosePos (ids (n + i)%nat) (cp_position y)) /\
    create_orders a' = create_orders a /\ update_orders a' = update_orders a /\ cancel_orders a' = cancel_orders a /\
    update_positions a' = update_positions a /\ annotations a' = annotations a.
Proof.
  intros ids n a l D. unfold add_close_positions.
  assert (forall id y, cp_id (close_gen id y) = id) as G by (intros id []; reflexivity).
  destruct (add_loop_init close_gen cp_id G ids l n (close_positions a)) as (f & -> & K1 & K2). cbn [bind].
  eexists. split; [reflexivity|]. cbn [create_orders update_orders cancel_orders update_positions close_positions annotations].
  split; [|auto]. split; [exact K1|]. intros i Hi. apply nth_error_Some in Hi. destruct (nth_error l i) as [y|] eqn:E; [|congruence].
  exists (close_gen (ids (n + i)%nat) y). split; [now apply K2|]. exists y. split; reflexivity.
Qed.
Theorem C64_annotations : forall (a : actions f64) l,
  annotations (add_annotations a l) = annotations a ++ l /\
  create_orders (add_annotations a l) = create_orders a /\ update_orders (add_annotations a l) = update_orders a /\
  cancel_orders (add_annotations a l) = cancel_orders a /\ update_positions (add_annotations a l) = update_positions a /\
  close_positions (add_annotations a l) = close_positions a.
Proof. intros. repeat split. Qed.
(** With fresh ids that are also new to the map, every earlier entry is kept. *)
Theorem C64_nothing_overwritten : forall {A} ids n k (m m' : gmap A) entry, grown ids n k m m' entry ->
  (forall i, (i < k)%nat -> map_get m (ids (n + i)%nat) = None) ->
  forall key x, map_get m key = Some x -> map_get m' key = Some x.
Proof.
  intros A ids n k m m' entry [H1 _] Hn key x Hx. rewrite H1; [assumption|]. intros i Hi ->. rewrite Hn in Hx by assumption. discriminate.
Qed.
(** Without distinct ids an action is lost. *)
Theorem C64_colliding_ids_refuted : exists ids (a a' : actions f64) l,
  length l = 2%nat /\ add_cancel_orders ids 0 a l = Ret a' /\
  exists y, In y l /\ forall key x, map_get (cancel_orders a') key = Some x -> ca_order x <> ca_order y.
Proof.
  set (a := mkActions None None None None None [] : actions f64).
  exists (fun _ => "same"), a. eexists. exists [mkCancel "" "o1"; mkCancel "" "o2"].
  split; [reflexivity|]. split; [reflexivity|]. exists (mkCancel "" "o1"). split; [left; reflexivity|].
  intros key x. cbn. destruct (String.eqb key "same"); [|discriminate]. intros H. injection H as <-. discriminate.
Qed.
Definition num_ids (n : nat) : string := String (ascii_of_nat (65 + n)) "".
Example C64_example : let a := mkActions None None (Some (fun k => if String.eqb k "Z" then Some (mkCancel "Z" "old") else None)) None None [] : actions f64 in
  fresh_ids num_ids 0 2 /\
  match add_cancel_orders num_ids 0 a [mkCancel "x" "o1"; mkCancel "" "o2"] with
  | Ret a' => map (map_get (cancel_orders a')) ["A"; "B"; "Z"; "x"] =
      [Some (mkCancel "A" "o1"); Some (mkCancel "B" "o2"); Some (mkCancel "Z" "old"); None]
  | Panic _ => False
  end.
Proof.
  cbv zeta. split; [|vm_compute; reflexivity]. intros [|[|i]] [|[|j]] Hi Hj E; try lia; cbn in E; discriminate.
Qed.

(** ** C65 *)
(** Both methods denote the candle's instant; only the zone of display differs. *)
Theorem C65_same_instant : forall load (t : @tick f64) location zone c, tk_candle t = Some c -> load location = inl zone ->
  get_local_time t = Ret (mkZTime (c_time c) "Local") /\
  get_location_time load t location = Ret (mkZTime (c_time c) zone, None).
Proof. intros load t location zone c Hc Hl. unfold get_local_time, get_location_time. now rewrite Hc, Hl. Qed.
(** The time returned then is January 1, year 1: 719162 days before 1970. *)
Theorem C65_unknown_location : forall load (t : @tick f64) location m, load location = inr m ->
  exists e, get_location_time load t location = Ret (mkZTime (- 719162 * 86400) "UTC", Some e).
Proof. intros load t location m Hl. unfold get_location_time. rewrite Hl. eauto. Qed.
Theorem C65_nil_candle_panics : forall load (t : @tick f64) location, tk_candle t = None ->
  get_local_time t = Panic PNil /\
  (forall zone, load location = inl zone -> get_location_time load t location = Panic PNil).
Proof. intros load t location H. unfold get_local_time, get_location_time. rewrite H. split; [reflexivity|]. now intros zone ->. Qed.
Example C65_example :
  let load s := if String.eqb s "UTC" then inl "UTC" else inr "unknown" in
  let t := mkTick (Some (mkCandle 86400 (i2f 1) (i2f 1) (i2f 1) (i2f 1) (i2f 1))) in
  get_location_time load t "UTC" = Ret (mkZTime 86400 "UTC", None) /\ load "Mars" = inr "unknown".
Proof. split; reflexivity. Qed.

(** ** C66 *)
Theorem C66_accepts_exactly : forall s,
  (exists t, raw_date_to_rfc3339 s = (t, None)) <-> exists y m d, valid_date y m d /\ s = date_text y m d.
Proof.
  intros s. split.
  - intros [t H]. apply raw_date_inv in H. destruct H as (y & m & d & H1 & H2 & _). eauto.
  - intros (y & m & d & H & ->). eexists. now apply raw_date_ok.
Qed.
(** Otherwise the zero time with an error. *)
Theorem C66_rejected : forall s t e, raw_date_to_rfc3339 s = (t, Some e) -> t = -62135596800.
Proof.
  intros s t e. unfold raw_date_to_rfc3339. destruct (parse_rfc3339 _) as [[t' f]|]; [discriminate|]. congruence.
Qed.
(** Which instants: the day 1970-01-01 is 0 and every next day 86400 s later. *)
Theorem C66_epoch : raw_date_to_rfc3339 "1970-01-01" = (0, None).
Proof. vm_compute. reflexivity. Qed.
Theorem C66_next_day : forall y m d y' m' d' t, valid_date y m d -> valid_date y' m' d' ->
  next_day y m d y' m' d' -> raw_date_to_rfc3339 (date_text y m d) = (t, None) ->
  raw_date_to_rfc3339 (date_text y' m' d') = (t + 86400, None).
Proof.
  intros y m d y' m' d' t V V' N H. rewrite raw_date_ok in * by assumption. injection H as <-. f_equal.
  rewrite !date_unix_day. apply valid_date_spec in V. rewrite (year_day_next y m d y' m' d'); [lia|lia|lia|assumption].
Qed.
Lemma compare_same s : String.compare s s = Eq.
Proof. induction s as [|c s IH]; [reflexivity|]. cbn [String.compare]. unfold Ascii.compare. now rewrite N.compare_refl. Qed.
(** Order of the strings is order in time; so distinct dates, distinct instants. *)
Theorem C66_order : forall s s' t t', raw_date_to_rfc3339 s = (t, None) -> raw_date_to_rfc3339 s' = (t', None) ->
  (String.compare s s' = Lt <-> t < t') /\ (s = s' <-> t = t').
Proof.
  intros s s' t t' H H'. apply raw_date_inv in H, H'. destruct H as (y & m & d & V & -> & ->), H' as (y' & m' & d' & V' & -> & ->).
  pose proof (text_compare y m d y' m' d' V V') as C. pose proof (year_day_earlier y m d y' m' d' V V') as E.
  pose proof (year_day_earlier y' m' d' y m d V' V) as E'. rewrite !date_unix_day.
  assert (earlier y m d y' m' d' \/ earlier y' m' d' y m d \/ (y = y' /\ m = m' /\ d = d')) as [K|[K|(-> & -> & ->)]] by (unfold earlier; lia).
  - specialize (E K). split; [split; [lia|intros _; now apply C]|]. split; [|lia].
    intros Q. rewrite Q in C. apply C in K. rewrite compare_same in K. discriminate.
  - specialize (E' K). split; [split; [intros Q; apply C in Q; unfold earlier in *; lia|lia]|]. split; [|lia].
    intros Q. pose proof (text_compare y' m' d' y m d V' V) as C'. rewrite Q in C'. apply C' in K. rewrite compare_same in K. discriminate.
  - split; [|split; reflexivity]. rewrite compare_same. split; [discriminate|lia].
Qed.
Example C66_example :
  map raw_date_to_rfc3339 ["2000-02-29"; "2024-12-31"] = [(951782400, None); (1735603200, None)] /\
  map (fun s => match snd (raw_date_to_rfc3339 s) with None => true | Some _ => false end)
    ["1900-02-29"; "2023-04-31"; "2023-4-30"; "2023-04-30 "; "2023-04-30T00:00:00Z"; "0000-02-29"] = [false; false; false; false; false; true].
Proof. split; vm_compute; reflexivity. Qed.
Example C66_valid_example : valid_date 2024 2 29 /\ next_day 2024 2 29 2024 3 1.
Proof.
  assert (leap_year 2024) as L by (split; [exists 506; reflexivity|left; intros [k Hk]; lia]).
  assert (month_length 2024 2 29) as M by (right; right; split; [reflexivity|left; split; [exact L|reflexivity]]).
  split; [|exists 29; split; [exact M|lia]]. split; [lia|]. split; [lia|]. split; [lia|]. exists 29. split; [exact M|lia].
Qed.
