(** Properties C86, C87: ModifyInterval of market/candle.go under changes of
    its input.  Model: Model/Candle.v; vocabulary: Spec/ResampleSpec.v. *)
From Verif Require Import Go.Outcome Go.Slice Go.Float64 Go.FloatOrder Go.Num
  Model.Candle Spec.CandleSpec Spec.ResampleSpec Proofs.Lists Proofs.CandleThms Proofs.CandleSymmetry Props.CandleProps.
Open Scope list_scope.
Open Scope Z_scope.

(** ** C86 *)
Theorem C86_moved_in_time : forall tz tz' s cs n,
  (forall c, In c cs -> local_minute tz' (c_time c + s) = local_minute tz (c_time c)) ->
  modify_interval tz' (map (later s) cs) n = changed (later s) (modify_interval tz cs n).
Proof. exact modify_later. Qed.
(** In particular by whole hours, in a zone of constant offset. *)
Theorem C86_moved_by_whole_hours : forall z s cs n, (3600 | s) ->
  modify_interval (fun _ => z) (map (later s) cs) n = changed (later s) (modify_interval (fun _ => z) cs n).
Proof. intros z s cs n H. apply modify_later. intros c _. now apply whole_hours. Qed.
Theorem C86_upside_down : forall tz cs n,
  modify_interval tz (map flipped cs) n = changed flipped (modify_interval tz cs n).
Proof. exact modify_flipped. Qed.
Theorem C86_other_unit : forall tz f cs n,
  keeps_order f (map c_high cs) -> keeps_order f (map c_low cs) ->
  modify_interval tz (map (repriced f) cs) n = changed (repriced f) (modify_interval tz cs n).
Proof. exact modify_repriced. Qed.
(** Moved by less than an hour the candles fall into other groups. *)
Theorem C86_moved_by_minutes_refuted : exists s (cs : candles f64) n, (60 | s) /\
  modify_interval utc (map (later s) cs) n <> changed (later s) (modify_interval utc cs n).
Proof.
  exists 60, series, 5. split; [exists 1; reflexivity|]. intros H.
  apply (f_equal (fun o => match o with Ret (l, _) => map c_time l | Panic _ => [] end)) in H.
  vm_compute in H. discriminate.
Qed.

Definition doubled (x : f64) : f64 := f64_mul (i2f 2) x.
Lemma keeps_order_check f l : forallb (fun x => f64_le (i2f (-1000)) x && f64_le x (i2f 1000) &&
    f64_le (i2f (-1000)) (f x) && f64_le (f x) (i2f 1000) &&
    forallb (fun y => Bool.eqb (f64_lt (f x) (f y)) (f64_lt x y)) l) l = true -> keeps_order f l.
Proof.
  intros H. rewrite forallb_forall in H.
  assert (forall x, In x l -> sane x /\ sane (f x) /\ forall y, In y l -> f64_lt (f x) (f y) = f64_lt x y) as K.
  { intros x Hx. specialize (H x Hx). rewrite !andb_true_iff, forallb_forall in H.
    destruct H as ((((H1 & H2) & H3) & H4) & H5). split; [exact (small_sane _ H1 H2)|]. split; [exact (small_sane _ H3 H4)|].
    intros y Hy. exact (Bool.eqb_prop _ _ (H5 y Hy)). }
  split; [rewrite Forall_forall; intros x Hx; exact (proj1 (K x Hx))|]. split.
  - rewrite Forall_map, Forall_forall. intros x Hx. exact (proj1 (proj2 (K x Hx))).
  - intros x y Hx Hy. exact (proj2 (proj2 (K x Hx)) y Hy).
Qed.
Example C86_example_keeps : keeps_order doubled (map c_high series) /\ keeps_order doubled (map c_low series).
Proof. split; apply keeps_order_check; vm_compute; reflexivity. Qed.
Example C86_example :
  seen (modify_interval utc (map (later 7200) series) 5) = Some ([(130, 7, 20, 2, 8, 25); (135, 8, 12, 1, 11, 17)], None) /\
  seen (modify_interval utc (map flipped series) 5) = Some ([(10, -7, -2, -20, -8, 25); (15, -8, -1, -12, -11, 17)], None) /\
  seen (modify_interval utc (map (repriced doubled) series) 5) = Some ([(10, 14, 40, 4, 16, 25); (15, 16, 24, 2, 22, 17)], None).
Proof. repeat split; vm_compute; reflexivity. Qed.

(** ** C87 *)
Theorem C87_batches : forall tz n a q b outa outb p,
  2 <= zlen a -> b <> [] -> near_times (a ++ q :: b) ->
  (forall c, In c (a ++ q :: b) -> (60 | c_time c - c_time p)) ->
  first_start tz n a p -> starts_interval tz n (c_time q) -> on_boundary (c_time p) n (c_time q) ->
  modify_interval tz a n = Ret (outa, None) -> modify_interval tz (q :: b) n = Ret (outb, None) ->
  modify_interval tz (a ++ q :: b) n = Ret (outa ++ outb, None).
Proof. exact modify_batches. Qed.
(** For intervals dividing the hour, in zones of whole hours, with candles at
    whole minutes: any second batch that begins where an interval starts. *)
Theorem C87_batches_within_the_hour : forall tz n a q b outa outb,
  2 <= zlen a -> b <> [] -> near_times (a ++ q :: b) ->
  1 <= n -> (n | 60) -> (forall u, (3600 | tz u)) -> (forall c, In c (a ++ q :: b) -> (60 | c_time c)) ->
  starts_interval tz n (c_time q) ->
  modify_interval tz a n = Ret (outa, None) -> modify_interval tz (q :: b) n = Ret (outb, None) ->
  modify_interval tz (a ++ q :: b) n = Ret (outa ++ outb, None).
Proof. exact modify_batches_hours. Qed.
(** A second batch that begins elsewhere loses its first candles. *)
Theorem C87_batches_anywhere_refuted : exists (a b : candles f64) n outa outb out,
  (forall c, In c (a ++ b) -> (60 | c_time c)) /\
  modify_interval utc a n = Ret (outa, None) /\ modify_interval utc b n = Ret (outb, None) /\
  modify_interval utc (a ++ b) n = Ret (out, None) /\ map c_close out <> map c_close (outa ++ outb).
Proof.
  pose (a := firstn 5 series). pose (b := skipn 5 series).
  edestruct (observe (modify_interval utc a 5) (fun l => Nat.eqb (List.length l) 1)) as (o1 & E1 & T1); [vm_compute; reflexivity|].
  edestruct (observe (modify_interval utc b 5) (fun l => Nat.eqb (List.length l) 1)) as (o2 & E2 & T2); [vm_compute; reflexivity|].
  edestruct (observe (modify_interval utc (a ++ b) 5) (fun l => match l with c :: _ => f64_eq (c_close c) (i2f 8) | _ => false end))
    as (o & E & T); [vm_compute; reflexivity|].
  edestruct (observe (modify_interval utc a 5) (fun l => match l with c :: _ => f64_eq (c_close c) (i2f 9) | _ => false end))
    as (o1' & E1' & T'); [vm_compute; reflexivity|].
  rewrite E1 in E1'. injection E1' as <-.
  exists a, b, 5, o1, o2, o. split.
  { intros c Hc. change (a ++ b) with series in Hc. unfold series in Hc.
    repeat (destruct Hc as [<-|Hc]; [eexists; apply Z.mul_comm|]). destruct Hc. }
  split; [exact E1|]. split; [exact E2|]. split; [exact E|].
  destruct o as [|c o]; [discriminate|]. destruct o1 as [|c1 o1]; [discriminate|].
  intros H. injection H as H _. rewrite H in T.
  apply f64_eq_true in T as (_ & _ & K1). apply f64_eq_true in T' as (_ & _ & K2). rewrite K1 in K2. vm_compute in K2. discriminate.
Qed.

Definition first_half : candles f64 := firstn 7 series.
Definition second_half : candles f64 := skipn 8 series.
Example C87_example :
  first_half ++ cd 15 8 11 1 10 8 :: second_half = series /\
  2 <= zlen first_half /\ second_half <> [] /\ near_times series /\ starts_interval utc 5 900 /\
  seen (modify_interval utc first_half 5) = Some ([(10, 7, 20, 2, 8, 25)], None) /\
  seen (modify_interval utc (cd 15 8 11 1 10 8 :: second_half) 5) = Some ([(15, 8, 12, 1, 11, 17)], None).
Proof.
  split; [reflexivity|]. split; [vm_compute; discriminate|]. split; [discriminate|]. split; [apply series_near|].
  split; [right; left; split; [lia|]; exists 3; reflexivity|]. split; vm_compute; reflexivity.
Qed.

Print Assumptions C86_moved_in_time.
Print Assumptions C86_upside_down.
Print Assumptions C86_other_unit.
Print Assumptions C87_batches.
