(** Property C129: resampled volumes in whole lots of 1/32 or more lose nothing. *)
From Coq Require Import List ZArith Reals Lra Lia.
From Flocq Require Import Core BinarySingleNaN.
From Verif Require Import Go.Outcome Go.Int64 Go.Slice Go.Float64 Go.FloatOrder Go.FloatReal Go.Num
  Model.Candle Spec.CandleSpec Spec.AccuracySpec Spec.TickSpec Spec.LotVolumeSpec
  Proofs.Lists Proofs.Candle Proofs.CandleThms Proofs.CandleRegular Proofs.CandleMore Proofs.Ticks Proofs.ResampleVolume
  Proofs.LotVolumes Props.CandleProps.
Import ListNotations.
Open Scope list_scope.
Open Scope Z_scope.
Local Notation volumes := (map (@c_volume f64)).
Local Notation total := AccuracySpec.total.

(** Each candle produced carries exactly the sum of the volumes of its group. *)
Theorem C129_group_volumes : forall e tz (cs : candles f64) n out,
  -5 <= e <= 970 -> lot_series e cs -> 2 <= zlen cs -> modify_interval tz cs n = Ret (out, None) ->
  exists skipped gs, grouped tz n cs skipped gs /\
    Forall2 (fun g (c : candle f64) => in_lots e (c_volume c) /\ real (c_volume c) = total (volumes g)) gs out.
Proof.
  intros e tz cs n out He Hl H2 H. destruct (modify_interval_groups tz cs n out H2 H) as (sk & gs & G & S & _).
  exists sk, gs. split; [exact G|]. destruct G as (E & _). rewrite E in Hl. apply series_app in Hl.
  now apply (groups_volume e He gs out).
Qed.

(** Nothing is lost over the whole series but the candles skipped at its start, and the
    result is again such a series; so [fsum] of its volumes equals that of the candles kept. *)
Theorem C129_conserved : forall e tz (cs : candles f64) n out,
  -5 <= e <= 970 -> lot_series e cs -> 2 <= zlen cs -> modify_interval tz cs n = Ret (out, None) ->
  exists skipped kept, cs = skipped ++ kept /\
    Forall (fun c => ~ starts_interval tz n (c_time c)) skipped /\
    (exists p, first_is kept p /\ starts_interval tz n (c_time p)) /\
    total (volumes out) = total (volumes kept) /\ lot_series e out /\
    f64_eq (fsum (volumes out)) (fsum (volumes kept)) = true.
Proof.
  intros e tz cs n out He Hl H2 H. destruct (modify_interval_groups tz cs n out H2 H) as (sk & gs & (E & K & P & _) & S & _).
  exists sk, (List.concat gs). split; [exact E|]. split; [exact K|]. split; [exact P|].
  rewrite E in Hl. apply series_app in Hl. destruct Hl as (_ & Hl).
  destruct (groups_volume e He gs out Hl S) as (_ & Q & L & _). split; [exact Q|]. split; [exact L|].
  destruct Hl as (V1 & V2), L as (L1 & L2).
  destruct (sum_lots e He (volumes out)) as ((z1 & F1 & _) & E1); [now rewrite Forall_map|exact L2|].
  destruct (sum_lots e He (volumes (List.concat gs))) as ((z2 & F2 & _) & E2); [now rewrite Forall_map|exact V2|].
  rewrite f64_eq_xr, !xr_finite by (try apply finite_not_nan; assumption).
  apply Req_bool_true. unfold real in *. now rewrite E1, E2, Q.
Qed.

(** When the first candle starts an interval, nothing at all is lost. *)
Theorem C129_nothing_skipped : forall e tz c (cs : candles f64) n out,
  -5 <= e <= 970 -> lot_series e (c :: cs) -> 1 <= zlen cs -> starts_interval tz n (c_time c) ->
  modify_interval tz (c :: cs) n = Ret (out, None) ->
  total (volumes out) = total (volumes (c :: cs)) /\
  f64_eq (fsum (volumes out)) (fsum (volumes (c :: cs))) = true.
Proof.
  intros e tz c cs n out He Hl H1 Hs H.
  destruct (C129_conserved e tz (c :: cs) n out He Hl) as (sk & kept & E & K & _ & T & _ & Q);
    [unfold zlen in *; cbn [List.length]; lia|exact H|].
  destruct sk as [|x sk]; [cbn [app] in E; rewrite E; auto|].
  injection E as <- _. inversion K; contradiction.
Qed.

(** Resampling in two steps and in one gives the same volumes. *)
Theorem C129_two_steps : forall e tz (cs : candles f64) t0 d (k b : nat),
  -5 <= e <= 970 -> lot_series e cs ->
  2 <= zlen cs -> 1 <= d -> (1 <= k)%nat -> (1 <= b)%nat ->
  regular t0 d cs -> near_times cs ->
  starts_interval tz (Z.of_nat k * d) t0 -> starts_interval tz (Z.of_nat b * (Z.of_nat k * d)) t0 ->
  exists mid out direct,
    modify_interval tz cs (Z.of_nat k * d) = Ret (mid, None) /\
    modify_interval tz mid (Z.of_nat b * (Z.of_nat k * d)) = Ret (out, None) /\
    modify_interval tz cs (Z.of_nat b * (Z.of_nat k * d)) = Ret (direct, None) /\
    List.length out = List.length direct /\
    forall i x y, nth_error out i = Some x -> nth_error direct i = Some y ->
      real (c_volume x) = real (c_volume y) /\ f64_eq (c_volume x) (c_volume y) = true.
Proof.
  intros e tz cs t0 d k b He Hs Hl Hd Hk Hb Hr Hn Ha Hab.
  pose proof (modify_interval_regular f64_R5 tz cs t0 d k Hl Hd Hk Hr Hn Ha) as H1.
  assert (modify_interval tz cs (Z.of_nat b * (Z.of_nat k * d)) = Ret (map agg (pieces (b * k) cs), None)) as H3.
  { replace (Z.of_nat b * (Z.of_nat k * d)) with (Z.of_nat (b * k) * d) in * by lia.
    apply (modify_interval_regular f64_R5) with (t0 := t0); auto. nia. }
  assert (cs <> []) as Hne by (intros ->; unfold zlen in Hl; simpl in Hl; lia).
  assert (forall x y, in_lots e x -> in_lots e y -> real x = real y -> real x = real y /\ f64_eq x y = true) as Eq.
  { intros x y (zx & Fx & _) (zy & Fy & _) E. split; [exact E|].
    rewrite f64_eq_xr, !xr_finite by (try apply finite_not_nan; assumption). now apply Req_bool_true. }
  exists (map agg (pieces k cs)).
  destruct (Z_lt_le_dec (zlen (map agg (pieces k cs))) 2) as [L|L].
  - assert (List.length (pieces k cs) = 1%nat) as L1.
    { unfold zlen in L. rewrite map_length in L. rewrite pieces_eq in * by assumption. simpl in L |- *. lia. }
    destruct (pieces_length k cs Hk) as [P1 P2]. rewrite L1 in P1.
    assert (pieces k cs = [cs]) as E1.
    { destruct (pieces k cs) as [|g [|? ?]] eqn:E; try discriminate.
      pose proof (pieces_concat k cs Hk) as C. rewrite E in C. simpl in C. rewrite app_nil_r in C. now subst g. }
    assert (pieces (b * k) cs = [cs]) as E2.
    { rewrite pieces_eq by (nia || assumption). rewrite firstn_all2, skipn_all2 by nia. reflexivity. }
    rewrite E1, E2 in *. simpl map in *. exists [agg cs], [agg cs].
    do 3 (split; [assumption || reflexivity|]). split; [reflexivity|].
    intros [|i] x y Hx Hy; [|destruct i; discriminate]. injection Hx as <-. injection Hy as <-.
    destruct (agg_volume e He cs Hne Hs). now apply Eq.
  - exists (map agg (pieces b (map agg (pieces k cs)))), (map agg (pieces (b * k) cs)).
    split; [assumption|]. split; [|split; [assumption|]].
    { apply (modify_interval_regular f64_R5) with (t0 := t0); auto; [nia|now apply pieces_regular|now apply near_pieces]. }
    rewrite pieces_map by assumption.
    assert (forall i, (i * b < List.length (pieces k cs))%nat <-> (i * (b * k) < List.length cs)%nat) as Iff.
    { intros i. rewrite <- nth_error_Some, pieces_nth by assumption.
      destruct (Nat.ltb_spec (i * b * k) (List.length cs)); split; intros; try congruence; nia. }
    assert (forall i, nth_error (pieces b (pieces k cs)) i <> None <-> nth_error (pieces (b * k) cs) i <> None) as Sm.
    { intros i. rewrite (pieces_nth b), (pieces_nth (b * k)) by nia. specialize (Iff i).
      destruct (Nat.ltb_spec (i * b) (List.length (pieces k cs))), (Nat.ltb_spec (i * (b * k)) (List.length cs));
        split; intros; (discriminate || congruence || lia). }
    split.
    + rewrite !map_length.
      apply Nat.le_antisymm; apply Nat.nlt_ge; intros Q; apply nth_error_Some, Sm, nth_error_Some in Q; lia.
    + intros i x y Hx Hy. rewrite !nth_error_map in Hx. rewrite nth_error_map in Hy.
      rewrite (pieces_nth b) in Hx by assumption. rewrite (pieces_nth (b * k)) in Hy by nia.
      destruct (Nat.ltb_spec (i * b) (List.length (pieces k cs))) as [Q1|]; [|discriminate].
      destruct (Nat.ltb_spec (i * (b * k)) (List.length cs)) as [Q2|]; [|discriminate].
      injection Hx as <-. injection Hy as <-.
      set (g := firstn b (skipn (i * b) (pieces k cs))).
      set (h := firstn (b * k) (skipn (i * (b * k)) cs)).
      assert (List.concat g = h) as Eg by (apply skipn_concat_pieces; assumption).
      assert (lot_series e h) as Sh.
      { pose proof Hs as S0. rewrite <- (firstn_skipn (i * (b * k)) cs) in S0. apply series_app in S0. destruct S0 as (_ & S0).
        rewrite <- (firstn_skipn (b * k) (skipn (i * (b * k)) cs)) in S0. now apply series_app in S0. }
      assert (Forall (fun g => g <> []) g) as Ne.
      { apply Forall_forall. intros p Hp. apply in_firstn, in_skipn in Hp.
        pose proof (pieces_nonempty k cs Hk) as P. rewrite Forall_forall in P. auto. }
      assert (g <> []) as Ng.
      { intros E. apply (f_equal (@List.length _)) in E. unfold g in E. rewrite firstn_length, skipn_length in E. simpl in E. lia. }
      assert (h <> []) as Nh.
      { rewrite <- Eg. destruct g as [|[|? ?] ?]; [congruence| |discriminate]. inversion Ne; congruence. }
      assert (Forall2 summary g (map agg g)) as F2.
      { clear -Ne. induction Ne; cbn [map]; constructor; auto. now apply agg_summary. }
      rewrite <- Eg in Sh. destruct (groups_volume e He g (map agg g) Sh F2) as (_ & T & S2 & _). rewrite Eg in *.
      destruct (agg_volume e He h Nh Sh) as (V1 & V2).
      destruct (agg_volume e He (map agg g)) as (W1 & W2); [destruct g; [congruence|discriminate]|exact S2|].
      apply Eq; [exact W1|exact V1|]. now rewrite W2, V2.
Qed.

(** With lots of 1/64 a lot is lost in part: two volumes of 1/64 and 0 give 0.01562. *)
Definition part_volume : candles f64 :=
  [mkCandle 3600 (i2f 1) (i2f 1) (i2f 1) (i2f 1) (f64_const 15625 (-6)); mkCandle 3660 (i2f 1) (i2f 1) (i2f 1) (i2f 1) (i2f 0)].
Theorem C129_smaller_lots_refuted : exists (cs : candles f64) c,
  lot_series (-6) cs /\ 2 <= zlen cs /\ modify_interval utc cs 2 = Ret ([c], None) /\
  f64_eq (c_volume c) (fsum (volumes cs)) = false /\ f64_eq (c_volume c) (f64_const 1562 (-5)) = true.
Proof.
  assert (match modify_interval utc part_volume 2 with
          | Ret ([c], None) => negb (f64_eq (c_volume c) (fsum (volumes part_volume))) && f64_eq (c_volume c) (f64_const 1562 (-5))
          | _ => false end = true) as E by (vm_compute; reflexivity).
  destruct (modify_interval utc part_volume 2) as [[[|c [|? ?]] [e2|]]|] eqn:E2; try discriminate E.
  apply andb_true_iff in E as [E3 E4]. apply negb_true_iff in E3.
  assert (real (f64_const 15625 (-6)) = bpow radix2 (-6)) as Q.
  { unfold real. rewrite <- SF2R_B2SF.
    assert (B2SF (f64_const 15625 (-6)) = SpecFloat.S754_finite false 4503599627370496 (-58)) as -> by (vm_compute; reflexivity).
    unfold SF2R, F2R. cbn [Fnum Fexp cond_Zopp].
    change (IZR (Zpos 4503599627370496)) with (bpow radix2 52). rewrite <- bpow_plus. reflexivity. }
  assert (real (i2f 0) = 0%R) as Q0 by (unfold real; rewrite i2f_B2R by (unfold exact_int; lia); reflexivity).
  exists part_volume, c. split; [|split; [vm_compute; discriminate|auto]].
  split.
  - constructor; [|constructor; [|constructor]].
    + exists 1. split; [vm_compute; reflexivity|]. cbn [c_volume]. fold (real (f64_const 15625 (-6))). rewrite Q. ring.
    + exists 0. apply ticks_zero.
  - unfold part_volume, total_mag. cbn [map c_volume fold_right]. rewrite Q, Q0, Rabs_R0.
    rewrite Rabs_pos_eq by apply bpow_ge_0. pose proof (bpow_gt_0 radix2 (-6)) as P.
    assert (1 <= IZR (2 ^ 53))%R by (apply IZR_le; lia). nra.
Qed.

(** Nine candles with volumes 1 to 9, resampled to four minutes. *)
Example C129_example :
  lot_series 0 hour_series /\ 2 <= zlen hour_series /\
  match modify_interval utc hour_series 4 with
  | Ret (out, None) => map (fun c => f2i (c_volume c)) out
  | _ => [] end = [10; 26; 9].
Proof.
  split; [|split; [vm_compute; discriminate|vm_compute; reflexivity]].
  assert (forall n, 0 <= n < 100 -> real (i2f n) = IZR n) as Q by (intros n Hn; unfold real; apply i2f_B2R; unfold exact_int; lia).
  split.
  - unfold hour_series, cd. repeat (constructor; [cbn [c_volume]; eexists; apply ticks_int; unfold exact_int; lia|]). constructor.
  - unfold hour_series, cd, total_mag. cbn [map c_volume fold_right]. rewrite !Q by lia.
    rewrite !Rabs_pos_eq by lra. change (bpow radix2 0) with 1%R. assert (100 <= IZR (2 ^ 53))%R by (apply IZR_le; lia). lra.
Qed.

Print Assumptions C129_group_volumes.
Print Assumptions C129_conserved.
Print Assumptions C129_nothing_skipped.
Print Assumptions C129_two_steps.
Print Assumptions C129_smaller_lots_refuted.
