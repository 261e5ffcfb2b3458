(** Property C23, volumes: resampling in two steps and in one. *)
From Coq Require Import Reals Lra Lia.
From Flocq Require Import Core BinarySingleNaN.
From Verif Require Import Go.Outcome Go.Int64 Go.Slice Go.Float64 Go.FloatOrder Go.FloatReal Go.FloatError Go.Num
  Model.Candle Spec.CandleSpec Spec.AccuracySpec Proofs.Lists Proofs.Candle Proofs.CandleThms Proofs.CandleRegular
  Proofs.CandleMore Proofs.ResampleVolume Props.CandleProps Props.AccuracyProps.
Open Scope list_scope.
Open Scope Z_scope.

(** The candles merged into the [i]-th one of [n] each. *)
Definition source (n i : nat) (cs : candles f64) : candles f64 := firstn n (skipn (i * n) cs).

Theorem C23_volumes_close : forall tz (cs : candles f64) t0 d (k b : nat),
  2 <= zlen cs -> 1 <= d -> (1 <= k)%nat -> (1 <= b)%nat ->
  regular t0 d cs -> near_times cs ->
  starts_interval tz (Z.of_nat k * d) t0 -> starts_interval tz (Z.of_nat b * (Z.of_nat k * d)) t0 ->
  few cs -> Forall (fun c : candle f64 => is_finite (c_volume c) = true) cs ->
  (total_mag (map c_volume cs) <= bpow radix2 800)%R ->
  exists mid out direct,
    modify_interval tz cs (Z.of_nat k * d) = Ret (mid, None) /\
    modify_interval tz mid (Z.of_nat b * (Z.of_nat k * d)) = Ret (out, None) /\
    modify_interval tz cs (Z.of_nat b * (Z.of_nat k * d)) = Ret (direct, None) /\
    List.length out = List.length direct /\
    forall i x y, nth_error out i = Some x -> nth_error direct i = Some y ->
      let g := source (b * k) i cs in
      approx ((INR b + 2) * 0.000007 + 4 * (INR (List.length g) + 1) * eps * total_mag (map c_volume g))
        (c_volume x) (real (c_volume y)).
Proof.
  intros tz cs t0 d k b Hl Hd Hk Hb Hr Hn Ha Hab Hf Hv Ht.
  pose proof (modify_interval_regular f64_R5 tz cs t0 d k Hl Hd Hk Hr Hn Ha) as H1.
  assert (modify_interval tz cs (Z.of_nat b * (Z.of_nat k * d)) = Ret (map agg (pieces (b * k) cs), None)) as H3.
  { replace (Z.of_nat b * (Z.of_nat k * d)) with (Z.of_nat (b * k) * d) in * by lia.
    apply (modify_interval_regular f64_R5) with (t0 := t0); auto. nia. }
  assert (forall n i, (INR (List.length (source n i cs)) <= INR (List.length cs))%R) as Ls.
  { intros n i. apply le_INR. unfold source. rewrite firstn_length, skipn_length.
    eapply Nat.le_trans; [apply Nat.le_min_r|apply Nat.le_sub_l]. }
  assert (forall n i, Forall (fun c : candle f64 => is_finite (c_volume c) = true) (source n i cs)) as Fs.
  { intros n i. unfold source. rewrite Forall_forall in *. intros c Hc. apply Hv. eapply in_skipn, in_firstn; exact Hc. }
  assert (forall n i, (total_mag (map c_volume (source n i cs)) <= total_mag (map c_volume cs))%R) as Ms.
  { intros n i. unfold source.
    assert (forall (l : candles f64) j, (total_mag (map c_volume (firstn j l)) <= total_mag (map c_volume l))%R /\
                                        (total_mag (map c_volume (skipn j l)) <= total_mag (map c_volume l))%R) as Q.
    { intros l j. assert (total_mag (map c_volume l) = total_mag (map c_volume (firstn j l ++ skipn j l))) as E by now rewrite firstn_skipn.
      rewrite map_app, mag_app in E.
      pose proof (mag_nonneg (map c_volume (firstn j l))). pose proof (mag_nonneg (map c_volume (skipn j l))). lra. }
    eapply Rle_trans; [apply Q|apply Q]. }
  assert (cs <> []) as Hne by (intros ->; unfold zlen in Hl; simpl in Hl; lia).
  exists (map agg (pieces k cs)).
  destruct (Z_lt_le_dec (zlen (map agg (pieces k cs))) 2) as [L|L].
  - assert (List.length (pieces k cs) = 1%nat) as L1.
    { unfold zlen in L. rewrite map_length in L. 
      rewrite pieces_eq in * by assumption. simpl in L |- *. lia. }
    destruct (pieces_length k cs Hk) as [P1 P2]. rewrite L1 in P1.
    assert (pieces k cs = [cs]) as E1.
    { destruct (pieces k cs) as [|g [|? ?]] eqn:E; try discriminate.
      pose proof (pieces_concat k cs Hk) as C. rewrite E in C. simpl in C. rewrite app_nil_r in C. now subst g. }
    assert (pieces (b * k) cs = [cs]) as E2.
    { rewrite pieces_eq by (nia || assumption). rewrite firstn_all2, skipn_all2 by nia. reflexivity. }
    rewrite E1, E2 in *. simpl map in *. exists [agg cs], [agg cs].
    do 3 (split; [assumption || reflexivity|]). split; [reflexivity|].
    intros [|i] x y Hx Hy; [|destruct i; discriminate]. injection Hx as <-. injection Hy as <-. cbv zeta.
    set (g := source (b * k) 0 cs). pose proof (mag_nonneg (map c_volume g)) as Mg. pose proof (pos_INR (List.length g)) as Pg.
    pose proof (pos_INR b) as Pb.
    assert (total_mag (map c_volume cs) <= bpow radix2 900)%R as Ht9.
    { eapply Rle_trans; [exact Ht|]. apply bpow_le. lia. }
    destruct (agg_vol_near cs Hne Hf) as [Ff _]; [now rewrite Forall_map|exact Ht9|].
    split; [exact Ff|]. unfold real. rewrite Rminus_diag_eq, Rabs_R0 by reflexivity.
    assert (0 < eps)%R as Pe by apply bpow_gt_0.
    apply Rplus_le_le_0_compat; [lra|]. apply Rmult_le_pos; [|assumption]. apply Rmult_le_pos; lra.
  - exists (map agg (pieces b (map agg (pieces k cs)))), (map agg (pieces (b * k) cs)).
    split; [assumption|]. split; [|split; [assumption|]].
    { apply (modify_interval_regular f64_R5) with (t0 := t0); auto; [nia|now apply pieces_regular|now apply near_pieces]. }
    rewrite pieces_map by assumption.
    assert (forall i, (i * b < List.length (pieces k cs))%nat <-> (i * (b * k) < List.length cs)%nat) as Iff.
    { intros i. rewrite <- nth_error_Some, pieces_nth by assumption.
      destruct (Nat.ltb_spec (i * b * k) (List.length cs)); split; intros; try congruence; nia. }
    assert (forall i, nth_error (pieces b (pieces k cs)) i <> None <-> nth_error (pieces (b * k) cs) i <> None) as Sm.
    { intros i. rewrite (pieces_nth b), (pieces_nth (b * k)) by nia. specialize (Iff i).
      destruct (Nat.ltb_spec (i * b) (List.length (pieces k cs))), (Nat.ltb_spec (i * (b * k)) (List.length cs));
        split; intros; (discriminate || congruence || lia). }
    split.
    + rewrite !map_length. 
      apply Nat.le_antisymm; apply Nat.nlt_ge; intros Q.
      * apply nth_error_Some, Sm, nth_error_Some in Q. lia.
      * apply nth_error_Some, Sm, nth_error_Some in Q. lia.
    + intros i x y Hx Hy. cbv zeta. rewrite !nth_error_map in Hx. rewrite nth_error_map in Hy.
      rewrite (pieces_nth b) in Hx by assumption. rewrite (pieces_nth (b * k)) in Hy by nia.
      destruct (Nat.ltb_spec (i * b) (List.length (pieces k cs))) as [Q1|]; [|discriminate].
      destruct (Nat.ltb_spec (i * (b * k)) (List.length cs)) as [Q2|]; [|discriminate].
      injection Hx as <-. injection Hy as <-.
      pose proof (twice_near (firstn b (skipn (i * b) (pieces k cs)))) as T.
      rewrite skipn_concat_pieces in T by assumption. fold (source (b * k) i cs) in *. rewrite eps_uro.
      destruct T as [Tf Te].
      * intros E. apply (f_equal (@List.length _)) in E. rewrite firstn_length, skipn_length in E. simpl in E. lia.
      * apply Forall_forall. intros g Hg. apply in_firstn, in_skipn in Hg.
        pose proof (pieces_nonempty k cs Hk) as P. rewrite Forall_forall in P. auto.
      * unfold few in *. specialize (Ls (b * k)%nat i). lra.
      * rewrite Forall_map. apply Fs.
      * specialize (Ms (b * k)%nat i). lra.
      * split; [exact Tf|]. eapply Rle_trans; [exact Te|].
        apply Rplus_le_compat_r. apply Rmult_le_compat_r; [lra|]. apply Rplus_le_compat_r.
        apply le_INR. rewrite firstn_length. lia.
Qed.

(** Four volumes of 0.000003: 0.00002 in two steps, 0.00001 in one. *)
Definition small_volumes : candles f64 :=
  map (fun i => mkCandle (3600 + 60 * i) (i2f 1) (i2f 1) (i2f 1) (i2f 1) (f64_const 3 (-6))) [0; 1; 2; 3].
Theorem C23_volumes_equal_refuted : exists (cs : candles f64) mid x y,
  regular 3600 1 cs /\ near_times cs /\ Forall sane_candle cs /\
  modify_interval utc cs 2 = Ret (mid, None) /\
  modify_interval utc mid 4 = Ret ([x], None) /\ modify_interval utc cs 4 = Ret ([y], None) /\
  f64_eq (c_volume x) (f64_const 2 (-5)) = true /\ f64_eq (c_volume y) (f64_const 1 (-5)) = true /\
  f64_eq (c_volume x) (c_volume y) = false.
Proof.
  assert (match modify_interval utc small_volumes 2, modify_interval utc small_volumes 4 with
          | Ret (mid, None), Ret ([y], None) =>
            match modify_interval utc mid 4 with
            | Ret ([x], None) => f64_eq (c_volume x) (f64_const 2 (-5)) && f64_eq (c_volume y) (f64_const 1 (-5)) &&
                                 negb (f64_eq (c_volume x) (c_volume y))
            | _ => false end
          | _, _ => false end = true) as E by (vm_compute; reflexivity).
  destruct (modify_interval utc small_volumes 2) as [[mid [e1|]]|] eqn:E1; [discriminate E| |discriminate E].
  destruct (modify_interval utc small_volumes 4) as [[[|y [|? ?]] [e2|]]|] eqn:E2; try discriminate E.
  destruct (modify_interval utc mid 4) as [[[|x [|? ?]] [e3|]]|] eqn:E3; try discriminate E.
  apply andb_true_iff in E as [E E6]. apply andb_true_iff in E as [E4 E5]. apply negb_true_iff in E6.
  exists small_volumes, mid, x, y.
  split.
  { intros i c H. destruct i as [|[|[|[|i]]]]; cbn [small_volumes map nth_error] in H;
      [injection H as <-; reflexivity..|destruct i; discriminate]. }
  split.
  { intros a c Ha Hc.
    assert (forall v : candle f64, In v small_volumes -> 3600 <= c_time v <= 3780) as B.
    { intros v Hv. cbn [small_volumes map In] in Hv.
      destruct Hv as [<-|[<-|[<-|[<-|[]]]]]; cbn [c_time]; lia. }
    pose proof (B a Ha). pose proof (B c Hc). lia. }
  split.
  { cbn [small_volumes map]. repeat apply Forall_cons; try apply Forall_nil; split; split; vm_compute; reflexivity. }
  auto 10.
Qed.
Example C23_volumes_example :
  match (x <- modify_interval utc hour_series 2 ;; modify_interval utc (fst x) 4) with
  | Ret (out, None) => map (fun c => f2i (c_volume c)) out
  | _ => [] end = [10; 26; 9] /\
  regular 3600 1 hour_series /\ starts_interval utc 2 3600 /\ starts_interval utc 4 3600.
Proof.
  split; [vm_compute; reflexivity|]. split.
  - intros i c H. destruct i as [|[|[|[|[|[|[|[|[|i]]]]]]]]]; cbn [hour_series nth_error] in H;
      [injection H as <-; reflexivity..|destruct i; discriminate].
  - split; left; reflexivity.
Qed.

Print Assumptions C23_volumes_close.
Print Assumptions C23_volumes_equal_refuted.
