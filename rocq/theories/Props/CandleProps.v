(** Properties C19-C30: market/candle.go.
    Model: Model/Candle.v; vocabulary: Spec/CandleSpec.v. *)
From Coq Require Import Reals Lra Znumtheory.
From Flocq Require Import Core BinarySingleNaN.
From Verif Require Import Go.Outcome Go.Int64 Go.Slice Go.Float64 Go.FloatOrder Go.FloatReal Go.Text Go.Num
  Model.Candle Spec.CandleSpec Proofs.Lists Proofs.RoundTrip Proofs.Candle Proofs.CandleThms Proofs.CandleRegular
  Proofs.CandleMore.
Open Scope list_scope.
Open Scope Z_scope.

(** ** Concrete series used in the examples *)

(** Candle at minute [m]: open o, high h, low l, close c, volume v. *)
Definition cd (m o h l c v : Z) : candle f64 :=
  mkCandle (60 * m) (i2f o) (i2f h) (i2f l) (i2f c) (i2f v).
Definition utc : Z -> Z := fun _ => 0.
(** India: 5:30 hours ahead. *)
Definition ist : Z -> Z := fun _ => 19800.
Definition see (cs : candles f64) : list (Z * Z * Z * Z * Z * Z) :=
  map (fun c => (c_time c / 60, f2i (c_open c), f2i (c_high c), f2i (c_low c), f2i (c_close c), f2i (c_volume c))) cs.
Definition seen (o : go (candles f64 * option err)) : option (list (Z * Z * Z * Z * Z * Z) * option err) :=
  match o with Ret (cs, e) => Some (see cs, e) | Panic _ => None end.

(** A successful run observed by a test on its output. *)
Lemma observe (o : go (candles f64 * option err)) (f : candles f64 -> bool) :
  match o with Ret (out, None) => f out | _ => false end = true ->
  exists out, o = Ret (out, None) /\ f out = true.
Proof. destruct o as [[out [e|]]|]; try discriminate. eauto. Qed.
Definition times_are (ts : list Z) (cs : candles f64) : bool :=
  if list_eq_dec Z.eq_dec (map c_time cs) ts then true else false.
Lemma times_are_eq ts cs : times_are ts cs = true -> map c_time cs = ts.
Proof. unfold times_are. now destruct list_eq_dec. Qed.

(** One-minute candles from minute 8 on. *)
Definition series : candles f64 :=
  [cd 8 5 9 4 6 1; cd 9 6 7 5 7 2; cd 10 7 8 3 4 3; cd 11 4 6 2 5 4; cd 12 5 20 5 9 5;
   cd 13 9 9 8 8 6; cd 14 8 8 8 8 7; cd 15 8 11 1 10 8; cd 16 10 12 9 11 9].
(** The same from minute 10 on. *)
Definition series10 : candles f64 := skipn 2 series.

Example series_near : near_times series /\ near_times series10.
Proof.
  split; intros a b Ha Hb; cbn in Ha, Hb;
  repeat (destruct Ha as [<-|Ha]; [repeat (destruct Hb as [<-|Hb]; [reflexivity|]); destruct Hb|]); destruct Ha.
Qed.
Example series10_regular : regular 600 1 series10.
Proof.
  intros i c H. do 7 (destruct i as [|i]; [injection H as <-; reflexivity|]). destruct i; discriminate.
Qed.
Lemma small_sane x : f64_le (i2f (-1000)) x = true -> f64_le x (i2f 1000) = true -> sane x.
Proof.
  intros H1 H2. apply f64_le_true in H1 as (N1 & N & K1). apply f64_le_true in H2 as (_ & N2 & K2).
  destruct const_sane as [C1 C2]. apply sane_key in C1 as [C1 _]. apply sane_key in C2 as [C2 _].
  assert (f64_le (f64_const (-1) 308) (i2f (-1000)) = true) as A by (vm_compute; reflexivity).
  assert (f64_le (i2f 1000) (f64_const 1 308) = true) as B by (vm_compute; reflexivity).
  apply f64_le_true in A as (_ & _ & A). apply f64_le_true in B as (_ & _ & B).
  split; rewrite f64_le_key by assumption; apply Z.leb_le; lia.
Qed.
Example series_sane : Forall sane_candle series.
Proof. repeat (apply Forall_cons; [split; apply small_sane; reflexivity|]). apply Forall_nil. Qed.
Example series10_starts : starts_interval utc 5 600.
Proof. right. left. split; [lia|]. exists 2. reflexivity. Qed.

(** ** C19 *)
Theorem C19_groups_partition_and_summarise : forall tz cs n out,
  2 <= zlen cs -> modify_interval tz cs n = Ret (out, None) ->
  exists skipped gs, grouped tz n cs skipped gs /\ Forall2 summary gs out.
Proof.
  intros tz cs n out Hl H. destruct (modify_interval_groups tz cs n out Hl H) as (sk & gs & H1 & H2 & _). eauto.
Qed.
Example C19_example : seen (modify_interval utc series 5)
  = Some ([(10, 7, 20, 2, 8, 25); (15, 8, 12, 1, 11, 17)], None).
Proof. vm_compute. reflexivity. Qed.

(** ** C20 *)
Theorem C20_groups_start_exactly_at_boundaries : forall tz cs n out,
  2 <= zlen cs -> near_times cs -> modify_interval tz cs n = Ret (out, None) ->
  exists skipped gs, grouped tz n cs skipped gs /\ Forall2 summary gs out /\
    forall p, first_is (List.concat gs) p -> cut_at_boundaries (c_time p) n gs.
Proof.
  intros tz cs n out Hl Hn H. destruct (modify_interval_groups tz cs n out Hl H) as (sk & gs & H1 & H2 & H3).
  exists sk, gs. auto.
Qed.
(** The grouping is determined by the input. *)
Theorem C20_grouping_unique : forall p n (gs gs' : list (candles f64)) q,
  List.concat gs = List.concat gs' ->
  Forall (fun g => g <> []) gs -> Forall (fun g => g <> []) gs' ->
  first_is (List.concat gs) q ->
  cut_at_boundaries p n gs -> cut_at_boundaries p n gs' -> gs = gs'.
Proof.
  intros p n gs gs' q E N1 N2 _ C1 C2. revert gs' E N2 C2. induction gs as [|g gs IH]; intros gs' E N2 C2.
  - destruct gs' as [|g' gs']; [reflexivity|]. inversion N2 as [|? ? Hg _]; subst. destruct g'; [congruence|discriminate].
  - inversion N1 as [|? ? Hg N1']; subst. destruct gs' as [|g' gs'].
    { destruct g; [congruence|discriminate]. }
    inversion N2 as [|? ? Hg' N2']; subst. simpl in E.
    assert (cut_at_boundaries p n gs) as C1'.
    { destruct C1 as [A B]. split.
      - intros x h r Hx. apply A. right; assumption.
      - intros g0 rest x h r -> Hx. eapply B; [reflexivity|]. right; assumption. }
    assert (cut_at_boundaries p n gs') as C2'.
    { destruct C2 as [A B]. split.
      - intros x h r Hx. apply A. right; assumption.
      - intros g0 rest x h r -> Hx. eapply B; [reflexivity|]. right; assumption. }
    assert (forall (a b : candles f64) ra rb hs hs', a ++ ra = b ++ rb -> a <> [] -> b <> [] ->
      (forall h r, a = h :: r -> Forall (fun c => ~ on_boundary p n (c_time c)) r) ->
      (forall h r, b = h :: r -> Forall (fun c => ~ on_boundary p n (c_time c)) r) ->
      ra = List.concat hs -> rb = List.concat hs' ->
      Forall (fun g => g <> []) hs -> Forall (fun g => g <> []) hs' ->
      (forall x h r, In x hs -> x = h :: r -> on_boundary p n (c_time h)) ->
      (forall x h r, In x hs' -> x = h :: r -> on_boundary p n (c_time h)) -> a = b) as K.
    { assert (forall (a b : candles f64) ra rb hs hs', a ++ ra = b ++ rb ->
        Forall (fun c => ~ on_boundary p n (c_time c)) a ->
        Forall (fun c => ~ on_boundary p n (c_time c)) b ->
        ra = List.concat hs -> rb = List.concat hs' ->
        Forall (fun g => g <> []) hs -> Forall (fun g => g <> []) hs' ->
        (forall x h r, In x hs -> x = h :: r -> on_boundary p n (c_time h)) ->
        (forall x h r, In x hs' -> x = h :: r -> on_boundary p n (c_time h)) -> a = b) as K0.
      { induction a as [|x a IHa]; intros b ra rb hs hs' E1 F1 F2 Er Er' Nh Nh' B1 B2.
        - destruct b as [|y b]; [reflexivity|]. exfalso. simpl in E1. rewrite Er in E1. clear Er.
          destruct hs as [|h0 hs]; [discriminate|].
          inversion Nh as [|? ? Hh _]. destruct h0 as [|z h0]; [congruence|]. simpl in E1. injection E1 as <- _.
          inversion F2 as [|? ? Hy _]; subst. apply Hy. eapply B1; [left; reflexivity|reflexivity].
        - destruct b as [|y b].
          + exfalso. simpl in E1. rewrite Er' in E1. clear Er'.
            destruct hs' as [|h0 hs']; [discriminate|].
            inversion Nh' as [|? ? Hh _]. destruct h0 as [|z h0]; [congruence|]. simpl in E1. injection E1 as <- _.
            inversion F1 as [|? ? Hy _]; subst. apply Hy. eapply B2; [left; reflexivity|reflexivity].
          + simpl in E1. injection E1 as <- E1. inversion F1; inversion F2; subst. f_equal.
            eapply (IHa b _ _ hs hs'); eauto. }
      intros a b ra rb hs hs' E1 Na Nb F1 F2 Er Er' Nh Nh' B1 B2.
      destruct a as [|x a]; [congruence|]. destruct b as [|y b]; [congruence|].
      simpl in E1. injection E1 as <- E1. f_equal.
      eapply (K0 a b ra rb hs hs'); eauto. }
    assert (g = g') as <-.
    { destruct C1 as [A1 B1], C2 as [A2 B2].
      apply (K g g' (List.concat gs) (List.concat gs') gs gs'); auto.
      - intros h r. apply A1. left; reflexivity.
      - intros h r. apply A2. left; reflexivity.
      - intros x h r Hx Ex. eapply B1; [reflexivity|exact Hx|exact Ex].
      - intros x h r Hx Ex. eapply B2; [reflexivity|exact Hx|exact Ex]. }
    f_equal. apply IH; auto. now apply app_inv_head in E.
Qed.
Example C20_example : seen (modify_interval utc series 3)
  = Some ([(9, 6, 8, 2, 5, 9); (12, 5, 20, 5, 8, 18); (15, 8, 12, 1, 11, 17)], None).
Proof. vm_compute. reflexivity. Qed.

(** ** C21 *)
Definition fails_with (c : code) (o : go (candles f64 * option err)) : Prop :=
  exists e, o = Ret ([], Some e) /\ err_code e = Some c.
Definition succeeds (o : go (candles f64 * option err)) : Prop := exists out, o = Ret (out, None).

Theorem C21_short_inputs : forall tz n (c : candle f64),
  modify_interval tz (@nil (candle f64)) n = Panic PIndex /\ modify_interval tz [c] n = Ret ([c], None).
Proof. intros. split; reflexivity. Qed.

Theorem C21_decision_table : forall tz (a b : candle f64) rest n,
  in_int64 (c_time b - c_time a) ->
  let cs := a :: b :: rest in
  let gap := Z.quot (c_time b - c_time a) 60 in
  let result := modify_interval tz cs n in
  (gap <> 1 -> n = 1 -> fails_with ECONFLICT result) /\
  (gap = 0 -> n <> 1 -> result = Panic PDivZero) /\
  (gap <> 0 -> gap = 1 \/ n <> 1 -> ~ (gap | n) -> fails_with ECONFLICT result) /\
  (gap <> 0 -> gap = 1 \/ n <> 1 -> (gap | n) ->
    (Forall (fun c => ~ starts_interval tz n (c_time c)) cs -> fails_with EINVALID result) /\
    (forall sk p r, cs = sk ++ p :: r ->
       Forall (fun c => ~ starts_interval tz n (c_time c)) sk -> starts_interval tz n (c_time p) ->
       (n = 0 -> r <> [] -> result = Panic PDivZero) /\
       (n <> 0 \/ r = [] -> succeeds result))).
Proof.
  intros tz a b rest n Hi. cbv zeta.
  assert (first_gap (a :: b :: rest) = Z.quot (c_time b - c_time a) 60) as G.
  { unfold first_gap. now rewrite wrap64_id. }
  assert (2 <= zlen (a :: b :: rest)) as L by (unfold zlen; simpl List.length; lia).
  destruct (mi_table f64_R5 tz (a :: b :: rest) n L) as (T1 & T2 & T3 & T4). cbv zeta in *.
  rewrite G in *. set (gap := Z.quot _ _) in *.
  split; [|split; [exact T2|split]].
  - intros D E. exists mi_no1. split; [now apply T1|reflexivity].
  - intros D E R. eexists. split; [apply T3; auto|reflexivity]. intros K. apply R. now apply Z.rem_divide.
  - intros D E R. destruct (T4 D E) as [T5 T6]; [now apply Z.rem_divide|]. split.
    + intros H. eexists. split; [now apply T5|reflexivity].
    + exact T6.
Qed.
(** Some candle starts the interval or none does, so the table is complete. *)
Theorem C21_table_complete : forall tz n (cs : candles f64),
  Forall (fun c => ~ starts_interval tz n (c_time c)) cs \/
  exists sk p r, cs = sk ++ p :: r /\ Forall (fun c => ~ starts_interval tz n (c_time c)) sk /\
    starts_interval tz n (c_time p).
Proof.
  intros tz n cs. destruct (split_aligned tz n cs) as [H|(sk & p & r & E & H & Hp)].
  - left. eapply Forall_impl; [|exact H]. intros c. apply aligned_false_iff.
  - right. exists sk, p, r. split; [assumption|]. split; [|now apply aligned_iff].
    eapply Forall_impl; [|exact H]. intros c. apply aligned_false_iff.
Qed.
Theorem C21_volume_text_always_parses : forall x : f64, exists y, f64_round5 x = Some y.
Proof. exact round5_total. Qed.
Example C21_example_conflict : fails_with ECONFLICT (modify_interval utc [cd 0 1 1 1 1 1; cd 2 1 1 1 1 1] 5).
Proof. eexists. split; [vm_compute; reflexivity|reflexivity]. Qed.
Example C21_example_div_zero : modify_interval utc [cd 0 1 1 1 1 1; cd 0 1 1 1 1 1] 5 = Panic PDivZero.
Proof. vm_compute. reflexivity. Qed.
Example C21_example_not_found : fails_with EINVALID (modify_interval utc [cd 1 1 1 1 1 1; cd 2 1 1 1 1 1] 5).
Proof. eexists. split; [vm_compute; reflexivity|reflexivity]. Qed.
Example C21_example_zero_interval : modify_interval utc [cd 60 1 1 1 1 1; cd 61 1 1 1 1 1] 0 = Panic PDivZero.
Proof. vm_compute. reflexivity. Qed.

(** ** C22 *)
Theorem C22_native_interval_is_identity : forall tz cs t0 n,
  2 <= zlen cs -> 1 <= n -> regular t0 n cs -> near_times cs -> starts_interval tz n t0 ->
  Forall sane_candle cs ->
  exists out, modify_interval tz cs n = Ret (out, None) /\
    Forall2 (fun c c' => ohlc c' = ohlc c /\ rounded5 (c_volume c) (c_volume c')) cs out.
Proof.
  intros tz cs t0 n Hl Hn Hr Hnear Ha Hs.
  pose proof (modify_interval_regular f64_R5 tz cs t0 n 1 Hl Hn (le_n 1) Hr Hnear) as H.
  change (Z.of_nat 1 * n) with (1 * n) in H. rewrite Z.mul_1_l in H.
  eexists. split; [now apply H|]. rewrite pieces_one, map_map.
  clear -Hs. induction Hs as [|c cs Hc Hs IH]; simpl; constructor; [now apply agg_single|assumption].
Qed.
Example C22_example : seen (modify_interval utc series10 1) = Some (see series10, None).
Proof. vm_compute. reflexivity. Qed.

(** ** C23 *)
Theorem C23_resampling_composes : forall tz cs t0 d (k b : nat),
  2 <= zlen cs -> 1 <= d -> (1 <= k)%nat -> (1 <= b)%nat ->
  regular t0 d cs -> near_times cs -> Forall sane_candle cs ->
  starts_interval tz (Z.of_nat k * d) t0 -> starts_interval tz (Z.of_nat b * (Z.of_nat k * d)) t0 ->
  exists mid out direct,
    modify_interval tz cs (Z.of_nat k * d) = Ret (mid, None) /\
    modify_interval tz mid (Z.of_nat b * (Z.of_nat k * d)) = Ret (out, None) /\
    modify_interval tz cs (Z.of_nat b * (Z.of_nat k * d)) = Ret (direct, None) /\
    map ohlc out = map ohlc direct.
Proof.
  intros tz cs t0 d k b Hl Hd Hk Hb Hr Hn Hs Ha Hab.
  pose proof (modify_interval_regular f64_R5 tz cs t0 d k Hl Hd Hk Hr Hn Ha) as H1.
  assert (modify_interval tz cs (Z.of_nat b * (Z.of_nat k * d)) = Ret (map agg (pieces (b * k) cs), None)) as H3.
  { replace (Z.of_nat b * (Z.of_nat k * d)) with (Z.of_nat (b * k) * d) in * by lia.
    apply (modify_interval_regular f64_R5) with (t0 := t0); auto. nia. }
  exists (map agg (pieces k cs)).
  destruct (Z_lt_le_dec (zlen (map agg (pieces k cs))) 2) as [L|L].
  - (* a single candle already *)
    assert (List.length (pieces k cs) = 1%nat) as L1.
    { unfold zlen in L. rewrite map_length in L. destruct cs as [|c cs]; [unfold zlen in Hl; simpl in Hl; lia|].
      rewrite pieces_eq in * by (assumption || discriminate). simpl in L |- *. lia. }
    destruct (pieces_length k cs Hk) as [P1 P2]. rewrite L1 in P1.
    assert (pieces k cs = [cs]) as E1.
    { destruct (pieces k cs) as [|g [|? ?]] eqn:E; try discriminate. 
      pose proof (pieces_concat k cs Hk) as C. rewrite E in C. simpl in C. rewrite app_nil_r in C. now subst g. }
    assert (pieces (b * k) cs = [cs]) as E2.
    { destruct cs as [|c cs]; [unfold zlen in Hl; simpl in Hl; lia|].
      rewrite pieces_eq by (nia || discriminate). rewrite firstn_all2, skipn_all2 by nia. reflexivity. }
    rewrite E1, E2 in *. simpl map in *. exists [agg cs], [agg cs]. auto.
  - exists (map agg (pieces b (map agg (pieces k cs)))), (map agg (pieces (b * k) cs)).
    split; [assumption|]. split; [|split; [assumption|]].
    + apply (modify_interval_regular f64_R5) with (t0 := t0); auto; [nia|now apply pieces_regular|now apply near_pieces].
    + now apply compose_pieces.
Qed.
Definition hour_series : candles f64 :=
  [cd 60 5 9 4 6 1; cd 61 6 7 5 7 2; cd 62 7 8 3 4 3; cd 63 4 6 2 5 4; cd 64 5 20 5 9 5;
   cd 65 9 9 8 8 6; cd 66 8 8 8 8 7; cd 67 8 11 1 10 8; cd 68 10 12 9 11 9].
Example C23_example :
  seen (x <- modify_interval utc hour_series 2 ;; modify_interval utc (fst x) 4)
  = seen (modify_interval utc hour_series 4) /\
  seen (modify_interval utc hour_series 4)
  = Some ([(60, 5, 9, 2, 5, 10); (64, 5, 20, 1, 10, 26); (68, 10, 12, 9, 11, 9)], None).
Proof. split; vm_compute; reflexivity. Qed.

(** ** C24 *)
Theorem C24_regular_series_counts : forall tz cs t0 d (k : nat),
  2 <= zlen cs -> 1 <= d -> (1 <= k)%nat -> regular t0 d cs -> near_times cs ->
  starts_interval tz (Z.of_nat k * d) t0 ->
  exists out gs, modify_interval tz cs (Z.of_nat k * d) = Ret (out, None) /\
    regular t0 (Z.of_nat k * d) out /\
    (* ceil (len / k) candles *)
    ((List.length out - 1) * k < List.length cs <= List.length out * k)%nat /\
    List.concat gs = cs /\ Forall2 summary gs out /\
    (forall i g, nth_error gs i = Some g ->
       (S i < List.length gs -> List.length g = k)%nat /\ (1 <= List.length g <= k)%nat).
Proof.
  intros tz cs t0 d k Hl Hd Hk Hr Hn Ha.
  exists (map agg (pieces k cs)), (pieces k cs).
  split; [now apply (modify_interval_regular f64_R5) with (t0 := t0)|].
  split; [now apply pieces_regular|].
  destruct (pieces_length k cs Hk) as [P1 P2]. rewrite map_length.
  assert (cs <> []) as Hne by (intros ->; unfold zlen in Hl; simpl in Hl; lia).
  split; [split; auto|]. split; [now apply pieces_concat|]. split.
  - pose proof (pieces_nonempty k cs Hk) as Q. clear -Q.
    induction Q as [|g gs Hg Q IH]; simpl; constructor; [now apply agg_summary|assumption].
  - intros i g Hi. rewrite pieces_nth in Hi by assumption.
    destruct (Nat.ltb_spec (i * k) (List.length cs)) as [L|L]; [|discriminate]. injection Hi as <-.
    rewrite firstn_length, skipn_length. split; [|lia].
    intros Hs. assert (S i * k < List.length cs)%nat; [|simpl in *; lia].
    specialize (P2 Hne). nia.
Qed.
Example C24_example : option_map (fun p => List.length (fst p)) (seen (modify_interval utc hour_series 4)) = Some 3%nat.
Proof. vm_compute. reflexivity. Qed.

(** ** C25 *)
Theorem C25_first_output_is_first_start : forall tz cs n out, 2 <= zlen cs ->
  modify_interval tz cs n = Ret (out, None) ->
  exists sk p rest c r, cs = sk ++ p :: rest /\ out = c :: r /\
    Forall (fun v => ~ starts_interval tz n (c_time v)) sk /\ starts_interval tz n (c_time p) /\
    c_time c = c_time p /\ c_open c = @c_open f64 p.
Proof. exact modify_interval_first. Qed.
Theorem C25_first_time_multiple : forall tz cs n out, 2 <= zlen cs ->
  1 <= n -> (n | 60) -> (forall u, (3600 | tz u)) ->
  modify_interval tz cs n = Ret (out, None) ->
  exists c r, out = c :: r /\ (n | @c_time f64 c / 60) /\ ((60 | c_time c) -> (60 * n | c_time c)).
Proof.
  intros tz cs n out Hl H1 H60 Hz H.
  destruct (modify_interval_first tz cs n out Hl H) as (sk & p & rest & c & r & E & Eo & _ & Hs & Et & _).
  exists c, r. split; [assumption|].
  assert ((n | c_time c / 60)) as D by (rewrite Et; eapply starts_interval_hours; eauto).
  split; [assumption|]. intros [q Hq]. rewrite Hq, Z.div_mul in D by lia. rewrite Hq.
  destruct D as [u ->]. exists u. lia.
Qed.
(** Above an hour the first candle need not be a multiple of the interval,
    although the series holds one that is. *)
Definition two_hours : candles f64 := [cd 60 1 1 1 1 1; cd 120 1 1 1 1 1; cd 180 1 1 1 1 1].
Theorem C25_multiple_above_hour_refuted :
  exists cs n out c r v, 60 < n /\ modify_interval utc cs n = Ret (out, None) /\ out = c :: r /\
    ~ (60 * n | @c_time f64 c) /\ In v cs /\ (60 * n | @c_time f64 v) /\ Forall (fun x => (60 | c_time x)) cs.
Proof.
  edestruct (observe (modify_interval utc two_hours 120) (times_are [3600; 10800])) as (out & E & T); [vm_compute; reflexivity|]. apply times_are_eq in T. destruct out as [|c r]; [discriminate|]. injection T as Tc Tr.
  exists two_hours, 120, (c :: r), c, r, (cd 120 1 1 1 1 1).
  split; [lia|]. split; [exact E|]. split; [reflexivity|].
  split; [rewrite Tc; intros [q Hq]; lia|]. split; [right; left; reflexivity|].
  split; [exists 1; reflexivity|]. 
  repeat constructor; [exists 60|exists 120|exists 180]; reflexivity.
Qed.
(** The result depends on the zone of the machine. *)
Theorem C25_zone_dependence : exists cs n out1 out2,
  modify_interval utc cs n = Ret (out1, None) /\ modify_interval ist cs n = Ret (out2, None) /\
  map (@c_time f64) out1 <> map c_time out2.
Proof.
  pose (cs := [cd 30 1 1 1 1 1; cd 60 1 1 1 1 1]).
  edestruct (observe (modify_interval utc cs 60) (times_are [3600])) as (o1 & E1 & T1); [vm_compute; reflexivity|].
  edestruct (observe (modify_interval ist cs 60) (times_are [1800])) as (o2 & E2 & T2); [vm_compute; reflexivity|].
  apply times_are_eq in T1, T2. exists cs, 60, o1, o2. rewrite T1, T2. repeat split; auto. discriminate.
Qed.

(** ** C26 *)
Definition gappy : candles f64 :=
  [cd 0 1 1 1 11 1; cd 1 1 1 1 12 1; cd 3 1 1 1 13 1; cd 4 1 1 1 14 1].
Theorem C26_span_refuted : exists cs n out c v,
  modify_interval utc cs n = Ret (out, None) /\ In c out /\ In v cs /\
  (* the close of [c] is the close of [v] and of no other candle, although [v]
     comes after the end of [c]'s interval *)
  f64_eq (@c_close f64 v) (c_close c) = true /\
  (forall v', In v' cs -> f64_eq (c_close v') (c_close c) = true -> v' = v) /\
  c_time c + 60 * n <= c_time v.
Proof.
  pose (test := fun out : candles f64 => match out with
     | c :: _ => (c_time c =? 0) && f64_eq (i2f 13) (c_close c) && negb (f64_eq (i2f 11) (c_close c)) &&
                 negb (f64_eq (i2f 12) (c_close c)) && negb (f64_eq (i2f 14) (c_close c))
     | [] => false end).
  edestruct (observe (modify_interval utc gappy 2) test) as (out & E & T); [vm_compute; reflexivity|].
  destruct out as [|c r]; [discriminate|]. unfold test in T. clear test.
  repeat (apply andb_prop in T as [T ?]). apply Z.eqb_eq in T.
  exists gappy, 2, (c :: r), c, (cd 3 1 1 1 13 1).
  split; [exact E|]. split; [left; reflexivity|]. split; [right; right; left; reflexivity|].
  split; [assumption|]. split; [|rewrite T; cbn; lia].
  intros v' Hv Q.
  destruct Hv as [<-|[<-|[<-|[<-|[]]]]]; [..|reflexivity|];
    exfalso; cbn [cd c_close] in Q;
    match goal with H : negb (f64_eq ?a ?b) = true |- _ => change (f64_eq a b = true) in Q; rewrite Q in H; discriminate end.
Qed.
Theorem C26_regular_series_span : forall tz cs t0 d (k : nat),
  2 <= zlen cs -> 1 <= d -> (1 <= k)%nat -> regular t0 d cs -> near_times cs ->
  starts_interval tz (Z.of_nat k * d) t0 ->
  exists out gs, modify_interval tz cs (Z.of_nat k * d) = Ret (out, None) /\
    List.concat gs = cs /\ Forall2 summary gs out /\
    forall g f c, In g gs -> first_is g f -> In c g ->
      0 <= @c_time f64 c - c_time f < 60 * (Z.of_nat k * d).
Proof.
  intros tz cs t0 d k Hl Hd Hk Hr Hn Ha.
  destruct (C24_regular_series_counts tz cs t0 d k Hl Hd Hk Hr Hn Ha) as (out & gs & H1 & _ & _ & H4 & H5 & H6).
  exists out, (pieces k cs).
  split; [assumption|]. split; [now apply pieces_concat|]. split.
  - rewrite (modify_interval_regular f64_R5 tz cs t0 d k Hl Hd Hk Hr Hn Ha) in H1. injection H1 as <-.
    pose proof (pieces_nonempty k cs Hk) as Q. clear -Q.
    induction Q as [|g gs Hg Q IH]; simpl; constructor; [now apply agg_summary|assumption].
  - intros g f c Hg [r Hf] Hc. apply In_nth_error in Hg as [i Hi]. rewrite pieces_nth in Hi by assumption.
    destruct (Nat.ltb_spec (i * k) (List.length cs)) as [L|L]; [|discriminate]. injection Hi as <-.
    apply In_nth_error in Hc as [j Hj].
    assert (j < k)%nat as Hjk.
    { assert (nth_error (firstn k (skipn (i * k) cs)) j <> None) as S by congruence.
      apply nth_error_Some in S. rewrite firstn_length in S. lia. }
    pose proof (regular_skipn t0 d (i * k) cs Hr) as Hr'.
    assert (nth_error (skipn (i * k) cs) j = Some c) as Hj'.
    { rewrite <- Hj. symmetry. clear -Hjk. generalize (skipn (i * k) cs). intros l. revert k j Hjk.
      induction l as [|x l IH]; intros [|k] [|j] H; simpl; try lia; auto. apply IH. lia. }
    assert (nth_error (skipn (i * k) cs) 0 = Some f) as H0.
    { destruct (skipn (i * k) cs) as [|x l]; [now rewrite firstn_nil in Hf|]. destruct k; [lia|]. simpl in Hf. injection Hf as -> _. reflexivity. }
    rewrite (Hr' _ _ Hj'), (Hr' _ _ H0). nia.
Qed.

(** ** C27 *)
Theorem C27_volume_conserved_exact : forall tz (cs : candles R) n out, 2 <= zlen cs ->
  modify_interval tz cs n = Ret (out, None) ->
  exists skipped used, cs = skipped ++ used /\
    Forall (fun c => ~ starts_interval tz n (c_time c)) skipped /\
    (exists p, first_is used p /\ starts_interval tz n (c_time p)) /\
    (Rabs (vol_sum out - vol_sum used) <= INR (List.length out) * 0.000005)%R.
Proof.
  intros tz cs n out Hl H. destruct (mi_success R_R5 tz cs n out Hl H) as (sk & p & rest & Hcs & Hsk & Hp & _ & _ & _ & _ & Ho).
  exists sk, (p :: rest). split; [assumption|].
  split; [eapply Forall_impl; [|exact Hsk]; intros c; apply aligned_false_iff|].
  split; [exists p; split; [now exists rest|now apply aligned_iff]|].
  pose proof (agg_volumes _ (grp_nonempty (bdb (c_time p) n) [p] rest ltac:(discriminate))) as A.
  rewrite grp_concat in A. simpl app in A. rewrite Ho, map_length.
  replace 0.000005%R with (/ 200000)%R by lra. exact A.
Qed.
Theorem C27_float_volume_close : forall tz cs n out, 2 <= zlen cs ->
  modify_interval tz cs n = Ret (out, None) ->
  exists skipped gs, grouped tz n cs skipped gs /\
    Forall2 (fun g c => let s := fsum (map c_volume g) in is_finite s = true ->
      is_finite (c_volume c) = true /\
      (Rabs (B2R (c_volume c) - B2R s) <= 0.000005 + bpow radix2 (-53) * (Rabs (B2R s) + 0.000005))%R) gs out.
Proof.
  intros tz cs n out Hl H. destruct (modify_interval_groups tz cs n out Hl H) as (sk & gs & H1 & H2 & _).
  exists sk, gs. split; [assumption|]. clear -H2. induction H2 as [|g c gs out Hs H IH]; constructor; [|assumption].
  cbv zeta. intros F. destruct Hs as (_ & _ & _ & _ & R5). replace 0.000005%R with (/ 200000)%R by lra.
  split; [apply R5; assumption|]. now apply rounded5_error.
Qed.
Theorem C27_nonnegative_volume : forall tz cs n out, 2 <= zlen cs ->
  modify_interval tz cs n = Ret (out, None) ->
  Forall (fun c => f64_le (i2f 0) (c_volume c) = true) cs ->
  Forall (fun c => f64_le (i2f 0) (c_volume c) = true) out.
Proof.
  intros tz cs n out Hl H Hv. destruct (modify_interval_groups tz cs n out Hl H) as (sk & gs & (Hcs & _) & H2 & _).
  assert (Forall (fun c => f64_le (i2f 0) (c_volume c) = true) (List.concat gs)) as Hg.
  { rewrite Hcs in Hv. now apply Forall_app in Hv. }
  clear -Hg H2. induction H2 as [|g c gs out Hs H IH]; constructor.
  - destruct Hs as (_ & _ & _ & _ & R5). eapply rounded5_nonneg; [exact R5|]. apply fsum_nonneg.
    rewrite Forall_map. simpl in Hg. now apply Forall_app in Hg.
  - apply IH. simpl in Hg. now apply Forall_app in Hg.
Qed.
Example C27_example : 
  (* 0.1 + 0.2 = 0.30000000000000004 is cleaned up to 0.3 *)
  let v := f64_const 1 (-1) in let w := f64_const 2 (-1) in
  match modify_interval utc [mkCandle 0 v v v v v; mkCandle 60 w w w w w] 5 with
  | Ret ([c], None) => f64_eq (c_volume c) (f64_const 3 (-1)) && negb (f64_eq (f64_add v w) (f64_const 3 (-1)))
  | _ => false
  end = true.
Proof. vm_compute. reflexivity. Qed.

(** ** C28 *)
Theorem C28_completed_candles_never_change : forall tz cs more n out1 out2,
  modify_interval tz cs n = Ret (out1, None) ->
  modify_interval tz (cs ++ more) n = Ret (out2, None) ->
  exists done last rest, out1 = done ++ [last] /\ out2 = done ++ rest :> candles f64.
Proof. exact modify_interval_append. Qed.
Example C28_example :
  seen (modify_interval utc (firstn 6 series) 5) = Some ([(10, 7, 20, 2, 8, 18)], None) /\
  seen (modify_interval utc (firstn 8 series) 5) = Some ([(10, 7, 20, 2, 8, 25); (15, 8, 11, 1, 10, 8)], None) /\
  seen (modify_interval utc series 5) = Some ([(10, 7, 20, 2, 8, 25); (15, 8, 12, 1, 11, 17)], None).
Proof. repeat split; vm_compute; reflexivity. Qed.

(** ** C29 *)
Theorem C29_high_low_are_extremes : forall cs start end_ c,
  start < end_ -> compress_candle cs start end_ = Ret (c, None) ->
  let g := firstn (Z.to_nat (end_ - start)) (skipn (Z.to_nat start) cs) in
  Forall sane_candle g ->
  maximum (map c_high g) (c_high c) /\ minimum (map c_low g) (c_low c).
Proof.
  intros cs start end_ c H0 H. cbv zeta. set (g := firstn _ _). intros Hs.
  unfold compress_candle in H.
  apply bind_Ret_inv in H as (f & Hf & H). apply bind_Ret_inv in H as (l & Hlst & H).
  apply bind_Ret_inv in H as (g' & Hg & H). apply reslice_Ret in Hg as (_ & L1 & L2 & ->). fold g in H.
  apply index_Ret in Hf as [L3 Hf]. apply index_Ret in Hlst as [L4 _].
  assert (g <> []) as Hne.
  { intros E. apply (f_equal (@List.length _)) in E. unfold g in E. rewrite firstn_length, skipn_length in E. unfold zlen in *. simpl in E. lia. }
  rewrite cc_fold in H.
  change (fold_left _ g (fconst 1 308)) with (agg_low g) in H.
  change (fold_left _ g (fconst (-1) 308)) with (agg_high g) in H.
  assert (c_high c = agg_high g /\ c_low c = agg_low g) as [-> ->].
  { revert H. generalize (agg_high g) (agg_low g) (fold_left fadd (map c_volume g) (fofZ 0)). intros u w x H.
    destruct (fround5 x) as [v|]; [|discriminate]. injection H as <-. split; reflexivity. }
  rewrite agg_high_fold, agg_low_fold. split.
  - apply fold_hmax_maximum; [destruct g; [congruence|discriminate]|]. rewrite Forall_map.
    eapply Forall_impl; [|exact Hs]. intros x [A _]; exact A.
  - apply fold_hmin_minimum; [destruct g; [congruence|discriminate]|]. rewrite Forall_map.
    eapply Forall_impl; [|exact Hs]. intros x [_ A]; exact A.
Qed.
Theorem C29_sentinel_refuted : exists (cs : candles f64) c,
  Forall (fun v => is_finite (c_high v) = true /\ is_finite (c_low v) = true) cs /\
  compress_candle cs 0 1 = Ret (c, None) /\
  ~ In (c_high c) (map c_high cs) /\ ~ In (c_low c) (map c_low cs).
Proof.
  pose (cs := [mkCandle 0 (i2f 1) (f64_neg f64_maxfloat) f64_maxfloat (i2f 1) (i2f 1)]).
  pose (test := fun o : go (candle f64 * option err) => match o with
     | Ret (c, None) => negb (f64_eq (c_high c) (f64_neg f64_maxfloat)) && negb (f64_eq (c_low c) f64_maxfloat)
     | _ => false end).
  assert (test (compress_candle cs 0 1) = true) as T by (vm_compute; reflexivity).
  destruct (compress_candle cs 0 1) as [[c [e|]]|] eqn:E; unfold test in T; [discriminate| |discriminate].
  apply andb_prop in T as [T1 T2].
  exists cs, c. split; [repeat constructor|]. split; [exact E|].
  assert (f64_eq (f64_neg f64_maxfloat) (f64_neg f64_maxfloat) = true) as R1 by (vm_compute; reflexivity).
  assert (f64_eq f64_maxfloat f64_maxfloat = true) as R2 by (vm_compute; reflexivity).
  split; intros [H|[]]; cbn [c_high c_low] in H; rewrite <- H in *.
  - rewrite R1 in T1. discriminate.
  - rewrite R2 in T2. discriminate.
Qed.
Example C29_example : match compress_candle series 0 9 with
  | Ret (c, None) => (f2i (c_high c), f2i (c_low c)) | _ => (0, 0) end = (20, 1).
Proof. vm_compute. reflexivity. Qed.

(** ** C30 *)
Theorem C30_smallest_gap : forall (cs : candles f64), 2 <= zlen cs -> near_times cs ->
  exists m, In m (gaps cs) /\ (forall g, In g (gaps cs) -> m <= g) /\ get_min_interval cs = m / 60.
Proof. exact get_min_interval_spec. Qed.
(** With fewer than two candles MaxFloat64 is converted to int (shown for
    amd64, where that gives the smallest int64). *)
Theorem C30_short_inputs_meaningless : forall c : candle f64,
  get_min_interval (@nil (candle f64)) = -153722867280912930 /\ get_min_interval [c] = -153722867280912930.
Proof. intros c. split; vm_compute; reflexivity. Qed.
Example C30_example : get_min_interval [cd 0 1 1 1 1 1; cd 7 1 1 1 1 1; cd 4 1 1 1 1 1; cd 9 1 1 1 1 1] = 3.
Proof. vm_compute. reflexivity. Qed.
