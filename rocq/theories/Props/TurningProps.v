(** Property C120: fractals of a series and of the series resampled.
    Model: Model/Candle.v, Model/Indicators.v; vocabulary: Spec/TurningSpec.v. *)
From Coq Require Import List Reals Lra Lia.
From Flocq Require Import Core BinarySingleNaN.
From Verif Require Import Go.Outcome Go.Int64 Go.Slice Go.Float64 Go.FloatReal Go.FloatOrder Go.Num Model.Candle Model.Indicators
  Spec.CandleSpec Spec.IndicatorSpec Spec.TurningSpec Proofs.WholeOverlap Proofs.Turning Props.CandleProps Props.FractalProps.
Import ListNotations.
Open Scope list_scope.
Open Scope Z_scope.
Local Notation length := List.length.
Local Notation concat := List.concat.

Lemma finite_number (x : f64) : is_finite x = true -> is_nan x = false.
Proof. destruct x; cbn; congruence. Qed.
Lemma sane_prices_ok cs : Forall sane_candle cs -> prices_ok cs.
Proof.
  intros H. eapply Forall_impl; [|exact H]. intros c [A B]. apply sane_finite in A, B.
  split; now apply finite_number.
Qed.
Lemma reports_five (cs : list (candle f64)) out fr : william_fractals cs = Ret out -> In fr out -> (5 <= length cs)%nat.
Proof.
  intros E I. destruct (Nat.lt_ge_cases (length cs) 5) as [L|L]; [|assumption]. exfalso.
  unfold william_fractals in E. revert E I. destruct cs as [|? [|? [|? [|? [|? ?]]]]]; cbn in L; try lia; vm_compute; intros E I; injection E as <-; destruct I.
Qed.
Lemma groups_stand gs out : Forall (Forall sane_candle) gs -> Forall2 summary gs out -> (forall ft, Forall2 (stands ft) gs out) /\ prices_ok out.
Proof.
  intros Sg Su. assert (forall ft, Forall2 (stands ft) gs out) as St.
  { intros ft. clear - Su Sg. induction Su as [|g c gs out S _ IH]; [constructor|]. inversion Sg; subst.
    constructor; [|auto]. split; [now apply sane_prices|now apply summary_outermost]. }
  split; [assumption|]. clear - St. pose proof (St FractalUp) as U. pose proof (St FractalDown) as D. clear St.
  induction U as [|g c gs out S _ IH]; [constructor|]. inversion D; subst. constructor; [|apply IH; assumption].
  pose proof (stands_finite _ _ _ S) as F1. pose proof (stands_finite FractalDown _ _ H2) as F2. cbn [price_of] in F1, F2.
  split; now apply finite_number.
Qed.
Lemma resampled_groups tz cs n out : Forall sane_candle cs -> modify_interval tz cs n = Ret (out, None) -> (5 <= length out)%nat ->
  exists skipped gs, grouped tz n cs skipped gs /\ Forall2 summary gs out /\ (forall ft, Forall2 (stands ft) gs out) /\ prices_ok out.
Proof.
  intros Sa E L.
  assert (2 <= zlen cs) as L2.
  { destruct cs as [|c0 [|c1 cs]]; [discriminate| |unfold zlen; cbn; lia].
    unfold modify_interval in E. change (zlen [c0] =? 1) with true in E. cbn [negb] in E. injection E as <-. cbn in L. lia. }
  destruct (C19_groups_partition_and_summarise tz cs n out L2 E) as (skipped & gs & G & Su). exists skipped, gs.
  split; [assumption|]. split; [assumption|].
  assert (Forall (Forall sane_candle) gs) as Sg.
  { destruct G as (-> & _). apply Forall_app in Sa. destruct Sa as [_ Sa]. apply Forall_concat. exact Sa. }
  now apply groups_stand.
Qed.
Lemma nth_groups {A B} (P : A -> B -> Prop) l m j b : Forall2 P l m -> nth_error m j = Some b -> exists a, nth_error l j = Some a /\ P a b.
Proof. intros H. revert j. induction H as [|a b' l m p _ IH]; intros [|j] E; try discriminate; cbn in E |- *; [injection E as <-; exists a; auto|auto]. Qed.
Lemma same_length {A B} (P : A -> B -> Prop) l m : Forall2 P l m -> length l = length m.
Proof. induction 1; cbn; congruence. Qed.

(** A fractal of the resampled series is reported for group [j] exactly if the
    group turns there. *)
Theorem C120_reported_iff : forall tz cs n out frs, Forall sane_candle cs ->
  modify_interval tz cs n = Ret (out, None) -> william_fractals out = Ret frs -> (5 <= length out)%nat ->
  exists skipped gs, grouped tz n cs skipped gs /\ Forall2 summary gs out /\
    forall fr, In fr frs <-> exists j ft c, (2 <= j /\ j + 2 < length out)%nat /\ nth_error out j = Some c /\
      fr = mkFractal (c_time c) (price_of ft c) ft /\ turns ft (price_of ft c) gs j.
Proof.
  intros tz cs n out frs Sa E W L. destruct (resampled_groups tz cs n out Sa E L) as (skipped & gs & G & Su & St & Ok).
  exists skipped, gs. split; [assumption|]. split; [assumption|]. intros fr.
  rewrite (C61_reported_iff out frs fr Ok W). split.
  - intros (j & ft & B & (c & Ec & ->) & P). exists j, ft, c. cbn [fst snd] in *. split; [assumption|]. split; [assumption|]. split; [reflexivity|].
    now apply (pattern_turns ft gs out j c).
  - intros (j & ft & c & B & Ec & -> & T). exists j, ft. split; [assumption|]. split; [exists c; auto|].
    now apply (pattern_turns ft gs out j c).
Qed.

Lemma fine_of_groups cs skipped gs out frs fr : Forall sane_candle cs -> cs = skipped ++ concat gs -> Forall (fun g => g <> []) gs ->
  Forall2 summary gs out -> (forall ft, Forall2 (stands ft) gs out) -> prices_ok out -> william_fractals out = Ret frs -> In fr frs ->
  exists fine g f c, william_fractals cs = Ret fine /\ In g gs /\ first_is g f /\ fr_time fr = c_time f /\
    In c g /\ In (mkFractal (c_time c) (price_of (fr_type fr) c) (fr_type fr)) fine /\
    f64_eq (price_of (fr_type fr) c) (fr_price fr) = true.
Proof.
  intros Sa Ecs Ne Su St Ok W I.
  apply (C61_reported_iff out frs fr Ok W) in I. destruct I as (j & ft & B & (c & Ec & ->) & P). cbn [fst snd fr_type fr_price fr_time] in *.
  apply (pattern_turns ft gs out j c (St ft) Ec) in P.
  destruct (nth_groups _ _ _ _ _ Su Ec) as (g & Eg & Sg). pose proof (nth_groups _ _ _ _ _ (St ft) Ec) as (g' & Eg' & Sg'). rewrite Eg in Eg'. injection Eg' as <-.
  pose proof (stands_finite _ _ _ Sg') as Fp.
  rewrite Ecs in Sa.
  destruct (turns_fine ft (price_of ft c) skipped gs j (sane_prices ft _ Sa) Fp Ne) as (i & d & h & Eh & Id & Ed & Ep & Bi & Pi).
  { rewrite (same_length _ _ _ Su). lia. } { assumption. }
  rewrite Eg in Eh. injection Eh as <-. rewrite <- Ecs in *.
  destruct (C61_exactly_the_patterns cs (sane_prices_ok cs Sa)) as (keys & fine & Wf & _).
  destruct Sg as ((f & Ff & Tf & _) & _).
  exists fine, g, f, d. split; [assumption|].
  split; [eapply nth_error_In; eassumption|]. split; [assumption|]. split; [assumption|]. split; [assumption|]. split.
  - apply (C61_reported_iff cs fine _ (sane_prices_ok cs Sa) Wf). exists i, ft. split; [assumption|]. split; [exists d; auto|assumption].
  - assert (is_finite (price_of ft d) = true) as Fd by (apply (fin_in ft cs); [now apply sane_prices|eapply nth_error_In; eassumption]).
    unfold f64_eq. rewrite Beqb_correct by assumption. apply Req_bool_true. destruct ft; cbn [out_of] in Ep; lra.
Qed.
(** Every fractal of the resampled series is a fractal of the original: one of
    the candles of its group is reported there, of the same kind and price. *)
Theorem C120_coarse_is_fine : forall tz cs n out frs fr, Forall sane_candle cs ->
  modify_interval tz cs n = Ret (out, None) -> william_fractals out = Ret frs -> In fr frs ->
  exists skipped gs fine g f c, grouped tz n cs skipped gs /\ Forall2 summary gs out /\ william_fractals cs = Ret fine /\
    In g gs /\ first_is g f /\ fr_time fr = c_time f /\
    In c g /\ In (mkFractal (c_time c) (price_of (fr_type fr) c) (fr_type fr)) fine /\
    f64_eq (price_of (fr_type fr) c) (fr_price fr) = true.
Proof.
  intros tz cs n out frs fr Sa E W I. pose proof (reports_five _ _ _ W I) as L.
  destruct (resampled_groups tz cs n out Sa E L) as (skipped & gs & G & Su & St & Ok). pose proof G as (Ecs & _ & _ & Ne).
  destruct (fine_of_groups cs skipped gs out frs fr Sa Ecs Ne Su St Ok W I) as (fine & g & f & c & H). exists skipped, gs, fine, g, f, c. tauto.
Qed.

(** In a regular series its time is less than one interval later. *)
Theorem C120_within_interval : forall tz cs t0 d (k : nat) out frs fr,
  2 <= zlen cs -> 1 <= d -> (1 <= k)%nat -> regular t0 d cs -> near_times cs -> starts_interval tz (Z.of_nat k * d) t0 ->
  Forall sane_candle cs -> modify_interval tz cs (Z.of_nat k * d) = Ret (out, None) -> william_fractals out = Ret frs -> In fr frs ->
  exists fine fr', william_fractals cs = Ret fine /\ In fr' fine /\ fr_type fr' = fr_type fr /\
    f64_eq (fr_price fr') (fr_price fr) = true /\ fr_time fr <= fr_time fr' < fr_time fr + 60 * (Z.of_nat k * d).
Proof.
  intros tz cs t0 d k out frs fr L2 D K Re Ne St Sa E W I.
  destruct (C26_regular_series_span tz cs t0 d k L2 D K Re Ne St) as (out' & gs & E' & Ec & Su & Sp). rewrite E in E'. injection E' as <-.
  assert (forall g c, In g gs -> summary g c -> g <> []) as Nn by (intros g c _ ((f & (r & ->) & _) & _); discriminate).
  assert (Forall (fun g => g <> []) gs) as Nf.
  { clear - Su Nn. induction Su as [|g c gs out S _ IH]; [constructor|]. constructor; [apply (Nn g c); [now left|assumption]|].
    apply IH. intros g' c' J. apply Nn. now right. }
  destruct (groups_stand gs out) as (Sn & Ok); [|assumption|].
  { apply Forall_concat. now rewrite Ec. }
  destruct (fine_of_groups cs [] gs out frs fr Sa (eq_sym Ec) Nf Su Sn Ok W I) as (fine & g & f & c & H1 & H2 & H3 & H4 & H5 & H6 & H7).
  exists fine, (mkFractal (c_time c) (price_of (fr_type fr) c) (fr_type fr)). cbn [fr_type fr_price fr_time].
  split; [assumption|]. split; [assumption|]. split; [reflexivity|]. split; [assumption|].
  specialize (Sp g f c H2 H3 H5). lia.
Qed.

(** The first candle with the highest high (lowest low) is a fractal, unless it
    is one of the first or last two. *)
Theorem C120_extreme : forall cs out ft i c, prices_ok cs -> william_fractals cs = Ret out ->
  (2 <= i /\ i + 2 < length cs)%nat -> nth_error cs i = Some c ->
  (forall d, In d cs -> below ft (price_of ft c) (price_of ft d) = false) ->
  (forall k d, (k < i)%nat -> nth_error cs k = Some d -> below ft (price_of ft d) (price_of ft c) = true) ->
  In (mkFractal (c_time c) (price_of ft c) ft) out.
Proof.
  intros cs out ft i c Ok W B Ec Top First. apply (C61_reported_iff cs out _ Ok W). exists i, ft.
  split; [assumption|]. split; [exists c; auto|].
  destruct (nth_error_split _ _ Ec) as (l1 & l2 & Ecs & Li). destruct (last_two l1) as (k & u & w & ->); [lia|].
  rewrite app_length in Li. cbn in Li. rewrite Ecs. rewrite <- app_assoc. rewrite map_app. cbn [map app].
  exists (map (price_of ft) k), (price_of ft u), (price_of ft w), (price_of ft c), (map (price_of ft) l2).
  split; [reflexivity|]. split; [rewrite map_length; lia|]. split.
  - split.
    + apply (First (length k)); [lia|]. rewrite Ecs, <- app_assoc, nth_error_app2, Nat.sub_diag by lia. reflexivity.
    + apply (First (S (length k))); [lia|]. rewrite Ecs, <- app_assoc, nth_error_app2 by lia. replace (S (length k) - length k)%nat with 1%nat by lia. reflexivity.
  - intros pre d post E Q. apply map_eq_app in E. destruct E as (pr & rest & -> & _ & E). destruct rest as [|e rest]; [discriminate|].
    cbn [map] in E. injection E as <- _. rewrite (Top e) in Q; [discriminate|]. rewrite Ecs. rewrite !in_app_iff. cbn. rewrite in_app_iff. cbn. tauto.
Qed.

(** The outermost candle of a series stays visible at every interval: its group
    is reported with its price, unless it is one of the first or last two, or
    one of the two groups before reaches the same price. *)
Theorem C120_extreme_kept : forall tz cs n out frs ft c, Forall sane_candle cs ->
  modify_interval tz cs n = Ret (out, None) -> william_fractals out = Ret frs -> (5 <= length out)%nat ->
  In c cs -> (forall d, In d cs -> below ft (price_of ft c) (price_of ft d) = false) ->
  exists skipped gs, grouped tz n cs skipped gs /\ Forall2 summary gs out /\
    forall j before a b g right, gs = before ++ a :: b :: g :: right -> j = (length before + 2)%nat -> (2 <= length right)%nat ->
      In c g -> inside ft (price_of ft c) a -> inside ft (price_of ft c) b ->
      exists s, nth_error out j = Some s /\ f64_eq (price_of ft s) (price_of ft c) = true /\ In (mkFractal (c_time s) (price_of ft s) ft) frs.
Proof.
  intros tz cs n out frs ft c Sa E W L Ic Top. destruct (resampled_groups tz cs n out Sa E L) as (skipped & gs & G & Su & St & Ok).
  exists skipped, gs. split; [assumption|]. split; [assumption|].
  intros j before a b g right -> Ej Lr Ig Ia Ib. specialize (St ft).
  assert (length before + 2 < length out)%nat as Lt by (rewrite <- (same_length _ _ _ Su), app_length; cbn; lia).
  destruct (nth_error out j) as [s|] eqn:Es; [|apply nth_error_None in Es; lia].
  exists s. split; [reflexivity|].
  destruct (nth_groups _ _ _ _ _ St Es) as (g' & Eg & Sg). subst j. rewrite nth_error_app2 in Eg by lia.
  replace (length before + 2 - length before)%nat with 2%nat in Eg by lia. cbn in Eg. injection Eg as <-.
  pose proof (stands_finite _ _ _ Sg) as Fs. pose proof (fin_in ft cs c (sane_prices ft _ Sa) Ic) as Fc.
  destruct G as (Ecs & _ & _ & _).
  assert (out_of ft (price_of ft s) = out_of ft (price_of ft c)) as Eo.
  { destruct Sg as [Fg [(d & Id & Ed) Nb]]. apply Rle_antisym.
    - apply below_false_iff; [assumption|assumption|]. rewrite <- Ed. apply Top. rewrite Ecs, concat_app. cbn [List.concat]. rewrite !in_app_iff. tauto.
    - apply below_false_iff; [assumption|assumption|]. destruct (below ft (price_of ft s) (price_of ft c)) eqn:Q; [|reflexivity].
      exfalso. apply Nb. exists c. auto. }
  assert (forall x, is_finite x = true -> below ft x (price_of ft s) = below ft x (price_of ft c)) as Bl.
  { intros x Fx. pose proof (below_iff ft x (price_of ft s) Fx Fs) as B1. pose proof (below_iff ft x (price_of ft c) Fx Fc) as B2. rewrite Eo in B1.
    destruct (below ft x (price_of ft s)), (below ft x (price_of ft c)); try reflexivity; [symmetry; apply B2, B1|apply B1, B2]; reflexivity. }
  assert (forall h, incl h cs -> inside ft (price_of ft c) h -> inside ft (price_of ft s) h) as In1.
  { intros h Inc H. unfold inside in *. rewrite Forall_forall in H |- *. intros e J. rewrite Bl; [auto|]. apply (fin_in ft cs); [now apply sane_prices|now apply Inc]. }
  split.
  { unfold f64_eq. rewrite Beqb_correct by assumption. apply Req_bool_true. destruct ft; cbn [out_of] in Eo; lra. }
  apply (C61_reported_iff out frs _ Ok W). exists (length before + 2)%nat, ft.
  split. { rewrite <- (same_length _ _ _ Su), app_length. cbn [length]. lia. }
  split; [exists s; auto|]. apply (pattern_turns ft _ out _ s St Es).
  exists before, a, b, g, right. split; [reflexivity|]. split; [reflexivity|].
  split. { apply In1; [|assumption]. intros e J. rewrite Ecs, concat_app. cbn [List.concat]. rewrite !in_app_iff. tauto. }
  split. { apply In1; [|assumption]. intros e J. rewrite Ecs, concat_app. cbn [List.concat]. rewrite !in_app_iff. tauto. }
  split; [apply Sg|].
  intros pre h post Er (e & J & Be). exfalso.
  assert (In e cs) as Ie. { rewrite Ecs, concat_app. cbn [List.concat]. rewrite Er, concat_app. cbn [List.concat]. rewrite !in_app_iff. tauto. }
  specialize (Top e Ie). pose proof (fin_in ft cs e (sane_prices ft _ Sa) Ie) as Fe.
  apply below_iff in Be; [|assumption|assumption]. apply below_false_iff in Top; [|assumption|assumption]. lra.
Qed.

(** Not every fractal survives: the high of 5 at minute 2 is a fractal of the
    one-minute series; at two minutes only the 9 is left. *)
Definition two_peaks : list (candle f64) :=
  bars [(0, 1); (0, 2); (0, 5); (0, 1); (0, 2); (0, 9); (0, 3); (0, 2); (0, 1); (0, 1); (0, 0); (0, 0)].
Definition seen_resampled (o : go (list (candle f64) * option err)) : option (list (Z * Z * ftype)) :=
  match o with Ret (l, None) => seen_fractals (william_fractals l) | _ => None end.
Example C120_example :
  seen_fractals (william_fractals two_peaks) = Some [(2, 5, FractalUp); (5, 9, FractalUp)] /\
  seen_resampled (modify_interval utc two_peaks 2) = Some [(4, 9, FractalUp)] /\ Forall sane_candle two_peaks.
Proof.
  split; [vm_compute; reflexivity|]. split; [vm_compute; reflexivity|].
  unfold two_peaks, bars. cbn [length seq combine map]. repeat (apply Forall_cons; [split; split; reflexivity|]). apply Forall_nil.
Qed.
Example C120_regular_example : regular 0 1 two_peaks /\ near_times two_peaks /\ starts_interval utc 2 0.
Proof.
  split; [|split].
  - intros i c H. unfold two_peaks, bars in H. cbn [length seq combine map] in H.
    do 12 (destruct i as [|i]; [cbn [nth_error] in H; apply (f_equal (option_map c_time)) in H; cbn [option_map c_time] in H; injection H as <-; reflexivity|]).
    destruct i; discriminate.
  - assert (forall c, In c two_peaks -> 0 <= c_time c <= 660) as K.
    { apply Forall_forall. unfold two_peaks, bars. cbn [length seq combine map].
      repeat (apply Forall_cons; [cbn [c_time]; lia|]). apply Forall_nil. }
    intros a b A B. apply K in A, B. lia.
  - now left.
Qed.
Theorem C120_fine_is_coarse_refuted : exists tz cs n out frs fine fr, Forall sane_candle cs /\
  modify_interval tz cs n = Ret (out, None) /\ william_fractals out = Ret frs /\ william_fractals cs = Ret fine /\ In fr fine /\
  (5 <= length out)%nat /\ forall fr', In fr' frs -> f64_eq (fr_price fr') (fr_price fr) = false.
Proof.
  exists utc, two_peaks, 2. pose proof C120_example as (_ & E2 & Sa).
  assert (match modify_interval utc two_peaks 2, william_fractals two_peaks with
    | Ret (out, None), Ret fine => match william_fractals out with
      | Ret frs => existsb (fun fr => forallb (fun fr' => negb (f64_eq (fr_price fr') (fr_price fr))) frs) fine
      | Panic _ => false end
    | _, _ => false end = true) as V by (vm_compute; reflexivity).
  destruct (modify_interval utc two_peaks 2) as [[out [e|]]|] eqn:M; try discriminate E2. cbn [seen_resampled] in E2.
  destruct (william_fractals two_peaks) as [fine|] eqn:Wf; [|discriminate V].
  destruct (william_fractals out) as [frs|] eqn:W; [|discriminate E2].
  apply existsb_exists in V. destruct V as (fr & I & V). rewrite forallb_forall in V.
  exists out, frs, fine, fr. split; [assumption|]. split; [reflexivity|]. split; [assumption|].
  split; [reflexivity|]. split; [assumption|]. split.
  - destruct frs as [|b frs]; [discriminate E2|]. apply (reports_five out (b :: frs) b W). now left.
  - intros fr' J. specialize (V fr' J). now destruct (f64_eq (fr_price fr') (fr_price fr)).
Qed.

Print Assumptions C120_reported_iff.
Print Assumptions C120_coarse_is_fine.
Print Assumptions C120_within_interval.
Print Assumptions C120_extreme.
Print Assumptions C120_extreme_kept.
Print Assumptions C120_fine_is_coarse_refuted.
