(** Averages, volatility and RSI of a series scaled by a power of two. *)
From Coq Require Import ZArith Lia Lra Bool Reals Psatz List.
From Flocq Require Import Core BinarySingleNaN.
From Verif Require Import Go.Outcome Go.Int64 Go.Slice Go.Float64 Go.FloatOrder Go.FloatReal Go.FloatError Go.FloatScale Go.Num
  Model.Candle Model.Indicators Spec.IndicatorSpec Spec.AccuracySpec Spec.ScaleSpec
  Proofs.MovingAverage Proofs.Accuracy Proofs.Monotone Proofs.RSI.
Import ListNotations.
Open Scope list_scope.
Open Scope R_scope.
Local Notation length := List.length.
Local Notation B2R := (@B2R 53 1024).
Local Notation pow2 := (bpow radix2).

(** ** The constants of the computations *)
Lemma pow2_int z : (0 <= z)%Z -> pow2 z = IZR (2 ^ z).
Proof. intros H. rewrite <- IZR_Zpower by assumption. reflexivity. Qed.
Lemma count_le z : (1 <= z <= 2 ^ 63)%Z -> B2R (i2f z) <= pow2 63.
Proof.
  intros H. destruct (count_pos z H) as [F _]. pose proof (i2f_mono z (2 ^ 63) ltac:(lia)) as U. rewrite xr_finite in U by exact F.
  eapply Rle_trans; [exact U|]. rewrite (proj2 (i2f_xr _)).
  rewrite <- (pow2_int 63) by lia. rewrite rnd_pow by lia.
  apply Req_le, sat_id. rewrite Rabs_pos_eq by apply bpow_ge_0.
  apply Rle_trans with huge; [|pose proof huge_lt_big; pose proof huge_ge1; lra]. change huge with (pow2 1000). apply bpow_le. lia.
Qed.
Lemma below_one p : generic_format radix2 fexp64 p -> p < 1 -> pow2 (-53) <= 1 - p.
Proof.
  intros Fp L.
  assert (p <= pred radix2 fexp64 1) as H.
  { apply pred_ge_gt; [apply FLT_exp_valid; reflexivity|assumption| |assumption].
    change 1 with (pow2 0). apply fmt_pow. lia. }
  change 1 with (pow2 0) in H. rewrite pred_bpow in H.
  change (fexp64 0) with (-53)%Z in H. change (pow2 0) with 1 in H. lra.
Qed.
Lemma one_minus p : is_finite p = true -> 0 <= B2R p <= 1 -> B2R (f64_sub (i2f 1) p) = 0 /\ B2R p = 1 \/ pow2 (-53) <= B2R (f64_sub (i2f 1) p).
Proof.
  intros F H. assert (exact_int 1) as E1 by (unfold exact_int; lia).
  destruct (sub_xr (i2f 1) p (i2f_finite 1 E1) F) as [N X]. rewrite (i2f_B2R 1 E1) in X.
  assert (0 <= rnd (1 - B2R p) <= 1) as Q.
  { split; [apply rnd_nonneg; lra|]. apply Rle_trans with (rnd 1); [apply rnd_mono; lra|right; exact (rnd_int 1 E1)]. }
  pose proof huge_lt_big as HB. pose proof huge_ge1 as HG.
  rewrite sat_id in X by (rewrite Rabs_pos_eq; lra).
  assert (is_finite (f64_sub (i2f 1) p) = true) as Fs by (apply xr_lt_finite; [exact N|]; rewrite X, Rabs_pos_eq; lra).
  rewrite xr_finite in X by exact Fs. rewrite X. destruct (Req_dec (B2R p) 1) as [E|E].
  - left. rewrite E, Rminus_diag_eq, rnd_0 by reflexivity. now split.
  - right. apply rnd_ge_pow; [lia|]. apply below_one; [apply fmt_B2R|lra].
Qed.
Lemma weight_ge z : (1 <= z <= 2 ^ 63)%Z -> pow2 (-64) <= B2R (@ema_weight f64 f64_num z).
Proof.
  intros H. destruct (weight_range z H) as [Fw _]. destruct (count_pos z H) as [F1 G1]. pose proof (count_le z H) as U.
  unfold ema_weight in *. cbn [fdiv fofZ fadd f64_num] in *.
  assert (exact_int 1) as E1 by (unfold exact_int; lia). assert (exact_int 2) as E2 by (unfold exact_int; lia).
  destruct (add_xr (i2f z) (i2f 1) F1 (i2f_finite 1 E1)) as [N X]. rewrite (i2f_B2R 1 E1) in X.
  assert (1 <= rnd (B2R (i2f z) + 1) <= pow2 64) as D.
  { split; [rewrite <- (rnd_int 1 E1) at 1; apply rnd_mono; lra|]. rewrite <- (rnd_pow 64) by lia. apply rnd_mono.
    replace 64%Z with (1 + 63)%Z by lia. rewrite bpow_plus. change (pow2 1) with 2.
    assert (1 <= pow2 63) by (change 1 with (pow2 0); apply bpow_le; lia). lra. }
  assert (pow2 64 <= huge) by (change huge with (pow2 1000); apply bpow_le; lia). pose proof huge_lt_big as HB. pose proof huge_ge1 as HG0.
  rewrite sat_id in X by (rewrite Rabs_pos_eq; lra).
  assert (is_finite (f64_add (i2f z) (i2f 1)) = true) as Fd by (apply xr_lt_finite; [exact N|]; rewrite X, Rabs_pos_eq; lra).
  rewrite xr_finite in X by exact Fd.
  rewrite div_value by (assumption || lra). rewrite (i2f_B2R 2 E2), X. apply rnd_ge_pow; [lia|].
  assert (pow2 (-64) <= / rnd (B2R (i2f z) + 1)) as I.
  { change (-64)%Z with (- (64))%Z. rewrite bpow_opp. apply Rinv_le; lra. }
  unfold Rdiv. pose proof (pow2_pos (-64)). lra.
Qed.
Lemma count_less_one z : (1 <= z <= 2 ^ 63)%Z ->
  B2R (f64_sub (i2f z) (i2f 1)) = 0 \/ 1 <= B2R (f64_sub (i2f z) (i2f 1)).
Proof.
  intros H. destruct (count_pos z H) as [F1 G1]. pose proof (count_le z H) as U.
  assert (exact_int 1) as E1 by (unfold exact_int; lia).
  destruct (sub_xr (i2f z) (i2f 1) F1 (i2f_finite 1 E1)) as [N X]. rewrite (i2f_B2R 1 E1) in X.
  assert (0 <= rnd (B2R (i2f z) - 1) <= pow2 63) as D.
  { split; [apply rnd_nonneg; lra|]. rewrite <- (rnd_pow 63) by lia. apply rnd_mono. lra. }
  assert (pow2 63 <= huge) by (change huge with (pow2 1000); apply bpow_le; lia). pose proof huge_lt_big as HB. pose proof huge_ge1 as HG0.
  rewrite sat_id in X by (rewrite Rabs_pos_eq; lra).
  assert (is_finite (f64_sub (i2f z) (i2f 1)) = true) as Fd by (apply xr_lt_finite; [exact N|]; rewrite X, Rabs_pos_eq; lra).
  rewrite xr_finite in X by exact Fd. rewrite X.
  destruct (Z.eq_dec z 1) as [->|Nz]; [left; rewrite (i2f_B2R 1 E1), Rminus_diag_eq by reflexivity; apply rnd_0|right].
  assert (exact_int 2) as E2 by (unfold exact_int; lia).
  pose proof (i2f_mono 2 z ltac:(lia)) as L. rewrite i2f_exact_xr, xr_finite in L by assumption.
  rewrite <- (rnd_int 1 E1) at 1. apply rnd_mono. lra.
Qed.

(** ** Sums and means *)
Section Averages.
Variable k : Z.
Notation scp := (scp k).
Notation scz := (scz k).
Notation sc := (sc k).

Lemma closes_scp e cs cs' : closes_scaled k cs cs' -> closes_at_least e cs -> closes_at_least e cs' ->
  Forall2 (scp e) (closes cs) (closes cs').
Proof.
  intros H. induction H as [|c c' cs cs' (F & F' & E) _ IH]; intros A A'; cbn [closes map]; [constructor|].
  apply List.Forall_cons_iff in A as [A1 A2]. apply List.Forall_cons_iff in A' as [A1' A2']. constructor; [|now apply IH].
  intros _ _. repeat split; assumption.
Qed.
Lemma scz_i0 : scz (i2f 0) (i2f 0).
Proof.
  intros _ _. rewrite i2f_B2R by (unfold exact_int; lia). repeat split; lra.
Qed.
Lemma scp_fold e l l' : (-1074 <= e)%Z -> Forall2 (scp e) l l' -> forall a a', scp e a a' ->
  scp e (fold_left (@fadd f64 f64_num) l a) (fold_left (@fadd f64 f64_num) l' a').
Proof.
  intros He H. induction H as [|x x' l l' Hx _ IH]; intros a a' Ha; cbn [fold_left]; [exact Ha|]. apply IH.
  cbn [fadd f64_num]. apply scp_add_l; [assumption|assumption|]. exact (scp_scz _ _ _ _ Hx).
Qed.
Lemma scp_sum e l l' : (-1074 <= e)%Z -> (0 < length l)%nat -> Forall2 (scp e) l l' ->
  scp e (@sum_of f64 f64_num l) (@sum_of f64 f64_num l').
Proof.
  intros He Hl H. destruct H as [|x x' l l' Hx H]; [cbn in Hl; lia|]. unfold sum_of. cbn [fold_left].
  apply scp_fold; [assumption|exact H|]. cbn [fadd fofZ f64_num]. apply scp_add_r; [assumption|exact scz_i0|exact Hx].
Qed.
Lemma scp_count e x x' z : (-950 <= e)%Z -> (1 <= z <= 2 ^ 63)%Z -> scp e x x' -> scp (e - 63) (f64_div x (i2f z)) (f64_div x' (i2f z)).
Proof.
  intros He Hz H. destruct (count_pos z Hz) as [F G]. pose proof (count_le z Hz).
  apply scp_div; [lia|exact H|exact F|lra].
Qed.
Lemma scp_mean e l l' : (-950 <= e)%Z -> (0 < length l)%nat -> (Z.of_nat (length l) <= 2 ^ 63)%Z -> Forall2 (scp e) l l' ->
  scp (e - 63) (@mean_of f64 f64_num l) (@mean_of f64 f64_num l').
Proof.
  intros He Hl Hn H. unfold mean_of. rewrite <- (Forall2_len _ _ _ H). cbn [fdiv fofZ f64_num].
  apply scp_count; [assumption|lia|]. apply scp_sum; [lia|assumption|exact H].
Qed.
Lemma scp_all e xs xs' : Forall2 (scp e) xs xs' -> Forall2 (scales k) xs xs'.
Proof. intros H. induction H as [|x x' xs xs' Hx _ IH]; constructor; [|exact IH]. intros F F'. exact (proj1 (Hx F F')). Qed.
Lemma scp_iterates e e' (f : f64 -> f64 -> f64) : (forall x x' c c', scp e x x' -> scp e' c c' -> scp e (f x c) (f x' c')) ->
  forall l l', Forall2 (scp e') l l' -> forall a a', scp e a a' -> Forall2 (scp e) (@iterates f64 f64 f a l) (@iterates f64 f64 f a' l').
Proof.
  intros Hf l l' H. induction H as [|c c' l l' Hc _ IH]; intros a a' Ha; cbn [iterates]; constructor; auto.
Qed.

Definition sizes (cs cs' : list (candle f64)) : Prop :=
  closes_scaled k cs cs' /\ closes_at_least (-900) cs /\ closes_at_least (-900) cs'.

Lemma ma_scaling (cs cs' hid hid' : list (candle f64)) n : sizes cs cs' ->
  (0 < n <= length cs)%nat -> (Z.of_nat n <= 2 ^ 63)%Z ->
  exists xs xs',
    moving_average (GSlice cs hid) (Z.of_nat n) = Ret (xs, None) /\
    moving_average (GSlice cs' hid') (Z.of_nat n) = Ret (xs', None) /\ Forall2 (scales k) xs xs'.
Proof.
  intros (H & A & A') Hn Hb. pose proof (Forall2_len _ _ _ H) as L. eexists. eexists.
  rewrite (@moving_average_spec f64 f64_num cs hid n Hn), (@moving_average_spec f64 f64_num cs' hid' n) by lia.
  split; [reflexivity|]. split; [reflexivity|]. apply (scp_all (-900 - 63)). rewrite <- L.
  pose proof (closes_scp _ _ _ H A A') as Hc.
  assert (forall j, In j (seq 0 (length cs - n + 1)) -> (j + n <= length cs)%nat) as Hj.
  { intros j Hj. apply in_seq in Hj. lia. }
  induction (seq 0 (length cs - n + 1)) as [|j js IH]; cbn [map]; constructor.
  - assert (length (window j n (closes cs)) = n) as Lw.
    { apply window_len. unfold closes. rewrite map_length. apply Hj. now left. }
    apply scp_mean; rewrite ?Lw; try lia. unfold window. now apply Forall2_firstn, Forall2_skipn.
  - apply IH. intros j' Hj'. apply Hj. now right.
Qed.
Lemma scp_seed cs cs' n : sizes cs cs' -> (0 < n <= length cs)%nat -> (Z.of_nat n <= 2 ^ 63)%Z ->
  scp (-963) (@mean_of f64 f64_num (firstn n (closes cs))) (@mean_of f64 f64_num (firstn n (closes cs'))).
Proof.
  intros (H & A & A') Hn Hb. change (-963)%Z with (-900 - 63)%Z.
  assert (length (firstn n (closes cs)) = n) as Lw by (rewrite firstn_length; unfold closes; rewrite map_length; lia).
  apply scp_mean; rewrite ?Lw; try lia. apply Forall2_firstn. now apply closes_scp.
Qed.
Lemma scz_factor e x x' c : (-969 <= e)%Z -> scp e x x' -> B2R c = 0 \/ pow2 (-53) <= B2R c -> scz (f64_mul x c) (f64_mul x' c).
Proof.
  intros He H [Z|G]; [now apply scz_mul_zero|]. apply (scp_scz k (e + -53)). apply scp_mul; [lia|exact H|exact G].
Qed.
Lemma ema_scaling (cs cs' hid hid' : list (candle f64)) n : sizes cs cs' ->
  (0 < n <= length cs)%nat -> (Z.of_nat n <= 2 ^ 63)%Z ->
  exists xs xs',
    exponential_moving_average (GSlice cs hid) (Z.of_nat n) = Ret (xs, None) /\
    exponential_moving_average (GSlice cs' hid') (Z.of_nat n) = Ret (xs', None) /\ Forall2 (scales k) xs xs'.
Proof.
  intros HS Hn Hb. pose proof (scp_seed cs cs' n HS Hn Hb) as Sd. destruct HS as (H & A & A').
  pose proof (Forall2_len _ _ _ H) as L. eexists. eexists.
  rewrite (@ema_spec f64 f64_num cs hid n Hn), (@ema_spec f64 f64_num cs' hid' n) by lia.
  split; [reflexivity|]. split; [reflexivity|]. apply (scp_all (-964)).
  pose proof (Forall2_skipn _ _ _ (closes_scp _ _ _ H A A') n) as Hs.
  unfold closes in Hs. rewrite !skipn_map in Hs.
  destruct (skipn n cs) as [|c l]; destruct (skipn n cs') as [|c' l']; inversion Hs as [|y y' l0 l0' _ Hl]; [constructor|]. cbv zeta.
  apply (scp_weaken k (-963) (-964)) in Sd; [|lia]. constructor; [exact Sd|].
  destruct (weight_range (Z.of_nat n) ltac:(lia)) as [Fw Hw]. pose proof (weight_ge (Z.of_nat n) ltac:(lia)) as Gw.
  apply (scp_iterates (-964) (-900)); [|exact Hl|exact Sd].
  intros x x' d d' Hx Hd. unfold ema_step. cbn [fadd fmul fsub fofZ f64_num].
  apply scp_add_l; [lia|change (-964)%Z with (-900 + -64)%Z; apply scp_mul; [lia|exact Hd|exact Gw]|].
  apply (scz_factor (-964)); [lia|exact Hx|]. destruct (one_minus _ Fw Hw) as [[Z _]|G]; auto.
Qed.
Lemma scz_smma_later x x' z : (1 <= z <= 2 ^ 63)%Z -> scp (-963) x x' ->
  scz (f64_sub (f64_mul x (i2f z)) x) (f64_sub (f64_mul x' (i2f z)) x').
Proof.
  intros Hz H F F'. destruct (count_pos z Hz) as [Fz Gz].
  assert (scp (-963 + 0) (f64_mul x (i2f z)) (f64_mul x' (i2f z))) as M.
  { apply scp_mul; [lia|exact H|exact Gz]. }
  pose proof (sc_sub _ _ _ _ _ (scz_sc _ _ _ (scp_scz _ _ _ _ M)) (scz_sc _ _ _ (scp_scz _ _ _ _ H)) F F') as E.
  split; [exact E|]. destruct (sub_operands _ _ F) as [Fm Fx]. destruct (sub_operands _ _ F') as [Fm' Fx'].
  destruct (H Fx Fx') as (_ & G & G'). pose proof (pow2_pos (-963)) as P.
  rewrite !sub_value by assumption. split; apply rnd_nonneg.
  - rewrite mul_value by assumption. rewrite <- (rnd_format (B2R x)) at 2 by apply fmt_B2R.
    assert (rnd (B2R x) <= rnd (B2R x * B2R (i2f z))) by (apply rnd_mono; nra). lra.
  - rewrite mul_value by assumption. rewrite <- (rnd_format (B2R x')) at 2 by apply fmt_B2R.
    assert (rnd (B2R x') <= rnd (B2R x' * B2R (i2f z))) by (apply rnd_mono; nra). lra.
Qed.
Lemma smma_scaling (cs cs' hid hid' : list (candle f64)) n : sizes cs cs' ->
  (0 < n <= length cs)%nat -> (Z.of_nat n <= 2 ^ 63)%Z ->
  exists xs xs',
    smoothed_moving_average (GSlice cs hid) (Z.of_nat n) = Ret (xs, None) /\
    smoothed_moving_average (GSlice cs' hid') (Z.of_nat n) = Ret (xs', None) /\ Forall2 (scales k) xs xs'.
Proof.
  intros (H & A & A') Hn Hb.
  pose proof (Forall2_len _ _ _ H) as L. eexists. eexists.
  rewrite (@smma_spec f64 f64_num cs hid n Hn), (@smma_spec f64 f64_num cs' hid' n) by lia.
  split; [reflexivity|]. split; [reflexivity|]. cbv zeta. apply (scp_all (-963)).
  pose proof (closes_scp _ _ _ H A A') as Hc. pose proof (Forall2_skipn _ _ _ Hc n) as Hs.
  set (s := @fdiv f64 f64_num (sum_of (firstn n (closes cs))) _). set (s' := @fdiv f64 f64_num (sum_of (firstn n (closes cs'))) _).
  assert (scp (-963) s s') as Sd.
  { subst s s'. cbn [fdiv fofZ f64_num]. change (-963)%Z with (-900 - 63)%Z. apply scp_count; [lia|lia|].
    apply scp_sum; [lia| |now apply Forall2_firstn]. rewrite firstn_length. unfold closes. rewrite map_length. lia. }
  clearbody s s'. constructor; [exact Sd|].
  destruct Hs as [|c c' l l' Hc1 Hl]; [constructor|]. change (-963)%Z with (-900 - 63)%Z.
  assert (scp (-900 - 63) (@smma_second f64 f64_num (Z.of_nat n) s c) (@smma_second f64 f64_num (Z.of_nat n) s' c')) as S2.
  { unfold smma_second. cbn [fdiv fadd fmul fsub fofZ f64_num]. apply scp_count; [lia|lia|]. apply scp_add_r; [lia| |exact Hc1].
    apply (scz_factor (-963)); [lia|exact Sd|]. destruct (count_less_one (Z.of_nat n) ltac:(lia)) as [Z|G]; [now left|right].
    apply Rle_trans with 1; [change 1 with (pow2 0); apply bpow_le; lia|exact G]. }
  constructor; [exact S2|]. apply (scp_iterates (-900 - 63) (-900)); [|exact Hl|exact S2].
  intros x x' d d' Hx Hd. unfold smma_later. cbn [fdiv fadd fmul fsub fofZ f64_num]. apply scp_count; [lia|lia|].
  apply scp_add_r; [lia| |exact Hd]. apply scz_smma_later; [lia|exact Hx].
Qed.

(** ** EWV *)
(** Both zero, or both at least 2^e. *)
Definition scq (e : Z) (x x' : f64) : Prop := is_finite x = true -> is_finite x' = true ->
  (B2R x = 0 /\ B2R x' = 0) \/ (B2R x' = B2R x * pow2 k /\ pow2 e <= B2R x /\ pow2 e <= B2R x').
Lemma scq_mul e g x x' c : (-1022 <= e + g)%Z -> scq e x x' -> B2R c = 0 \/ pow2 g <= B2R c -> scz (f64_mul c x) (f64_mul c x').
Proof.
  intros He H [Z|G]; [now apply scz_mul_zero_l|]. intros F F'.
  destruct (mul_operands _ _ F) as [_ Fx]. destruct (mul_operands _ _ F') as [_ Fx'].
  destruct (H Fx Fx') as [[Z Z']|P].
  - rewrite !mul_value by assumption. rewrite Z, Z', !Rmult_0_r, rnd_0. repeat split; lra.
  - assert (scp e x x') as S by (intros _ _; exact P).
    exact (scp_scz _ _ _ _ (scp_mul_l k e g x x' c He S G) F F').
Qed.
Lemma scp_range c c' : times_two_to k (c_high c) (c_high c') -> times_two_to k (c_low c) (c_low c') ->
  pow2 (-900) <= real (c_high c) - real (c_low c) -> pow2 (-900) <= real (c_high c') - real (c_low c') ->
  scp (-900) (f64_sub (c_high c) (c_low c)) (f64_sub (c_high c') (c_low c')).
Proof.
  intros (Fh & Fh' & Eh) (Fl & Fl' & El) G G' F F'.
  assert (sc (c_high c) (c_high c')) as Sh by (intros _ _; exact Eh). assert (sc (c_low c) (c_low c')) as Sl by (intros _ _; exact El).
  split; [exact (sc_sub _ _ _ _ _ Sh Sl F F')|]. rewrite !sub_value by assumption. split; apply rnd_ge_pow; (lia || assumption).
Qed.
Lemma ewv_scaling (cs cs' : list (candle f64)) (beta : f64) :
  ranges_scaled k cs cs' -> ranges_at_least (-900) cs -> ranges_at_least (-900) cs' ->
  is_finite beta = true -> 0 <= real beta <= 1 -> real beta = 0 \/ pow2 (-60) <= real beta ->
  scales k (@ewv f64 f64_num cs beta) (@ewv f64 f64_num cs' beta).
Proof.
  intros H A A' Fb Hb Gb. unfold real in *. unfold ewv. cbn [fadd fmul fsub fofZ f64_num].
  pose proof (one_minus beta Fb Hb) as O.
  assert (forall v v', scq (-953) v v' ->
    scq (-953) (fold_left (fun v c => f64_add (f64_mul beta v) (f64_mul (f64_sub (i2f 1) beta) (f64_sub (c_high c) (c_low c)))) cs v)
               (fold_left (fun v c => f64_add (f64_mul beta v) (f64_mul (f64_sub (i2f 1) beta) (f64_sub (c_high c) (c_low c)))) cs' v')) as Main.
  2:{ intros F F'. assert (scq (-953) (i2f 0) (i2f 0)) as S0.
      { intros _ _. left. rewrite i2f_B2R by (unfold exact_int; lia). split; reflexivity. }
      destruct (Main _ _ S0 F F') as [[Z Z']|P]; [unfold real; rewrite Z, Z'; ring|exact (proj1 P)]. }
  induction H as [|c c' cs cs' [Hh Hl] _ IH]; intros v v' Hv; cbn [fold_left]; [exact Hv|].
  apply List.Forall_cons_iff in A as [A1 A2]. apply List.Forall_cons_iff in A' as [A1' A2']. apply IH; [exact A2|exact A2'|].
  pose proof (scp_range c c' Hh Hl A1 A1') as R. set (r := f64_sub (c_high c) (c_low c)) in *. set (r' := f64_sub (c_high c') (c_low c')) in *.
  clearbody r r'. set (m := f64_sub (i2f 1) beta) in *. clearbody m. intros F F'.
  destruct O as [[Z Eb]|G].
  - destruct (add_operands _ _ F) as [Fm Fr]. destruct (add_operands _ _ F') as [Fm' Fr'].
    destruct (mul_operands _ _ Fm) as [_ Fv]. destruct (mul_operands _ _ Fm') as [_ Fv'].
    rewrite !add_value, !mul_value by assumption. rewrite Z, Eb, !Rmult_0_l, !Rmult_1_l, rnd_0, !Rplus_0_r.
    rewrite !(rnd_format (B2R _)) by apply fmt_B2R. exact (Hv Fv Fv').
  - right. refine (scp_add_r k (-953) _ _ _ _ _ _ _ F F'); [lia|apply (scq_mul (-953) (-60)); [lia|exact Hv|exact Gb]|].
    change (-953)%Z with (-900 + -53)%Z. apply scp_mul_l; [lia|exact R|exact G].
Qed.

(** ** RSI *)
Lemma scaled_lt x x' y y' : times_two_to k x x' -> times_two_to k y y' -> f64_lt x' y' = f64_lt x y.
Proof.
  intros (Fx & Fx' & Ex) (Fy & Fy' & Ey). rewrite !f64_lt_xr by now apply finite_not_nan. rewrite !xr_finite by assumption.
  unfold real in *. rewrite Ex, Ey. pose proof (pow2_pos k).
  destruct (Rlt_bool_spec (B2R x) (B2R y)); [apply Rlt_bool_true|apply Rlt_bool_false]; nra.
Qed.
Lemma sc_of x x' : times_two_to k x x' -> sc x x'.
Proof. intros (_ & _ & E) _ _. exact E. Qed.
Lemma rsi_sums_scaled cs cs' : closes_scaled k cs cs' -> forall prev prev' u u' d d',
  times_two_to k (c_close prev) (c_close prev') -> sc u u' -> sc d d' ->
  sc (fst (rsi_sums prev cs u d)) (fst (rsi_sums prev' cs' u' d')) /\ sc (snd (rsi_sums prev cs u d)) (snd (rsi_sums prev' cs' u' d')).
Proof.
  intros H. induction H as [|c c' cs cs' Hc _ IH]; intros prev prev' u u' d d' Hp Hu Hd; cbn [rsi_sums]; [split; assumption|].
  cbn [flt fadd fsub f64_num]. rewrite (scaled_lt _ _ _ _ Hp Hc), (scaled_lt _ _ _ _ Hc Hp).
  destruct (f64_lt (c_close prev) (c_close c)); [|destruct (f64_lt (c_close c) (c_close prev))].
  - apply IH; [exact Hc| |exact Hd]. apply sc_add; [exact Hu|]. apply sc_sub; now apply sc_of.
  - apply IH; [exact Hc|exact Hu|]. apply sc_add; [exact Hd|]. apply sc_sub; now apply sc_of.
  - apply IH; assumption.
Qed.
Lemma moves_scaled w w' : closes_scaled k w w' -> sc (fst (moves w)) (fst (moves w')) /\ sc (snd (moves w)) (snd (moves w')).
Proof.
  assert (sc (i2f 0) (i2f 0)) as S0 by exact (scz_sc _ _ _ scz_i0).
  intros [|c c' cs cs' Hc H]; cbn [moves]; [split; exact S0|]. now apply rsi_sums_scaled.
Qed.
Lemma nn_finite x : nn x -> is_inf x = false -> is_finite x = true.
Proof. intros [N _] I. destruct x as [s|s| |s m e B]; [reflexivity|discriminate I|discriminate N|reflexivity]. Qed.
Lemma nn_xr_inj x y : nn x -> nn y -> xr x = xr y -> x = y.
Proof.
  intros [Nx Sx] [Ny Sy] E. apply key_eq_xr in E; [|assumption|assumption].
  destruct (key_inj x y Nx Ny E) as [H|(sx & sy & -> & ->)]; [exact H|]. cbn in Sx, Sy. now subst.
Qed.
Lemma ratio_same u u' d d' : nn u -> nn u' -> nn d -> nn d' -> is_finite u = true -> is_finite u' = true -> is_finite d = true -> is_finite d' = true ->
  sc u u' -> sc d d' -> f64_div u d = f64_div u' d'.
Proof.
  intros Nu Nu' Nd Nd' Fu Fu' Fd Fd' Su Sd. specialize (Su Fu Fu'). specialize (Sd Fd Fd'). pose proof (pow2_pos k) as P.
  assert (forall z z', is_finite z = true -> is_finite z' = true -> nn z -> nn z' -> B2R z' = B2R z * pow2 k -> is_zero z = is_zero z') as Zs.
  { intros z z' Fz Fz' _ _ E. destruct (is_zero z) eqn:Z.
    - symmetry. apply zero_B2R; [assumption|]. rewrite E. apply zero_xr in Z. rewrite xr_finite in Z by assumption. rewrite Z. ring.
    - destruct (is_zero z') eqn:Z'; [|reflexivity]. exfalso. apply zero_xr in Z'. rewrite xr_finite in Z' by assumption.
      rewrite E in Z'. apply Rmult_integral in Z' as [Z'|Z']; [|lra]. rewrite zero_B2R in Z by assumption. discriminate. }
  pose proof (Zs u u' Fu Fu' Nu Nu' Su) as Zu. pose proof (Zs d d' Fd Fd' Nd Nd' Sd) as Zd. clear Zs.
  destruct (is_zero d) eqn:Dz.
  - destruct Nu as [_ Nu], Nu' as [_ Nu'], Nd as [_ Nd], Nd' as [_ Nd'].
    destruct d as [sd|sd| |sd md ed Bd]; try discriminate Dz. destruct d' as [sd'|sd'| |sd' md' ed' Bd']; try discriminate Zd.
    cbn in Nd, Nd'. subst sd sd'.
    destruct u as [su|su| |su mu eu Bu]; try discriminate Fu; destruct u' as [su'|su'| |su' mu' eu' Bu']; try discriminate Fu'; try discriminate Zu;
      cbn in Nu, Nu'; subst; reflexivity.
  - assert (B2R d <> 0) as Hd. { intros E. rewrite zero_B2R in Dz by assumption. discriminate. }
    assert (B2R d' <> 0) as Hd'. { intros E. rewrite zero_B2R in Zd by assumption. discriminate. }
    destruct (nn_div u d Nu Nd) as [[_ [[_ K]|[K _]]]|[Nr _]].
    { rewrite Dz in K. discriminate. } { destruct u; discriminate. }
    destruct (nn_div u' d' Nu' Nd') as [[_ [[_ K]|[K _]]]|[Nr' _]].
    { rewrite <- Zd in K. discriminate. } { destruct u'; discriminate. }
    apply nn_xr_inj; [exact Nr|exact Nr'|].
    rewrite (proj2 (div_xr u d Fu Fd Hd)), (proj2 (div_xr u' d' Fu' Fd' Hd')). do 2 f_equal. rewrite Su, Sd.
    field. split; [lra|assumption].
Qed.

Lemma modest_of cs cs' : closes_scaled k cs cs' -> closes_at_most 1000 cs -> closes_at_most 1000 cs' -> Forall modest cs /\ Forall modest cs'.
Proof.
  intros H. induction H as [|c c' cs cs' (F & F' & _) _ IH]; intros A A'; [split; constructor|].
  apply List.Forall_cons_iff in A as [A1 A2]. apply List.Forall_cons_iff in A' as [A1' A2']. destruct (IH A2 A2').
  split; constructor; try assumption; split; assumption.
Qed.
Lemma rsi_value_scaled w w' : closes_scaled k w w' -> closes_at_most 1000 w -> closes_at_most 1000 w' ->
  (Z.of_nat (length w) <= 2 ^ 20)%Z -> @rsi_value f64 f64_num w = @rsi_value f64 f64_num w'.
Proof.
  intros H A A' L. destruct (modest_of w w' H A A') as [M M']. pose proof (Forall2_len _ _ _ H) as E.
  destruct (moves_finite w M L) as [I1 I2]. destruct (moves_finite w' M' ltac:(lia)) as [I1' I2'].
  assert (forall l, Forall modest l -> Forall (fun c : candle f64 => is_finite (c_close c) = true) l) as Fin.
  { intros l Hl. eapply Forall_impl; [|exact Hl]. intros a Ha. apply Ha. }
  destruct (moves_nn w (Fin _ M)) as [N1 N2]. destruct (moves_nn w' (Fin _ M')) as [N1' N2'].
  destruct (moves_scaled w w' H) as [S1 S2]. rewrite !rsi_value_moves. f_equal.
  apply ratio_same; try assumption; now apply nn_finite.
Qed.
Lemma scaled_app a a' b b' : closes_scaled k a a' -> closes_scaled k b b' -> closes_scaled k (a ++ b) (a' ++ b').
Proof. apply Forall2_app. Qed.
Lemma rsi_scaling (v v' h h' : list (candle f64)) period : closes_scaled k (v ++ h) (v' ++ h') -> length v = length v' ->
  closes_at_most 1000 (v ++ h) -> closes_at_most 1000 (v' ++ h') -> (Z.of_nat (length (v ++ h)) <= 2 ^ 20)%Z ->
  rsi f64_to_f32 (GSlice v h) period = rsi f64_to_f32 (GSlice v' h') period.
Proof.
  intros H Lv A A' Lh. pose proof (Forall2_len _ _ _ H) as L. rewrite !app_length in L.
  assert (zlen v = zlen v') as Ez by (unfold zlen; lia).
  destruct (Z.lt_ge_cases (zlen v) 14) as [S|S].
  { unfold rsi. cbn [is_nil vis]. rewrite <- Ez. destruct (Z.ltb_spec (zlen v) 14); [reflexivity|lia]. }
  destruct (rsi_cases f64_to_f32 v h period S) as (R1 & R2 & R3).
  destruct (rsi_cases f64_to_f32 v' h' period ltac:(lia)) as (R1' & R2' & R3'). rewrite <- Ez in *.
  destruct (Z.eq_dec period (zlen v + 1)) as [E|E]; [rewrite R1, R1' by assumption; reflexivity|].
  destruct (Z_lt_le_dec period (-1)) as [P|P]; [rewrite R3, R3' by (now left); reflexivity|].
  destruct (Z_lt_le_dec (zlen v + 1) period) as [Q|Q]; [rewrite R3, R3' by (now right; left); reflexivity|].
  destruct h as [|c h]; [destruct h' as [|c' h']|destruct h' as [|c' h']]; try (cbn [List.length] in L; lia).
  { rewrite R3, R3' by (right; right; split; [lia|reflexivity]). reflexivity. }
  rewrite R2, R2' by (lia || discriminate). do 2 f_equal. apply map_ext. intros j. f_equal.
  apply rsi_value_scaled; unfold window.
  - now apply Forall2_firstn, Forall2_skipn.
  - apply Forall_firstn, Forall_skipn. exact A.
  - apply Forall_firstn, Forall_skipn. exact A'.
  - rewrite firstn_length, skipn_length. lia.
Qed.
End Averages.
