(** Machine averages are monotone: every operation rounds monotonically, and a
    finite result can only come from finite operands. *)
From Coq Require Import Reals Lra Lia Psatz.
From Flocq Require Import Core BinarySingleNaN.
From Verif Require Import Go.Outcome Go.Int64 Go.Slice Go.Float64 Go.FloatOrder Go.FloatReal Go.FloatError Go.FloatScale Go.Num
  Model.Candle Model.Indicators Spec.IndicatorSpec Spec.MonotoneSpec Proofs.MovingAverage Proofs.Accuracy.
Open Scope list_scope.
Open Scope R_scope.
Local Notation length := List.length.
Local Notation B2R := (@B2R 53 1024).

Definition grows (x x' : f64) : Prop := is_finite x = true -> is_finite x' = true -> B2R x <= B2R x'.

Lemma grows_not_above x x' : grows x x' <-> not_above x x'.
Proof.
  unfold grows, not_above. split; intros H F F'.
  - rewrite f64_le_xr by now apply finite_not_nan. apply Rle_bool_true. rewrite !xr_finite by assumption. auto.
  - specialize (H F F'). rewrite f64_le_xr in H by now apply finite_not_nan. rewrite !xr_finite in H by assumption.
    destruct (Rle_bool_spec (B2R x) (B2R x')); [assumption|discriminate].
Qed.
Lemma grows_le x x' : f64_le x x' = true -> grows x x'.
Proof. intros H. apply grows_not_above. now intros _ _. Qed.
Lemma grows_refl x : grows x x.
Proof. intros _ _. lra. Qed.

Lemma grows_add x x' y y' : grows x x' -> grows y y' -> grows (f64_add x y) (f64_add x' y').
Proof.
  intros Hx Hy F F'. destruct (add_operands x y F) as [Fx Fy]. destruct (add_operands x' y' F') as [Fx' Fy'].
  rewrite <- !xr_finite by assumption. rewrite (proj2 (add_xr x y Fx Fy)), (proj2 (add_xr x' y' Fx' Fy')).
  apply sat_mono, rnd_mono. specialize (Hx Fx Fx'). specialize (Hy Fy Fy'). lra.
Qed.
Lemma grows_sub x x' y y' : grows x x' -> grows y' y -> grows (f64_sub x y) (f64_sub x' y').
Proof.
  intros Hx Hy F F'. destruct (sub_operands x y F) as [Fx Fy]. destruct (sub_operands x' y' F') as [Fx' Fy'].
  rewrite <- !xr_finite by assumption. rewrite (proj2 (sub_xr x y Fx Fy)), (proj2 (sub_xr x' y' Fx' Fy')).
  apply sat_mono, rnd_mono. specialize (Hx Fx Fx'). specialize (Hy Fy' Fy). lra.
Qed.
Lemma grows_mul x x' c : 0 <= B2R c -> grows x x' -> grows (f64_mul x c) (f64_mul x' c).
Proof.
  intros Hc Hx F F'. destruct (mul_operands x c F) as [Fx Fc]. destruct (mul_operands x' c F') as [Fx' _].
  rewrite <- !xr_finite by assumption. rewrite (proj2 (mul_xr x c Fx Fc)), (proj2 (mul_xr x' c Fx' Fc)).
  apply sat_mono, rnd_mono. specialize (Hx Fx Fx'). nra.
Qed.
Lemma grows_mul_l x x' c : 0 <= B2R c -> grows x x' -> grows (f64_mul c x) (f64_mul c x').
Proof.
  intros Hc Hx F F'. destruct (mul_operands c x F) as [Fc Fx]. destruct (mul_operands c x' F') as [_ Fx'].
  rewrite <- !xr_finite by assumption. rewrite (proj2 (mul_xr c x Fc Fx)), (proj2 (mul_xr c x' Fc Fx')).
  apply sat_mono, rnd_mono. specialize (Hx Fx Fx'). nra.
Qed.
Lemma grows_div x x' c : is_finite c = true -> 0 < B2R c -> grows x x' -> grows (f64_div x c) (f64_div x' c).
Proof.
  intros Fc Hc Hx F F'. pose proof (div_operands x c F) as Fx. pose proof (div_operands x' c F') as Fx'.
  rewrite <- !xr_finite by assumption. rewrite (proj2 (div_xr x c Fx Fc ltac:(lra))), (proj2 (div_xr x' c Fx' Fc ltac:(lra))).
  apply sat_mono, rnd_mono. specialize (Hx Fx Fx'). unfold Rdiv. apply Rmult_le_compat_r; [|assumption].
  left. now apply Rinv_0_lt_compat.
Qed.

Lemma grows_fold {A} (f : f64 -> A -> f64) (Q : A -> A -> Prop) :
  (forall x x' c c', grows x x' -> Q c c' -> grows (f x c) (f x' c')) ->
  forall l l', Forall2 Q l l' -> forall a a', grows a a' -> grows (fold_left f l a) (fold_left f l' a').
Proof. intros Hf l l' H. induction H as [|c c' l l' Hc _ IH]; intros a a' Ha; cbn [fold_left]; auto. Qed.
Lemma grows_iterates {A} (f : f64 -> A -> f64) (Q : A -> A -> Prop) :
  (forall x x' c c', grows x x' -> Q c c' -> grows (f x c) (f x' c')) ->
  forall l l', Forall2 Q l l' -> forall a a', grows a a' -> Forall2 grows (@iterates f64 A f a l) (@iterates f64 A f a' l').
Proof.
  intros Hf l l' H. induction H as [|c c' l l' Hc _ IH]; intros a a' Ha; cbn [iterates]; constructor; auto.
Qed.

(** Every int64 above zero converts to a finite number of at least one. *)
Lemma count_pos z : (1 <= z <= 2 ^ 63)%Z -> is_finite (i2f z) = true /\ 1 <= B2R (i2f z).
Proof.
  intros [H1 H2]. pose proof (i2f_mono 1 z H1) as L. pose proof (i2f_mono z (2 ^ 63) H2) as U.
  rewrite i2f_exact_xr in L by (unfold exact_int; lia).
  assert (is_finite (i2f z) = true) as F.
  { apply xr_lt_finite; [apply i2f_xr|]. rewrite Rabs_pos_eq by lra. eapply Rle_lt_trans; [exact U|].
    assert (is_finite (i2f (2 ^ 63)) = true) as F by (vm_compute; reflexivity).
    rewrite xr_finite by exact F. eapply Rle_lt_trans; [apply Rle_abs|]. now apply B2R_lt_big. }
  split; [exact F|]. now rewrite <- xr_finite.
Qed.

Lemma weight_range z : (1 <= z <= 2 ^ 63)%Z ->
  is_finite (@ema_weight f64 f64_num z) = true /\ 0 <= B2R (@ema_weight f64 f64_num z) <= 1.
Proof.
  intros H. destruct (count_pos z H) as [F1 G1]. unfold ema_weight. cbn [fdiv fofZ fadd f64_num].
  assert (exact_int 1) as E1 by (unfold exact_int; lia). assert (exact_int 2) as E2 by (unfold exact_int; lia).
  destruct (add_xr (i2f z) (i2f 1) F1 (i2f_finite 1 E1)) as [N X]. rewrite (i2f_B2R 1 E1) in X.
  set (d := f64_add (i2f z) (i2f 1)) in *.
  assert (B2R (i2f z) <= IZR (2 ^ 63)) as U.
  { pose proof (i2f_mono z (2 ^ 63) ltac:(lia)) as U. rewrite xr_finite in U by exact F1.
    assert (is_finite (i2f (2 ^ 63)) = true) as F by (vm_compute; reflexivity).
    rewrite (xr_finite (i2f (2 ^ 63))) in U by exact F. eapply Rle_trans; [exact U|].
    right. rewrite <- xr_finite by exact F. rewrite (proj2 (i2f_xr _)).
    assert (rnd (IZR (2 ^ 63)) = IZR (2 ^ 63)) as E.
    { change (IZR (2 ^ 63)) with (bpow radix2 63). apply round_generic; [apply valid_rnd_N|].
      apply generic_format_FLT_bpow; [reflexivity|lia]. }
    rewrite E. apply sat_id. change (IZR (2 ^ 63)) with (bpow radix2 63). rewrite Rabs_pos_eq by apply bpow_ge_0.
    left. apply Rlt_trans with huge; [|pose proof huge_lt_big; pose proof huge_ge1; lra].
    change huge with (bpow radix2 1000). apply bpow_lt. lia. }
  assert (2 <= rnd (B2R (i2f z) + 1)) as D2.
  { rewrite <- (rnd_int 2 E2). apply rnd_mono. lra. }
  assert (rnd (B2R (i2f z) + 1) <= huge) as DU.
  { replace huge with (rnd huge). 2:{ change huge with (bpow radix2 1000). apply round_generic; [apply valid_rnd_N|].
      apply generic_format_FLT_bpow; [reflexivity|lia]. }
    apply rnd_mono. apply Rle_trans with (IZR (2 ^ 64)).
    - apply Rle_trans with (IZR (2 ^ 63) + 1); [lra|]. rewrite <- plus_IZR. apply IZR_le. vm_compute. discriminate.
    - change (IZR (2 ^ 64)) with (bpow radix2 64). change huge with (bpow radix2 1000). apply bpow_le. lia. }
  pose proof huge_lt_big as HB. pose proof huge_ge1 as HG.
  rewrite sat_id in X by (rewrite Rabs_pos_eq; lra).
  assert (is_finite d = true) as Fd by (apply xr_lt_finite; [exact N|]; rewrite X, Rabs_pos_eq; lra).
  rewrite xr_finite in X by exact Fd.
  destruct (div_xr (i2f 2) d (i2f_finite 2 E2) Fd ltac:(lra)) as [Np Xp]. rewrite (i2f_B2R 2 E2) in Xp.
  assert (0 <= 2 / B2R d <= 1) as Q.
  { assert (0 < / B2R d) by (apply Rinv_0_lt_compat; lra). split; [unfold Rdiv; lra|].
    apply Rmult_le_reg_r with (B2R d); [lra|]. unfold Rdiv. rewrite Rmult_assoc, Rinv_l by lra. lra. }
  assert (0 <= rnd (2 / B2R d) <= 1) as Q'.
  { split; [apply rnd_nonneg; lra|]. rewrite <- (rnd_int 1 E1). apply rnd_mono. lra. }
  rewrite sat_id in Xp by (rewrite Rabs_pos_eq; lra).
  assert (is_finite (f64_div (i2f 2) d) = true) as Fp by (apply xr_lt_finite; [exact Np|]; rewrite Xp, Rabs_pos_eq; lra).
  split; [exact Fp|]. rewrite <- xr_finite by exact Fp. rewrite Xp. exact Q'.
Qed.
Lemma co_weight p : is_finite p = true -> 0 <= B2R p <= 1 -> 0 <= B2R (f64_sub (i2f 1) p).
Proof.
  intros F H. assert (exact_int 1) as E1 by (unfold exact_int; lia).
  destruct (sub_xr (i2f 1) p (i2f_finite 1 E1) F) as [N X]. rewrite (i2f_B2R 1 E1) in X.
  assert (0 <= rnd (1 - B2R p) <= 1) as Q.
  { split; [apply rnd_nonneg; lra|]. apply Rle_trans with (rnd 1); [apply rnd_mono; lra|right; exact (rnd_int 1 E1)]. }
  pose proof huge_lt_big as HB. pose proof huge_ge1 as HG.
  rewrite sat_id in X by (rewrite Rabs_pos_eq; lra).
  rewrite <- xr_finite; [rewrite X; lra|]. apply xr_lt_finite; [exact N|]. rewrite X, Rabs_pos_eq; lra.
Qed.

Lemma closes_grow cs cs' : closes_rise cs cs' -> Forall2 grows (closes cs) (closes cs').
Proof. intros H. induction H as [|c c' cs cs' Hc _ IH]; cbn [closes map]; constructor; auto. now apply grows_le. Qed.
Lemma Forall2_firstn {A B} (P : A -> B -> Prop) l l' : Forall2 P l l' -> forall k, Forall2 P (firstn k l) (firstn k l').
Proof. intros H. induction H; intros [|k]; cbn [firstn]; constructor; auto. Qed.
Lemma Forall2_skipn {A B} (P : A -> B -> Prop) l l' : Forall2 P l l' -> forall k, Forall2 P (skipn k l) (skipn k l').
Proof. intros H. induction H; intros [|k]; cbn [skipn]; try constructor; auto. Qed.
Lemma Forall2_len {A B} (P : A -> B -> Prop) l l' : Forall2 P l l' -> length l = length l'.
Proof. intros H. induction H; cbn [List.length]; congruence. Qed.

Lemma grows_sum l l' : Forall2 grows l l' -> grows (@sum_of f64 f64_num l) (@sum_of f64 f64_num l').
Proof.
  intros H. unfold sum_of. apply (grows_fold (@fadd f64 f64_num) grows); [|exact H|apply grows_refl].
  intros. now apply grows_add.
Qed.
Lemma grows_mean l l' : (0 < length l)%nat -> (Z.of_nat (length l) <= 2 ^ 63)%Z -> Forall2 grows l l' ->
  grows (@mean_of f64 f64_num l) (@mean_of f64 f64_num l').
Proof.
  intros P B H. unfold mean_of. rewrite <- (Forall2_len _ _ _ H). cbn [fdiv fofZ f64_num].
  destruct (count_pos (Z.of_nat (length l)) ltac:(lia)) as [F G]. apply grows_div; [exact F|apply Rlt_le_trans with 1; [lra|exact G]|]. now apply grows_sum.
Qed.

Lemma grows_all xs xs' : Forall2 grows xs xs' -> Forall2 not_above xs xs'.
Proof. intros H. induction H; constructor; auto. now apply grows_not_above. Qed.

Lemma ma_monotone (cs cs' hid hid' : list (candle f64)) n : closes_rise cs cs' ->
  (0 < n <= length cs)%nat -> (Z.of_nat n <= 2 ^ 63)%Z ->
  exists xs xs',
    moving_average (GSlice cs hid) (Z.of_nat n) = Ret (xs, None) /\
    moving_average (GSlice cs' hid') (Z.of_nat n) = Ret (xs', None) /\ Forall2 not_above xs xs'.
Proof.
  intros H Hn Hb. pose proof (Forall2_len _ _ _ H) as L. eexists. eexists.
  rewrite (@moving_average_spec f64 f64_num cs hid n Hn), (@moving_average_spec f64 f64_num cs' hid' n) by lia.
  split; [reflexivity|]. split; [reflexivity|]. apply grows_all. rewrite <- L.
  apply closes_grow in H. assert (forall j, In j (seq 0 (length cs - n + 1)) -> (j + n <= length cs)%nat) as Hj.
  { intros j Hj. apply in_seq in Hj. lia. }
  induction (seq 0 (length cs - n + 1)) as [|j js IH]; cbn [map]; constructor.
  - assert (length (window j n (closes cs)) = n) as Lw.
    { apply window_len. unfold closes. rewrite map_length. apply Hj. now left. }
    apply grows_mean; rewrite ?Lw; try lia. unfold window. now apply Forall2_firstn, Forall2_skipn.
  - apply IH. intros k Hk. apply Hj. now right.
Qed.

Lemma ema_monotone (cs cs' hid hid' : list (candle f64)) n : closes_rise cs cs' ->
  (0 < n <= length cs)%nat -> (Z.of_nat n <= 2 ^ 63)%Z ->
  exists xs xs',
    exponential_moving_average (GSlice cs hid) (Z.of_nat n) = Ret (xs, None) /\
    exponential_moving_average (GSlice cs' hid') (Z.of_nat n) = Ret (xs', None) /\ Forall2 not_above xs xs'.
Proof.
  intros H Hn Hb. pose proof (Forall2_len _ _ _ H) as L. eexists. eexists.
  rewrite (@ema_spec f64 f64_num cs hid n Hn), (@ema_spec f64 f64_num cs' hid' n) by lia.
  split; [reflexivity|]. split; [reflexivity|]. apply grows_all.
  pose proof (Forall2_skipn _ _ _ H n) as Hs. apply closes_grow in H.
  inversion Hs as [|c c' l l' _ Hl E1 E2]; [constructor|]. cbv zeta.
  assert (grows (@mean_of f64 f64_num (firstn n (closes cs))) (@mean_of f64 f64_num (firstn n (closes cs')))) as Sd.
  { assert (length (firstn n (closes cs)) = n) as Lw by (rewrite firstn_length; unfold closes; rewrite map_length; lia).
    apply grows_mean; rewrite ?Lw; try lia. now apply Forall2_firstn. }
  constructor; [exact Sd|]. destruct (weight_range (Z.of_nat n) ltac:(lia)) as [Fw Hw].
  apply (grows_iterates (@ema_step f64 f64_num (@ema_weight f64 f64_num (Z.of_nat n))) grows); [|now apply closes_grow|exact Sd].
  intros x x' d d' Hx Hd. unfold ema_step. cbn [fadd fmul fsub fofZ f64_num].
  apply grows_add; apply grows_mul; auto; [lra|]. now apply co_weight.
Qed.

Lemma ewv_monotone (cs cs' : list (candle f64)) (beta : f64) : ranges_widen cs cs' ->
  is_finite beta = true -> 0 <= B2R beta <= 1 ->
  not_above (@ewv f64 f64_num cs beta) (@ewv f64 f64_num cs' beta).
Proof.
  intros H F Hb. apply grows_not_above. unfold ewv.
  apply (grows_fold (fun v c => fadd (fmul beta v) (fmul (fsub (fofZ 1) beta) (fsub (c_high c) (c_low c))))
    (fun c c' => f64_le (c_high c) (c_high c') = true /\ f64_le (c_low c') (c_low c) = true)); [|exact H|apply grows_refl].
  intros x x' c c' Hx [Hh Hl]. cbn [fadd fmul fsub fofZ f64_num].
  apply grows_add; apply grows_mul_l; auto; [lra|now apply co_weight|]. apply grows_sub; now apply grows_le.
Qed.
