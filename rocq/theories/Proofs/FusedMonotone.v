(** Fused multiply-add (C97): the averages stay monotone. *)
From Coq Require Import Reals Lra Lia Psatz.
From Flocq Require Import Core BinarySingleNaN.
From Verif Require Import Go.Outcome Go.Int64 Go.Slice Go.Float64 Go.FloatOrder Go.FloatReal Go.FloatError Go.FloatScale Go.Num
  Model.Candle Model.Indicators Model.Fused Spec.IndicatorSpec Spec.MonotoneSpec Spec.FusedSpec
  Proofs.MovingAverage Proofs.Fma Proofs.Accuracy Proofs.Monotone Proofs.SmoothedMonotone Proofs.FusedIndicators.
Open Scope list_scope.
Open Scope R_scope.
Local Notation length := List.length.
Local Notation B2R := (@B2R 53 1024).

Lemma fma_operands (x y z : f64) : is_finite (f64_fma x y z) = true ->
  is_finite x = true /\ is_finite y = true /\ is_finite z = true.
Proof.
  destruct x as [?|[|]| |? ? ? ?]; destruct y as [?|[|]| |? ? ? ?]; destruct z as [?|[|]| |? ? ? ?]; intros H;
    (split; [|split]); first [reflexivity | discriminate H | (exfalso; revert H; unfold f64_fma; cbn [Bfma Bfma_szero Bplus]; destruct s; discriminate)
      | (exfalso; revert H; unfold f64_fma; cbn [Bfma Bfma_szero Bplus]; discriminate) | (exfalso; revert H; unfold f64_fma; cbn; destruct s, s0; discriminate)].
Qed.
(** A fused operation is monotone where its exact value is. *)
Lemma grows_fma x x' y y' z z' :
  (is_finite x = true -> is_finite x' = true -> is_finite y = true -> is_finite y' = true -> is_finite z = true -> is_finite z' = true ->
    B2R x * B2R y + B2R z <= B2R x' * B2R y' + B2R z') ->
  grows (f64_fma x y z) (f64_fma x' y' z').
Proof.
  intros H F F'. destruct (fma_operands x y z F) as (Fx & Fy & Fz). destruct (fma_operands x' y' z' F') as (Fx' & Fy' & Fz').
  rewrite <- !xr_finite by assumption. rewrite (proj2 (fma_xr x y z Fx Fy Fz)), (proj2 (fma_xr x' y' z' Fx' Fy' Fz')).
  apply sat_mono, rnd_mono. auto.
Qed.

Lemma tag_both {A B} (f : Z -> A) (P : B -> B -> Prop) l l' : Forall2 P l l' -> forall i,
  Forall2 (fun bc bc' => fst bc = fst bc' /\ P (snd bc) (snd bc')) (tag f i l) (tag f i l').
Proof. induction 1 as [|x x' l l' H _ IH]; intros i; cbn [tag]; constructor; [split; [reflexivity|exact H]|apply IH]. Qed.

Lemma grows_two_right c x x' p z z' q : is_finite p = true -> 0 <= B2R p -> 0 <= B2R q -> grows x x' -> grows z z' ->
  grows (two_products c x p z q) (two_products c x' p z' q).
Proof.
  intros Fp Hp Hq Hx Hz. destruct c; cbn [two_products].
  - apply grows_add; now apply grows_mul.
  - apply grows_fma. intros Fx Fx' _ _ Fm Fm'. pose proof (grows_mul z z' q Hq Hz Fm Fm'). specialize (Hx Fx Fx'). nra.
  - apply grows_fma. intros Fx Fx' _ _ Fm Fm'. pose proof (grows_mul x x' p Hp Hx Fm Fm'). specialize (Hz Fx Fx'). nra.
Qed.
Lemma grows_two_left c x x' p z z' q : 0 <= B2R p -> 0 <= B2R q -> grows x x' -> grows z z' ->
  grows (two_products c p x q z) (two_products c p x' q z').
Proof.
  intros Hp Hq Hx Hz. destruct c; cbn [two_products].
  - apply grows_add; now apply grows_mul_l.
  - apply grows_fma. intros _ _ Fx Fx' Fm Fm'. pose proof (grows_mul_l z z' q Hq Hz Fm Fm'). specialize (Hx Fx Fx'). nra.
  - apply grows_fma. intros _ _ Fx Fx' Fm Fm'. pose proof (grows_mul_l x x' p Hp Hx Fm Fm'). specialize (Hz Fx Fx'). nra.
Qed.

Lemma ema_fused_monotone f (cs cs' hid hid' : list (candle f64)) n : closes_rise cs cs' ->
  (0 < n <= length cs)%nat -> (Z.of_nat n <= 2 ^ 63)%Z ->
  exists xs xs',
    exponential_moving_average_fused f (GSlice cs hid) (Z.of_nat n) = Ret (xs, None) /\
    exponential_moving_average_fused f (GSlice cs' hid') (Z.of_nat n) = Ret (xs', None) /\ Forall2 not_above xs xs'.
Proof.
  intros H Hn Hb. pose proof (Forall2_len _ _ _ H) as L. eexists. eexists.
  rewrite (ema_fused_spec f cs hid n Hn), (ema_fused_spec f cs' hid' n) by lia.
  split; [reflexivity|]. split; [reflexivity|]. apply grows_all.
  pose proof (Forall2_skipn _ _ _ H n) as Hs. apply closes_grow in H.
  inversion Hs as [|c c' l l' _ Hl E1 E2]; [constructor|]. cbv zeta.
  assert (grows (@mean_of f64 f64_num (firstn n (closes cs))) (@mean_of f64 f64_num (firstn n (closes cs')))) as Sd.
  { assert (length (firstn n (closes cs)) = n) as Lw by (rewrite firstn_length; unfold closes; rewrite map_length; lia).
    apply grows_mean; rewrite ?Lw; try lia. now apply Forall2_firstn. }
  constructor; [exact Sd|]. destruct (weight_range (Z.of_nat n) ltac:(lia)) as [Fw Hw].
  apply (grows_iterates (ema_step_fused (@ema_weight f64 f64_num (Z.of_nat n)))
    (fun bc bc' => fst bc = fst bc' /\ grows (snd bc) (snd bc'))); [|now apply tag_both, closes_grow|exact Sd].
  intros x x' [b d] [b' d'] Hx [Eb Hd]. cbn [fst snd] in Eb, Hd. subst b'. unfold ema_step_fused. cbn [fst snd].
  apply grows_two_right; auto; [lra|]. now apply co_weight.
Qed.
Lemma ewv_fused_monotone f (cs cs' : list (candle f64)) (beta : f64) : ranges_widen cs cs' ->
  is_finite beta = true -> 0 <= B2R beta <= 1 ->
  not_above (ewv_fused f cs beta) (ewv_fused f cs' beta).
Proof.
  intros H F Hb. apply grows_not_above. unfold ewv_fused. rewrite !ewv_fused_fold.
  apply (grows_fold (ewv_step_fused beta)
    (fun bc bc' => fst bc = fst bc' /\ (f64_le (c_high (snd bc)) (c_high (snd bc')) = true /\ f64_le (c_low (snd bc')) (c_low (snd bc)) = true)));
    [|apply (tag_both f (fun c c' => f64_le (c_high c) (c_high c') = true /\ f64_le (c_low c') (c_low c) = true)); exact H|apply grows_refl].
  intros x x' [b c] [b' c'] Hx [Eb [Hh Hl]]. cbn [fst snd] in *. subst b'. unfold ewv_step_fused. cbn [fst snd].
  apply grows_two_left; auto; [lra|now apply co_weight|]. apply grows_sub; now apply grows_le.
Qed.
Lemma later_fused_grows N b x x' c c' : (1 <= N <= 2 ^ 53)%Z -> quotients N x x' -> grows c c' ->
  quotients N (smma_later_fused N x (b, c)) (smma_later_fused N x' (b, c')).
Proof.
  intros H Q Hc. destruct b; [|exact (later_grows N x x' c c' H Q Hc)]. unfold smma_later_fused. cbn [fst snd product_sub].
  eexists. eexists. split; [reflexivity|]. split; [reflexivity|]. apply grows_add; [|exact Hc].
  pose proof (quotients_grow N x x' H Q) as G. apply grows_fma. intros Fx Fx' _ _ _ _. specialize (G Fx Fx').
  assert (exact_int N) as E by (unfold exact_int; lia). pose proof (IZR_le 1 N ltac:(lia)) as N1.
  rewrite (i2f_B2R N E). unfold f64_neg. rewrite !B2R_Bopp. nra.
Qed.
Lemma second_fused_grows N b x x' c c' : (1 <= N <= 2 ^ 53)%Z -> grows x x' -> grows c c' ->
  quotients N (smma_second_fused N b x c) (smma_second_fused N b x' c').
Proof.
  intros H Hx Hc. destruct b; [|exact (second_grows N x x' c c' H Hx Hc)]. unfold smma_second_fused. cbn [product_add].
  eexists. eexists. split; [reflexivity|]. split; [reflexivity|]. apply grows_fma. intros Fx Fx' _ _ Fc Fc'.
  specialize (Hx Fx Fx'). specialize (Hc Fc Fc').
  assert (0 <= B2R (f64_sub (i2f N) (i2f 1))); [|nra].
  assert (exact_int N) as E by (unfold exact_int; lia). assert (exact_int 1) as E1 by (unfold exact_int; lia).
  assert (exact_int (N - 1)) as E2 by (unfold exact_int; lia).
  destruct (sub_xr (i2f N) (i2f 1) (i2f_finite N E) (i2f_finite 1 E1)) as [Nn X].
  rewrite (i2f_B2R N E), (i2f_B2R 1 E1), <- minus_IZR, (rnd_int _ E2) in X.
  pose proof (exact_lt_big _ E2) as B. rewrite sat_id in X by lra.
  rewrite <- xr_finite; [rewrite X; apply IZR_le; lia|]. apply xr_lt_finite; [exact Nn|]. now rewrite X.
Qed.
Lemma smma_fused_monotone f (cs cs' hid hid' : list (candle f64)) n : closes_rise cs cs' ->
  (0 < n <= length cs)%nat -> (Z.of_nat n <= 2 ^ 53)%Z ->
  exists xs xs',
    smoothed_moving_average_fused f (GSlice cs hid) (Z.of_nat n) = Ret (xs, None) /\
    smoothed_moving_average_fused f (GSlice cs' hid') (Z.of_nat n) = Ret (xs', None) /\ Forall2 not_above xs xs'.
Proof.
  intros H Hn Hb. pose proof (Forall2_len _ _ _ H) as L. eexists. eexists.
  rewrite (smma_fused_spec f cs hid n Hn), (smma_fused_spec f cs' hid' n) by lia.
  split; [reflexivity|]. split; [reflexivity|]. apply grows_all. apply closes_grow in H.
  set (N := Z.of_nat n) in *. assert (1 <= N <= 2 ^ 53)%Z as HN by lia.
  pose proof (Forall2_skipn _ _ _ H n) as Hs.
  assert (quotients N (f64_div (@sum_of f64 f64_num (firstn n (closes cs))) (i2f N)) (f64_div (@sum_of f64 f64_num (firstn n (closes cs'))) (i2f N))) as Q0.
  { eexists. eexists. split; [reflexivity|]. split; [reflexivity|]. now apply grows_sum, Forall2_firstn. }
  pose proof (quotients_grow N _ _ HN Q0) as G0. constructor; [exact G0|].
  inversion Hs as [|c c' l l' Hc Hl E1 E2]; [constructor|].
  pose proof (second_fused_grows N (f N) _ _ c c' HN G0 Hc) as Q1. constructor; [now apply (quotients_grow N)|].
  revert Q1. generalize (smma_second_fused N (f N) (f64_div (sum_of (firstn n (closes cs))) (i2f N)) c) as a.
  generalize (smma_second_fused N (f N) (f64_div (sum_of (firstn n (closes cs'))) (i2f N)) c') as a'.
  generalize (N + 1)%Z as i.
  clear - Hl HN. induction Hl as [|d d' l l' Hd _ IH]; intros i a' a Q; cbn [tag iterates]; constructor.
  - apply (quotients_grow N); [exact HN|]. now apply later_fused_grows.
  - apply IH. now apply later_fused_grows.
Qed.

(** *** The same errors and lengths, on any input *)
Lemma index_same {A} (l l' : list A) i : length l = length l' ->
  match index l i, index l' i with Ret _, Ret _ => True | Panic p, Panic p' => p = p' | _, _ => False end.
Proof.
  intros H. unfold index. destruct (_ <? _)%Z; [reflexivity|].
  destruct (nth_error l (Z.to_nat i)) eqn:E1, (nth_error l' (Z.to_nat i)) eqn:E2; try exact I; try reflexivity.
  - apply nth_error_None in E2. assert (nth_error l (Z.to_nat i) <> None) as K by (rewrite E1; discriminate). apply nth_error_Some in K. lia.
  - apply nth_error_None in E1. assert (nth_error l' (Z.to_nat i) <> None) as K by (rewrite E2; discriminate). apply nth_error_Some in K. lia.
Qed.
Lemma zlen_same {A} (l l' : list A) : length l = length l' -> zlen l = zlen l'.
Proof. unfold zlen. now intros ->. Qed.
Lemma snoc_same {A} (l l' : list A) a b : length l = length l' -> length (l ++ [a]) = length (l' ++ [b]).
Proof. intros H. rewrite !app_length, H. reflexivity. Qed.
Lemma ema_loop_same f cs n p rest : forall i acc acc', length acc = length acc' ->
  match ema_loop_fused f cs n p rest i acc, @ema_loop f64 f64_num cs n p rest i acc' with
  | Ret xs, Ret ys => length xs = length ys
  | Panic q, Panic q' => q = q'
  | _, _ => False
  end.
Proof.
  induction rest as [|c rest IH]; intros i acc acc' H; cbn [ema_loop_fused ema_loop]; [exact H|].
  destruct (i <? n)%Z; [now apply IH|]. rewrite (zlen_same _ _ H). destruct (zlen acc' =? 0)%Z.
  - destruct (reslice cs 0 n); cbn [bind]; [|reflexivity]. apply IH. now apply snoc_same.
  - pose proof (index_same acc acc' (zlen acc' - 1) H) as K.
    destruct (index acc (zlen acc' - 1)), (index acc' (zlen acc' - 1)); cbn [bind]; try contradiction; [|exact K].
    apply IH. now apply snoc_same.
Qed.
Lemma ema_fused_same f (s : gslice (candle f64)) n :
  same_shape (exponential_moving_average_fused f s n) (@exponential_moving_average f64 f64_num s n).
Proof.
  unfold exponential_moving_average_fused, exponential_moving_average. cbv zeta. cbn [fdiv fadd fofZ f64_num].
  destruct (is_nil s); [split; reflexivity|]. destruct (_ <? _)%Z; [split; reflexivity|]. destruct (_ <=? _)%Z; [split; reflexivity|].
  pose proof (ema_loop_same f (vis s) n (f64_div (i2f 2) (f64_add (i2f n) (i2f 1))) (vis s) 0 [] [] eq_refl) as K.
  destruct (ema_loop_fused _ _ _ _ _ _ _), (ema_loop _ _ _ _ _ _); cbn [bind same_shape]; try contradiction; [split; [exact K|reflexivity]|exact K].
Qed.
Lemma smma_loop_same f cs n rest : forall i acc acc', length acc = length acc' ->
  same_shape (smma_loop_fused f cs n rest i acc) (@smma_loop f64 f64_num cs n rest i acc').
Proof.
  induction rest as [|c rest IH]; intros i acc acc' H; cbn [smma_loop_fused smma_loop]; [split; [exact H|reflexivity]|].
  destruct (i <? n - 1)%Z; [now apply IH|]. destruct (reslice cs 0 (i + 1)) as [pre|]; cbn [bind]; [|reflexivity].
  destruct (closing_sum pre n) as [[sum e]|]; cbn [bind]; [|reflexivity]. destruct e as [e|]; [split; reflexivity|].
  rewrite (zlen_same _ _ H). destruct (zlen acc' =? 0)%Z; [apply IH; now apply snoc_same|].
  destruct (zlen acc' =? 1)%Z.
  - pose proof (index_same acc acc' 0 H) as K.
    destruct (index acc 0), (index acc' 0); cbn [bind]; try contradiction; [|exact K]. apply IH. now apply snoc_same.
  - pose proof (index_same acc acc' (zlen acc' - 1) H) as K.
    destruct (index acc (zlen acc' - 1)), (index acc' (zlen acc' - 1)); cbn [bind]; try contradiction; [|exact K].
    apply IH. now apply snoc_same.
Qed.
Lemma smma_fused_same f (s : gslice (candle f64)) n :
  same_shape (smoothed_moving_average_fused f s n) (@smoothed_moving_average f64 f64_num s n).
Proof.
  unfold smoothed_moving_average_fused, smoothed_moving_average. cbv zeta.
  destruct (is_nil s); [split; reflexivity|]. destruct (_ <? _)%Z; [split; reflexivity|]. destruct (_ <=? _)%Z; [split; reflexivity|].
  now apply smma_loop_same.
Qed.

(** *** Without fusing *)
Lemma ema_loop_apart cs n p rest : forall i acc, ema_loop_fused (fun _ => Apart) cs n p rest i acc = @ema_loop f64 f64_num cs n p rest i acc.
Proof.
  induction rest as [|c rest IH]; intros i acc; cbn [ema_loop_fused ema_loop]; [reflexivity|].
  destruct (i <? n)%Z; [apply IH|]. destruct (zlen acc =? 0)%Z.
  - destruct (reslice cs 0 n); cbn [bind]; [apply IH|reflexivity].
  - destruct (index acc (zlen acc - 1)); cbn [bind]; [apply IH|reflexivity].
Qed.
Lemma smma_loop_apart cs n rest : forall i acc, smma_loop_fused (fun _ => false) cs n rest i acc = @smma_loop f64 f64_num cs n rest i acc.
Proof.
  induction rest as [|c rest IH]; intros i acc; cbn [smma_loop_fused smma_loop]; [reflexivity|].
  destruct (i <? n - 1)%Z; [apply IH|]. destruct (reslice cs 0 (i + 1)) as [pre|]; cbn [bind]; [|reflexivity].
  destruct (closing_sum pre n) as [[sum e]|]; cbn [bind]; [|reflexivity]. destruct e as [e|]; [reflexivity|].
  destruct (zlen acc =? 0)%Z; [apply IH|]. destruct (zlen acc =? 1)%Z.
  - destruct (index acc 0); cbn [bind]; [apply IH|reflexivity].
  - destruct (index acc (zlen acc - 1)); cbn [bind]; [apply IH|reflexivity].
Qed.
Lemma ema_apart s n : exponential_moving_average_fused (fun _ => Apart) s n = @exponential_moving_average f64 f64_num s n.
Proof. unfold exponential_moving_average_fused, exponential_moving_average. cbv zeta. rewrite ema_loop_apart. reflexivity. Qed.
Lemma smma_apart s n : smoothed_moving_average_fused (fun _ => false) s n = @smoothed_moving_average f64 f64_num s n.
Proof. unfold smoothed_moving_average_fused, smoothed_moving_average. cbv zeta. rewrite smma_loop_apart. reflexivity. Qed.
Lemma ewv_apart cs beta : ewv_fused (fun _ => Apart) cs beta = @ewv f64 f64_num cs beta.
Proof.
  unfold ewv_fused, ewv. change (@fofZ f64 f64_num 0) with (i2f 0). generalize 0%Z at 1 as i. generalize (i2f 0) as v.
  induction cs as [|c cs IH]; intros v i; cbn [ewv_loop_fused fold_left]; [reflexivity|]. apply IH.
Qed.
