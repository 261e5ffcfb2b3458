(** Weighted means: closed forms, superposition, forgetting. *)
From Coq Require Import Reals Lra Lia.
From Flocq Require Import Core BinarySingleNaN.
From Verif Require Import Go.Outcome Go.Int64 Go.Slice Go.Float64 Go.Num Model.Candle Model.Indicators
  Spec.IndicatorSpec Spec.AccuracySpec Spec.ForgetSpec Proofs.MovingAverage.
Open Scope list_scope.
Open Scope R_scope.
Local Notation length := List.length.

(** ** The recurrence x' = w x + (1 - w) c *)
Definition blend (w x c : R) : R := w * x + (1 - w) * c.

Lemma iterates_nth w : forall l x i y, nth_error (x :: iterates (blend w) x l) i = Some y ->
  y = w ^ i * x + (1 - w) * discounted w (firstn i l).
Proof.
  induction l as [|c l IH]; intros x i y H.
  - destruct i as [|i]; [injection H as <-; simpl; lra|]. destruct i; discriminate H.
  - destruct i as [|i]; [injection H as <-; simpl; lra|].
    change (nth_error (blend w x c :: iterates (blend w) (blend w x c) l) i = Some y) in H.
    assert (length (firstn i l) = i) as L.
    { assert (i < length (blend w x c :: iterates (blend w) (blend w x c) l))%nat by (apply nth_error_Some; congruence).
      cbn [List.length] in H0. assert (length (iterates (blend w) (blend w x c) l) = length l) as E.
      { clear. generalize (blend w x c). induction l as [|d l IH]; intros z; [reflexivity|]. cbn [iterates List.length]. now rewrite IH. }
      rewrite E in H0. rewrite firstn_length. lia. }
    rewrite (IH _ _ _ H). cbn [firstn discounted pow]. rewrite L. unfold blend. ring.
Qed.

Lemma mix_length a b d : forall l l', length l = length l' -> length (mix a b d l l') = length l.
Proof. intros l l' H. unfold mix. rewrite map_length, combine_length. lia. Qed.

Lemma iterates_mix w a b d : forall l l' x x', length l = length l' ->
  iterates (blend w) (a * x + b * x' + d) (mix a b d l l') = mix a b d (iterates (blend w) x l) (iterates (blend w) x' l').
Proof.
  induction l as [|c l IH]; intros [|c' l'] x x' H; cbn [List.length] in H; try discriminate H; [reflexivity|].
  change (mix a b d (c :: l) (c' :: l')) with ((a * c + b * c' + d) :: mix a b d l l'). cbn [iterates].
  replace (blend w (a * x + b * x' + d) (a * c + b * c' + d)) with (a * blend w x c + b * blend w x' c' + d) by (unfold blend; ring).
  rewrite IH by congruence. reflexivity.
Qed.

Lemma blend_apart w D x x' c c' : 0 <= w <= 1 -> Rabs (x - x') <= D -> Rabs (c - c') <= D -> Rabs (blend w x c - blend w x' c') <= D.
Proof.
  intros Hw Hx Hc. apply Rabs_le_inv in Hx, Hc. apply Rabs_le. unfold blend.
  replace (w * x + (1 - w) * c - (w * x' + (1 - w) * c')) with (w * (x - x') + (1 - w) * (c - c')) by ring. nra.
Qed.

Lemma iterates_forget w D : 0 <= w <= 1 -> forall l l' k x x', Rabs (x - x') <= D -> apart_until D k l l' ->
  forall i j y y', nth_error (x :: iterates (blend w) x l) i = Some y -> nth_error (x' :: iterates (blend w) x' l') i = Some y' ->
  (j <= i)%nat -> (k + j <= i)%nat -> Rabs (y - y') <= D * w ^ j.
Proof.
  intros Hw.
  (* equal closes: the distance shrinks by w at each step *)
  assert (forall l x x' d, Rabs (x - x') <= d -> forall i y y',
    nth_error (x :: iterates (blend w) x l) i = Some y -> nth_error (x' :: iterates (blend w) x' l) i = Some y' -> Rabs (y - y') <= d * w ^ i) as Same.
  { induction l as [|c l IH]; intros x x' d H i y y' E E'; (destruct i as [|i]; [injection E as <-; injection E' as <-; simpl; lra|]).
    - destruct i; discriminate E.
    - cbn [iterates] in E, E'. change (nth_error (blend w x c :: iterates (blend w) (blend w x c) l) i = Some y) in E.
      change (nth_error (blend w x' c :: iterates (blend w) (blend w x' c) l) i = Some y') in E'.
      replace (d * w ^ S i) with (w * d * w ^ i) by (simpl; ring). eapply IH; [|eassumption|eassumption].
      unfold blend. replace (w * x + (1 - w) * c - (w * x' + (1 - w) * c)) with (w * (x - x')) by ring.
      rewrite Rabs_mult, (Rabs_pos_eq w) by lra. apply Rmult_le_compat_l; lra. }
  induction l as [|c l IH]; intros l' k x x' H A i j y y' E E' J K.
  - destruct A as [L _]. destruct l' as [|c' l']; [|discriminate L].
    destruct i as [|i]; [|destruct i; discriminate E]. injection E as <-. injection E' as <-. assert (j = 0%nat) as -> by lia. simpl. lra.
  - destruct A as [L A]. destruct l' as [|c' l']; [discriminate L|].
    destruct k as [|k].
    + (* equal from the start *)
      assert (c :: l = c' :: l') as EQ.
      { clear - L A. revert L A. generalize (c :: l) (c' :: l'). clear. induction l as [|x l IH]; intros [|x' l'] L A; cbn [List.length] in L; try discriminate L; [reflexivity|].
        f_equal; [apply (A 0%nat); [reflexivity|reflexivity|lia]|]. apply IH; [congruence|].
        intros i y y' E E'. destruct (A (S i) y y' E E') as [B C]. split; [exact B|]. intros _. apply C. lia. }
      injection EQ as <- <-. apply Rle_trans with (D * w ^ i); [eapply Same; eassumption|].
      assert (0 <= D) by (pose proof (Rabs_pos (x - x')); lra). apply Rmult_le_compat_l; [assumption|].
      replace i with (j + (i - j))%nat by lia. rewrite pow_add. rewrite <- (Rmult_1_r (w ^ j)) at 2. apply Rmult_le_compat_l; [apply pow_le; lra|].
      clear - Hw. induction (i - j)%nat as [|m IHm]; [simpl; lra|]. simpl. assert (0 <= w ^ m) by (apply pow_le; lra). nra.
    + destruct i as [|i]; [lia|]. cbn [iterates] in E, E'.
      change (nth_error (blend w x c :: iterates (blend w) (blend w x c) l) i = Some y) in E.
      change (nth_error (blend w x' c' :: iterates (blend w) (blend w x' c') l') i = Some y') in E'.
      apply (IH l' k (blend w x c) (blend w x' c')) with (i := i); try assumption; try lia.
      * apply blend_apart; [assumption|assumption|]. apply (A 0%nat c c'); reflexivity.
      * split; [cbn [List.length] in L; congruence|]. intros m z z' M M'. destruct (A (S m) z z' M M') as [B C]. split; [exact B|]. intros Hm. apply C. lia.
Qed.

(** ** Windows and sums *)
Lemma rsum_apart D : forall l l', length l = length l' ->
  (forall i x x', nth_error l i = Some x -> nth_error l' i = Some x' -> Rabs (x - x') <= D) ->
  Rabs (rsum l - rsum l') <= INR (length l) * D.
Proof.
  induction l as [|x l IH]; intros [|x' l'] L A; cbn [List.length] in L; try discriminate L.
  - simpl. rewrite Rminus_0_r, Rabs_R0. lra.
  - cbn [rsum fold_right List.length]. fold (rsum l) (rsum l'). rewrite S_INR.
    replace (x + rsum l - (x' + rsum l')) with ((x - x') + (rsum l - rsum l')) by ring.
    eapply Rle_trans; [apply Rabs_triang|]. rewrite Rmult_plus_distr_r, Rmult_1_l.
    pose proof (A 0%nat x x' eq_refl eq_refl). specialize (IH l' ltac:(congruence) (fun i => A (S i))). lra.
Qed.
Lemma rsum_mix a b d : forall l l', length l = length l' -> rsum (mix a b d l l') = a * rsum l + b * rsum l' + INR (length l) * d.
Proof.
  induction l as [|x l IH]; intros [|x' l'] L; cbn [List.length] in L; try discriminate L.
  - cbn. lra.
  - change (mix a b d (x :: l) (x' :: l')) with ((a * x + b * x' + d) :: mix a b d l l').
    cbn [rsum fold_right]. fold (rsum l) (rsum l') (rsum (mix a b d l l')). rewrite IH by congruence. cbn [List.length]. rewrite S_INR. ring.
Qed.
Lemma mix_firstn a b d n l l' : firstn n (mix a b d l l') = mix a b d (firstn n l) (firstn n l').
Proof. unfold mix. now rewrite firstn_map, combine_firstn. Qed.
Lemma combine_skipn {A B} n : forall (l : list A) (l' : list B), skipn n (combine l l') = combine (skipn n l) (skipn n l').
Proof.
  induction n as [|n IH]; intros [|x l] [|x' l']; try reflexivity; cbn [skipn combine].
  - destruct (skipn n l); reflexivity.
  - apply IH.
Qed.
Lemma mix_skipn a b d n l l' : skipn n (mix a b d l l') = mix a b d (skipn n l) (skipn n l').
Proof. unfold mix. now rewrite skipn_map, combine_skipn. Qed.
Lemma nth_firstn_some {A} n : forall (l : list A) i x, nth_error (firstn n l) i = Some x -> nth_error l i = Some x.
Proof.
  induction n as [|n IH]; intros l i x H; [destruct i; discriminate H|]. destruct l as [|y l]; [destruct i; discriminate H|].
  destruct i as [|i]; [exact H|]. exact (IH l i x H).
Qed.
Lemma nth_skipn_some {A} n : forall (l : list A) i x, nth_error (skipn n l) i = Some x -> nth_error l (n + i) = Some x.
Proof.
  induction n as [|n IH]; intros l i x H; [exact H|]. destruct l as [|y l]; [destruct i; discriminate H|]. now apply IH.
Qed.
Lemma apart_skipn D k n l l' : apart_until D k l l' -> apart_until D (k - n) (skipn n l) (skipn n l').
Proof.
  intros [L A]. split; [rewrite !skipn_length; congruence|]. intros i x x' H H'.
  apply nth_skipn_some in H, H'. destruct (A _ _ _ H H') as [B C]. split; [exact B|]. intros K. apply C. lia.
Qed.
Lemma mean_apart D k n l l' : (0 < n <= length l)%nat -> apart_until D k l l' ->
  Rabs (rsum (firstn n l) / INR n - rsum (firstn n l') / INR n) <= D.
Proof.
  intros H [L A]. assert (0 < INR n) by (apply lt_0_INR; lia).
  replace (rsum (firstn n l) / INR n - rsum (firstn n l') / INR n) with ((rsum (firstn n l) - rsum (firstn n l')) / INR n) by (field; lra).
  unfold Rdiv. rewrite Rabs_mult, (Rabs_pos_eq (/ INR n)) by (apply Rlt_le, Rinv_0_lt_compat; lra).
  apply (Rmult_le_reg_r (INR n)); [assumption|]. rewrite Rmult_assoc, Rinv_l, Rmult_1_r by lra.
  rewrite (Rmult_comm D). pose proof (rsum_apart D (firstn n l) (firstn n l')) as B. rewrite !firstn_length in B.
  replace (Nat.min n (length l)) with n in B by lia. apply B; [lia|].
  intros i x x' E E'. apply nth_firstn_some in E, E'. exact (proj1 (A _ _ _ E E')).
Qed.

(** ** The model in these terms *)
Definition ema_exact (n : nat) (l : list R) : list R :=
  match skipn n l with
  | [] => []
  | _ :: later => let s := rsum (firstn n l) / INR n in s :: iterates (blend (ema_keep n)) s later
  end.
Definition smma_exact (n : nat) (l : list R) : list R :=
  let s := rsum (firstn n l) / INR n in s :: iterates (blend (smma_keep n)) s (skipn n l).

Lemma ema_keep_range n : (0 < n)%nat -> 0 <= ema_keep n <= 1.
Proof.
  intros H. unfold ema_keep. assert (1 <= INR n) by (apply (le_INR 1); lia).
  assert (0 < 2 / (INR n + 1) <= 1); [|lra]. split; [apply Rdiv_lt_0_compat; lra|].
  apply (Rmult_le_reg_r (INR n + 1)); [lra|]. unfold Rdiv. rewrite Rmult_assoc, Rinv_l by lra. lra.
Qed.
Lemma smma_keep_range n : (0 < n)%nat -> 0 <= smma_keep n <= 1.
Proof.
  intros H. unfold smma_keep. assert (1 <= INR n) by (apply (le_INR 1); lia).
  assert (0 < 1 / INR n <= 1); [|lra]. split; [apply Rdiv_lt_0_compat; lra|].
  apply (Rmult_le_reg_r (INR n)); [lra|]. unfold Rdiv. rewrite Rmult_assoc, Rinv_l by lra. lra.
Qed.

Lemma ema_is (cs hid : list (candle R)) n : (0 < n <= length cs)%nat ->
  exponential_moving_average (GSlice cs hid) (Z.of_nat n) = Ret (ema_exact n (closes cs), None).
Proof.
  intros H. rewrite (@ema_spec R R_num) by assumption. cbv zeta. unfold ema_exact, closes. rewrite skipn_map.
  destruct (skipn n cs) as [|c later]; [reflexivity|]. cbn [map]. cbv zeta.
  assert (length (firstn n (map c_close cs)) = n) as L by (rewrite firstn_length, map_length; lia).
  assert (@mean_of R R_num (firstn n (map c_close cs)) = rsum (firstn n (map c_close cs)) / INR n) as ->.
  { rewrite mean_value by (intros K; rewrite K in L; simpl in L; lia). now rewrite L. }
  do 3 f_equal. apply iterates_ext. intros x c0. unfold ema_step, ema_weight, blend, ema_keep. cbn [fadd fmul fsub fdiv fofZ R_num].
  rewrite <- INR_IZR_INZ. ring.
Qed.
Lemma smma_is (cs hid : list (candle R)) n : (0 < n <= length cs)%nat ->
  smoothed_moving_average (GSlice cs hid) (Z.of_nat n) = Ret (smma_exact n (closes cs), None).
Proof.
  intros H. rewrite (@smma_spec R R_num) by assumption. cbv zeta.
  rewrite sum_of_rsum. cbn [fdiv fofZ R_num]. rewrite <- INR_IZR_INZ. unfold smma_exact. cbv zeta. do 3 f_equal.
  assert (forall x c, (x * (INR n - 1) + c) / INR n = blend (smma_keep n) x c) as B.
  { intros x c. unfold blend, smma_keep. field. apply not_0_INR. lia. }
  destruct (skipn n (closes cs)) as [|c later]; [reflexivity|]. cbn [iterates].
  rewrite (proj1 (smma_steps_agree n (rsum (firstn n (closes cs)) / INR n) c ltac:(lia))), B. apply f_equal.
  apply iterates_ext. intros x c0. rewrite (proj2 (smma_steps_agree n x c0 ltac:(lia))). apply B.
Qed.
Lemma ma_is (cs hid : list (candle R)) n : (0 < n <= length cs)%nat ->
  moving_average (GSlice cs hid) (Z.of_nat n) =
  Ret (map (fun j => rsum (window j n (closes cs)) / INR n) (seq 0 (length cs - n + 1)), None).
Proof.
  intros H. rewrite (@moving_average_spec R R_num) by assumption. do 2 f_equal. apply map_ext_in. intros j Hj. apply in_seq in Hj.
  assert (length (window j n (closes cs)) = n) as L by (unfold window, closes; rewrite firstn_length, skipn_length, map_length; lia).
  rewrite mean_value by (intros K; rewrite K in L; simpl in L; lia). now rewrite L.
Qed.

(** ** Closed forms *)
Lemma ema_closed n l i y : nth_error (ema_exact n l) i = Some y ->
  y = ema_keep n ^ i * (rsum (firstn n l) / INR n) + (1 - ema_keep n) * discounted (ema_keep n) (window (S n) i l).
Proof.
  unfold ema_exact, window. intros H. destruct (skipn n l) as [|c later] eqn:E; [destruct i; discriminate H|].
  rewrite (skipn_tail n l c later E). cbv zeta in H. now apply iterates_nth in H.
Qed.
Lemma smma_closed n l i y : nth_error (smma_exact n l) i = Some y ->
  y = smma_keep n ^ i * (rsum (firstn n l) / INR n) + (1 - smma_keep n) * discounted (smma_keep n) (window n i l).
Proof. unfold smma_exact, window. cbv zeta. apply iterates_nth. Qed.

(** ** Superposition *)
Lemma mean_mix a b d n l l' : (0 < n <= length l)%nat -> length l = length l' ->
  rsum (firstn n (mix a b d l l')) / INR n = a * (rsum (firstn n l) / INR n) + b * (rsum (firstn n l') / INR n) + d.
Proof.
  intros H L. rewrite mix_firstn, rsum_mix by (rewrite !firstn_length; lia). rewrite firstn_length.
  replace (Nat.min n (length l)) with n by lia. field. apply not_0_INR. lia.
Qed.
Lemma ema_mix a b d n l l' : (0 < n <= length l)%nat -> length l = length l' ->
  ema_exact n (mix a b d l l') = mix a b d (ema_exact n l) (ema_exact n l').
Proof.
  intros H L. unfold ema_exact. rewrite mean_mix by assumption. rewrite mix_skipn.
  assert (length (skipn n l) = length (skipn n l')) as Ls by (rewrite !skipn_length; lia).
  destruct (skipn n l) as [|c r], (skipn n l') as [|c' r']; cbn [List.length] in Ls; try discriminate Ls; [reflexivity|].
  change (mix a b d (c :: r) (c' :: r')) with ((a * c + b * c' + d) :: mix a b d r r'). cbv zeta iota.
  rewrite iterates_mix by congruence. reflexivity.
Qed.
Lemma smma_mix a b d n l l' : (0 < n <= length l)%nat -> length l = length l' ->
  smma_exact n (mix a b d l l') = mix a b d (smma_exact n l) (smma_exact n l').
Proof.
  intros H L. unfold smma_exact. rewrite mean_mix by assumption. rewrite mix_skipn. cbv zeta.
  rewrite iterates_mix by (rewrite !skipn_length; lia). reflexivity.
Qed.
Lemma ma_mix a b d n l l' m : (0 < n)%nat -> (n + m <= length l + 1)%nat -> length l = length l' ->
  map (fun j => rsum (window j n (mix a b d l l')) / INR n) (seq 0 m) =
  mix a b d (map (fun j => rsum (window j n l) / INR n) (seq 0 m)) (map (fun j => rsum (window j n l') / INR n) (seq 0 m)).
Proof.
  intros H M L.
  assert (forall j0, (n + m + j0 <= length l + 1)%nat -> map (fun j => rsum (window j n (mix a b d l l')) / INR n) (seq j0 m) =
    mix a b d (map (fun j => rsum (window j n l) / INR n) (seq j0 m)) (map (fun j => rsum (window j n l') / INR n) (seq j0 m))) as G; [|apply G; lia].
  clear M. induction m as [|m IH]; intros j0 M; [reflexivity|]. cbn [seq map].
  rewrite (IH (S j0)) by lia. unfold window at 1. rewrite mix_skipn.
  rewrite mean_mix by (rewrite !skipn_length; lia). reflexivity.
Qed.
Lemma discounted_mix w a b : forall l l', length l = length l' ->
  discounted w (mix a b 0 l l') = a * discounted w l + b * discounted w l'.
Proof.
  induction l as [|x l IH]; intros [|x' l'] L; cbn [List.length] in L; try discriminate L; [cbn; lra|].
  change (mix a b 0 (x :: l) (x' :: l')) with ((a * x + b * x' + 0) :: mix a b 0 l l'). cbn [discounted].
  rewrite IH, mix_length by congruence. replace (length l') with (length l) by congruence. ring.
Qed.

(** ** Forgetting *)
Lemma ema_forget D k n l l' i j y y' : (0 < n <= length l)%nat -> apart_until D k l l' ->
  nth_error (ema_exact n l) i = Some y -> nth_error (ema_exact n l') i = Some y' ->
  (j <= i)%nat -> (k + j <= n + 1 + i)%nat -> Rabs (y - y') <= D * ema_keep n ^ j.
Proof.
  intros H A E E' J K. unfold ema_exact in E, E'.
  pose proof (apart_skipn D k (S n) l l' A) as AS.
  destruct (skipn n l) as [|c r] eqn:S; [destruct i; discriminate E|].
  destruct (skipn n l') as [|c' r'] eqn:S'; [destruct i; discriminate E'|].
  rewrite (skipn_tail _ _ _ _ S), (skipn_tail _ _ _ _ S') in AS. cbv zeta in E, E'.
  eapply (iterates_forget (ema_keep n) D (ema_keep_range n ltac:(lia)) r r' (k - Datatypes.S n)); [|exact AS|exact E|exact E'|exact J|lia].
  now apply (mean_apart D k).
Qed.
Lemma smma_forget D k n l l' i j y y' : (0 < n <= length l)%nat -> apart_until D k l l' ->
  nth_error (smma_exact n l) i = Some y -> nth_error (smma_exact n l') i = Some y' ->
  (j <= i)%nat -> (k + j <= n + i)%nat -> Rabs (y - y') <= D * smma_keep n ^ j.
Proof.
  intros H A E E' J K. unfold smma_exact in E, E'. cbv zeta in E, E'.
  eapply (iterates_forget (smma_keep n) D (smma_keep_range n ltac:(lia)) _ _ (k - n)); [|apply (apart_skipn D k n); exact A|exact E|exact E'|exact J|lia].
  now apply (mean_apart D k).
Qed.

Lemma ewv_blend (cs : list (candle R)) b : ewv cs b = fold_left (fun v r => blend b v r) (ranges cs) 0.
Proof.
  unfold ewv, ranges. cbn [fadd fmul fsub fofZ R_num]. generalize 0. induction cs as [|c cs IH]; intros v; [reflexivity|].
  cbn [map fold_left]. rewrite IH. reflexivity.
Qed.
Lemma fold_last w : forall l x, nth_error (x :: iterates (blend w) x l) (length l) = Some (fold_left (fun v r => blend w v r) l x).
Proof. induction l as [|c l IH]; intros x; [reflexivity|]. cbn [List.length fold_left]. rewrite <- IH. reflexivity. Qed.
Lemma ewv_forget D k b (cs cs' : list (candle R)) j : 0 <= D -> 0 <= b <= 1 -> apart_until D k (ranges cs) (ranges cs') ->
  (j <= length cs)%nat -> (k + j <= length cs)%nat -> Rabs (ewv cs b - ewv cs' b) <= D * b ^ j.
Proof.
  intros HD Hb A J K. rewrite !ewv_blend. destruct A as [L A]. assert (length (ranges cs) = length cs) as Lc by (unfold ranges; apply map_length).
  apply (iterates_forget b D Hb (ranges cs) (ranges cs') k 0 0) with (i := length (ranges cs)); [|now split|apply fold_last| |lia|lia].
  - rewrite Rminus_0_r, Rabs_R0. exact HD.
  - rewrite L. apply fold_last.
Qed.

(** ** Never further apart than the closes *)
Lemma iterates_apart w D : 0 <= w <= 1 -> forall l l' k x x', Rabs (x - x') <= D -> apart_until D k l l' ->
  forall i y y', nth_error (x :: iterates (blend w) x l) i = Some y -> nth_error (x' :: iterates (blend w) x' l') i = Some y' ->
  Rabs (y - y') <= D.
Proof.
  intros Hw. induction l as [|c l IH]; intros l' k x x' H [L A] i y y' E E';
    (destruct i as [|i]; [injection E as <-; injection E' as <-; exact H|]); [destruct i; discriminate E|].
  destruct l' as [|c' l']; [discriminate L|]. cbn [iterates] in E, E'.
  change (nth_error (blend w x c :: iterates (blend w) (blend w x c) l) i = Some y) in E.
  change (nth_error (blend w x' c' :: iterates (blend w) (blend w x' c') l') i = Some y') in E'.
  apply (IH l' (Nat.pred k) (blend w x c) (blend w x' c')) with (i := i); [|split; [now injection L|]|exact E|exact E'].
  - apply blend_apart; [exact Hw|exact H|]. now apply (A 0%nat).
  - intros m a a' M M'. destruct (A (S m) a a' M M') as [B C]. split; [exact B|]. intros. apply C. lia.
Qed.
Lemma ema_apart D k n l l' i y y' : (0 < n <= length l)%nat -> apart_until D k l l' ->
  nth_error (ema_exact n l) i = Some y -> nth_error (ema_exact n l') i = Some y' -> Rabs (y - y') <= D.
Proof.
  intros H A E E'. unfold ema_exact in E, E'.
  pose proof (apart_skipn D k (S n) l l' A) as AS.
  destruct (skipn n l) as [|c r] eqn:S; [destruct i; discriminate E|].
  destruct (skipn n l') as [|c' r'] eqn:S'; [destruct i; discriminate E'|].
  rewrite (skipn_tail _ _ _ _ S), (skipn_tail _ _ _ _ S') in AS. cbv zeta in E, E'.
  eapply (iterates_apart (ema_keep n) D (ema_keep_range n ltac:(lia)) r r' (k - Datatypes.S n)); [|exact AS|exact E|exact E'].
  now apply (mean_apart D k).
Qed.
Lemma smma_apart D k n l l' i y y' : (0 < n <= length l)%nat -> apart_until D k l l' ->
  nth_error (smma_exact n l) i = Some y -> nth_error (smma_exact n l') i = Some y' -> Rabs (y - y') <= D.
Proof.
  intros H A E E'. unfold smma_exact in E, E'. cbv zeta in E, E'.
  eapply (iterates_apart (smma_keep n) D (smma_keep_range n ltac:(lia)) _ _ (k - n)); [|apply (apart_skipn D k n); exact A|exact E|exact E'].
  now apply (mean_apart D k).
Qed.
