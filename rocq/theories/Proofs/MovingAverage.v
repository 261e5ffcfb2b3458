(** indicators/ma.go and ewv.go. *)
From Coq Require Import Reals Lra Lia.
From Flocq Require Import Core BinarySingleNaN.
From Verif Require Import Go.Outcome Go.Int64 Go.Slice Go.Float64 Go.FloatOrder Go.FloatReal Go.Num Model.Candle Model.Indicators
  Spec.IndicatorSpec Proofs.Lists.
Open Scope string_scope.
Open Scope list_scope.
Local Notation length := List.length.
Open Scope Z_scope.

Section Generic.
Context {F : Type} {N : GoFloat F}.

Lemma fold_close (cs : list (candle F)) a :
  fold_left (fun acc c => fadd acc (c_close c)) cs a = fold_left fadd (closes cs) a.
Proof. revert a. induction cs as [|c cs IH]; intros a; [reflexivity|]. simpl. apply IH. Qed.
Lemma average_mean (cs : list (candle F)) : average cs = mean_of (closes cs).
Proof. unfold average, sum_close, mean_of, sum_of, zlen, closes. rewrite map_length. now rewrite fold_close. Qed.
Lemma closes_window (cs : list (candle F)) i n : closes (window i n cs) = window i n (closes cs).
Proof. unfold closes, window. now rewrite skipn_map, firstn_map. Qed.

Lemma skipn_tail {A} k (l : list A) c r : skipn k l = c :: r -> skipn (S k) l = r.
Proof.
  revert l. induction k as [|k IH]; intros [|x l] H; cbn in H; try discriminate; [now injection H|]. now apply IH in H.
Qed.

(** ** MovingAverage *)
Lemma ma_loop_spec (cs : list (candle F)) n k i :
  (i + n + k = length cs)%nat -> (0 < n)%nat ->
  ma_loop cs (Z.of_nat i) (Z.of_nat i + Z.of_nat n - 1) (S k) =
  Ret (map (fun j => mean_of (window j n (closes cs))) (seq i (S k))).
Proof.
  revert i. induction k as [|k IH]; intros i H Hn; cbn [ma_loop seq map].
  - rewrite reslice_ok by (unfold zlen; lia). cbn [bind]. rewrite average_mean.
    replace (Z.to_nat (Z.of_nat i + Z.of_nat n - 1 + 1 - Z.of_nat i)) with n by lia. rewrite Nat2Z.id.
    fold (window i n cs). now rewrite closes_window.
  - rewrite reslice_ok by (unfold zlen; lia). cbn [bind]. rewrite average_mean.
    replace (Z.to_nat (Z.of_nat i + Z.of_nat n - 1 + 1 - Z.of_nat i)) with n by lia. rewrite Nat2Z.id.
    fold (window i n cs). rewrite closes_window.
    replace (Z.of_nat i + 1) with (Z.of_nat (S i)) by lia.
    replace (Z.of_nat i + Z.of_nat n - 1 + 1) with (Z.of_nat (S i) + Z.of_nat n - 1) by lia.
    pose proof (IH (S i) ltac:(lia) Hn) as E. cbn [ma_loop seq map] in E. rewrite E. reflexivity.
Qed.
Lemma moving_average_spec (cs hid : list (candle F)) n : (0 < n <= length cs)%nat ->
  moving_average (GSlice cs hid) (Z.of_nat n) =
  Ret (map (fun j => mean_of (window j n (closes cs))) (seq 0 (length cs - n + 1)), None).
Proof.
  intros H. unfold moving_average. cbn [vis is_nil].
  destruct (Z.ltb_spec (zlen cs) (Z.of_nat n)); [unfold zlen in *; lia|].
  destruct (Z.leb_spec (Z.of_nat n) 0); [lia|].
  replace (Z.to_nat (zlen cs - (Z.of_nat n - 1))) with (S (length cs - n)) by (unfold zlen; lia).
  pose proof (ma_loop_spec cs n (length cs - n) 0 ltac:(lia) ltac:(lia)) as E.
  cbn [Z.of_nat] in E. replace (0 + Z.of_nat n - 1) with (Z.of_nat n - 1) in E by lia. rewrite E.
  cbn [bind]. now rewrite Nat.add_1_r.
Qed.

(** ** ExponentialMovingAverage *)
Definition ema_step (p : F) (x c : F) : F := fadd (fmul c p) (fmul x (fsub (fofZ 1) p)).
Definition ema_weight (period : Z) : F := fdiv (fofZ 2) (fadd (fofZ period) (fofZ 1)).

Lemma index_last {A} (l : list A) a : index (l ++ [a]) (zlen (l ++ [a]) - 1) = Ret a.
Proof.
  apply index_nth; [rewrite zlen_app; cbn; pose proof (zlen_nonneg l); lia|].
  rewrite zlen_app. unfold zlen. cbn [length]. replace (Z.to_nat _) with (length l) by lia.
  rewrite nth_error_app2 by lia. now rewrite Nat.sub_diag.
Qed.
Lemma zlen_snoc {A} (l : list A) a : (zlen (l ++ [a]) =? 0) = false.
Proof. apply Z.eqb_neq. rewrite zlen_app. cbn. pose proof (zlen_nonneg l). lia. Qed.

Lemma ema_skip (cs pre rest : list (candle F)) n p i : (i + length pre <= n)%nat ->
  ema_loop cs (Z.of_nat n) p (pre ++ rest) (Z.of_nat i) [] =
  ema_loop cs (Z.of_nat n) p rest (Z.of_nat (i + length pre)) [].
Proof.
  revert i. induction pre as [|c pre IH]; intros i H; cbn [app length] in *; [now rewrite Nat.add_0_r|].
  cbn [ema_loop]. destruct (Z.ltb_spec (Z.of_nat i) (Z.of_nat n)); [|lia].
  replace (Z.of_nat i + 1) with (Z.of_nat (S i)) by lia. rewrite IH by lia. do 2 f_equal. lia.
Qed.
Lemma ema_go (cs rest : list (candle F)) n p i acc x : (n <= i)%nat ->
  ema_loop cs (Z.of_nat n) p rest (Z.of_nat i) (acc ++ [x]) =
  Ret (acc ++ x :: iterates (ema_step p) x (closes rest)).
Proof.
  revert i acc x. induction rest as [|c rest IH]; intros i acc x H; [reflexivity|].
  cbn [ema_loop]. destruct (Z.ltb_spec (Z.of_nat i) (Z.of_nat n)); [lia|].
  rewrite zlen_snoc, index_last. cbn [bind]. replace (Z.of_nat i + 1) with (Z.of_nat (S i)) by lia.
  rewrite IH by lia. rewrite <- app_assoc. reflexivity.
Qed.
Lemma ema_spec (cs hid : list (candle F)) n : (0 < n <= length cs)%nat ->
  exponential_moving_average (GSlice cs hid) (Z.of_nat n) =
  Ret (match skipn n cs with
       | [] => []
       | _ :: later =>
           let seed := mean_of (firstn n (closes cs)) in
           seed :: iterates (ema_step (ema_weight (Z.of_nat n))) seed (closes later)
       end, None).
Proof.
  intros H. unfold exponential_moving_average. cbn [vis is_nil].
  destruct (Z.ltb_spec (zlen cs) (Z.of_nat n)); [unfold zlen in *; lia|].
  destruct (Z.leb_spec (Z.of_nat n) 0); [lia|]. fold (ema_weight (Z.of_nat n)).
  pose proof (ema_skip cs (firstn n cs) (skipn n cs) n (ema_weight (Z.of_nat n)) 0 ltac:(rewrite firstn_length; lia)) as E.
  rewrite firstn_skipn, firstn_length, Nat.min_l in E by lia. cbn [Z.of_nat Nat.add] in E. rewrite E. clear E.
  destruct (skipn n cs) as [|c rest] eqn:Es; [reflexivity|]. cbn [ema_loop].
  destruct (Z.ltb_spec (Z.of_nat n) (Z.of_nat n)); [lia|]. cbn [zlen length Z.of_nat]. cbn [Z.eqb].
  rewrite reslice_ok by (unfold zlen in *; lia). cbn [bind]. rewrite Z.sub_0_r, Nat2Z.id. cbn [Z.to_nat skipn].
  replace (Z.of_nat n + 1) with (Z.of_nat (S n)) by lia.
  rewrite (ema_go cs rest n _ (S n) [] (average (firstn n cs))) by lia. cbn [app bind].
  rewrite average_mean. cbv zeta. replace (closes (firstn n cs)) with (firstn n (closes cs)) by (unfold closes; apply firstn_map). reflexivity.
Qed.

(** ** SmoothedMovingAverage *)
Definition smma_second (period : Z) (x c : F) : F :=
  fdiv (fadd (fmul x (fsub (fofZ period) (fofZ 1))) c) (fofZ period).
Definition smma_later (period : Z) (x c : F) : F :=
  fdiv (fadd (fsub (fmul x (fofZ period)) x) c) (fofZ period).

Lemma closing_sum_ok (cs : list (candle F)) n : (n <= length cs)%nat ->
  closing_sum cs (Z.of_nat n) = Ret (sum_of (closes (skipn (length cs - n) cs)), None).
Proof.
  intros H. unfold closing_sum. destruct (Z.ltb_spec (zlen cs) (Z.of_nat n)); [unfold zlen in *; lia|].
  rewrite reslice_ok by (unfold zlen; lia). cbn [bind]. rewrite fold_close. unfold sum_of. do 4 f_equal.
  unfold zlen. replace (Z.to_nat (Z.of_nat (length cs) - Z.of_nat n)) with (length cs - n)%nat by lia.
  apply firstn_all2. rewrite skipn_length. lia.
Qed.
Lemma smma_skip (cs pre rest : list (candle F)) n i : (i + length pre < n)%nat ->
  smma_loop cs (Z.of_nat n) (pre ++ rest) (Z.of_nat i) [] =
  smma_loop cs (Z.of_nat n) rest (Z.of_nat (i + length pre)) [].
Proof.
  revert i. induction pre as [|c pre IH]; intros i H; cbn [app length] in *; [now rewrite Nat.add_0_r|].
  cbn [smma_loop]. destruct (Z.ltb_spec (Z.of_nat i) (Z.of_nat n - 1)); [|lia].
  replace (Z.of_nat i + 1) with (Z.of_nat (S i)) by lia. rewrite IH by lia. do 2 f_equal. lia.
Qed.
Lemma smma_go (cs rest : list (candle F)) n i acc a x : (0 < n <= i)%nat -> (i + length rest = length cs)%nat ->
  smma_loop cs (Z.of_nat n) rest (Z.of_nat i) (a :: acc ++ [x]) =
  Ret (a :: acc ++ x :: iterates (smma_later (Z.of_nat n)) x (closes rest), None).
Proof.
  revert i acc x. induction rest as [|c rest IH]; intros i acc x H Hl; [reflexivity|].
  cbn [length] in Hl. cbn [smma_loop]. destruct (Z.ltb_spec (Z.of_nat i) (Z.of_nat n - 1)); [lia|].
  rewrite reslice_ok by (unfold zlen; lia). cbn [bind].
  rewrite closing_sum_ok by (rewrite firstn_length, skipn_length; lia). cbn [bind].
  change (a :: acc ++ [x]) with ((a :: acc) ++ [x]). rewrite zlen_snoc, index_last. cbn [bind].
  destruct (Z.eqb_spec (zlen ((a :: acc) ++ [x])) 1) as [E|E].
  { rewrite zlen_app, zlen_cons in E. cbn in E. pose proof (zlen_nonneg acc). lia. }
  replace (Z.of_nat i + 1) with (Z.of_nat (S i)) by lia.
  rewrite <- app_assoc. cbn [app]. change (a :: acc ++ [x; fdiv (fadd (fsub (fmul x (fofZ (Z.of_nat n))) x) (c_close c)) (fofZ (Z.of_nat n))])
    with (a :: acc ++ ([x] ++ [smma_later (Z.of_nat n) x (c_close c)])). rewrite app_assoc.
  rewrite IH by lia. rewrite <- app_assoc. reflexivity.
Qed.
Lemma smma_spec (cs hid : list (candle F)) n : (0 < n <= length cs)%nat ->
  smoothed_moving_average (GSlice cs hid) (Z.of_nat n) =
  let seed := fdiv (sum_of (firstn n (closes cs))) (fofZ (Z.of_nat n)) in
  Ret (seed :: match skipn n (closes cs) with
               | [] => []
               | c :: later =>
                   let second := smma_second (Z.of_nat n) seed c in
                   second :: iterates (smma_later (Z.of_nat n)) second later
               end, None).
Proof.
  intros H. unfold smoothed_moving_average. cbn [vis is_nil].
  destruct (Z.ltb_spec (zlen cs) (Z.of_nat n)); [unfold zlen in *; lia|].
  destruct (Z.leb_spec (Z.of_nat n) 0); [lia|].
  pose proof (smma_skip cs (firstn (n - 1) cs) (skipn (n - 1) cs) n 0 ltac:(rewrite firstn_length; lia)) as E.
  rewrite firstn_skipn, firstn_length, Nat.min_l in E by lia. cbn [Z.of_nat Nat.add] in E. rewrite E. clear E.
  destruct (skipn (n - 1) cs) as [|c rest] eqn:Es.
  { apply (f_equal (@length _)) in Es. rewrite skipn_length in Es. cbn in Es. lia. }
  assert (skipn n cs = rest) as Er.
  { replace n with (S (n - 1)) by lia. eapply skipn_tail. exact Es. }
  assert (length rest = length cs - n)%nat as Lr by (rewrite <- Er; apply skipn_length).
  cbn [smma_loop]. destruct (Z.ltb_spec (Z.of_nat (n - 1)) (Z.of_nat n - 1)); [lia|].
  rewrite reslice_ok by (unfold zlen; lia). cbn [bind]. cbn [skipn Z.to_nat].
  replace (Z.to_nat (Z.of_nat (n - 1) + 1 - 0)) with n by lia.
  rewrite closing_sum_ok by (rewrite firstn_length; lia). cbn [bind].
  replace (length (firstn n cs) - n)%nat with 0%nat by (rewrite firstn_length; lia). cbn [skipn].
  change (zlen (@nil F) =? 0) with true. cbv iota. cbn [app].
  replace (closes (firstn n cs)) with (firstn n (closes cs)) by (unfold closes; apply firstn_map).
  set (seed := fdiv (sum_of (firstn n (closes cs))) (fofZ (Z.of_nat n))).
  unfold closes at 1. rewrite skipn_map, Er. fold (closes rest).
  destruct rest as [|c' rest]; [reflexivity|]. cbn [closes map smma_loop]. fold (closes rest). cbn [length] in Lr.
  replace (Z.of_nat (n - 1) + 1) with (Z.of_nat n) by lia.
  destruct (Z.ltb_spec (Z.of_nat n) (Z.of_nat n - 1)); [lia|].
  rewrite reslice_ok by (unfold zlen; lia). cbn [bind].
  rewrite closing_sum_ok by (rewrite firstn_length, skipn_length; lia). cbn [bind].
  change (zlen [seed] =? 0) with false. change (zlen [seed] =? 1) with true. cbv iota.
  cbn [index Z.ltb Z.compare Z.to_nat nth_error bind app].
  replace (Z.of_nat n + 1) with (Z.of_nat (S n)) by lia.
  change (index [seed] 0) with (Ret seed). cbn [bind].
  exact (smma_go cs rest n (S n) [] seed (smma_second (Z.of_nat n) seed (c_close c')) ltac:(lia) ltac:(lia)).
Qed.
Lemma bad_input_ma (s : gslice (candle F)) period :
  is_nil s = true \/ zlen (vis s) < period \/ period <= 0 ->
  exists e1 e2 e3,
    moving_average s period = Ret ([], Some e1) /\ err_code e1 = Some EINVALID /\
    exponential_moving_average s period = Ret ([], Some e2) /\ err_code e2 = Some EINVALID /\
    smoothed_moving_average s period = Ret ([], Some e3) /\ err_code e3 = Some EINVALID.
Proof.
  intros H. unfold moving_average, exponential_moving_average, smoothed_moving_average.
  destruct (is_nil s) eqn:En; [do 3 eexists; repeat split|].
  destruct (Z.ltb_spec (zlen (vis s)) period); [do 3 eexists; repeat split|].
  destruct (Z.leb_spec period 0); [do 3 eexists; repeat split|].
  destruct H as [H|[H|H]]; [discriminate|lia|lia].
Qed.

(** ** No look-ahead *)
Lemma iterates_app {A} (f : F -> A -> F) x l1 l2 : exists r, iterates f x (l1 ++ l2) = iterates f x l1 ++ r.
Proof.
  revert x. induction l1 as [|c l1 IH]; intros x; [exists (iterates f x l2); reflexivity|]. simpl.
  destruct (IH (f x c)) as [r ->]. exists r. reflexivity.
Qed.
End Generic.

(** ** Exact arithmetic *)
Section Exact.
Open Scope R_scope.
Lemma sum_of_rsum l : @sum_of R R_num l = rsum l.
Proof.
  unfold sum_of. cbn [fadd fofZ R_num].
  assert (forall l a, fold_left Rplus l a = a + rsum l) as H.
  { clear l. induction l as [|x l IH]; intros a; simpl; [lra|]. rewrite IH. lra. }
  rewrite H. lra.
Qed.
Lemma rsum_within lo hi l : within lo hi l -> lo * INR (length l) <= rsum l <= hi * INR (length l).
Proof.
  induction 1 as [|x l H _ IH]; [simpl; lra|]. cbn [List.length rsum fold_right]. fold (rsum l). rewrite S_INR. lra.
Qed.
Lemma mean_value l : l <> [] -> @mean_of R R_num l = rsum l / INR (length l).
Proof. intros H. unfold mean_of. rewrite sum_of_rsum. cbn [fdiv fofZ R_num]. now rewrite <- INR_IZR_INZ. Qed.
Lemma div_within lo hi s n : 0 < n -> lo * n <= s <= hi * n -> lo <= s / n <= hi.
Proof.
  intros H0 [H1 H2]. split; apply Rmult_le_reg_r with n; try assumption; unfold Rdiv; rewrite Rmult_assoc, Rinv_l by lra; lra.
Qed.
Lemma mean_within lo hi l : l <> [] -> within lo hi l -> lo <= @mean_of R R_num l <= hi.
Proof.
  intros Hn H. rewrite mean_value by assumption. apply div_within; [|now apply rsum_within].
  destruct l; [contradiction|]. apply lt_0_INR. simpl. lia.
Qed.
Lemma iterates_within lo hi (f : R -> R -> R) x l :
  (forall x c, lo <= x <= hi -> lo <= c <= hi -> lo <= f x c <= hi) ->
  lo <= x <= hi -> within lo hi l -> within lo hi (iterates f x l).
Proof.
  intros Hf Hx H. revert x Hx. induction H as [|c l Hc _ IH]; intros x Hx; [constructor|].
  simpl. constructor; [now apply Hf|]. apply IH. now apply Hf.
Qed.
Lemma ema_weight_range n : (0 < n)%nat -> 0 < @ema_weight R R_num (Z.of_nat n) <= 1.
Proof.
  intros H. unfold ema_weight. cbn [fdiv fadd fofZ R_num]. assert (1 <= IZR (Z.of_nat n)) by (apply (IZR_le 1); lia).
  split; [apply Rdiv_lt_0_compat; lra|]. apply div_within with (lo := 0); lra.
Qed.
Lemma ema_step_within lo hi p x c : 0 <= p <= 1 -> lo <= x <= hi -> lo <= c <= hi -> lo <= @ema_step R R_num p x c <= hi.
Proof. intros Hp Hx Hc. unfold ema_step. cbn. nra. Qed.
Lemma smma_steps_agree n x c : (0 < n)%nat ->
  @smma_second R R_num (Z.of_nat n) x c = (x * (INR n - 1) + c) / INR n /\
  @smma_later R R_num (Z.of_nat n) x c = (x * (INR n - 1) + c) / INR n.
Proof.
  intros H. unfold smma_second, smma_later. cbn [fdiv fadd fsub fmul fofZ R_num]. rewrite <- INR_IZR_INZ. split; [reflexivity|].
  f_equal. lra.
Qed.
Lemma smma_step_within lo hi n x c : (0 < n)%nat -> lo <= x <= hi -> lo <= c <= hi ->
  lo <= (x * (INR n - 1) + c) / INR n <= hi.
Proof.
  intros Hn Hx Hc. assert (1 <= INR n) by (apply (le_INR 1); lia). apply div_within; [lra|]. nra.
Qed.
Lemma iterates_ext {A} (f g : R -> A -> R) x l : (forall x c, f x c = g x c) -> iterates f x l = iterates g x l.
Proof. intros H. revert x. induction l as [|c l IH]; intros x; [reflexivity|]. simpl. now rewrite H, IH. Qed.

(** ** ExponentialWeightedVolatility *)
Definition range_of (c : candle R) : R := c_high c - c_low c.
Lemma ewv_closed (cs : list (candle R)) b : ewv cs b = (1 - b) * discounted b (map range_of cs).
Proof.
  unfold ewv. cbn [fadd fmul fsub fofZ R_num].
  assert (forall cs v, fold_left (fun v c => b * v + (1 - b) * (c_high c - c_low c)) cs v =
    b ^ length cs * v + (1 - b) * discounted b (map range_of cs)) as H.
  { clear cs. induction cs as [|c cs IH]; intros v; simpl; [lra|]. rewrite IH, map_length. unfold range_of. ring. }
  rewrite H. lra.
Qed.
Lemma ewv_within (cs : list (candle R)) b m : 0 <= b <= 1 -> 0 <= m -> within 0 m (map range_of cs) -> 0 <= ewv cs b <= m.
Proof.
  intros Hb Hm. unfold ewv. cbn [fadd fmul fsub fofZ R_num].
  assert (forall v, 0 <= v <= m -> within 0 m (map range_of cs) ->
    0 <= fold_left (fun v c => b * v + (1 - b) * (c_high c - c_low c)) cs v <= m) as H.
  { induction cs as [|c cs IH]; intros v Hv H; [exact Hv|]. simpl in *. apply List.Forall_cons_iff in H. destruct H as [Hc H].
    apply IH; [|assumption]. unfold range_of in Hc. nra. }
  intros K. apply H; [lra|assumption].
Qed.
End Exact.

(** ** float64 volatility *)
Section Float.
Open Scope R_scope.
Lemma sub_one_range beta : is_finite beta = true -> 0 <= B2R beta <= 1 ->
  is_finite (f64_sub (i2f 1) beta) = true /\ 0 <= B2R (f64_sub (i2f 1) beta) <= 1 /\
  (B2R beta = 0 -> B2R (f64_sub (i2f 1) beta) = 1).
Proof.
  intros Fb Hb. assert (exact_int 1) as E1 by (unfold exact_int; lia). assert (exact_int 0) as E0 by (unfold exact_int; lia).
  pose proof (i2f_finite 1 E1) as F1. destruct (sub_xr (i2f 1) beta F1 Fb) as [Nn Ex]. rewrite (i2f_B2R 1 E1) in Ex.
  assert (0 <= rnd (1 - B2R beta) <= 1) as Hr.
  { split; [apply rnd_nonneg; lra|]. apply Rle_trans with (rnd 1); [apply rnd_mono; lra|]. rewrite (rnd_int 1 E1). lra. }
  pose proof (exact_lt_big 1 E1) as Hb1. rewrite Rabs_pos_eq in Hb1 by lra.
  rewrite sat_id in Ex by (rewrite Rabs_pos_eq; lra).
  assert (is_finite (f64_sub (i2f 1) beta) = true) as Fd.
  { apply xr_lt_finite; [assumption|]. rewrite Ex, Rabs_pos_eq; lra. }
  rewrite xr_finite in Ex by assumption. rewrite Ex. split; [assumption|]. split; [assumption|].
  intros Z. rewrite Z, Rminus_0_r. exact (rnd_int 1 E1).
Qed.
Lemma inf_of_xr x : is_nan x = false -> is_finite x = false -> 0 <= xr x -> x = B754_infinity false.
Proof.
  destruct x as [s|s| |s m e B]; try discriminate. intros _ _. destruct s; [|auto]. simpl. pose proof big_pos. lra.
Qed.
Lemma add_nonneg a b : is_nan a = false -> is_nan b = false -> 0 <= xr a -> 0 <= xr b ->
  is_nan (f64_add a b) = false /\ 0 <= xr (f64_add a b).
Proof.
  intros Na Nb Ha Hb. destruct (is_finite a) eqn:Fa, (is_finite b) eqn:Fb.
  - destruct (add_xr a b Fa Fb) as [Nn Ex]. split; [assumption|]. rewrite Ex. rewrite !xr_finite in * by assumption.
    assert (0 <= rnd (B2R a + B2R b)) by (apply rnd_nonneg; lra). unfold sat.
    apply Rle_trans with (Rmin (rnd (B2R a + B2R b)) big); [|apply Rmax_r]. pose proof big_pos. apply Rmin_glb; lra.
  - apply inf_of_xr in Fb; auto. subst b. destruct a as [s|s| |s m e B]; try discriminate; (split; [reflexivity|simpl; pose proof big_pos; lra]).
  - apply inf_of_xr in Fa; auto. subst a. destruct b as [s|s| |s m e B]; try discriminate; (split; [reflexivity|simpl; pose proof big_pos; lra]).
  - apply inf_of_xr in Fa, Fb; auto. subst a b. split; [reflexivity|simpl; pose proof big_pos; lra].
Qed.
Lemma sat_nonneg r : 0 <= r -> 0 <= sat r.
Proof. intros H. pose proof big_pos. unfold sat. apply Rle_trans with (Rmin r big); [|apply Rmax_r]. apply Rmin_glb; lra. Qed.
Lemma mul_nonneg a b : is_finite a = true -> is_finite b = true -> 0 <= B2R a -> 0 <= B2R b ->
  is_nan (f64_mul a b) = false /\ 0 <= xr (f64_mul a b).
Proof.
  intros Fa Fb Ha Hb. destruct (mul_xr a b Fa Fb) as [Nn Ex]. split; [assumption|]. rewrite Ex. apply sat_nonneg, rnd_nonneg. nra.
Qed.
Definition vol_step (beta : f64) (v : f64) (c : candle f64) : f64 :=
  f64_add (f64_mul beta v) (f64_mul (f64_sub (i2f 1) beta) (f64_sub (c_high c) (c_low c))).
Definition tame_range (c : candle f64) : Prop :=
  f64_le (c_low c) (c_high c) = true /\ is_finite (f64_sub (c_high c) (c_low c)) = true.
Lemma tame_range_nonneg c : tame_range c -> 0 <= B2R (f64_sub (c_high c) (c_low c)).
Proof.
  intros [H1 H2]. rewrite <- xr_finite by assumption.
  assert (is_finite (c_high c) = true /\ is_finite (c_low c) = true) as [Fh Fl].
  { destruct (c_high c) as [s|[]| |s m e B], (c_low c) as [s'|[]| |s' m' e' B']; try discriminate; auto. }
  destruct (sub_xr _ _ Fh Fl) as [_ ->]. apply sat_nonneg, rnd_nonneg.
  rewrite f64_le_xr in H1 by (now apply finite_not_nan). rewrite !xr_finite in H1 by assumption.
  destruct (Rle_bool_spec (B2R (c_low c)) (B2R (c_high c))); [lra|discriminate].
Qed.
Lemma vol_step_nonneg beta v c : is_finite beta = true -> 0 <= B2R beta <= 1 -> tame_range c ->
  is_nan v = false -> 0 <= xr v -> (is_finite v = true \/ 0 < B2R beta) ->
  let w := vol_step beta v c in is_nan w = false /\ 0 <= xr w /\ (is_finite w = true \/ 0 < B2R beta).
Proof.
  intros Fb Hb Hc Nv Pv Iv. cbv zeta. unfold vol_step. set (d := f64_sub (c_high c) (c_low c)).
  pose proof (tame_range_nonneg c Hc) as Hd. fold d in Hd. assert (is_finite d = true) as Fd by apply Hc.
  destruct (sub_one_range beta Fb Hb) as (Fo & Ho & Zo). set (o := f64_sub (i2f 1) beta) in *.
  destruct (mul_nonneg o d Fo Fd ltac:(tauto) Hd) as [N2 P2].
  assert (is_nan (f64_mul beta v) = false /\ 0 <= xr (f64_mul beta v)) as [N1 P1].
  { destruct (is_finite v) eqn:Fv.
    - apply mul_nonneg; auto; [lra|]. now rewrite <- xr_finite.
    - apply inf_of_xr in Fv; auto. subst v. destruct Iv as [Iv|Iv]; [discriminate|].
      destruct beta as [s|s| |s m e B]; try discriminate; [simpl in Iv; lra|].
      destruct s; [|split; [reflexivity|simpl; pose proof big_pos; lra]].
      exfalso. assert (F2R (Float radix2 (cond_Zopp true (Z.pos m)) e) < 0) by (apply F2R_lt_0; simpl; lia). simpl in Iv, H. lra. }
  destruct (add_nonneg _ _ N1 N2 P1 P2) as [N3 P3]. split; [assumption|]. split; [assumption|].
  destruct (Rlt_le_dec 0 (B2R beta)) as [L|L]; [auto|]. left.
  assert (B2R beta = 0) as Zb by lra. destruct Iv as [Fv|Iv]; [|lra].
  destruct (mul_xr beta v Fb Fv) as [_ E1]. rewrite Zb, Rmult_0_l, rnd_0, sat_id in E1 by (rewrite Rabs_R0; pose proof big_pos; lra).
  assert (is_finite (f64_mul beta v) = true) as F1.
  { apply xr_lt_finite; [assumption|]. rewrite E1, Rabs_R0. apply big_pos. }
  destruct (mul_xr o d Fo Fd) as [_ E2]. rewrite (Zo Zb), Rmult_1_l in E2.
  assert (rnd (B2R d) = B2R d) as Rd by (apply round_generic; [apply valid_rnd_N|apply (generic_format_B2R 53 1024)]).
  pose proof (B2R_lt_big d Fd) as Bd.
  rewrite Rd, sat_id in E2 by lra.
  assert (is_finite (f64_mul o d) = true) as F2 by (apply xr_lt_finite; [assumption|]; rewrite E2; exact Bd).
  destruct (add_xr _ _ F1 F2) as [_ E3]. rewrite <- (xr_finite _ F1), <- (xr_finite _ F2), E1, E2, Rplus_0_l, Rd, sat_id in E3 by lra.
  apply xr_lt_finite; [assumption|]. rewrite E3. exact Bd.
Qed.
Lemma ewv_nonneg (cs : list (candle f64)) beta : is_finite beta = true -> 0 <= B2R beta <= 1 ->
  Forall tame_range cs -> is_nan (ewv cs beta) = false /\ 0 <= xr (ewv cs beta).
Proof.
  intros Fb Hb. unfold ewv. cbn [fadd fmul fsub fofZ f64_num].
  assert (forall v, is_nan v = false -> 0 <= xr v -> (is_finite v = true \/ 0 < B2R beta) -> Forall tame_range cs ->
    is_nan (fold_left (vol_step beta) cs v) = false /\ 0 <= xr (fold_left (vol_step beta) cs v)) as H.
  { induction cs as [|c cs IH]; intros v Nv Pv Iv H; [auto|]. apply List.Forall_cons_iff in H. destruct H as [Hc H]. simpl.
    destruct (vol_step_nonneg beta v c Fb Hb Hc Nv Pv Iv) as (A & B & C). now apply IH. }
  intros K. apply H; auto. rewrite i2f_exact_xr by (unfold exact_int; lia). lra.
Qed.
End Float.
