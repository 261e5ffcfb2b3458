(** Fused multiply-add (C97): accuracy of the indicators. *)
From Coq Require Import Reals Lra Lia Psatz.
From Flocq Require Import Core BinarySingleNaN.
From Verif Require Import Go.Outcome Go.Int64 Go.Slice Go.Float64 Go.FloatOrder Go.FloatReal Go.FloatError Go.Num
  Model.Candle Model.Indicators Model.Fused Spec.IndicatorSpec Spec.AccuracySpec
  Proofs.Lists Proofs.MovingAverage Proofs.Fma Proofs.Accuracy.
Open Scope list_scope.
Open Scope R_scope.
Local Notation length := List.length.
Local Notation B2R := (@B2R 53 1024).

(** *** One fused operation *)
Lemma near_fma x X e1 y Y e2 z Z e3 : near x X e1 -> near y Y e2 -> near z Z e3 -> (Rabs X + e1) * (Rabs Y + e2) + Rabs Z + e3 <= huge ->
  near (f64_fma x y z) (X * Y + Z)
    (let d := e1 * Rabs Y + e2 * Rabs X + e1 * e2 + e3 in d + uro * (Rabs (X * Y + Z) + d) + eta).
Proof.
  intros Nx Ny Nz H. pose proof (near_abs x X e1 Nx). pose proof (near_abs y Y e2 Ny). pose proof (near_abs z Z e3 Nz).
  pose proof (near_nonneg x X e1 Nx). pose proof (near_nonneg y Y e2 Ny). destruct Nx as [Fx Hx], Ny as [Fy Hy], Nz as [Fz Hz].
  pose proof uro_pos. pose proof (Rabs_pos X). pose proof (Rabs_pos Y). pose proof (Rabs_pos (B2R x)). pose proof (Rabs_pos (B2R y)).
  set (r := B2R x * B2R y + B2R z).
  destruct (of_xr (f64_fma x y z) r (fma_xr x y z Fx Fy Fz)) as [F E].
  { unfold r. eapply Rle_trans; [apply Rabs_triang|]. rewrite Rabs_mult. 
    assert (Rabs (B2R x) * Rabs (B2R y) <= (Rabs X + e1) * (Rabs Y + e2)) by (apply Rmult_le_compat; assumption). lra. }
  split; [assumption|]. rewrite E. pose proof (rnd_err r) as R.
  cbv zeta. set (d := e1 * Rabs Y + e2 * Rabs X + e1 * e2 + e3).
  assert (Rabs (r - (X * Y + Z)) <= d) as D.
  { replace (r - (X * Y + Z)) with ((B2R x - X) * Y + (B2R y - Y) * X + (B2R x - X) * (B2R y - Y) + (B2R z - Z)) by (unfold r; ring).
    eapply Rle_trans; [apply Rabs_triang|]. unfold d. apply Rplus_le_compat; [|assumption].
    eapply Rle_trans; [apply Rabs_triang|]. apply Rplus_le_compat.
    - eapply Rle_trans; [apply Rabs_triang|]. rewrite !Rabs_mult.
      apply Rplus_le_compat; (apply Rmult_le_compat_r; [apply Rabs_pos|assumption]).
    - rewrite Rabs_mult. apply Rmult_le_compat; try apply Rabs_pos; assumption. }
  replace (rnd r - (X * Y + Z)) with ((rnd r - r) + (r - (X * Y + Z))) by ring.
  eapply Rle_trans; [apply Rabs_triang|].
  assert (Rabs r <= Rabs (X * Y + Z) + d).
  { replace r with (X * Y + Z + (r - (X * Y + Z))) by ring. eapply Rle_trans; [apply Rabs_triang|]. lra. }
  nra.
Qed.
Lemma near_neg x X e : near x X e -> near (f64_neg x) (- X) e.
Proof.
  intros [F H]. split; [unfold f64_neg; now rewrite is_finite_Bopp|]. unfold f64_neg. rewrite B2R_Bopp.
  replace (- B2R x - - X) with (- (B2R x - X)) by ring. now rewrite Rabs_Ropp.
Qed.

(** *** Choices beside the elements *)
Fixpoint tag {A B} (f : Z -> A) (i : Z) (l : list B) : list (A * B) :=
  match l with [] => [] | x :: r => (f i, x) :: tag f (i + 1) r end.
Lemma tag_length {A B} (f : Z -> A) (l : list B) : forall i, length (tag f i l) = length l.
Proof. induction l as [|x l IH]; intros i; cbn [tag List.length]; [reflexivity|]. now rewrite IH. Qed.
Lemma tag_forall {A B} (f : Z -> A) (P : B -> Prop) l : Forall P l -> forall i, Forall (fun bc => P (snd bc)) (tag f i l).
Proof. induction 1 as [|x l H _ IH]; intros i; cbn [tag]; constructor; [exact H|apply IH]. Qed.
Lemma tag_iterates {A B} (f : Z -> A) (g : R -> B -> R) l : forall i X,
  @iterates R _ g X l = @iterates R _ (fun x bc => g x (snd bc)) X (tag f i l).
Proof. induction l as [|c l IH]; intros i X; cbn [tag iterates snd]; [reflexivity|]. now rewrite (IH (i + 1)%Z). Qed.
Lemma tag_map {A B C} (f : Z -> A) (h : B -> C) l : forall i, tag f i (map h l) = map (fun bc => (fst bc, h (snd bc))) (tag f i l).
Proof. induction l as [|x l IH]; intros i; cbn [tag map fst snd]; [reflexivity|]. now rewrite IH. Qed.

(** *** ExponentialMovingAverage *)
Definition ema_step_fused (p x : f64) (bc : fusing * f64) : f64 := two_products (fst bc) (snd bc) p x (f64_sub (i2f 1) p).
Open Scope Z_scope.
Lemma ema_skip_fused f (cs pre rest : list (candle f64)) n p i : (i + length pre <= n)%nat ->
  ema_loop_fused f cs (Z.of_nat n) p (pre ++ rest) (Z.of_nat i) [] =
  ema_loop_fused f cs (Z.of_nat n) p rest (Z.of_nat (i + length pre)) [].
Proof.
  revert i. induction pre as [|c pre IH]; intros i H; cbn [app length] in *; [now rewrite Nat.add_0_r|].
  cbn [ema_loop_fused]. destruct (Z.ltb_spec (Z.of_nat i) (Z.of_nat n)); [|lia].
  replace (Z.of_nat i + 1) with (Z.of_nat (S i)) by lia. rewrite IH by lia. do 2 f_equal. lia.
Qed.
Lemma ema_go_fused f (cs rest : list (candle f64)) n p i acc x : (n <= i)%nat ->
  ema_loop_fused f cs (Z.of_nat n) p rest (Z.of_nat i) (acc ++ [x]) =
  Ret (acc ++ x :: iterates (ema_step_fused p) x (tag f (Z.of_nat i) (closes rest))).
Proof.
  revert i acc x. induction rest as [|c rest IH]; intros i acc x H; [reflexivity|].
  cbn [ema_loop_fused]. destruct (Z.ltb_spec (Z.of_nat i) (Z.of_nat n)); [lia|].
  rewrite zlen_snoc, index_last. cbn [bind]. replace (Z.of_nat i + 1) with (Z.of_nat (S i)) by lia.
  rewrite IH by lia. rewrite <- app_assoc. cbn [app closes map tag iterates]. replace (Z.of_nat i + 1) with (Z.of_nat (S i)) by lia. reflexivity.
Qed.
Lemma ema_fused_spec f (cs hid : list (candle f64)) n : (0 < n <= length cs)%nat ->
  exponential_moving_average_fused f (GSlice cs hid) (Z.of_nat n) =
  Ret (match skipn n cs with
       | [] => []
       | _ :: later =>
           let seed := mean_of (firstn n (closes cs)) in
           seed :: iterates (ema_step_fused (ema_weight (Z.of_nat n))) seed (tag f (Z.of_nat n + 1) (closes later))
       end, None).
Proof.
  intros H. unfold exponential_moving_average_fused. cbn [vis is_nil].
  destruct (Z.ltb_spec (zlen cs) (Z.of_nat n)); [unfold zlen in *; lia|].
  destruct (Z.leb_spec (Z.of_nat n) 0); [lia|]. change (f64_div (i2f 2) (f64_add (i2f (Z.of_nat n)) (i2f 1))) with (@ema_weight f64 f64_num (Z.of_nat n)).
  pose proof (ema_skip_fused f cs (firstn n cs) (skipn n cs) n (ema_weight (Z.of_nat n)) 0 ltac:(rewrite firstn_length; lia)) as E.
  rewrite firstn_skipn, firstn_length, Nat.min_l in E by lia. cbn [Z.of_nat Nat.add] in E. rewrite E. clear E.
  destruct (skipn n cs) as [|c rest] eqn:Es; [reflexivity|]. cbn [ema_loop_fused].
  destruct (Z.ltb_spec (Z.of_nat n) (Z.of_nat n)); [lia|]. cbn [zlen length Z.of_nat]. cbn [Z.eqb].
  rewrite reslice_ok by (unfold zlen in *; lia). cbn [bind]. rewrite Z.sub_0_r, Nat2Z.id. cbn [Z.to_nat skipn].
  replace (Z.of_nat n + 1) with (Z.of_nat (S n)) by lia.
  rewrite (ema_go_fused f cs rest n _ (S n) [] (average (firstn n cs))) by lia. cbn [app bind].
  rewrite average_mean. cbv zeta. replace (Z.of_nat n + 1) with (Z.of_nat (S n)) by lia. replace (closes (firstn n cs)) with (firstn n (closes cs)) by (unfold closes; apply firstn_map). reflexivity.
Qed.

(** *** SmoothedMovingAverage *)
Definition smma_second_fused (period : Z) (b : bool) (x c : f64) : f64 :=
  f64_div (product_add b x (f64_sub (i2f period) (i2f 1)) c) (i2f period).
Definition smma_later_fused (period : Z) (x : f64) (bc : bool * f64) : f64 :=
  f64_div (f64_add (product_sub (fst bc) x (i2f period) x) (snd bc)) (i2f period).
Lemma smma_skip_fused f (cs pre rest : list (candle f64)) n i : (i + length pre < n)%nat ->
  smma_loop_fused f cs (Z.of_nat n) (pre ++ rest) (Z.of_nat i) [] =
  smma_loop_fused f cs (Z.of_nat n) rest (Z.of_nat (i + length pre)) [].
Proof.
  revert i. induction pre as [|c pre IH]; intros i H; cbn [app length] in *; [now rewrite Nat.add_0_r|].
  cbn [smma_loop_fused]. destruct (Z.ltb_spec (Z.of_nat i) (Z.of_nat n - 1)); [|lia].
  replace (Z.of_nat i + 1) with (Z.of_nat (S i)) by lia. rewrite IH by lia. do 2 f_equal. lia.
Qed.
Lemma smma_go_fused f (cs rest : list (candle f64)) n i acc a x : (0 < n <= i)%nat -> (i + length rest = length cs)%nat ->
  smma_loop_fused f cs (Z.of_nat n) rest (Z.of_nat i) (a :: acc ++ [x]) =
  Ret (a :: acc ++ x :: iterates (smma_later_fused (Z.of_nat n)) x (tag f (Z.of_nat i) (closes rest)), None).
Proof.
  revert i acc x. induction rest as [|c rest IH]; intros i acc x H Hl; [reflexivity|].
  cbn [length] in Hl. cbn [smma_loop_fused]. destruct (Z.ltb_spec (Z.of_nat i) (Z.of_nat n - 1)); [lia|].
  rewrite reslice_ok by (unfold zlen; lia). cbn [bind].
  rewrite closing_sum_ok by (rewrite firstn_length, skipn_length; lia). cbn [bind].
  change (a :: acc ++ [x]) with ((a :: acc) ++ [x]). rewrite zlen_snoc, index_last. cbn [bind].
  destruct (Z.eqb_spec (zlen ((a :: acc) ++ [x])) 1) as [E|E].
  { rewrite zlen_app, zlen_cons in E. cbn in E. pose proof (zlen_nonneg acc). lia. }
  replace (Z.of_nat i + 1) with (Z.of_nat (S i)) by lia.
  change (f64_div (f64_add (product_sub (f (Z.of_nat i)) x (i2f (Z.of_nat n)) x) (c_close c)) (i2f (Z.of_nat n)))
    with (smma_later_fused (Z.of_nat n) x (f (Z.of_nat i), c_close c)).
  change (((a :: acc) ++ [x]) ++ [smma_later_fused (Z.of_nat n) x (f (Z.of_nat i), c_close c)]) with (a :: (acc ++ [x]) ++ [smma_later_fused (Z.of_nat n) x (f (Z.of_nat i), c_close c)]).
  rewrite IH by lia. rewrite <- app_assoc. cbn [app closes map tag iterates]. replace (Z.of_nat i + 1) with (Z.of_nat (S i)) by lia. reflexivity.
Qed.
Lemma smma_fused_spec f (cs hid : list (candle f64)) n : (0 < n <= length cs)%nat ->
  smoothed_moving_average_fused f (GSlice cs hid) (Z.of_nat n) =
  let seed := f64_div (sum_of (firstn n (closes cs))) (i2f (Z.of_nat n)) in
  Ret (seed :: match skipn n (closes cs) with
               | [] => []
               | c :: later =>
                   let second := smma_second_fused (Z.of_nat n) (f (Z.of_nat n)) seed c in
                   second :: iterates (smma_later_fused (Z.of_nat n)) second (tag f (Z.of_nat n + 1) later)
               end, None).
Proof.
  intros H. unfold smoothed_moving_average_fused. cbn [vis is_nil].
  destruct (Z.ltb_spec (zlen cs) (Z.of_nat n)); [unfold zlen in *; lia|].
  destruct (Z.leb_spec (Z.of_nat n) 0); [lia|].
  pose proof (smma_skip_fused f cs (firstn (n - 1) cs) (skipn (n - 1) cs) n 0 ltac:(rewrite firstn_length; lia)) as E.
  rewrite firstn_skipn, firstn_length, Nat.min_l in E by lia. cbn [Z.of_nat Nat.add] in E. rewrite E. clear E.
  destruct (skipn (n - 1) cs) as [|c rest] eqn:Es.
  { apply (f_equal (@length _)) in Es. rewrite skipn_length in Es. cbn in Es. lia. }
  assert (skipn n cs = rest) as Er.
  { replace n with (S (n - 1)) by lia. eapply skipn_tail. exact Es. }
  assert (length rest = length cs - n)%nat as Lr by (rewrite <- Er; apply skipn_length).
  cbn [smma_loop_fused]. destruct (Z.ltb_spec (Z.of_nat (n - 1)) (Z.of_nat n - 1)); [lia|].
  rewrite reslice_ok by (unfold zlen; lia). cbn [bind]. cbn [skipn Z.to_nat].
  replace (Z.to_nat (Z.of_nat (n - 1) + 1 - 0)) with n by lia.
  rewrite closing_sum_ok by (rewrite firstn_length; lia). cbn [bind].
  replace (length (firstn n cs) - n)%nat with 0%nat by (rewrite firstn_length; lia). cbn [skipn].
  change (zlen (@nil f64) =? 0) with true. cbv iota. cbn [app].
  replace (closes (firstn n cs)) with (firstn n (closes cs)) by (unfold closes; apply firstn_map).
  set (seed := f64_div (sum_of (firstn n (closes cs))) (i2f (Z.of_nat n))).
  unfold closes at 1. rewrite skipn_map, Er. fold (closes rest).
  destruct rest as [|c' rest]; [reflexivity|]. cbn [closes map smma_loop_fused]. fold (closes rest). cbn [length] in Lr.
  replace (Z.of_nat (n - 1) + 1) with (Z.of_nat n) by lia.
  destruct (Z.ltb_spec (Z.of_nat n) (Z.of_nat n - 1)); [lia|].
  rewrite reslice_ok by (unfold zlen; lia). cbn [bind].
  rewrite closing_sum_ok by (rewrite firstn_length, skipn_length; lia). cbn [bind].
  change (zlen [seed] =? 0) with false. change (zlen [seed] =? 1) with true. cbv iota.
  cbn [index Z.ltb Z.compare Z.to_nat nth_error bind app].
  replace (Z.of_nat n + 1) with (Z.of_nat (S n)) by lia.
  change (index [seed] 0) with (Ret seed). cbn [bind].
  exact (smma_go_fused f cs rest n (S n) [] seed (smma_second_fused (Z.of_nat n) (f (Z.of_nat n)) seed (c_close c')) ltac:(lia) ltac:(lia)).
Qed.
Open Scope R_scope.

(** *** One step of each recurrence *)
Section Steps.
Variables (M : R) (n : nat).
Hypothesis HM : lowM <= M <= highM.
Hypothesis Hn : (0 < n)%nat.
Hypothesis Hs : INR n <= steps.

Lemma ema_step_fused_near b (x c : f64) : is_finite x = true -> is_finite c = true -> Rabs (B2R x) <= 2 * M -> Rabs (B2R c) <= M ->
  near (ema_step_fused (@ema_weight f64 f64_num (Z.of_nat n)) x (b, c))
       (@ema_step R R_num (@ema_weight R R_num (Z.of_nat n)) (B2R x) (B2R c)) (22 * uro * M).
Proof.
  intros Fx Fc Hx Hc. pose proof (n_ge1 n Hn) as N1. destruct (sizes n M Hs HM) as [_ MH]. destruct HM as [HM1 HM2].
  pose proof uro_pos as U. pose proof uro_small as Us. pose proof eta_pos as Et. pose proof lowM_pos as Lp. pose proof eta_lowM as El.
  pose proof eta_uro as Eu. pose proof huge_ge1 as Hg. pose proof huge_1000 as Hg'.
  assert (uro * lowM <= uro * M) as UM by (apply Rmult_le_compat_l; lra).
  unfold ema_step_fused, ema_step, ema_weight. cbn [fadd fsub fmul fdiv fofZ f64_num R_num fst snd]. rewrite (add_one n Hn Hs).
  set (k := INR n + 1). assert (IZR (Z.of_nat n) + 1 = k) as Ek by (unfold k; now rewrite <- INR_IZR_INZ).
  assert (IZR (Z.of_nat n + 1) = k) as Ek' by (now rewrite plus_IZR).
  assert (near (f64_div (i2f 2) (i2f (Z.of_nat n + 1))) (2 / k) (2 * uro)) as NP.
  { pose proof (near_div_int (i2f 2) 2 0 (Z.of_nat n + 1) (near_int 2 ltac:(unfold exact_int; lia)) ltac:(lia)) as N2.
    rewrite Ek' in N2. eapply near_weaken; [apply N2|].
    - unfold exact_int. rewrite INR_IZR_INZ in Hs. change steps with (IZR (2 ^ 40)) in Hs. apply le_IZR in Hs.
      assert (2 ^ 40 < 2 ^ 53)%Z by (vm_compute; reflexivity). lia.
    - rewrite Rabs_pos_eq by lra. lra.
    - rewrite Rabs_pos_eq by lra. unfold Rdiv. assert (/ k <= / 2) by (apply Rinv_le_contravar; unfold k; lra). nra. }
  rewrite Ek. assert (0 <= 2 / k <= 1) as PR.
  { split; [apply Rmult_le_pos; [lra|left; apply Rinv_0_lt_compat; unfold k; lra]|].
    unfold Rdiv. assert (/ k <= / 2) by (apply Rinv_le_contravar; unfold k; lra). lra. }
  set (P := 2 / k) in *. set (p := f64_div (i2f 2) (i2f (Z.of_nat n + 1))) in *.
  assert (near (f64_sub (i2f 1) p) (1 - P) (5 * uro)) as NQ.
  { eapply near_weaken; [apply near_sub; [exact (near_int 1 ltac:(unfold exact_int; lia))|exact NP|]|].
    - rewrite (Rabs_pos_eq 1), (Rabs_pos_eq P) by lra. lra.
    - rewrite (Rabs_pos_eq (1 - P)) by lra. nra. }
  assert (near (f64_mul c p) (B2R c * P) (4 * (uro * M))) as NCP.
  { eapply near_weaken; [apply near_mul; [exact (near_refl c Fc)|exact NP|]|].
    - rewrite (Rabs_pos_eq P) by lra. pose proof (Rabs_pos (B2R c)). nra.
    - cbv zeta. rewrite Rabs_mult, (Rabs_pos_eq P) by lra. pose proof (Rabs_pos (B2R c)).
      assert (2 * uro * Rabs (B2R c) <= 2 * (uro * M)) by nra.
      assert (Rabs (B2R c) * P <= M) by nra. assert (uro * (uro * M) <= uro * M) by nra. nra. }
  assert (near (f64_mul x (f64_sub (i2f 1) p)) (B2R x * (1 - P)) (14 * (uro * M))) as NXQ.
  { eapply near_weaken; [apply near_mul; [exact (near_refl x Fx)|exact NQ|]|].
    - rewrite (Rabs_pos_eq (1 - P)) by lra. pose proof (Rabs_pos (B2R x)). nra.
    - cbv zeta. rewrite Rabs_mult, (Rabs_pos_eq (1 - P)) by lra. pose proof (Rabs_pos (B2R x)).
      assert (5 * uro * Rabs (B2R x) <= 10 * (uro * M)) by nra.
      assert (Rabs (B2R x) * (1 - P) <= 2 * M) by nra. assert (10 * (uro * (uro * M)) <= uro * M) by nra. nra. }
  assert (Rabs (B2R c * P) <= M) by (rewrite Rabs_mult, (Rabs_pos_eq P) by lra; pose proof (Rabs_pos (B2R c)); nra).
  assert (Rabs (B2R x * (1 - P)) <= 2 * M) by (rewrite Rabs_mult, (Rabs_pos_eq (1 - P)) by lra; pose proof (Rabs_pos (B2R x)); nra).
  assert (uro * M <= M) by nra.
  pose proof (Rabs_triang (B2R c * P) (B2R x * (1 - P))) as Tr. assert (18 * (uro * (uro * M)) <= uro * M) as U18 by nra.
  pose proof (Rabs_pos (B2R c)) as C0. pose proof (Rabs_pos (B2R x)) as X0.
  destruct b; cbn [two_products].
  - eapply near_weaken; [apply near_add; [exact NCP|exact NXQ|lra]|]. nra.
  - eapply near_weaken; [apply near_fma; [exact (near_refl c Fc)|exact NP|exact NXQ|]|].
    + rewrite (Rabs_pos_eq P) by lra. nra.
    + cbv zeta. assert (2 * uro * Rabs (B2R c) <= 2 * (uro * M)) by nra. nra.
  - rewrite Rplus_comm. eapply near_weaken; [apply near_fma; [exact (near_refl x Fx)|exact NQ|exact NCP|]|].
    + rewrite (Rabs_pos_eq (1 - P)) by lra. nra.
    + cbv zeta. rewrite (Rplus_comm (B2R x * (1 - P))). assert (5 * uro * Rabs (B2R x) <= 10 * (uro * M)) by nra. nra.
Qed.
Lemma smma_second_fused_near b (x c : f64) : is_finite x = true -> is_finite c = true -> Rabs (B2R x) <= 2 * M -> Rabs (B2R c) <= M ->
  near (smma_second_fused (Z.of_nat n) b x c) (@smma_second R R_num (Z.of_nat n) (B2R x) (B2R c)) (16 * uro * M).
Proof.
  intros Fx Fc Hx Hc. pose proof (n_ge1 n Hn) as N1. destruct (sizes n M Hs HM) as [NH MH]. destruct HM as [HM1 HM2].
  pose proof uro_pos as U. pose proof uro_small as Us. pose proof eta_pos as Et. pose proof lowM_pos as Lp. pose proof eta_lowM as El.
  pose proof eta_uro as Eu. pose proof huge_ge1 as Hg.
  assert (uro * lowM <= uro * M) as UM by (apply Rmult_le_compat_l; lra).
  pose proof (steps_int n Hs) as Ei. pose proof steps_huge as Sh.
  unfold smma_second_fused, smma_second. cbn [fadd fsub fmul fdiv fofZ f64_num R_num].
  pose proof (near_int _ Ei) as Nn. rewrite <- INR_IZR_INZ in Nn. rewrite <- INR_IZR_INZ.
  set (v := INR n) in *. pose proof (Rabs_pos (B2R x)) as X0. pose proof (Rabs_pos (B2R c)) as C0.
  assert (near (f64_sub (i2f (Z.of_nat n)) (i2f 1)) (v - 1) (uro * v)) as NQ.
  { eapply near_weaken; [apply near_sub; [exact Nn|exact (near_int 1 ltac:(unfold exact_int; lia))|]|].
    - rewrite (Rabs_pos_eq 1), (Rabs_pos_eq v) by lra. lra.
    - rewrite (Rabs_pos_eq (v - 1)) by lra. lra. }
  set (w := uro * M * v). assert (uro * M <= w) as W1 by (unfold w; nra).
  assert (uro * w <= / 1000000 * w) as W2 by (apply Rmult_le_compat_r; [unfold w; nra|lra]).
  assert (M <= M * v) as W4 by nra.
  assert (w <= M * v) as W3 by (replace w with (uro * (M * v)) by (unfold w; ring); nra). 
  assert (Rabs (B2R x) * (v - 1) <= 2 * (M * v) - 2 * M) as XV by nra.
  assert (uro * (M * v) = w) as Wd by (unfold w; ring).
  assert (near (f64_mul x (f64_sub (i2f (Z.of_nat n)) (i2f 1))) (B2R x * (v - 1)) (5 * w)) as NM.
  { eapply near_weaken; [apply near_mul; [exact (near_refl x Fx)|exact NQ|]|].
    - rewrite (Rabs_pos_eq (v - 1)) by lra. assert (Rabs (B2R x) * (uro * v) <= 2 * w) by (unfold w; nra). nra.
    - cbv zeta. rewrite Rabs_mult, (Rabs_pos_eq (v - 1)) by lra.
      assert (uro * v * Rabs (B2R x) <= 2 * w) by (unfold w; nra).
      assert (uro * (Rabs (B2R x) * (v - 1)) <= 2 * w) by (rewrite <- Wd; nra).
      assert (uro * (uro * v * Rabs (B2R x)) <= uro * (2 * w)) by (apply Rmult_le_compat_l; lra). nra. }
  assert (Rabs (B2R x * (v - 1)) <= 2 * (M * v) - 2 * M) as XV' by (rewrite Rabs_mult, (Rabs_pos_eq (v - 1)) by lra; exact XV).
  assert (near (product_add b x (f64_sub (i2f (Z.of_nat n)) (i2f 1)) c) (B2R x * (v - 1) + B2R c) (9 * w)) as NA.
  { destruct b; cbn [product_add].
    { pose proof (Rabs_triang (B2R x * (v - 1)) (B2R c)).
      assert (uro * Rabs (B2R x * (v - 1) + B2R c) <= uro * (2 * (M * v))) by (apply Rmult_le_compat_l; lra).
      assert (uro * v * Rabs (B2R x) <= 2 * w) by (unfold w; nra).
      eapply near_weaken; [apply near_fma; [exact (near_refl x Fx)|exact NQ|exact (near_refl c Fc)|]|].
      - rewrite (Rabs_pos_eq (v - 1)) by lra. nra.
      - cbv zeta. rewrite Rabs_mult, (Rabs_pos_eq (v - 1)) in * by lra.
        assert (uro * (uro * v * Rabs (B2R x)) <= uro * (2 * w)) by (apply Rmult_le_compat_l; lra). nra. }
    eapply near_weaken; [apply near_add; [exact NM|exact (near_refl c Fc)|nra]|].
    pose proof (Rabs_triang (B2R x * (v - 1)) (B2R c)).
    assert (uro * Rabs (B2R x * (v - 1) + B2R c) <= uro * (2 * (M * v))) by (apply Rmult_le_compat_l; lra). nra. }
  assert (Rabs (B2R x * (v - 1) + B2R c) <= 2 * (M * v)) as XC by (pose proof (Rabs_triang (B2R x * (v - 1)) (B2R c)); lra).
  pose proof (near_div_int _ _ _ (Z.of_nat n) NA ltac:(lia) Ei ltac:(nra)) as ND. rewrite <- INR_IZR_INZ in ND. fold v in ND.
  eapply near_weaken; [exact ND|].
  assert ((9 * w + uro * (Rabs (B2R x * (v - 1) + B2R c) + 9 * w)) / v <= (12 * w) / v) as Q.
  { unfold Rdiv. apply Rmult_le_compat_r; [left; apply Rinv_0_lt_compat; lra|].
    assert (uro * Rabs (B2R x * (v - 1) + B2R c) <= uro * (2 * (M * v))) by (apply Rmult_le_compat_l; lra). nra. }
  replace (12 * w / v) with (12 * (uro * M)) in Q by (unfold w; field; lra). nra.
Qed.
Lemma smma_later_fused_near b (x c : f64) : is_finite x = true -> is_finite c = true -> Rabs (B2R x) <= 2 * M -> Rabs (B2R c) <= M ->
  near (smma_later_fused (Z.of_nat n) x (b, c)) (@smma_later R R_num (Z.of_nat n) (B2R x) (B2R c)) (16 * uro * M).
Proof.
  intros Fx Fc Hx Hc. pose proof (n_ge1 n Hn) as N1. destruct (sizes n M Hs HM) as [NH MH]. destruct HM as [HM1 HM2].
  pose proof uro_pos as U. pose proof uro_small as Us. pose proof eta_pos as Et. pose proof lowM_pos as Lp. pose proof eta_lowM as El.
  pose proof eta_uro as Eu. pose proof huge_ge1 as Hg.
  assert (uro * lowM <= uro * M) as UM by (apply Rmult_le_compat_l; lra).
  pose proof (steps_int n Hs) as Ei.
  unfold smma_later_fused, smma_later. cbn [fst snd fadd fsub fmul fdiv fofZ f64_num R_num].
  pose proof (near_int _ Ei) as Nn. rewrite <- INR_IZR_INZ in Nn. rewrite <- INR_IZR_INZ.
  set (v := INR n) in *. pose proof (Rabs_pos (B2R x)) as X0. pose proof (Rabs_pos (B2R c)) as C0.
  set (w := uro * M * v). assert (uro * M <= w) as W1 by (unfold w; nra).
  assert (uro * w <= / 1000000 * w) as W2 by (apply Rmult_le_compat_r; [unfold w; nra|lra]).
  assert (M <= M * v) as W4 by nra.
  assert (w <= M * v) as W3 by (replace w with (uro * (M * v)) by (unfold w; ring); nra). 
  assert (uro * (M * v) = w) as Wd by (unfold w; ring).
  assert (Rabs (B2R x * v) <= 2 * (M * v)) as XV by (rewrite Rabs_mult, (Rabs_pos_eq v) by lra; nra).
  assert (near (f64_mul x (i2f (Z.of_nat n))) (B2R x * v) (3 * w)) as NM.
  { eapply near_weaken; [apply near_mul; [exact (near_refl x Fx)|exact Nn|]|].
    - rewrite (Rabs_pos_eq v) by lra. rewrite !Rplus_0_r. rewrite Rabs_mult, (Rabs_pos_eq v) in XV by lra. nra.
    - cbv zeta. assert (uro * Rabs (B2R x * v) <= uro * (2 * (M * v))) by (apply Rmult_le_compat_l; lra). nra. }
  assert (Rabs (B2R x * v - B2R x) <= 2 * (M * v) - 2 * M) as XW.
  { replace (B2R x * v - B2R x) with (B2R x * (v - 1)) by ring. rewrite Rabs_mult, (Rabs_pos_eq (v - 1)) by lra. nra. }
  assert (near (product_sub b x (i2f (Z.of_nat n)) x) (B2R x * v - B2R x) (6 * w)) as NS.
  { destruct b; cbn [product_sub].
    { assert (uro * Rabs (B2R x * v - B2R x) <= uro * (2 * (M * v))) by (apply Rmult_le_compat_l; lra).
      unfold Rminus in *. eapply near_weaken; [apply near_fma; [exact (near_refl x Fx)|exact Nn|exact (near_neg _ _ _ (near_refl x Fx))|]|].
      - rewrite Rabs_Ropp, (Rabs_pos_eq v) by lra. rewrite Rabs_mult, (Rabs_pos_eq v) in XV by lra. nra.
      - cbv zeta. nra. }
    eapply near_weaken; [apply near_sub; [exact NM|exact (near_refl x Fx)|nra]|].
    assert (uro * Rabs (B2R x * v - B2R x) <= uro * (2 * (M * v))) by (apply Rmult_le_compat_l; lra). nra. }
  assert (Rabs (B2R x * v - B2R x + B2R c) <= 2 * (M * v)) as XC by (pose proof (Rabs_triang (B2R x * v - B2R x) (B2R c)); lra).
  assert (near (f64_add (product_sub b x (i2f (Z.of_nat n)) x) c) (B2R x * v - B2R x + B2R c) (9 * w)) as NA.
  { eapply near_weaken; [apply near_add; [exact NS|exact (near_refl c Fc)|nra]|].
    assert (uro * Rabs (B2R x * v - B2R x + B2R c) <= uro * (2 * (M * v))) by (apply Rmult_le_compat_l; lra). nra. }
  pose proof (near_div_int _ _ _ (Z.of_nat n) NA ltac:(lia) Ei ltac:(nra)) as ND. rewrite <- INR_IZR_INZ in ND. fold v in ND.
  eapply near_weaken; [exact ND|].
  assert ((9 * w + uro * (Rabs (B2R x * v - B2R x + B2R c) + 9 * w)) / v <= (12 * w) / v) as Q.
  { unfold Rdiv. apply Rmult_le_compat_r; [left; apply Rinv_0_lt_compat; lra|].
    assert (uro * Rabs (B2R x * v - B2R x + B2R c) <= uro * (2 * (M * v))) by (apply Rmult_le_compat_l; lra). nra. }
  replace (12 * w / v) with (12 * (uro * M)) in Q by (unfold w; field; lra). nra.
Qed.
End Steps.

Definition ewv_step_fused (beta v : f64) (bc : fusing * candle f64) : f64 :=
  two_products (fst bc) beta v (f64_sub (i2f 1) beta) (f64_sub (c_high (snd bc)) (c_low (snd bc))).
Lemma ewv_fused_fold f beta cs : forall i v, ewv_loop_fused f beta cs i v = fold_left (ewv_step_fused beta) (tag f i cs) v.
Proof. induction cs as [|c cs IH]; intros i v; cbn [ewv_loop_fused tag fold_left]; [reflexivity|]. apply IH. Qed.
Lemma ewv_step_fused_near b0 M (beta v : f64) (c : candle f64) : lowM <= M <= highM ->
  is_finite beta = true -> 0 <= B2R beta <= 1 -> is_finite v = true -> Rabs (B2R v) <= 2 * (2 * M) ->
  is_finite (c_high c) = true -> is_finite (c_low c) = true -> Rabs (B2R (c_high c)) <= M -> Rabs (B2R (c_low c)) <= M ->
  near (ewv_step_fused beta v (b0, c))
    (B2R beta * B2R v + (1 - B2R beta) * (B2R (c_high c) - B2R (c_low c))) (24 * uro * M).
Proof.
  intros HM Fb Hb Fv Hv Fh Fl Hh Hl. unfold ewv_step_fused. cbn [fst snd].
  destruct (sizes 0 M ltac:(simpl; left; apply steps_pos) HM) as [_ MH]. destruct HM as [HM1 HM2].
  pose proof uro_pos as U. pose proof uro_small as Us. pose proof eta_pos as Et. pose proof lowM_pos as Lp. pose proof eta_lowM as El.
  pose proof eta_uro as Eu. pose proof huge_1000 as Hg.
  assert (uro * lowM <= uro * M) as UM by (apply Rmult_le_compat_l; lra).
  assert (uro * (uro * M) <= / 1000000 * (uro * M)) as UU by (apply Rmult_le_compat_r; lra). assert (uro * M <= M) as U1 by nra.
  assert (Rabs (B2R (c_high c) - B2R (c_low c)) <= 2 * M) as HL.
  { unfold Rminus. eapply Rle_trans; [apply Rabs_triang|]. rewrite Rabs_Ropp. lra. }
  assert (near (f64_sub (c_high c) (c_low c)) (B2R (c_high c) - B2R (c_low c)) (3 * (uro * M))) as N1.
  { eapply near_weaken; [apply near_sub; [exact (near_refl _ Fh)|exact (near_refl _ Fl)|lra]|].
    assert (uro * Rabs (B2R (c_high c) - B2R (c_low c)) <= uro * (2 * M)) by (apply Rmult_le_compat_l; lra). lra. }
  assert (near (f64_sub (i2f 1) beta) (1 - B2R beta) (2 * uro)) as N2.
  { eapply near_weaken; [apply near_sub; [exact (near_int 1 ltac:(unfold exact_int; lia))|exact (near_refl _ Fb)|]|].
    - rewrite (Rabs_pos_eq 1), (Rabs_pos_eq (B2R beta)) by lra. lra.
    - rewrite (Rabs_pos_eq (1 - B2R beta)) by lra. nra. }
  set (r := B2R (c_high c) - B2R (c_low c)) in *. set (b := B2R beta) in *. pose proof (Rabs_pos r) as R0.
  assert (Rabs ((1 - b) * r) <= 2 * M) as BR by (rewrite Rabs_mult, (Rabs_pos_eq (1 - b)) by lra; nra).
  assert (near (f64_mul (f64_sub (i2f 1) beta) (f64_sub (c_high c) (c_low c))) ((1 - b) * r) (12 * (uro * M))) as N3.
  { eapply near_weaken; [apply near_mul; [exact N2|exact N1|]|].
    - rewrite (Rabs_pos_eq (1 - b)) by lra. apply Rle_trans with (2 * (3 * M)); [|lra]. apply Rmult_le_compat; nra.
    - cbv zeta. rewrite (Rabs_pos_eq (1 - b)) by lra.
      assert (2 * uro * Rabs r <= 4 * (uro * M)) by nra.
      assert (3 * (uro * M) * (1 - b) <= 3 * (uro * M)) by nra.
      assert (uro * Rabs ((1 - b) * r) <= uro * (2 * M)) by (apply Rmult_le_compat_l; lra). nra. }
  assert (Rabs (b * B2R v) <= 4 * M) as BV by (rewrite Rabs_mult, (Rabs_pos_eq b) by lra; pose proof (Rabs_pos (B2R v)); nra).
  assert (near (f64_mul beta v) (b * B2R v) (5 * (uro * M))) as N4.
  { eapply near_weaken; [apply near_mul; [exact (near_refl _ Fb)|exact (near_refl _ Fv)|]|].
    - fold b. rewrite (Rabs_pos_eq b) by lra. pose proof (Rabs_pos (B2R v)). nra.
    - cbv zeta. fold b. assert (uro * Rabs (b * B2R v) <= uro * (4 * M)) by (apply Rmult_le_compat_l; lra). nra. }
  pose proof (Rabs_triang (b * B2R v) ((1 - b) * r)) as Tr.
  assert (uro * Rabs (b * B2R v + (1 - b) * r) <= uro * (6 * M)) as Ur by (apply Rmult_le_compat_l; lra).
  pose proof (Rabs_pos (B2R v)) as V0.
  destruct b0; cbn [two_products].
  - eapply near_weaken; [apply near_add; [exact N4|exact N3|lra]|]. lra.
  - eapply near_weaken; [apply near_fma; [exact (near_refl _ Fb)|exact (near_refl _ Fv)|exact N3|]|].
    + fold b. rewrite (Rabs_pos_eq b) by lra. nra.
    + cbv zeta. fold b. nra.
  - rewrite Rplus_comm in Ur |- *. eapply near_weaken; [apply near_fma; [exact N2|exact N1|exact N4|]|].
    + rewrite (Rabs_pos_eq (1 - b)) by lra. assert ((1 - b + 2 * uro) * (Rabs r + 3 * (uro * M)) <= 2 * (3 * M)) by (apply Rmult_le_compat; nra). lra.
    + cbv zeta. rewrite (Rabs_pos_eq (1 - b)) by lra.
      assert (2 * uro * Rabs r <= 4 * (uro * M)) by nra.
      assert (3 * (uro * M) * (1 - b) <= 3 * (uro * M)) by nra. nra.
Qed.
Lemma ema_fused_near f (cs : list (candle f64)) n M : scale M -> few cs -> (0 < n <= length cs)%nat ->
  Forall (fun c => within_mag M (c_close c)) cs ->
  exists xs ys,
    exponential_moving_average_fused f (GSlice cs []) (Z.of_nat n) = Ret (xs, None) /\
    exponential_moving_average (GSlice (map exact_candle cs) []) (Z.of_nat n) = Ret (ys, None) /\
    Forall2 (approx (13 * INR (length cs) * (2 * uro) * M)) xs ys.
Proof.
  intros HM Hf Hn Hc. apply scale_sizes in HM. apply few_steps in Hf. apply forall_closes in Hc.
  pose proof uro_pos as U. pose proof lowM_pos as Lp. pose proof (room cs Hf) as Rm.
  assert (0 < M) as M0 by lra. assert (0 < uro * M) as UM by (apply Rmult_lt_0_compat; lra).
  assert (1 <= INR n) as N1 by (apply (le_INR 1); lia).
  eexists. eexists. rewrite (ema_fused_spec f cs [] n Hn).
  rewrite (@ema_spec R R_num (map exact_candle cs) [] n) by (rewrite map_length; lia).
  split; [reflexivity|]. split; [reflexivity|].
  destruct (seed_near cs n M HM Hf Hn Hc) as [NS BS].
  rewrite skipn_map. destruct (skipn n cs) as [|c later] eqn:Es; cbn [map]; [constructor|]. cbv zeta.
  assert (length later + n + 1 = length cs)%nat as Ll.
  { pose proof (f_equal (@length _) Es) as E. rewrite skipn_length in E. cbn [List.length] in E. lia. }
  assert (INR (length later) + INR n + 1 = INR (length cs)) as Lr.
  { rewrite <- Ll. rewrite !plus_INR. simpl (INR 1). lra. }
  pose proof (pos_INR (length later)) as P0.
  destruct (err_arith (INR n) (INR (length later)) (INR (length cs)) 22 M N1 P0 ltac:(lra) Rm M0 ltac:(lra)) as [A1 A2].
  assert (Forall (mag M) (closes later)) as Hl.
  { pose proof (Forall_skipn _ _ Hc (S n)) as K. unfold closes in K. rewrite skipn_map, (skipn_tail n cs c later Es) in K. exact K. }
  constructor.
  - apply approx_near. eapply near_weaken; [exact NS|]. nra.
  - rewrite (closes_exact later), iterates_map, (tag_iterates f _ _ (Z.of_nat n + 1)).
    apply (iterates_near (fun bc => mag M (snd bc)) (ema_step_fused (@ema_weight f64 f64_num (Z.of_nat n)))
      (fun x bc => @ema_step R R_num (@ema_weight R R_num (Z.of_nat n)) x (B2R (snd bc))) M (22 * uro * M)) with (e := (2 * INR n + 3) * uro * M); auto.
    + nra.
    + intros a d Ha [_ Hd]. unfold ema_step. cbn [fadd fmul fsub fofZ R_num]. pose proof (ema_weight_range n ltac:(lia)). apply Rabs_convex; auto; lra.
    + intros a b d _. pose proof (ema_weight_range n ltac:(lia)) as W. unfold ema_step. cbn [fadd fmul fsub fofZ R_num].
      set (p := @ema_weight R R_num (Z.of_nat n)) in *. replace (B2R (snd d) * p + a * (1 - p) - (B2R (snd d) * p + b * (1 - p))) with ((a - b) * (1 - p)) by ring.
      rewrite Rabs_mult, (Rabs_pos_eq (1 - p)) by lra. pose proof (Rabs_pos (a - b)). nra.
    + intros x [b0 d] Fx [Fd Hd] Hx. apply ema_step_fused_near; auto; try lia. apply (few_le cs); [assumption|lia].
    + apply (tag_forall f (mag M)). exact Hl.
    + rewrite tag_length. unfold closes. rewrite map_length. exact A1.
Qed.
Lemma smma_fused_near f (cs : list (candle f64)) n M : scale M -> few cs -> (0 < n <= length cs)%nat ->
  Forall (fun c => within_mag M (c_close c)) cs ->
  exists xs ys,
    smoothed_moving_average_fused f (GSlice cs []) (Z.of_nat n) = Ret (xs, None) /\
    smoothed_moving_average (GSlice (map exact_candle cs) []) (Z.of_nat n) = Ret (ys, None) /\
    Forall2 (approx (13 * INR (length cs) * (2 * uro) * M)) xs ys.
Proof.
  intros HM Hf Hn Hc. apply scale_sizes in HM. apply few_steps in Hf. apply forall_closes in Hc.
  pose proof uro_pos as U. pose proof lowM_pos as Lp. pose proof (room cs Hf) as Rm.
  assert (0 < M) as M0 by lra. assert (0 < uro * M) as UM by (apply Rmult_lt_0_compat; lra).
  assert (1 <= INR n) as N1 by (apply (le_INR 1); lia).
  eexists. eexists. rewrite (smma_fused_spec f cs [] n Hn).
  rewrite (@smma_spec R R_num (map exact_candle cs) [] n) by (rewrite map_length; lia).
  split; [reflexivity|]. split; [reflexivity|].
  destruct (seed_near cs n M HM Hf Hn Hc) as [NS BS].
  assert (length (firstn n (closes cs)) = n) as L1 by (rewrite firstn_length; unfold closes; rewrite map_length; lia).
  assert (length (firstn n (closes (map exact_candle cs))) = n) as L2.
  { rewrite closes_exact, firstn_map, map_length. exact L1. }
  unfold mean_of in NS, BS. rewrite L1, L2 in NS. rewrite L2 in BS.
  set (s := fdiv (sum_of (firstn n (closes cs))) (fofZ (Z.of_nat n))) in *.
  set (S0 := fdiv (sum_of (firstn n (closes (map exact_candle cs)))) (fofZ (Z.of_nat n))) in *.
  assert (INR n <= steps) as Ns by (apply (few_le cs); [assumption|lia]).
  assert (INR n <= INR (length cs)) as Nl by (apply le_INR; lia).
  rewrite closes_exact, skipn_map. pose proof (Forall_skipn _ _ Hc n) as Hk.
  destruct (skipn n (closes cs)) as [|c later] eqn:Es; cbn [map].
  { constructor; [|constructor]. apply approx_near. eapply near_weaken; [exact NS|].
    destruct (err_arith (INR n) 0 (INR (length cs)) 22 M N1 ltac:(lra) ltac:(lra) Rm M0 ltac:(lra)) as [A1 A2]. lra. }
  inversion Hk as [|? ? [Fc Bc] Hl]; subst.
  assert (length later + n + 1 = length cs)%nat as Ll.
  { pose proof (f_equal (@length _) Es) as E. rewrite skipn_length in E. unfold closes in E. rewrite map_length in E. cbn [List.length] in E. lia. }
  assert (INR (length later) + INR n + 1 = INR (length cs)) as Lr.
  { rewrite <- Ll. rewrite !plus_INR. simpl (INR 1). lra. }
  pose proof (pos_INR (length later)) as P0.
  destruct (err_arith (INR n) (INR (length later) + 1) (INR (length cs)) 16 M N1 ltac:(lra) ltac:(lra) Rm M0 ltac:(lra)) as [A1 A2].
  assert (0 <= INR (length later) * (16 * uro * M)) as PL by (apply Rmult_le_pos; nra).
  assert (forall a b d : R, Rabs (@smma_later R R_num (Z.of_nat n) a d - @smma_later R R_num (Z.of_nat n) b d) <= Rabs (a - b)) as Lip.
  { intros a b d. unfold smma_later. cbn [fadd fmul fsub fdiv fofZ R_num]. rewrite <- INR_IZR_INZ.
    replace ((a * INR n - a + d) / INR n - (b * INR n - b + d) / INR n) with ((a - b) * (1 - / INR n)) by (field; lra).
    assert (0 < / INR n <= 1) by (split; [apply Rinv_0_lt_compat; lra|rewrite <- Rinv_1; apply Rinv_le_contravar; lra]).
    rewrite Rabs_mult, (Rabs_pos_eq (1 - / INR n)) by lra. pose proof (Rabs_pos (a - b)). nra. }
  assert (forall a d, @smma_second R R_num (Z.of_nat n) a d = @smma_later R R_num (Z.of_nat n) a d) as Ag.
  { intros a d. unfold smma_later, smma_second. cbn [fadd fmul fsub fdiv fofZ R_num]. rewrite <- INR_IZR_INZ. field. lra. }
  destruct (step_near (mag M) (smma_second_fused (Z.of_nat n) (f (Z.of_nat n))) (fun x c => @smma_later R R_num (Z.of_nat n) x (B2R c)) M (16 * uro * M))
    with (x := s) (X := S0) (e := (2 * INR n + 3) * uro * M) (c := c) as [N2 B2]; auto.
  { intros a d Ha [_ Hd]. apply smma_real; auto; lia. }
  { intros x d Fx [Fd Hd] Hx. rewrite <- Ag. apply smma_second_fused_near; auto; lia. }
  { nra. }
  { split; assumption. }
  constructor; [|constructor].
  - apply approx_near. eapply near_weaken; [exact NS|]. nra.
  - apply approx_near. rewrite Ag. eapply near_weaken; [exact N2|]. nra.
  - rewrite iterates_map, Ag, (tag_iterates f _ _ (Z.of_nat n + 1)).
    apply (iterates_near (fun bc => mag M (snd bc)) (smma_later_fused (Z.of_nat n))
      (fun x bc => @smma_later R R_num (Z.of_nat n) x (B2R (snd bc))) M (16 * uro * M)) with (e := (2 * INR n + 3) * uro * M + 16 * uro * M); auto.
    + nra.
    + intros a d Ha [_ Hd]. apply smma_real; auto; lia.
    + intros x [b0 d] Fx [Fd Hd] Hx. apply smma_later_fused_near; auto; lia.
    + apply (tag_forall f (mag M)). exact Hl.
    + rewrite tag_length. lra.
Qed.
Lemma ewv_fused_near f (cs : list (candle f64)) (beta : f64) M : scale M -> few cs ->
  is_finite beta = true -> 0 <= B2R beta <= 1 ->
  Forall (fun c => within_mag M (c_high c) /\ within_mag M (c_low c)) cs ->
  approx (12 * INR (length cs) * (2 * uro) * M) (ewv_fused f cs beta) (@ewv R R_num (map exact_candle cs) (B2R beta)).
Proof.
  intros HM Hf Fb Hb Hc. apply scale_sizes in HM. apply few_steps in Hf.
  pose proof uro_pos as U. pose proof lowM_pos as Lp. pose proof (room cs Hf) as Rm. pose proof (pos_INR (length cs)) as P0.
  assert (0 < M) as M0 by lra. assert (0 < uro * M) as UM by (apply Rmult_lt_0_compat; lra).
  set (Q := fun c : candle f64 => within_mag M (c_high c) /\ within_mag M (c_low c)).
  assert (forall c, Q c -> Rabs (B2R (c_high c) - B2R (c_low c)) <= 2 * M) as QB.
  { intros c [[_ H1] [_ H2]]. unfold real in *. unfold Rminus. eapply Rle_trans; [apply Rabs_triang|]. rewrite Rabs_Ropp. lra. }
  set (g := fun (x : R) (c : candle f64) => B2R beta * x + (1 - B2R beta) * (B2R (c_high c) - B2R (c_low c))).
  unfold ewv_fused. rewrite ewv_fused_fold.
  destruct (fold_near (fun bc => Q (snd bc)) (ewv_step_fused beta) (fun x bc => g x (snd bc)) (2 * M) (24 * uro * M)) with (cs := tag f 0 cs) (x := i2f 0) (X := 0) (e := 0) as [N _].
  - nra.
  - intros a [b0 c] Ha Hq. cbn [snd] in *. unfold g. specialize (QB c Hq). rewrite Rplus_comm, (Rmult_comm (1 - _)), (Rmult_comm (B2R beta)).
    replace (B2R beta) with (1 - (1 - B2R beta)) at 2 by ring. apply Rabs_convex; auto; lra.
  - intros a b [b0 c] _. cbn [snd]. unfold g. replace (_ - _) with (B2R beta * (a - b)) by ring.
    rewrite Rabs_mult, (Rabs_pos_eq (B2R beta)) by lra. pose proof (Rabs_pos (a - b)). nra.
  - intros x [b0 c] Fx [[Fh Hh] [Fl Hl]] Hx. cbn [snd] in *. apply ewv_step_fused_near; auto.
  - exact (near_int 0 ltac:(unfold exact_int; lia)).
  - rewrite Rabs_R0. lra.
  - apply (tag_forall f Q). exact Hc.
  - rewrite tag_length. assert ((24 * INR (length cs) * uro) * M <= M) by nra. nra.
  - assert (@ewv R R_num (map exact_candle cs) (B2R beta) = fold_left g cs 0) as Er.
    { unfold ewv. cbn [fadd fmul fsub fofZ R_num]. clear. generalize 0 as v.
      induction cs as [|c cs IH]; intros v; cbn [map fold_left]; [reflexivity|]. rewrite IH. reflexivity. }
    rewrite Er. apply approx_near. rewrite tag_length in N.
    assert (forall i X, fold_left (fun x bc => g x (snd bc)) (tag f i cs) X = fold_left g cs X) as Et.
    { clear. induction cs as [|c cs IH]; intros i X; cbn [tag fold_left snd]; [reflexivity|]. apply IH. }
    rewrite Et in N. eapply near_weaken; [exact N|]. lra.
Qed.
