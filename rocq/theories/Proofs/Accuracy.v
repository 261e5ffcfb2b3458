(** Machine results against the same computation in exact arithmetic. *)
From Coq Require Import Reals Lra Lia Psatz.
From Flocq Require Import Core BinarySingleNaN.
From Verif Require Import Go.Outcome Go.Int64 Go.Slice Go.Float64 Go.FloatOrder Go.FloatReal Go.FloatError Go.Num
  Model.Candle Model.Indicators Model.OrderBook Spec.OrderBookSpec Spec.IndicatorSpec Spec.AccuracySpec Proofs.MovingAverage.
Open Scope list_scope.
Open Scope R_scope.
Local Notation length := List.length.
Local Notation B2R := (@B2R 53 1024).

(** Sizes: values from 2^-900 to 2^900, at most 2^40 steps. *)
Definition lowM : R := bpow radix2 (-900).
Definition highM : R := bpow radix2 900.
Lemma lowM_pos : 0 < lowM. Proof. apply bpow_gt_0. Qed.
Lemma eta_lowM : 16 * eta <= uro * lowM.
Proof.
  unfold eta, uro, lowM. change 16 with (bpow radix2 4). rewrite <- !bpow_plus. apply bpow_le. lia.
Qed.
Lemma highM_huge : bpow radix2 60 * highM <= huge.
Proof. unfold highM. change huge with (bpow radix2 1000). rewrite <- bpow_plus. apply bpow_le. lia. Qed.
Lemma eta_uro : eta <= uro.
Proof. unfold eta, uro. apply bpow_le. lia. Qed.
Definition steps : R := bpow radix2 40.
Lemma steps_uro : 64 * steps * uro <= / 64.
Proof.
  unfold steps, uro. change 64 with (bpow radix2 6). rewrite <- !bpow_plus.
  change (/ bpow radix2 6) with (bpow radix2 (-6)). apply bpow_le. lia.
Qed.
Lemma steps_60 : steps <= bpow radix2 60.
Proof. unfold steps. apply bpow_le. lia. Qed.
Lemma steps_int n : INR n <= steps -> exact_int (Z.of_nat n).
Proof.
  intros H. unfold exact_int. rewrite INR_IZR_INZ in H. change steps with (IZR (2 ^ 40)) in H. apply le_IZR in H.
  assert (2 ^ 40 <= 2 ^ 53)%Z by (vm_compute; discriminate). lia.
Qed.
Lemma b60_ge : 1000 <= bpow radix2 60.
Proof. apply Rle_trans with (bpow radix2 10); [change (1000 <= IZR (2 ^ 10)); apply IZR_le; vm_compute; discriminate|]. apply bpow_le. lia. Qed.
Lemma steps_pos : 0 < steps. Proof. apply bpow_gt_0. Qed.
Lemma sizes n M : INR n <= steps -> lowM <= M <= highM -> 1000 * (INR n * M) <= huge /\ 1000 * M <= huge.
Proof.
  intros Hn [H1 H2]. pose proof highM_huge. pose proof lowM_pos. pose proof (pos_INR n). pose proof b60_ge.
  assert (1000 * steps <= bpow radix2 60).
  { apply Rle_trans with (bpow radix2 10 * steps).
    - apply Rmult_le_compat_r; [left; apply steps_pos|]. change (1000 <= IZR (2 ^ 10)). apply IZR_le. vm_compute. discriminate.
    - unfold steps. rewrite <- bpow_plus. apply bpow_le. lia. }
  assert (1000 * INR n * M <= bpow radix2 60 * highM) by (apply Rmult_le_compat; lra).
  assert (1000 * M <= bpow radix2 60 * highM) by (apply Rmult_le_compat; lra).
  lra.
Qed.
Lemma huge_1000 : 1000 <= huge.
Proof. apply Rle_trans with (bpow radix2 10); [change (1000 <= IZR (2 ^ 10)); apply IZR_le; vm_compute; discriminate|].
  change huge with (bpow radix2 1000). apply bpow_le. lia. Qed.
Lemma B2R_strict (x : f64) : is_finite x = true -> B2R x <> 0 -> is_finite_strict x = true.
Proof. destruct x; cbn; try discriminate; auto. Qed.
Lemma steps_huge : 2 * steps <= huge.
Proof. change huge with (bpow radix2 1000). unfold steps. change 2 with (bpow radix2 1). rewrite <- bpow_plus. apply bpow_le. lia. Qed.
Global Opaque lowM highM steps uro eta.

Section Iterate.
Context {A : Type}.
Variables (Q : A -> Prop) (f : f64 -> A -> f64) (g : R -> A -> R) (M L : R).
Hypothesis L0 : 0 <= L.
Hypothesis g_in : forall a c, Rabs a <= M -> Q c -> Rabs (g a c) <= M.
Hypothesis g_lip : forall a b c, Q c -> Rabs (g a c - g b c) <= Rabs (a - b).
Hypothesis f_near : forall x c, is_finite x = true -> Q c -> Rabs (B2R x) <= 2 * M -> near (f x c) (g (B2R x) c) L.

Lemma step_near x X e c : near x X e -> Rabs X <= M -> e <= M -> Q c ->
  near (f x c) (g X c) (e + L) /\ Rabs (g X c) <= M.
Proof.
  intros Nx HX He Hc. split; [|now apply g_in].
  pose proof (near_abs x X e Nx) as Ab. destruct Nx as [Fx Hx].
  destruct (f_near x c Fx Hc) as [F1 H1]; [lra|]. split; [assumption|].
  replace (B2R (f x c) - g X c) with ((B2R (f x c) - g (B2R x) c) + (g (B2R x) c - g X c)) by ring.
  eapply Rle_trans; [apply Rabs_triang|]. pose proof (g_lip (B2R x) X c Hc). lra.
Qed.
Lemma fold_near cs : forall x X e, near x X e -> Rabs X <= M -> Forall Q cs -> e + INR (length cs) * L <= M ->
  near (fold_left f cs x) (fold_left g cs X) (e + INR (length cs) * L) /\ Rabs (fold_left g cs X) <= M.
Proof.
  induction cs as [|c cs IH]; intros x X e Nx HX Hc Hb.
  - cbn [fold_left List.length]. split; [|assumption]. eapply near_weaken; [exact Nx|]. simpl. lra.
  - inversion Hc as [|? ? Hq Hc']; subst. cbn [fold_left List.length] in *. rewrite S_INR in *.
    pose proof (pos_INR (length cs)) as P. assert (0 <= INR (length cs) * L) as PL by (apply Rmult_le_pos; assumption).
    destruct (step_near x X e c Nx HX ltac:(lra) Hq) as [N1 B1].
    destruct (IH (f x c) (g X c) (e + L) N1 B1 Hc' ltac:(lra)) as [N2 B2]. split; [|assumption].
    eapply near_weaken; [exact N2|]. lra.
Qed.
Lemma iterates_near E cs : forall x X e, near x X e -> Rabs X <= M -> Forall Q cs -> e + INR (length cs) * L <= E -> E <= M ->
  Forall2 (fun y Y => near y Y E) (@iterates f64 _ f x cs) (@iterates R _ g X cs).
Proof.
  induction cs as [|c cs IH]; intros x X e Nx HX Hc Hb HE; cbn [iterates]; constructor.
  - inversion Hc as [|? ? Hq Hc']; subst. cbn [List.length] in *. rewrite S_INR in *.
    pose proof (pos_INR (length cs)) as P. assert (0 <= INR (length cs) * L) as PL by (apply Rmult_le_pos; assumption).
    destruct (step_near x X e c Nx HX ltac:(lra) Hq) as [N1 B1]. eapply near_weaken; [exact N1|]. lra.
  - inversion Hc as [|? ? Hq Hc']; subst. cbn [List.length] in *. rewrite S_INR in *.
    pose proof (pos_INR (length cs)) as P. assert (0 <= INR (length cs) * L) as PL by (apply Rmult_le_pos; assumption).
    destruct (step_near x X e c Nx HX ltac:(lra) Hq) as [N1 B1].
    apply (IH _ _ (e + L)); auto. lra.
Qed.
End Iterate.
Lemma iterates_map {A B} (h : A -> B) (g : R -> B -> R) l : forall X,
  @iterates R _ g X (map h l) = @iterates R _ (fun x a => g x (h a)) X l.
Proof. induction l as [|a l IH]; intros X; cbn [iterates map]; [reflexivity|]. now rewrite IH. Qed.

Lemma Rabs_convex p a c M : 0 <= p <= 1 -> Rabs a <= M -> Rabs c <= M -> Rabs (c * p + a * (1 - p)) <= M.
Proof.
  intros Hp Ha Hc. apply Rabs_le_inv in Ha, Hc. apply Rabs_le. nra.
Qed.

(** *** Means *)
Lemma mean_near l M : l <> [] -> INR (length l) <= steps -> lowM <= M <= highM ->
  Forall (fun x : f64 => is_finite x = true /\ Rabs (B2R x) <= M) l ->
  near (@mean_of f64 f64_num l) (@mean_of R R_num (map B2R l)) ((2 * INR (length l) + 3) * uro * M) /\
  Rabs (@mean_of R R_num (map B2R l)) <= M.
Proof.
  intros Hn Hs HM H.
  assert (map B2R l <> []) as Hn' by (destruct l; [contradiction|discriminate]).
  rewrite mean_value by assumption. rewrite map_length.
  change (@List.length (binary_float 53 1024) l) with (@List.length f64 l). unfold mean_of, sum_of. cbn [fdiv fadd fofZ f64_num].
  assert (sumabs (map B2R l) <= INR (length l) * M) as SB.
  { replace (length l) with (length (map B2R l)) by apply map_length. apply sumabs_bound. rewrite Forall_map. eapply Forall_impl; [|exact H]. intros x [_ K]. exact K. }
  assert (1 <= INR (length l)) as N1.
  { destruct l as [|x l]; [contradiction|]. cbn [List.length]. rewrite S_INR. pose proof (pos_INR (length l)). lra. }
  assert (1 <= Z.of_nat (length l))%Z as N1z by (destruct l; [contradiction|cbn [List.length]; lia]).
  destruct (sizes (length l) M Hs HM) as [NH MH]. destruct HM as [HM1 HM2].
  pose proof (steps_int (length l) Hs) as Ei.
  pose proof (sum_near l (i2f 0)) as SN.
  pose proof (pow_uro (length l)) as Pw. pose proof (pow_uro_ge1 (length l)) as Pw1.
  pose proof (sumR_le_abs (map B2R l)) as RS. change (sumR (map B2R l)) with (rsum (map B2R l)) in RS.
  set (n := INR (length l)) in *.
  pose proof uro_pos as U. pose proof uro_small as Us. pose proof eta_pos as Et. pose proof lowM_pos as Lp. pose proof eta_lowM as El. pose proof steps_uro as Su.
  assert (uro * lowM <= uro * M) as UM by (apply Rmult_le_compat_l; lra).
  assert (n * (2 * uro) <= / 64) as Nu.
  { assert (n * uro <= steps * uro) by (apply Rmult_le_compat_r; lra). lra. }
  specialize (Pw ltac:(lra)).
  assert (exact_int 0) as E0 by (unfold exact_int; lia).
  assert (B2R (i2f 0) = 0) as Z0 by (now rewrite i2f_B2R).
  pose proof (sumabs_nonneg (map B2R l)) as SA0.
  set (P := (1 + uro) ^ length l) in *. set (SA := sumabs (map B2R l)) in *.
  rewrite Z0, Rabs_R0, !Rplus_0_l in SN. change (sumR (map B2R l)) with (rsum (map B2R l)) in SN.
  set (SR := rsum (map B2R l)) in *.
  assert (0 < M) as M0 by lra.
  assert (0 <= n * M) as NM0 by (apply Rmult_le_pos; lra).
  assert (P * SA <= 2 * (n * M)) as PS by (apply Rmult_le_compat; lra).
  specialize (SN (i2f_finite 0 E0) ltac:(eapply Forall_impl; [|exact H]; intros x [K _]; exact K) ltac:(lra)).
  assert ((P - 1) * SA <= n * (2 * uro) * (n * M)) as EB by (apply Rmult_le_compat; lra).
  assert (n * (2 * uro) * (n * M) <= / 64 * (n * M)) as EB2 by (apply Rmult_le_compat_r; lra).
  set (e := (P - 1) * SA) in *.
  destruct (near_div_int _ _ _ (Z.of_nat (length l)) SN N1z Ei ltac:(lra)) as [F E].
  rewrite <- INR_IZR_INZ in F, E || rewrite <- INR_IZR_INZ in E. fold n in E. split.
  - split; [exact F|]. eapply Rle_trans; [exact E|].
    assert ((e + uro * (Rabs SR + e)) / n <= (n * (2 * uro) * (n * M) + uro * (2 * (n * M))) / n) as Q.
    { unfold Rdiv. apply Rmult_le_compat_r; [left; apply Rinv_0_lt_compat; lra|].
      apply Rplus_le_compat; [exact EB|]. apply Rmult_le_compat_l; lra. }
    replace ((n * (2 * uro) * (n * M) + uro * (2 * (n * M))) / n) with ((2 * n + 2) * uro * M) in Q by (field; lra).
    replace ((2 * n + 3) * uro * M) with ((2 * n + 2) * uro * M + uro * M) by ring. lra.
  - unfold Rdiv. rewrite Rabs_mult, Rabs_inv, (Rabs_pos_eq n) by lra.
    apply Rmult_le_reg_r with n; [lra|]. rewrite Rmult_assoc, Rinv_l by lra. lra.
Qed.

(** *** One step of each recurrence *)
Section Steps.
Variables (M : R) (n : nat).
Hypothesis HM : lowM <= M <= highM.
Hypothesis Hn : (0 < n)%nat.
Hypothesis Hs : INR n <= steps.

Lemma n_ge1 : 1 <= INR n.
Proof. apply (le_INR 1). lia. Qed.
Lemma add_one : f64_add (i2f (Z.of_nat n)) (i2f 1) = i2f (Z.of_nat n + 1).
Proof.
  assert (exact_int (Z.of_nat n + 1)) as E1.
  { unfold exact_int. rewrite INR_IZR_INZ in Hs. change steps with (IZR (2 ^ 40)) in Hs. apply le_IZR in Hs.
    assert (2 ^ 40 < 2 ^ 53)%Z by (vm_compute; reflexivity). lia. }
  destruct (add_int (Z.of_nat n) 1 (steps_int n Hs) ltac:(unfold exact_int; lia) E1) as [F E].
  apply B2R_inj.
  - apply (B2R_strict _ F). rewrite E. apply not_0_IZR. lia.
  - apply (B2R_strict _ (i2f_finite _ E1)). rewrite i2f_B2R by assumption. apply not_0_IZR. lia.
  - rewrite E, i2f_B2R by assumption. reflexivity.
Qed.
Lemma ema_step_near (x c : f64) : is_finite x = true -> is_finite c = true -> Rabs (B2R x) <= 2 * M -> Rabs (B2R c) <= M ->
  near (@ema_step f64 f64_num (@ema_weight f64 f64_num (Z.of_nat n)) x c)
       (@ema_step R R_num (@ema_weight R R_num (Z.of_nat n)) (B2R x) (B2R c)) (22 * uro * M).
Proof.
  intros Fx Fc Hx Hc. pose proof n_ge1 as N1. destruct (sizes n M Hs HM) as [_ MH]. destruct HM as [HM1 HM2].
  pose proof uro_pos as U. pose proof uro_small as Us. pose proof eta_pos as Et. pose proof lowM_pos as Lp. pose proof eta_lowM as El.
  pose proof eta_uro as Eu. pose proof huge_ge1 as Hg. pose proof huge_1000 as Hg'.
  assert (uro * lowM <= uro * M) as UM by (apply Rmult_le_compat_l; lra).
  unfold ema_step, ema_weight. cbn [fadd fsub fmul fdiv fofZ f64_num R_num]. rewrite add_one.
  set (k := INR n + 1). assert (IZR (Z.of_nat n) + 1 = k) as Ek by (unfold k; now rewrite <- INR_IZR_INZ).
  assert (IZR (Z.of_nat n + 1) = k) as Ek' by (now rewrite plus_IZR).
  assert (near (f64_div (i2f 2) (i2f (Z.of_nat n + 1))) (2 / k) (2 * uro)) as NP.
  { pose proof (near_div_int (i2f 2) 2 0 (Z.of_nat n + 1) (near_int 2 ltac:(unfold exact_int; lia)) ltac:(lia)) as N2.
    rewrite Ek' in N2. eapply near_weaken; [apply N2|].
    - unfold exact_int. rewrite INR_IZR_INZ in Hs. change steps with (IZR (2 ^ 40)) in Hs. apply le_IZR in Hs.
      assert (2 ^ 40 < 2 ^ 53)%Z by (vm_compute; reflexivity). lia.
    - rewrite Rabs_pos_eq by lra. lra.
    - rewrite Rabs_pos_eq by lra. unfold Rdiv. assert (/ k <= / 2) by (apply Rinv_le_contravar; unfold k; lra). nra. }
  rewrite Ek. assert (0 <= 2 / k <= 1) as PR.
  { split; [apply Rmult_le_pos; [lra|left; apply Rinv_0_lt_compat; unfold k; lra]|].
    unfold Rdiv. assert (/ k <= / 2) by (apply Rinv_le_contravar; unfold k; lra). lra. }
  set (P := 2 / k) in *. set (p := f64_div (i2f 2) (i2f (Z.of_nat n + 1))) in *.
  assert (near (f64_sub (i2f 1) p) (1 - P) (5 * uro)) as NQ.
  { eapply near_weaken; [apply near_sub; [exact (near_int 1 ltac:(unfold exact_int; lia))|exact NP|]|].
    - rewrite (Rabs_pos_eq 1), (Rabs_pos_eq P) by lra. lra.
    - rewrite (Rabs_pos_eq (1 - P)) by lra. nra. }
  assert (near (f64_mul c p) (B2R c * P) (4 * (uro * M))) as NCP.
  { eapply near_weaken; [apply near_mul; [exact (near_refl c Fc)|exact NP|]|].
    - rewrite (Rabs_pos_eq P) by lra. pose proof (Rabs_pos (B2R c)). nra.
    - cbv zeta. rewrite Rabs_mult, (Rabs_pos_eq P) by lra. pose proof (Rabs_pos (B2R c)).
      assert (2 * uro * Rabs (B2R c) <= 2 * (uro * M)) by nra.
      assert (Rabs (B2R c) * P <= M) by nra. assert (uro * (uro * M) <= uro * M) by nra. nra. }
  assert (near (f64_mul x (f64_sub (i2f 1) p)) (B2R x * (1 - P)) (14 * (uro * M))) as NXQ.
  { eapply near_weaken; [apply near_mul; [exact (near_refl x Fx)|exact NQ|]|].
    - rewrite (Rabs_pos_eq (1 - P)) by lra. pose proof (Rabs_pos (B2R x)). nra.
    - cbv zeta. rewrite Rabs_mult, (Rabs_pos_eq (1 - P)) by lra. pose proof (Rabs_pos (B2R x)).
      assert (5 * uro * Rabs (B2R x) <= 10 * (uro * M)) by nra.
      assert (Rabs (B2R x) * (1 - P) <= 2 * M) by nra. assert (10 * (uro * (uro * M)) <= uro * M) by nra. nra. }
  assert (Rabs (B2R c * P) <= M) by (rewrite Rabs_mult, (Rabs_pos_eq P) by lra; pose proof (Rabs_pos (B2R c)); nra).
  assert (Rabs (B2R x * (1 - P)) <= 2 * M) by (rewrite Rabs_mult, (Rabs_pos_eq (1 - P)) by lra; pose proof (Rabs_pos (B2R x)); nra).
  assert (uro * M <= M) by nra.
  eapply near_weaken; [apply near_add; [exact NCP|exact NXQ|lra]|].
  pose proof (Rabs_triang (B2R c * P) (B2R x * (1 - P))). assert (18 * (uro * (uro * M)) <= uro * M) by nra. nra.
Qed.

Lemma smma_second_near (x c : f64) : is_finite x = true -> is_finite c = true -> Rabs (B2R x) <= 2 * M -> Rabs (B2R c) <= M ->
  near (@smma_second f64 f64_num (Z.of_nat n) x c) (@smma_second R R_num (Z.of_nat n) (B2R x) (B2R c)) (16 * uro * M).
Proof.
  intros Fx Fc Hx Hc. pose proof n_ge1 as N1. destruct (sizes n M Hs HM) as [NH MH]. destruct HM as [HM1 HM2].
  pose proof uro_pos as U. pose proof uro_small as Us. pose proof eta_pos as Et. pose proof lowM_pos as Lp. pose proof eta_lowM as El.
  pose proof eta_uro as Eu. pose proof huge_ge1 as Hg.
  assert (uro * lowM <= uro * M) as UM by (apply Rmult_le_compat_l; lra).
  pose proof (steps_int n Hs) as Ei. pose proof steps_huge as Sh.
  unfold smma_second. cbn [fadd fsub fmul fdiv fofZ f64_num R_num].
  pose proof (near_int _ Ei) as Nn. rewrite <- INR_IZR_INZ in Nn. rewrite <- INR_IZR_INZ.
  set (v := INR n) in *. pose proof (Rabs_pos (B2R x)) as X0. pose proof (Rabs_pos (B2R c)) as C0.
  assert (near (f64_sub (i2f (Z.of_nat n)) (i2f 1)) (v - 1) (uro * v)) as NQ.
  { eapply near_weaken; [apply near_sub; [exact Nn|exact (near_int 1 ltac:(unfold exact_int; lia))|]|].
    - rewrite (Rabs_pos_eq 1), (Rabs_pos_eq v) by lra. lra.
    - rewrite (Rabs_pos_eq (v - 1)) by lra. lra. }
  set (w := uro * M * v). assert (uro * M <= w) as W1 by (unfold w; nra).
  assert (uro * w <= / 1000000 * w) as W2 by (apply Rmult_le_compat_r; [unfold w; nra|lra]).
  assert (M <= M * v) as W4 by nra.
  assert (w <= M * v) as W3 by (replace w with (uro * (M * v)) by (unfold w; ring); nra). 
  assert (Rabs (B2R x) * (v - 1) <= 2 * (M * v) - 2 * M) as XV by nra.
  assert (uro * (M * v) = w) as Wd by (unfold w; ring).
  assert (near (f64_mul x (f64_sub (i2f (Z.of_nat n)) (i2f 1))) (B2R x * (v - 1)) (5 * w)) as NM.
  { eapply near_weaken; [apply near_mul; [exact (near_refl x Fx)|exact NQ|]|].
    - rewrite (Rabs_pos_eq (v - 1)) by lra. assert (Rabs (B2R x) * (uro * v) <= 2 * w) by (unfold w; nra). nra.
    - cbv zeta. rewrite Rabs_mult, (Rabs_pos_eq (v - 1)) by lra.
      assert (uro * v * Rabs (B2R x) <= 2 * w) by (unfold w; nra).
      assert (uro * (Rabs (B2R x) * (v - 1)) <= 2 * w) by (rewrite <- Wd; nra).
      assert (uro * (uro * v * Rabs (B2R x)) <= uro * (2 * w)) by (apply Rmult_le_compat_l; lra). nra. }
  assert (Rabs (B2R x * (v - 1)) <= 2 * (M * v) - 2 * M) as XV' by (rewrite Rabs_mult, (Rabs_pos_eq (v - 1)) by lra; exact XV).
  assert (near (f64_add (f64_mul x (f64_sub (i2f (Z.of_nat n)) (i2f 1))) c) (B2R x * (v - 1) + B2R c) (9 * w)) as NA.
  { eapply near_weaken; [apply near_add; [exact NM|exact (near_refl c Fc)|nra]|].
    pose proof (Rabs_triang (B2R x * (v - 1)) (B2R c)).
    assert (uro * Rabs (B2R x * (v - 1) + B2R c) <= uro * (2 * (M * v))) by (apply Rmult_le_compat_l; lra). nra. }
  assert (Rabs (B2R x * (v - 1) + B2R c) <= 2 * (M * v)) as XC by (pose proof (Rabs_triang (B2R x * (v - 1)) (B2R c)); lra).
  pose proof (near_div_int _ _ _ (Z.of_nat n) NA ltac:(lia) Ei ltac:(nra)) as ND. rewrite <- INR_IZR_INZ in ND. fold v in ND.
  eapply near_weaken; [exact ND|].
  assert ((9 * w + uro * (Rabs (B2R x * (v - 1) + B2R c) + 9 * w)) / v <= (12 * w) / v) as Q.
  { unfold Rdiv. apply Rmult_le_compat_r; [left; apply Rinv_0_lt_compat; lra|].
    assert (uro * Rabs (B2R x * (v - 1) + B2R c) <= uro * (2 * (M * v))) by (apply Rmult_le_compat_l; lra). nra. }
  replace (12 * w / v) with (12 * (uro * M)) in Q by (unfold w; field; lra). nra.
Qed.
Lemma smma_later_near (x c : f64) : is_finite x = true -> is_finite c = true -> Rabs (B2R x) <= 2 * M -> Rabs (B2R c) <= M ->
  near (@smma_later f64 f64_num (Z.of_nat n) x c) (@smma_later R R_num (Z.of_nat n) (B2R x) (B2R c)) (16 * uro * M).
Proof.
  intros Fx Fc Hx Hc. pose proof n_ge1 as N1. destruct (sizes n M Hs HM) as [NH MH]. destruct HM as [HM1 HM2].
  pose proof uro_pos as U. pose proof uro_small as Us. pose proof eta_pos as Et. pose proof lowM_pos as Lp. pose proof eta_lowM as El.
  pose proof eta_uro as Eu. pose proof huge_ge1 as Hg.
  assert (uro * lowM <= uro * M) as UM by (apply Rmult_le_compat_l; lra).
  pose proof (steps_int n Hs) as Ei.
  unfold smma_later. cbn [fadd fsub fmul fdiv fofZ f64_num R_num].
  pose proof (near_int _ Ei) as Nn. rewrite <- INR_IZR_INZ in Nn. rewrite <- INR_IZR_INZ.
  set (v := INR n) in *. pose proof (Rabs_pos (B2R x)) as X0. pose proof (Rabs_pos (B2R c)) as C0.
  set (w := uro * M * v). assert (uro * M <= w) as W1 by (unfold w; nra).
  assert (uro * w <= / 1000000 * w) as W2 by (apply Rmult_le_compat_r; [unfold w; nra|lra]).
  assert (M <= M * v) as W4 by nra.
  assert (w <= M * v) as W3 by (replace w with (uro * (M * v)) by (unfold w; ring); nra). 
  assert (uro * (M * v) = w) as Wd by (unfold w; ring).
  assert (Rabs (B2R x * v) <= 2 * (M * v)) as XV by (rewrite Rabs_mult, (Rabs_pos_eq v) by lra; nra).
  assert (near (f64_mul x (i2f (Z.of_nat n))) (B2R x * v) (3 * w)) as NM.
  { eapply near_weaken; [apply near_mul; [exact (near_refl x Fx)|exact Nn|]|].
    - rewrite (Rabs_pos_eq v) by lra. rewrite !Rplus_0_r. rewrite Rabs_mult, (Rabs_pos_eq v) in XV by lra. nra.
    - cbv zeta. assert (uro * Rabs (B2R x * v) <= uro * (2 * (M * v))) by (apply Rmult_le_compat_l; lra). nra. }
  assert (Rabs (B2R x * v - B2R x) <= 2 * (M * v) - 2 * M) as XW.
  { replace (B2R x * v - B2R x) with (B2R x * (v - 1)) by ring. rewrite Rabs_mult, (Rabs_pos_eq (v - 1)) by lra. nra. }
  assert (near (f64_sub (f64_mul x (i2f (Z.of_nat n))) x) (B2R x * v - B2R x) (6 * w)) as NS.
  { eapply near_weaken; [apply near_sub; [exact NM|exact (near_refl x Fx)|nra]|].
    assert (uro * Rabs (B2R x * v - B2R x) <= uro * (2 * (M * v))) by (apply Rmult_le_compat_l; lra). nra. }
  assert (Rabs (B2R x * v - B2R x + B2R c) <= 2 * (M * v)) as XC by (pose proof (Rabs_triang (B2R x * v - B2R x) (B2R c)); lra).
  assert (near (f64_add (f64_sub (f64_mul x (i2f (Z.of_nat n))) x) c) (B2R x * v - B2R x + B2R c) (9 * w)) as NA.
  { eapply near_weaken; [apply near_add; [exact NS|exact (near_refl c Fc)|nra]|].
    assert (uro * Rabs (B2R x * v - B2R x + B2R c) <= uro * (2 * (M * v))) by (apply Rmult_le_compat_l; lra). nra. }
  pose proof (near_div_int _ _ _ (Z.of_nat n) NA ltac:(lia) Ei ltac:(nra)) as ND. rewrite <- INR_IZR_INZ in ND. fold v in ND.
  eapply near_weaken; [exact ND|].
  assert ((9 * w + uro * (Rabs (B2R x * v - B2R x + B2R c) + 9 * w)) / v <= (12 * w) / v) as Q.
  { unfold Rdiv. apply Rmult_le_compat_r; [left; apply Rinv_0_lt_compat; lra|].
    assert (uro * Rabs (B2R x * v - B2R x + B2R c) <= uro * (2 * (M * v))) by (apply Rmult_le_compat_l; lra). nra. }
  replace (12 * w / v) with (12 * (uro * M)) in Q by (unfold w; field; lra). nra.
Qed.
End Steps.

Definition ewv_step {F} {N : GoFloat F} (beta v : F) (c : candle F) : F :=
  fadd (fmul beta v) (fmul (fsub (fofZ 1) beta) (fsub (c_high c) (c_low c))).
Lemma ewv_step_near M (beta v : f64) (c : candle f64) : lowM <= M <= highM ->
  is_finite beta = true -> 0 <= B2R beta <= 1 -> is_finite v = true -> Rabs (B2R v) <= 2 * (2 * M) ->
  is_finite (c_high c) = true -> is_finite (c_low c) = true -> Rabs (B2R (c_high c)) <= M -> Rabs (B2R (c_low c)) <= M ->
  near (@ewv_step f64 f64_num beta v c)
    (B2R beta * B2R v + (1 - B2R beta) * (B2R (c_high c) - B2R (c_low c))) (24 * uro * M).
Proof.
  intros HM Fb Hb Fv Hv Fh Fl Hh Hl. unfold ewv_step. cbn [fadd fsub fmul fofZ f64_num].
  destruct (sizes 0 M ltac:(simpl; left; apply steps_pos) HM) as [_ MH]. destruct HM as [HM1 HM2].
  pose proof uro_pos as U. pose proof uro_small as Us. pose proof eta_pos as Et. pose proof lowM_pos as Lp. pose proof eta_lowM as El.
  pose proof eta_uro as Eu. pose proof huge_1000 as Hg.
  assert (uro * lowM <= uro * M) as UM by (apply Rmult_le_compat_l; lra).
  assert (uro * (uro * M) <= / 1000000 * (uro * M)) as UU by (apply Rmult_le_compat_r; lra). assert (uro * M <= M) as U1 by nra.
  assert (Rabs (B2R (c_high c) - B2R (c_low c)) <= 2 * M) as HL.
  { unfold Rminus. eapply Rle_trans; [apply Rabs_triang|]. rewrite Rabs_Ropp. lra. }
  assert (near (f64_sub (c_high c) (c_low c)) (B2R (c_high c) - B2R (c_low c)) (3 * (uro * M))) as N1.
  { eapply near_weaken; [apply near_sub; [exact (near_refl _ Fh)|exact (near_refl _ Fl)|lra]|].
    assert (uro * Rabs (B2R (c_high c) - B2R (c_low c)) <= uro * (2 * M)) by (apply Rmult_le_compat_l; lra). lra. }
  assert (near (f64_sub (i2f 1) beta) (1 - B2R beta) (2 * uro)) as N2.
  { eapply near_weaken; [apply near_sub; [exact (near_int 1 ltac:(unfold exact_int; lia))|exact (near_refl _ Fb)|]|].
    - rewrite (Rabs_pos_eq 1), (Rabs_pos_eq (B2R beta)) by lra. lra.
    - rewrite (Rabs_pos_eq (1 - B2R beta)) by lra. nra. }
  set (r := B2R (c_high c) - B2R (c_low c)) in *. set (b := B2R beta) in *. pose proof (Rabs_pos r) as R0.
  assert (Rabs ((1 - b) * r) <= 2 * M) as BR by (rewrite Rabs_mult, (Rabs_pos_eq (1 - b)) by lra; nra).
  assert (near (f64_mul (f64_sub (i2f 1) beta) (f64_sub (c_high c) (c_low c))) ((1 - b) * r) (12 * (uro * M))) as N3.
  { eapply near_weaken; [apply near_mul; [exact N2|exact N1|]|].
    - rewrite (Rabs_pos_eq (1 - b)) by lra. apply Rle_trans with (2 * (3 * M)); [|lra]. apply Rmult_le_compat; nra.
    - cbv zeta. rewrite (Rabs_pos_eq (1 - b)) by lra.
      assert (2 * uro * Rabs r <= 4 * (uro * M)) by nra.
      assert (3 * (uro * M) * (1 - b) <= 3 * (uro * M)) by nra.
      assert (uro * Rabs ((1 - b) * r) <= uro * (2 * M)) by (apply Rmult_le_compat_l; lra). nra. }
  assert (Rabs (b * B2R v) <= 4 * M) as BV by (rewrite Rabs_mult, (Rabs_pos_eq b) by lra; pose proof (Rabs_pos (B2R v)); nra).
  assert (near (f64_mul beta v) (b * B2R v) (5 * (uro * M))) as N4.
  { eapply near_weaken; [apply near_mul; [exact (near_refl _ Fb)|exact (near_refl _ Fv)|]|].
    - fold b. rewrite (Rabs_pos_eq b) by lra. pose proof (Rabs_pos (B2R v)). nra.
    - cbv zeta. fold b. assert (uro * Rabs (b * B2R v) <= uro * (4 * M)) by (apply Rmult_le_compat_l; lra). nra. }
  eapply near_weaken; [apply near_add; [exact N4|exact N3|lra]|].
  pose proof (Rabs_triang (b * B2R v) ((1 - b) * r)).
  assert (uro * Rabs (b * B2R v + (1 - b) * r) <= uro * (6 * M)) by (apply Rmult_le_compat_l; lra). lra.
Qed.

(** *** Whole series *)
Lemma scale_sizes M : scale M -> lowM <= M <= highM. Proof. exact (fun H => H). Qed.
Lemma few_steps {A} (l : list A) : few l -> INR (length l) <= steps. Proof. exact (fun H => H). Qed.
Lemma approx_near e x y : near x y e -> approx e x y. Proof. exact (fun H => H). Qed.
Lemma closes_exact cs : closes (map exact_candle cs) = @map f64 R B2R (closes cs).
Proof. unfold closes. rewrite !map_map. apply map_ext. reflexivity. Qed.
Definition mag M (x : f64) := is_finite x = true /\ Rabs (B2R x) <= M.
Lemma forall_closes M cs : Forall (fun c => within_mag M (c_close c)) cs -> Forall (mag M) (closes cs).
Proof. intros H. unfold closes. rewrite Forall_map. exact H. Qed.
Lemma Forall_firstn {A} (P : A -> Prop) l : Forall P l -> forall k, Forall P (firstn k l).
Proof. intros H. induction H as [|x l Hx H IH]; intros [|k]; cbn [firstn]; constructor; auto. Qed.
Lemma Forall_skipn {A} (P : A -> Prop) l : Forall P l -> forall k, Forall P (skipn k l).
Proof. intros H. induction H as [|x l Hx H IH]; intros [|k]; cbn [skipn]; auto. Qed.
Lemma window_map {A B} (h : A -> B) i n l : window i n (map h l) = map h (window i n l).
Proof. unfold window. now rewrite skipn_map, firstn_map. Qed.
Lemma window_len {A} i n (l : list A) : (i + n <= length l)%nat -> length (window i n l) = n.
Proof. intros H. unfold window. rewrite firstn_length, skipn_length. lia. Qed.
Lemma few_le {A} (l : list A) k : INR (length l) <= steps -> (k <= length l)%nat -> INR k <= steps.
Proof. intros H L. apply le_INR in L. lra. Qed.

(** [few] gives room: 64 * length * u <= 1/64. *)
Lemma room {A} (l : list A) : INR (length l) <= steps -> 64 * INR (length l) * uro <= / 64.
Proof. intros H. pose proof steps_uro. pose proof uro_pos. nra. Qed.

Lemma ma_near (cs : list (candle f64)) n M : scale M -> few cs -> (0 < n <= length cs)%nat ->
  Forall (fun c => within_mag M (c_close c)) cs ->
  Forall2 (approx ((INR n + 2) * (2 * uro) * M))
    (map (fun j => @mean_of f64 f64_num (window j n (closes cs))) (seq 0 (length cs - n + 1)))
    (map (fun j => @mean_of R R_num (window j n (closes (map exact_candle cs)))) (seq 0 (length cs - n + 1))).
Proof.
  intros HM Hf Hn Hc. apply scale_sizes in HM. apply few_steps in Hf. apply forall_closes in Hc.
  assert (forall js, Forall (fun j => j + n <= length cs)%nat js ->
    Forall2 (approx ((INR n + 2) * (2 * uro) * M))
    (map (fun j => @mean_of f64 f64_num (window j n (closes cs))) js)
    (map (fun j => @mean_of R R_num (window j n (closes (map exact_candle cs)))) js)) as K.
  { induction js as [|j js IH]; intros Hj; cbn [map]; constructor.
    - inversion Hj as [|? ? Hj1 Hj2]; subst. rewrite closes_exact, window_map.
      assert (length (window j n (closes cs)) = n) as Lw.
      { apply window_len. unfold closes. rewrite map_length. exact Hj1. }
      destruct (mean_near (window j n (closes cs)) M) as [N _].
      + intros E. rewrite E in Lw. cbn in Lw. lia.
      + rewrite Lw. apply (few_le cs); [assumption|lia].
      + assumption.
      + unfold window. apply Forall_firstn, Forall_skipn. exact Hc.
      + apply approx_near. eapply near_weaken; [exact N|]. rewrite Lw. pose proof uro_pos. pose proof lowM_pos.
        assert (0 < uro * M) by (apply Rmult_lt_0_compat; lra). nra.
    - apply IH. now inversion Hj. }
  apply K. rewrite Forall_forall. intros j Hj. apply in_seq in Hj. lia.
Qed.

Lemma seed_near (cs : list (candle f64)) n M : lowM <= M <= highM -> INR (length cs) <= steps -> (0 < n <= length cs)%nat ->
  Forall (mag M) (closes cs) ->
  near (@mean_of f64 f64_num (firstn n (closes cs))) (@mean_of R R_num (firstn n (closes (map exact_candle cs)))) ((2 * INR n + 3) * uro * M) /\
  Rabs (@mean_of R R_num (firstn n (closes (map exact_candle cs)))) <= M.
Proof.
  intros HM Hf Hn Hc. rewrite closes_exact, firstn_map.
  assert (length (firstn n (closes cs)) = n) as Lw by (rewrite firstn_length; unfold closes; rewrite map_length; lia).
  destruct (mean_near (firstn n (closes cs)) M) as [N B].
  + intros E. rewrite E in Lw. cbn in Lw. lia.
  + rewrite Lw. apply (few_le cs); [assumption|lia].
  + assumption.
  + apply Forall_firstn. exact Hc.
  + rewrite Lw in N. split; assumption.
Qed.

Lemma err_arith n k m L M : 1 <= n -> 0 <= k -> n + k <= m -> 64 * m * uro <= / 64 -> 0 < M -> 0 <= L <= 22 ->
  (2 * n + 3) * uro * M + k * (L * uro * M) <= 13 * m * (2 * uro) * M /\ 13 * m * (2 * uro) * M <= M.
Proof.
  intros H1 H2 H3 H4 H5 H6. pose proof uro_pos as U.
  assert (0 < uro * M) as UM by (apply Rmult_lt_0_compat; lra). split.
  - replace ((2 * n + 3) * uro * M + k * (L * uro * M)) with ((2 * n + 3 + k * L) * (uro * M)) by ring.
    replace (13 * m * (2 * uro) * M) with (26 * m * (uro * M)) by ring. apply Rmult_le_compat_r; [lra|]. nra.
  - replace (13 * m * (2 * uro) * M) with ((26 * m * uro) * M) by ring. nra.
Qed.

Lemma ema_near (cs : list (candle f64)) n M : scale M -> few cs -> (0 < n <= length cs)%nat ->
  Forall (fun c => within_mag M (c_close c)) cs ->
  exists xs ys,
    exponential_moving_average (GSlice cs []) (Z.of_nat n) = Ret (xs, None) /\
    exponential_moving_average (GSlice (map exact_candle cs) []) (Z.of_nat n) = Ret (ys, None) /\
    Forall2 (approx (13 * INR (length cs) * (2 * uro) * M)) xs ys.
Proof.
  intros HM Hf Hn Hc. apply scale_sizes in HM. apply few_steps in Hf. apply forall_closes in Hc.
  pose proof uro_pos as U. pose proof lowM_pos as Lp. pose proof (room cs Hf) as Rm.
  assert (0 < M) as M0 by lra. assert (0 < uro * M) as UM by (apply Rmult_lt_0_compat; lra).
  assert (1 <= INR n) as N1 by (apply (le_INR 1); lia).
  eexists. eexists. rewrite (@ema_spec f64 f64_num cs [] n Hn).
  rewrite (@ema_spec R R_num (map exact_candle cs) [] n) by (rewrite map_length; lia).
  split; [reflexivity|]. split; [reflexivity|].
  destruct (seed_near cs n M HM Hf Hn Hc) as [NS BS].
  rewrite skipn_map. destruct (skipn n cs) as [|c later] eqn:Es; cbn [map]; [constructor|]. cbv zeta.
  assert (length later + n + 1 = length cs)%nat as Ll.
  { pose proof (f_equal (@length _) Es) as E. rewrite skipn_length in E. cbn [List.length] in E. lia. }
  assert (INR (length later) + INR n + 1 = INR (length cs)) as Lr.
  { rewrite <- Ll. rewrite !plus_INR. simpl (INR 1). lra. }
  pose proof (pos_INR (length later)) as P0.
  destruct (err_arith (INR n) (INR (length later)) (INR (length cs)) 22 M N1 P0 ltac:(lra) Rm M0 ltac:(lra)) as [A1 A2].
  assert (Forall (mag M) (closes later)) as Hl.
  { pose proof (Forall_skipn _ _ Hc (S n)) as K. unfold closes in K. rewrite skipn_map, (skipn_tail n cs c later Es) in K. exact K. }
  constructor.
  - apply approx_near. eapply near_weaken; [exact NS|]. nra.
  - rewrite (closes_exact later), iterates_map.
    apply (iterates_near (mag M) (@ema_step f64 f64_num (@ema_weight f64 f64_num (Z.of_nat n)))
      (fun x c => @ema_step R R_num (@ema_weight R R_num (Z.of_nat n)) x (B2R c)) M (22 * uro * M)) with (e := (2 * INR n + 3) * uro * M); auto.
    + nra.
    + intros a d Ha [_ Hd]. unfold ema_step. cbn [fadd fmul fsub fofZ R_num]. pose proof (ema_weight_range n ltac:(lia)). apply Rabs_convex; auto; lra.
    + intros a b d _. pose proof (ema_weight_range n ltac:(lia)) as W. unfold ema_step. cbn [fadd fmul fsub fofZ R_num].
      set (p := @ema_weight R R_num (Z.of_nat n)) in *. replace (B2R d * p + a * (1 - p) - (B2R d * p + b * (1 - p))) with ((a - b) * (1 - p)) by ring.
      rewrite Rabs_mult, (Rabs_pos_eq (1 - p)) by lra. pose proof (Rabs_pos (a - b)). nra.
    + intros x d Fx [Fd Hd] Hx. apply ema_step_near; auto; try lia. apply (few_le cs); [assumption|lia].
    + unfold closes. rewrite map_length. exact A1.
Qed.

Lemma smma_real n a c M : (0 < n)%nat -> Rabs a <= M -> Rabs c <= M -> Rabs (@smma_later R R_num (Z.of_nat n) a c) <= M.
Proof.
  intros Hn Ha Hc. apply Rabs_le_inv in Ha, Hc. apply Rabs_le. 
  rewrite (proj2 (smma_steps_agree n a c Hn)). exact (smma_step_within (- M) M n a c Hn Ha Hc).
Qed.

Lemma smma_near (cs : list (candle f64)) n M : scale M -> few cs -> (0 < n <= length cs)%nat ->
  Forall (fun c => within_mag M (c_close c)) cs ->
  exists xs ys,
    smoothed_moving_average (GSlice cs []) (Z.of_nat n) = Ret (xs, None) /\
    smoothed_moving_average (GSlice (map exact_candle cs) []) (Z.of_nat n) = Ret (ys, None) /\
    Forall2 (approx (13 * INR (length cs) * (2 * uro) * M)) xs ys.
Proof.
  intros HM Hf Hn Hc. apply scale_sizes in HM. apply few_steps in Hf. apply forall_closes in Hc.
  pose proof uro_pos as U. pose proof lowM_pos as Lp. pose proof (room cs Hf) as Rm.
  assert (0 < M) as M0 by lra. assert (0 < uro * M) as UM by (apply Rmult_lt_0_compat; lra).
  assert (1 <= INR n) as N1 by (apply (le_INR 1); lia).
  eexists. eexists. rewrite (@smma_spec f64 f64_num cs [] n Hn).
  rewrite (@smma_spec R R_num (map exact_candle cs) [] n) by (rewrite map_length; lia).
  split; [reflexivity|]. split; [reflexivity|].
  destruct (seed_near cs n M HM Hf Hn Hc) as [NS BS].
  assert (length (firstn n (closes cs)) = n) as L1 by (rewrite firstn_length; unfold closes; rewrite map_length; lia).
  assert (length (firstn n (closes (map exact_candle cs))) = n) as L2.
  { rewrite closes_exact, firstn_map, map_length. exact L1. }
  unfold mean_of in NS, BS. rewrite L1, L2 in NS. rewrite L2 in BS.
  set (s := fdiv (sum_of (firstn n (closes cs))) (fofZ (Z.of_nat n))) in *.
  set (S0 := fdiv (sum_of (firstn n (closes (map exact_candle cs)))) (fofZ (Z.of_nat n))) in *.
  assert (INR n <= steps) as Ns by (apply (few_le cs); [assumption|lia]).
  assert (INR n <= INR (length cs)) as Nl by (apply le_INR; lia).
  rewrite closes_exact, skipn_map. pose proof (Forall_skipn _ _ Hc n) as Hk.
  destruct (skipn n (closes cs)) as [|c later] eqn:Es; cbn [map].
  { constructor; [|constructor]. apply approx_near. eapply near_weaken; [exact NS|].
    destruct (err_arith (INR n) 0 (INR (length cs)) 22 M N1 ltac:(lra) ltac:(lra) Rm M0 ltac:(lra)) as [A1 A2]. lra. }
  inversion Hk as [|? ? [Fc Bc] Hl]; subst.
  assert (length later + n + 1 = length cs)%nat as Ll.
  { pose proof (f_equal (@length _) Es) as E. rewrite skipn_length in E. unfold closes in E. rewrite map_length in E. cbn [List.length] in E. lia. }
  assert (INR (length later) + INR n + 1 = INR (length cs)) as Lr.
  { rewrite <- Ll. rewrite !plus_INR. simpl (INR 1). lra. }
  pose proof (pos_INR (length later)) as P0.
  destruct (err_arith (INR n) (INR (length later) + 1) (INR (length cs)) 16 M N1 ltac:(lra) ltac:(lra) Rm M0 ltac:(lra)) as [A1 A2].
  assert (0 <= INR (length later) * (16 * uro * M)) as PL by (apply Rmult_le_pos; nra).
  assert (forall a b d : R, Rabs (@smma_later R R_num (Z.of_nat n) a d - @smma_later R R_num (Z.of_nat n) b d) <= Rabs (a - b)) as Lip.
  { intros a b d. unfold smma_later. cbn [fadd fmul fsub fdiv fofZ R_num]. rewrite <- INR_IZR_INZ.
    replace ((a * INR n - a + d) / INR n - (b * INR n - b + d) / INR n) with ((a - b) * (1 - / INR n)) by (field; lra).
    assert (0 < / INR n <= 1) by (split; [apply Rinv_0_lt_compat; lra|rewrite <- Rinv_1; apply Rinv_le_contravar; lra]).
    rewrite Rabs_mult, (Rabs_pos_eq (1 - / INR n)) by lra. pose proof (Rabs_pos (a - b)). nra. }
  assert (forall a d, @smma_second R R_num (Z.of_nat n) a d = @smma_later R R_num (Z.of_nat n) a d) as Ag.
  { intros a d. unfold smma_later, smma_second. cbn [fadd fmul fsub fdiv fofZ R_num]. rewrite <- INR_IZR_INZ. field. lra. }
  destruct (step_near (mag M) (@smma_second f64 f64_num (Z.of_nat n)) (fun x c => @smma_later R R_num (Z.of_nat n) x (B2R c)) M (16 * uro * M))
    with (x := s) (X := S0) (e := (2 * INR n + 3) * uro * M) (c := c) as [N2 B2]; auto.
  { intros a d Ha [_ Hd]. apply smma_real; auto; lia. }
  { intros x d Fx [Fd Hd] Hx. rewrite <- Ag. apply smma_second_near; auto; lia. }
  { nra. }
  { split; assumption. }
  constructor; [|constructor].
  - apply approx_near. eapply near_weaken; [exact NS|]. nra.
  - apply approx_near. rewrite Ag. eapply near_weaken; [exact N2|]. nra.
  - rewrite iterates_map, Ag.
    apply (iterates_near (mag M) (@smma_later f64 f64_num (Z.of_nat n))
      (fun x c => @smma_later R R_num (Z.of_nat n) x (B2R c)) M (16 * uro * M)) with (e := (2 * INR n + 3) * uro * M + 16 * uro * M); auto.
    + nra.
    + intros a d Ha [_ Hd]. apply smma_real; auto; lia.
    + intros x d Fx [Fd Hd] Hx. apply smma_later_near; auto; lia.
    + lra.
Qed.

Lemma ewv_near (cs : list (candle f64)) (beta : f64) M : scale M -> few cs ->
  is_finite beta = true -> 0 <= B2R beta <= 1 ->
  Forall (fun c => within_mag M (c_high c) /\ within_mag M (c_low c)) cs ->
  approx (12 * INR (length cs) * (2 * uro) * M) (@ewv f64 f64_num cs beta) (@ewv R R_num (map exact_candle cs) (B2R beta)).
Proof.
  intros HM Hf Fb Hb Hc. apply scale_sizes in HM. apply few_steps in Hf.
  pose proof uro_pos as U. pose proof lowM_pos as Lp. pose proof (room cs Hf) as Rm. pose proof (pos_INR (length cs)) as P0.
  assert (0 < M) as M0 by lra. assert (0 < uro * M) as UM by (apply Rmult_lt_0_compat; lra).
  set (Q := fun c : candle f64 => within_mag M (c_high c) /\ within_mag M (c_low c)).
  assert (forall c, Q c -> Rabs (B2R (c_high c) - B2R (c_low c)) <= 2 * M) as QB.
  { intros c [[_ H1] [_ H2]]. unfold real in *. unfold Rminus. eapply Rle_trans; [apply Rabs_triang|]. rewrite Rabs_Ropp. lra. }
  set (g := fun (x : R) (c : candle f64) => B2R beta * x + (1 - B2R beta) * (B2R (c_high c) - B2R (c_low c))).
  destruct (fold_near Q (@ewv_step f64 f64_num beta) g (2 * M) (24 * uro * M)) with (cs := cs) (x := i2f 0) (X := 0) (e := 0) as [N _].
  - nra.
  - intros a c Ha Hq. unfold g. specialize (QB c Hq). rewrite Rplus_comm, (Rmult_comm (1 - _)), (Rmult_comm (B2R beta)).
    replace (B2R beta) with (1 - (1 - B2R beta)) at 2 by ring. apply Rabs_convex; auto; lra.
  - intros a b c _. unfold g. replace (_ - _) with (B2R beta * (a - b)) by ring.
    rewrite Rabs_mult, (Rabs_pos_eq (B2R beta)) by lra. pose proof (Rabs_pos (a - b)). nra.
  - intros x c Fx [[Fh Hh] [Fl Hl]] Hx. apply ewv_step_near; auto.
  - exact (near_int 0 ltac:(unfold exact_int; lia)).
  - rewrite Rabs_R0. lra.
  - exact Hc.
  - assert ((24 * INR (length cs) * uro) * M <= M) by nra. nra.
  - assert (@ewv R R_num (map exact_candle cs) (B2R beta) = fold_left g cs 0) as Er.
    { unfold ewv. cbn [fadd fmul fsub fofZ R_num]. clear. generalize 0 as v.
      induction cs as [|c cs IH]; intros v; cbn [map fold_left]; [reflexivity|]. rewrite IH. reflexivity. }
    rewrite Er. apply approx_near. eapply near_weaken; [exact N|]. lra.
Qed.

(** *** Running totals of volumes *)
Lemma running_len {F} (add : F -> F -> F) l : forall a, length (running add a l) = length l.
Proof. induction l as [|v l IH]; intros a; cbn [running List.length]; [reflexivity|]. now rewrite IH. Qed.
Lemma running_near l : forall (a : f64) S T k, near a S (((1 + uro) ^ k - 1) * T) -> Rabs S <= T ->
  Forall (fun x : f64 => is_finite x = true) l -> (1 + uro) ^ (k + length l) * (T + sumabs (map B2R l)) <= huge ->
  forall i x, nth_error (running f64_add a l) i = Some x ->
  near x (S + sumR (map B2R (firstn (Datatypes.S i) l))) (((1 + uro) ^ (k + Datatypes.S i) - 1) * (T + sumabs (map B2R (firstn (Datatypes.S i) l)))).
Proof.
  pose proof uro_pos as U.
  induction l as [|v l IH]; intros a S T k Na HS Fl Hh i x Hi; [destruct i; discriminate|].
  inversion Fl as [|? ? Fv Fl']; subst. cbn [running] in Hi.
  pose proof (Rabs_pos S) as S0. pose proof (Rabs_pos (B2R v)) as V0. pose proof (pow_uro_ge1 k) as P1.
  assert (1 <= (1 + uro) ^ length l) as P2 by apply pow_uro_ge1.
  pose proof (sumabs_nonneg (map B2R l)) as SA.
  assert (near (f64_add v a) (S + B2R v) (((1 + uro) ^ (k + 1) - 1) * (T + Rabs (B2R v)))) as N1.
  { rewrite Rplus_comm. cbn [List.length map sumabs fold_right] in Hh. fold (sumabs (map B2R l)) in Hh. rewrite pow_add in Hh. cbn [pow] in Hh.
    set (P := (1 + uro) ^ k) in *.
    assert (T + Rabs (B2R v) <= T + (Rabs (B2R v) + sumabs (map B2R l))) as K1 by lra.
    assert (P <= P * ((1 + uro) * (1 + uro) ^ length l)) as K2 by (assert (1 <= (1 + uro) * (1 + uro) ^ length l) by nra; nra).
    eapply near_weaken; [apply near_add; [exact (near_refl v Fv)|exact Na|]|].
    - assert (P * (T + Rabs (B2R v)) <= huge) by (eapply Rle_trans; [|exact Hh]; apply Rmult_le_compat; lra). nra.
    - pose proof (Rabs_triang (B2R v) S) as Tr. rewrite pow_add, pow_1. fold P.
      assert (uro * Rabs (B2R v + S) <= uro * (Rabs (B2R v) + T)) by (apply Rmult_le_compat_l; lra).
      assert (0 <= (1 + uro) * (P - 1) * Rabs (B2R v)) by (repeat apply Rmult_le_pos; lra). nra. }
  destruct i as [|i].
  - cbn [nth_error] in Hi. injection Hi as <-. cbn [firstn map sumR sumabs fold_right]. rewrite !Rplus_0_r. exact N1.
  - cbn [nth_error] in Hi.
    pose proof (IH (f64_add v a) (S + B2R v) (T + Rabs (B2R v)) (k + 1)%nat N1) as H.
    specialize (H ltac:(pose proof (Rabs_triang S (B2R v)); lra) Fl').
    assert ((1 + uro) ^ (k + 1 + length l) * (T + Rabs (B2R v) + sumabs (map B2R l)) <= huge) as Hh'.
    { replace (k + 1 + length l)%nat with (k + length (v :: l))%nat by (cbn [List.length]; lia). rewrite Rplus_assoc. exact Hh. }
    specialize (H Hh' i x Hi).
    replace (k + Datatypes.S (Datatypes.S i))%nat with (k + 1 + Datatypes.S i)%nat by lia.
    change (firstn (Datatypes.S (Datatypes.S i)) (v :: l)) with (v :: firstn (Datatypes.S i) l).
    cbn [map]. change (sumR (B2R v :: map B2R (firstn (Datatypes.S i) l))) with (B2R v + sumR (map B2R (firstn (Datatypes.S i) l))).
    change (sumabs (B2R v :: map B2R (firstn (Datatypes.S i) l))) with (Rabs (B2R v) + sumabs (map B2R (firstn (Datatypes.S i) l))).
    rewrite <- !Rplus_assoc. exact H.
Qed.
Lemma sumabs_firstn k l : sumabs (firstn k l) <= sumabs l.
Proof.
  revert k. induction l as [|x l IH]; intros [|k]; cbn [firstn]; try lra; [apply (sumabs_nonneg (x :: l))|].
  cbn [sumabs fold_right]. specialize (IH k). unfold sumabs in IH. lra.
Qed.
Lemma totals_near (l : list f64) : INR (length l) <= steps -> Forall (fun x : f64 => is_finite x = true) l ->
  sumabs (map B2R l) <= highM ->
  forall i x, nth_error (running_totals f64_add l) i = Some x ->
  near x (sumR (map B2R (firstn (S i) l))) (INR i * (2 * uro) * sumabs (map B2R (firstn (S i) l))).
Proof.
  intros Hf Fl Hs i x Hi. pose proof uro_pos as U. destruct l as [|v l]; [destruct i; discriminate|]. cbn [running_totals] in Hi.
  inversion Fl as [|? ? Fv Fl']; subst. pose proof (room (v :: l) Hf) as Rm.
  destruct i as [|i].
  - cbn [nth_error] in Hi. injection Hi as <-. cbn [firstn map sumR sumabs fold_right]. simpl INR. rewrite Rplus_0_r.
    eapply near_weaken; [exact (near_refl v Fv)|]. lra.
  - cbn [nth_error] in Hi.
    assert (i < length l)%nat as Li.
    { assert (nth_error (running f64_add v l) i <> None) as K by (rewrite Hi; discriminate). apply nth_error_Some in K. rewrite running_len in K. exact K. }
    assert (INR (S i) <= INR (length (v :: l))) as Ll by (apply le_INR; cbn [List.length]; lia).
    pose proof (pos_INR (S i)) as P0. pose proof (sumabs_nonneg (map B2R (firstn (S (S i)) (v :: l)))) as SA.
    change (firstn (S (S i)) (v :: l)) with (v :: firstn (S i) l) in *.
    cbn [map] in *. change (sumR (B2R v :: map B2R (firstn (S i) l))) with (B2R v + sumR (map B2R (firstn (S i) l))).
    change (sumabs (B2R v :: map B2R (firstn (S i) l))) with (Rabs (B2R v) + sumabs (map B2R (firstn (S i) l))) in *.
    change (sumabs (B2R v :: map B2R l)) with (Rabs (B2R v) + sumabs (map B2R l)) in Hs.
    pose proof (running_near l v (B2R v) (Rabs (B2R v)) 0) as H. 
    specialize (H ltac:(eapply near_weaken; [exact (near_refl v Fv)|simpl; lra]) ltac:(lra) Fl').
    assert ((1 + uro) ^ (0 + length l) <= 2) as P2.
    { eapply Rle_trans; [apply (pow_uro (0 + length l)%nat)|]; cbn [Nat.add]; cbn [List.length] in Rm; rewrite S_INR in Rm; pose proof (pos_INR (length l)); nra. }
    pose proof (sumabs_nonneg (map B2R l)) as SA2. pose proof (Rabs_pos (B2R v)) as V0.
    specialize (H ltac:(apply Rle_trans with (2 * highM); [apply Rmult_le_compat; try lra; apply pow_le; lra|
      pose proof highM_huge; pose proof b60_ge; nra]) i x Hi).
    eapply near_weaken; [exact H|]. apply Rmult_le_compat_r; [exact SA|].
    cbn [Nat.add]. pose proof (pow_uro (S i)). nra.
Qed.

(** Integers: exact. *)
Definition zsum (l : list Z) : Z := fold_right Z.add 0%Z l.
Definition zabs (l : list Z) : Z := fold_right (fun z a => (Z.abs z + a)%Z) 0%Z l.
Lemma zabs_nonneg l : (0 <= zabs l)%Z.
Proof. induction l as [|z l IH]; cbn [zabs fold_right]; [lia|]. unfold zabs in IH. lia. Qed.
Lemma add_int' (x y : f64) a b : is_finite x = true -> B2R x = IZR a -> is_finite y = true -> B2R y = IZR b -> exact_int (a + b) ->
  is_finite (f64_add x y) = true /\ B2R (f64_add x y) = IZR (a + b).
Proof.
  intros Fx Bx Fy By Hs. destruct (add_xr x y Fx Fy) as [N E].
  rewrite Bx, By, <- plus_IZR, rnd_int, sat_id in E by (assumption || (apply Rlt_le; now apply exact_lt_big)).
  assert (is_finite (f64_add x y) = true) as F.
  { apply xr_lt_finite; [assumption|]. rewrite E. now apply exact_lt_big. }
  split; [assumption|]. rewrite <- E. symmetry. now apply xr_finite.
Qed.
Definition isint (x : f64) (z : Z) : Prop := is_finite x = true /\ B2R x = IZR z.
Lemma running_int l zs : Forall2 isint l zs -> forall a z, isint a z -> (Z.abs z + zabs zs <= 2 ^ 53)%Z ->
  forall i x, nth_error (running f64_add a l) i = Some x -> isint x (z + zsum (firstn (S i) zs)).
Proof.
  intros H. induction H as [|v w l zs [Fv Bv] H IH]; intros a z [Fa Ba] Hb i x Hi; [destruct i; discriminate|].
  cbn [running] in Hi. cbn [zabs fold_right] in Hb. fold (zabs zs) in Hb. pose proof (zabs_nonneg zs) as P.
  destruct (add_int' v a w z Fv Bv Fa Ba) as [F E]; [unfold exact_int; lia|].
  destruct i as [|i]; cbn [nth_error] in Hi.
  - injection Hi as <-. cbn [firstn zsum fold_right]. split; [exact F|]. rewrite E. f_equal. lia.
  - change (zsum (firstn (S (S i)) (w :: zs))) with (w + zsum (firstn (S i) zs))%Z. rewrite Z.add_assoc, (Z.add_comm z w).
    apply (IH (f64_add v a) (w + z)%Z (conj F E) ltac:(lia) i x Hi).
Qed.
Lemma totals_int l zs : Forall2 isint l zs -> (zabs zs <= 2 ^ 53)%Z ->
  forall i x, nth_error (running_totals f64_add l) i = Some x -> isint x (zsum (firstn (S i) zs)).
Proof.
  intros H Hb i x Hi. destruct H as [|v w l zs Hv H]; [destruct i; discriminate|]. cbn [running_totals] in Hi.
  destruct i as [|i]; cbn [nth_error] in Hi.
  - injection Hi as <-. cbn [firstn zsum fold_right]. rewrite Z.add_0_r. exact Hv.
  - exact (running_int l zs H v w Hv Hb i x Hi).
Qed.

(** The left-to-right sum of a merged candle. *)
Lemma fsum_near (l : list f64) : INR (length l) <= steps -> Forall (fun x : f64 => is_finite x = true) l ->
  sumabs (map B2R l) <= highM ->
  near (fold_left f64_add l (i2f 0)) (sumR (map B2R l)) (INR (length l) * (2 * uro) * sumabs (map B2R l)).
Proof.
  intros Hf Fl Hs. pose proof uro_pos as U. pose proof (room l Hf) as Rm. pose proof (pos_INR (length l)) as P0.
  pose proof (sumabs_nonneg (map B2R l)) as SA. pose proof (pow_uro (length l) ltac:(nra)) as Pw. pose proof (pow_uro_ge1 (length l)) as P1.
  assert (exact_int 0) as E0 by (unfold exact_int; lia).
  assert (B2R (i2f 0) = 0) as Z0 by (now rewrite i2f_B2R).
  pose proof (sum_near l (i2f 0) (i2f_finite 0 E0) Fl) as H. rewrite Z0, Rabs_R0, !Rplus_0_l in H.
  assert ((1 + uro) ^ length l * sumabs (map B2R l) <= huge) as Hh.
  { apply Rle_trans with (2 * highM); [apply Rmult_le_compat; nra|]. pose proof highM_huge. pose proof b60_ge. nra. }
  eapply near_weaken; [exact (H Hh)|]. apply Rmult_le_compat_r; lra.
Qed.
