(** C98: rounding errors of CalculateOverlap, products fused or not. *)
From Coq Require Import Reals Lra Lia Psatz.
From Flocq Require Import Core BinarySingleNaN.
From Verif Require Import Go.Outcome Go.Int64 Go.Slice Go.Float64 Go.FloatOrder Go.FloatReal Go.FloatError Go.Num
  Model.OrderBook Model.Fused Spec.OrderBookSpec Spec.WholeSpec Spec.AccuracySpec Spec.OverlapSpec
  Proofs.Lists Proofs.OrderBook Proofs.DepthOverlap Proofs.WholeOverlap Proofs.Fma Proofs.Accuracy Proofs.FusedIndicators.
Open Scope list_scope.
Open Scope R_scope.
Local Notation length := List.length.
Local Notation B2R := (@B2R 53 1024).

(** *** One step *)
Lemma add_product_near b z Z e x X e1 y Y e2 d M : near z Z e -> near x X e1 -> near y Y e2 ->
  e1 * Rabs Y + e2 * Rabs X + e1 * e2 <= d -> d <= M -> e <= M -> Rabs (X * Y) <= M -> Rabs Z <= M ->
  (Rabs X + e1) * (Rabs Y + e2) <= 4 * M -> eta <= uro * M -> 64 * M <= huge ->
  near (add_product b z x y) (Z + X * Y) (e + d + 8 * uro * M).
Proof.
  intros Nz Nx Ny Hd dM eM XY ZM Big Et Hu. pose proof uro_pos. pose proof uro_small.
  pose proof (near_nonneg _ _ _ Nz). pose proof (near_nonneg _ _ _ Nx). pose proof (near_nonneg _ _ _ Ny).
  pose proof (Rabs_pos X). pose proof (Rabs_pos Y). pose proof (Rabs_pos Z).
  assert (0 <= e1 * Rabs Y + e2 * Rabs X + e1 * e2) as D0 by nra. assert (0 <= M) by lra.
  pose proof (Rabs_triang Z (X * Y)) as Tr.
  assert (0 <= uro * M) by nra. assert (uro * d <= uro * M) by nra. assert (uro * e <= uro * M) by nra. assert (uro * (uro * M) <= / 1000000 * (uro * M)) by nra.
  destruct b; cbn [add_product].
  - rewrite Rplus_comm. eapply near_weaken; [apply (near_fma x X e1 y Y e2 z Z e Nx Ny Nz); lra|]. cbv zeta.
    set (d0 := e1 * Rabs Y + e2 * Rabs X + e1 * e2) in *. rewrite (Rplus_comm (X * Y)).
    assert (uro * (Rabs (Z + X * Y) + (d0 + e)) <= uro * (4 * M)) by (apply Rmult_le_compat_l; lra). lra.
  - pose proof (near_mul x X e1 y Y e2 Nx Ny ltac:(lra)) as Nm. cbv zeta in Nm.
    set (d0 := e1 * Rabs Y + e2 * Rabs X + e1 * e2) in *.
    assert (uro * (Rabs (X * Y) + d0) <= uro * (2 * M)) by (apply Rmult_le_compat_l; lra).
    apply (near_weaken _ _ _ (d + 3 * uro * M)) in Nm; [|lra].
    eapply near_weaken; [apply (near_add z Z e _ _ _ Nz Nm)|].
    + assert (3 * uro * M <= M) by nra. lra.
    + assert (uro * (Rabs (Z + X * Y) + e + (d + 3 * uro * M)) <= uro * (4 * M + 3 * uro * M)) by (apply Rmult_le_compat_l; lra). lra.
Qed.

(** *** Selling in exact arithmetic *)
Definition okrow (P : R) (r : row R) : Prop := 0 <= price r <= P /\ 0 <= volume r.
Lemma proceeds_zero P l : Forall (okrow P) l -> proceeds 0 l = 0.
Proof.
  induction 1 as [|r l [Hp Hv] _ IH]; cbn [proceeds]; [reflexivity|]. destruct (Rlt_dec 0 (volume r)); [ring|].
  replace (volume r) with 0 by lra. rewrite Rminus_0_r, IH. ring.
Qed.
Lemma proceeds_lip P l : 0 <= P -> Forall (okrow P) l -> forall v v', 0 <= v <= v' -> 0 <= proceeds v' l - proceeds v l <= P * (v' - v).
Proof.
  intros P0. induction 1 as [|r l [Hp Hv] Hl IH]; intros v v' H; cbn [proceeds].
  - assert (0 <= P * (v' - v)) by (apply Rmult_le_pos; lra). lra.
  - destruct (Rlt_dec v (volume r)) as [L|L], (Rlt_dec v' (volume r)) as [L'|L']; [| |exfalso; lra|].
    + assert (price r * (v' - v) <= P * (v' - v)) by (apply Rmult_le_compat_r; lra).
      assert (0 <= price r * (v' - v)) by (apply Rmult_le_pos; lra). lra.
    + pose proof (IH 0 (v' - volume r) ltac:(lra)) as K. rewrite (proceeds_zero P l Hl) in K.
      assert (price r * (volume r - v) <= P * (volume r - v)) by (apply Rmult_le_compat_r; lra).
      assert (0 <= price r * (volume r - v)) by (apply Rmult_le_pos; lra). lra.
    + pose proof (IH (v - volume r) (v' - volume r) ltac:(lra)). lra.
Qed.
Lemma total_nonneg P l : Forall (okrow P) l -> 0 <= total_volume l.
Proof. induction 1 as [|r l [Hp Hv] _ IH]; rewrite ?total_nil, ?total_cons; lra. Qed.
Lemma value_bound P l : 0 <= P -> Forall (okrow P) l -> 0 <= value l <= P * total_volume l.
Proof.
  intros P0. induction 1 as [|r l [Hp Hv] _ IH]; rewrite ?total_nil, ?total_cons, ?value_nil, ?value_cons; [lra|].
  assert (0 <= price r * volume r) by (apply Rmult_le_pos; lra).
  assert (price r * volume r <= P * volume r) by (apply Rmult_le_compat_r; lra). lra.
Qed.
Lemma proceeds_all P l : Forall (okrow P) l -> forall v, total_volume l <= v -> proceeds v l = value l.
Proof.
  induction 1 as [|r l [Hp Hv] Hl IH]; intros v H; rewrite ?total_cons in H; cbn [proceeds]; [reflexivity|].
  pose proof (total_nonneg P l Hl). destruct (Rlt_dec v (volume r)); [lra|]. rewrite IH by lra. reflexivity.
Qed.
Lemma proceeds_bound P l v : 0 <= P -> Forall (okrow P) l -> 0 <= v -> 0 <= proceeds v l <= value l.
Proof.
  intros P0 H. intros Hv. pose proof (proceeds_lip P l P0 H 0 v ltac:(lra)) as K1. rewrite (proceeds_zero P l H) in K1.
  split; [lra|]. destruct (Rle_lt_dec (total_volume l) v) as [L|L]; [rewrite (proceeds_all P l H v L); lra|].
  pose proof (proceeds_lip P l P0 H v (total_volume l) ltac:(lra)) as K2. rewrite (proceeds_all P l H _ (Rle_refl _)) in K2. lra.
Qed.

(** *** The loops *)
Section Loops.
Variables P V N : R.
Hypothesis P0 : 0 <= P.
Hypothesis V0 : 0 <= V.
Hypothesis N1 : 1 <= N.
Hypothesis NU : 64 * N * uro <= / 64.
Hypothesis EV : eta <= uro * V.
Hypothesis EM : eta <= uro * (P * V).
Hypothesis HV : 64 * V <= huge.
Hypothesis HM : 100 * (P * V) <= huge.
Let M := P * V.
Definition srow (r : row f64) : Prop :=
  (is_finite (price r) = true /\ 0 <= B2R (price r) <= P) /\ is_finite (volume r) = true /\ 0 <= B2R (volume r).
Lemma srow_ok l : Forall srow l -> Forall (okrow P) (map exact_row l).
Proof. intros H. rewrite Forall_map. revert H. apply Forall_impl. intros r [[_ Hp] [_ Hv]]. split; cbn; assumption. Qed.
Lemma M0 : 0 <= M. Proof. unfold M. now apply Rmult_le_pos. Qed.

Lemma small k : 0 <= k <= 32 * N -> 0 <= k * uro <= / 64.
Proof. intros H. pose proof uro_pos. split; [apply Rmult_le_pos; lra|]. assert (k * uro <= 64 * N * uro) by (apply Rmult_le_compat_r; lra). lra. Qed.
Lemma small_V k : 0 <= k <= 32 * N -> 0 <= k * uro * V <= V / 64.
Proof. intros H. pose proof (small k H). split; [apply Rmult_le_pos; lra|]. assert (k * uro * V <= / 64 * V) by (apply Rmult_le_compat_r; lra). lra. Qed.
Lemma small_M k : 0 <= k <= 32 * N -> 0 <= k * uro * M <= M / 64.
Proof. intros H. pose proof M0. pose proof (small k H). split; [apply Rmult_le_pos; lra|]. assert (k * uro * M <= / 64 * M) by (apply Rmult_le_compat_r; lra). lra. Qed.

Lemma total_step w W k (v : f64) : near w W (2 * k * uro * V) -> 0 <= k <= N -> is_finite v = true -> 0 <= B2R v -> 0 <= W -> W + B2R v <= V ->
  near (f64_add w v) (W + B2R v) (2 * (k + 1) * uro * V).
Proof.
  intros Nw Hk Fv Hv W0 WV. pose proof uro_pos. pose proof (small_V (2 * k) ltac:(lra)).
  eapply near_weaken; [apply (near_add _ _ _ _ _ _ Nw (near_refl v Fv))|].
  - rewrite !Rabs_pos_eq by lra. lra.
  - rewrite Rabs_pos_eq by lra. assert (uro * (W + B2R v + 2 * k * uro * V + 0) <= uro * (2 * V)) by (apply Rmult_le_compat_l; lra). lra.
Qed.
Lemma scan_near stop stop' l : Forall srow l -> (forall r, In r l -> stop r = stop' (exact_row r)) ->
  forall i w W k, near w W (2 * k * uro * V) -> 0 <= B2R w -> 0 <= k -> k + INR (length l) <= N -> 0 <= W -> W + total_volume (map exact_row l) <= V ->
  exists j t T, @overlap_scan f64 f64_num stop l i w = (j, t) /\
    @overlap_scan R R_num stop' (map exact_row l) i W = (j, T) /\ near t T (2 * N * uro * V) /\ 0 <= T <= V /\ 0 <= B2R t.
Proof.
  intros Sl. pose proof uro_pos. induction Sl as [|r l Sr Sl IH]; intros St i w W k Nw w0 K0 KN W0 WV.
  - exists 0%Z, w, W. cbn in *. split; [reflexivity|]. split; [reflexivity|]. split; [|lra].
    eapply near_weaken; [exact Nw|]. apply Rmult_le_compat_r; [assumption|]. apply Rmult_le_compat_r; lra.
  - pose proof (total_nonneg P _ (srow_ok l Sl)) as T0. cbn [map] in WV. rewrite total_cons in WV. cbn [exact_row volume] in WV.
    change (length (r :: l)) with (S (length l)) in KN. rewrite S_INR in KN. pose proof (pos_INR (length l)).
    cbn [overlap_scan map]. rewrite <- (St r) by (left; reflexivity). destruct Sr as [_ [Fv Hv]]. destruct (stop r).
    + exists i, w, W. split; [reflexivity|]. split; [reflexivity|]. split; [|lra].
      eapply near_weaken; [exact Nw|]. apply Rmult_le_compat_r; [assumption|]. apply Rmult_le_compat_r; lra.
    + change (@fadd f64 f64_num) with f64_add. change (@fadd R R_num) with Rplus. cbn [exact_row volume].
      apply (IH ltac:(intros; apply St; now right) _ _ _ (k + 1)); try lra.
      * apply total_step; try assumption; lra.
      * pose proof (small_V (2 * k) ltac:(lra)). destruct Nw as [Fw Ew]. apply Rabs_le_inv in Ew. destruct (of_xr _ _ (add_xr w (volume r) Fw Fv)) as [_ ->].
        -- apply Rabs_le. pose proof huge_1000. lra.
        -- apply rnd_nonneg. lra.
Qed.
Lemma cost_near f l : Forall srow l -> forall i c C k, near c C (8 * k * uro * M) -> 0 <= k -> k + INR (length l) <= N -> 0 <= C ->
  C + value (map exact_row l) <= M ->
  near (overlap_cost_fused f l i c) (@overlap_cost R R_num (map exact_row l) C) (8 * (k + INR (length l)) * uro * M).
Proof.
  intros Sl. pose proof uro_pos. pose proof M0. induction Sl as [|r l Sr Sl IH]; intros i c C k Nc K0 KN C0 CM.
  - cbn [overlap_cost_fused overlap_cost map]. cbn in KN |- *. now rewrite Rplus_0_r.
  - pose proof (value_bound P _ P0 (srow_ok l Sl)) as [Vl _]. cbn [map] in CM. rewrite value_cons in CM. cbn [exact_row price volume] in CM.
    change (length (r :: l)) with (S (length l)) in *. rewrite S_INR in *. pose proof (pos_INR (length l)).
    cbn [overlap_cost_fused overlap_cost map]. change (@fadd R R_num) with Rplus. change (@fmul R R_num) with Rmult. cbn [exact_row price volume].
    destruct Sr as [[Fp Hp] [Fv Hv]]. assert (0 <= B2R (price r) * B2R (volume r)) by (apply Rmult_le_pos; lra).
    pose proof (small_M (8 * k) ltac:(lra)).
    replace (k + (INR (length l) + 1)) with ((k + 1) + INR (length l)) by ring. apply IH; try lra.
    eapply near_weaken.
    + apply (add_product_near (f i) c C _ (price r) (B2R (price r)) 0 (volume r) (B2R (volume r)) 0 0 M Nc (near_refl _ Fp) (near_refl _ Fv));
        rewrite ?Rabs_mult, ?Rabs_pos_eq by lra; try assumption; fold M in EM, HM; lra.
    + lra.
Qed.
Lemma sell_near f l : Forall srow l -> forall i t T w W k c C j, near t T (2 * N * uro * V) -> 0 <= T <= V ->
  near w W (2 * k * uro * V) -> near c C (8 * j * uro * M) -> 0 <= k -> k + INR (length l) <= N -> 0 <= j -> j + INR (length l) <= N ->
  0 <= W -> W + total_volume (map exact_row l) <= V -> 0 <= C -> C + value (map exact_row l) <= M -> B2R w <= B2R t ->
  exists x, 0 <= x <= total_volume (map exact_row l) /\
    near (overlap_sell_fused f l i t w c) (C + proceeds x (map exact_row l)) ((8 * (j + INR (length l)) + 6) * uro * M) /\
    (Rabs (x - (T - W)) <= 6 * N * uro * V \/ x = total_volume (map exact_row l) /\ x - 6 * N * uro * V <= T - W).
Proof.
  intros Sl. pose proof uro_pos. pose proof M0. induction Sl as [|r l Sr Sl IH]; intros i t T w W k c C j Nt HT Nw Nc K0 KN J0 JN W0 WV C0 CM wt.
  - cbn [overlap_sell_fused map proceeds List.length INR] in *. rewrite total_nil in *. exists 0. split; [lra|]. rewrite Rplus_0_r.
    pose proof (small_M 6 ltac:(lra)). split; [eapply near_weaken; [exact Nc|]; cbn [INR]; lra|]. right. split; [reflexivity|].
    destruct Nt as [_ Nt], Nw as [_ Nw]. apply Rabs_le_inv in Nt. apply Rabs_le_inv in Nw.
    assert (2 * k * uro * V <= 2 * N * uro * V) by (apply Rmult_le_compat_r; [assumption|]; apply Rmult_le_compat_r; lra).
    pose proof (small_V (2 * N) ltac:(lra)). lra.
  - pose proof (value_bound P _ P0 (srow_ok l Sl)) as [Vl _]. pose proof (total_nonneg P _ (srow_ok l Sl)) as Tl.
    cbn [map] in *. rewrite total_cons in *. rewrite value_cons in CM. cbn [exact_row price volume] in WV, CM.
    change (length (r :: l)) with (S (length l)) in *. rewrite S_INR in *. pose proof (pos_INR (length l)).
    cbn [overlap_sell_fused]. destruct Sr as [[Fp Hp] [Fv Hv]].
    assert (0 <= B2R (price r) * B2R (volume r)) by (apply Rmult_le_pos; lra).
    assert (2 * k * uro * V <= 2 * N * uro * V) by (apply Rmult_le_compat_r; [assumption|]; apply Rmult_le_compat_r; lra).
    pose proof (small_V (2 * N) ltac:(lra)) as SN. pose proof (small_V 2 ltac:(lra)) as S2. pose proof (small_M 4 ltac:(lra)) as S4. pose proof (small_M (8 * j) ltac:(lra)) as Sj.
    pose proof (total_step w W k (volume r) Nw ltac:(lra) Fv Hv W0 ltac:(lra)) as Ns.
    assert (Rabs (B2R (f64_add w (volume r)) - (B2R w + B2R (volume r))) <= 2 * uro * V) as D.
    { destruct Nw as [Fw Ew]. apply Rabs_le_inv in Ew. destruct (of_xr _ _ (add_xr w (volume r) Fw Fv)) as [_ ->].
      - apply Rabs_le. pose proof huge_1000. lra.
      - eapply Rle_trans; [apply rnd_add_err|]. replace (2 * uro * V) with (uro * (2 * V)) by ring. apply Rmult_le_compat_l; [lra|]. apply Rabs_le. lra. }
    rewrite fin_lt by (apply Nt || apply Ns).
    destruct (Rlt_bool_spec (B2R t) (B2R (f64_add w (volume r)))) as [L|L].
    + set (d := B2R t - B2R w) in *. assert (0 <= d) as d0 by (unfold d; lra).
      apply Rabs_le_inv in D. assert (d <= B2R (volume r) + 2 * uro * V) as dv by (unfold d; lra).
      pose proof Nt as [Ft Et]. pose proof Nw as [Fw Ew]. apply Rabs_le_inv in Et. apply Rabs_le_inv in Ew.
      set (x := Rmin d (B2R (volume r))).
      assert (0 <= x <= B2R (volume r)) as Hx by (split; [apply Rmin_glb; lra|apply Rmin_r]).
      assert (0 <= d - x <= 2 * uro * V) as Hdx by (unfold x, Rmin; destruct (Rle_dec d (B2R (volume r))); lra).
      exists x. split; [cbn [exact_row volume]; lra|]. split.
      * assert (proceeds x (exact_row r :: map exact_row l) = x * B2R (price r)) as ->.
        { cbn [proceeds exact_row volume price]. destruct (Rlt_dec x (B2R (volume r))) as [?|?]; [reflexivity|].
          replace (B2R (volume r)) with x by lra. rewrite Rminus_diag_eq, (proceeds_zero P) by (reflexivity || now apply srow_ok). ring. }
        assert (near (f64_sub t w) d (3 * uro * V)) as Nd.
        { eapply near_weaken; [apply (near_sub _ _ _ _ _ _ (near_refl t Ft) (near_refl w Fw))|].
          - assert (Rabs (B2R t) <= 2 * V) by (apply Rabs_le; lra). assert (Rabs (B2R w) <= 2 * V) by (apply Rabs_le; lra). lra.
          - fold d. rewrite (Rabs_pos_eq d) by assumption. assert (uro * (d + 0 + 0) <= uro * (2 * V)) by (apply Rmult_le_compat_l; lra). lra. }
        assert (uro * V * B2R (price r) <= uro * M) as K1.
        { unfold M. replace (uro * (P * V)) with (uro * V * P) by ring. apply Rmult_le_compat_l; lra. }
        assert (d * B2R (price r) <= (9 / 8 * V) * P) as K2 by (apply Rmult_le_compat; lra). 
        assert (0 <= d * B2R (price r)) as K3 by (apply Rmult_le_pos; lra).
        assert (0 <= (d - x) * B2R (price r) <= 2 * uro * M) as K4.
        { split; [apply Rmult_le_pos; lra|]. assert ((d - x) * B2R (price r) <= (2 * uro * V) * B2R (price r)) by (apply Rmult_le_compat_r; lra). lra. }
        assert (0 <= uro * V * B2R (price r)) as K5 by (apply Rmult_le_pos; lra).
        pose proof (add_product_near (f i) c C _ _ d (3 * uro * V) (price r) (B2R (price r)) 0 (3 * uro * M) (9 / 8 * M) Nc Nd (near_refl _ Fp)) as R.
        rewrite Rabs_mult, !Rabs_pos_eq in R by lra.
        specialize (R ltac:(lra) ltac:(lra) ltac:(lra) ltac:(unfold M; lra) ltac:(lra)).
        specialize (R ltac:(rewrite Rplus_0_r, Rmult_plus_distr_r; unfold M in *; lra) ltac:(unfold M in *; lra) ltac:(unfold M in *; lra)). destruct R as [Fr R].
        split; [exact Fr|]. apply Rabs_le_inv in R. apply Rabs_le.
        assert (0 <= INR (length l) * (uro * M)) by (apply Rmult_le_pos; [assumption|apply Rmult_le_pos; lra]). 
        replace (d * B2R (price r)) with (x * B2R (price r) + (d - x) * B2R (price r)) in R by ring. lra.
      * left. assert (2 * uro * V <= 2 * N * uro * V) by (apply Rmult_le_compat_r; [assumption|]; apply Rmult_le_compat_r; lra).
        apply Rabs_le. unfold d in *. lra.
    + destruct (IH (i + 1)%Z t T (f64_add w (volume r)) (W + B2R (volume r)) (k + 1) (add_product (f i) c (price r) (volume r))
        (C + B2R (price r) * B2R (volume r)) (j + 1)) as (x & Hx & Nx & Ex); try assumption; try lra.
      * eapply near_weaken.
        -- apply (add_product_near (f i) c C _ (price r) (B2R (price r)) 0 (volume r) (B2R (volume r)) 0 0 M Nc (near_refl _ Fp) (near_refl _ Fv));
             rewrite ?Rabs_mult, ?Rabs_pos_eq by lra; try assumption; fold M in EM, HM; lra.
        -- lra.
      * exists (B2R (volume r) + x). split; [cbn [exact_row volume]; lra|]. split.
        -- assert (proceeds (B2R (volume r) + x) (exact_row r :: map exact_row l) = B2R (price r) * B2R (volume r) + proceeds x (map exact_row l)) as ->.
           { cbn [proceeds exact_row volume price]. destruct (Rlt_dec (B2R (volume r) + x) (B2R (volume r))); [exfalso; lra|]. repeat f_equal. ring. }
           rewrite <- Rplus_assoc. eapply near_weaken; [exact Nx|]. right. ring.
        -- cbn [exact_row volume]. destruct Ex as [Ex|[Ex1 Ex2]]; [left|right].
           ++ replace (B2R (volume r) + x - (T - W)) with (x - (T - (W + B2R (volume r)))) by ring. exact Ex.
           ++ split; lra.
Qed.
(** The amounts sold differ by rounding errors only, so the proceeds do. *)
Lemma sell_near_exact f l t T : Forall srow l -> near t T (2 * N * uro * V) -> 0 <= B2R t -> 0 <= T <= V -> INR (length l) <= N ->
  total_volume (map exact_row l) <= V ->
  near (overlap_sell_fused f l 0 t (i2f 0) (i2f 0)) (@overlap_sell R R_num (map exact_row l) T 0 0) (20 * N * uro * M) /\
  0 <= @overlap_sell R R_num (map exact_row l) T 0 0 <= M.
Proof.
  intros Sl Nt t0 HT LN TV. pose proof uro_pos. pose proof M0. pose proof (srow_ok l Sl) as Ok.
  pose proof (value_bound P _ P0 Ok) as [V1 V2]. assert (value (map exact_row l) <= M) as V3.
  { eapply Rle_trans; [exact V2|]. apply Rmult_le_compat_l; assumption. }
  assert (near (i2f 0) 0 0) as Z by (apply (near_int 0); unfold exact_int; lia).
  rewrite sell_proceeds, Rplus_0_l, Rminus_0_r.
  destruct (sell_near f l Sl 0%Z t T (i2f 0) 0 0 (i2f 0) 0 0) as (x & Hx & Nx & Ex); try assumption; try lra.
  { eapply near_weaken; [exact Z|]. lra. }
  { eapply near_weaken; [exact Z|]. lra. }
  rewrite !Rplus_0_l in Nx. split; [|pose proof (proceeds_bound P _ T P0 Ok ltac:(lra)); lra].
  rewrite Rminus_0_r in Ex.
  assert (Rabs (proceeds x (map exact_row l) - proceeds T (map exact_row l)) <= P * (6 * N * uro * V)) as K.
  { assert (0 <= P * (6 * N * uro * V)) by (apply Rmult_le_pos; [assumption|]; apply Rmult_le_pos; [|assumption]; apply Rmult_le_pos; lra).
    destruct Ex as [Ex|[Ex1 Ex2]].
    - apply Rabs_le_inv in Ex. apply Rabs_le. destruct (Rle_lt_dec x T) as [L|L].
      + pose proof (proceeds_lip P _ P0 Ok x T ltac:(lra)) as K. assert (P * (T - x) <= P * (6 * N * uro * V)) by (apply Rmult_le_compat_l; lra). lra.
      + pose proof (proceeds_lip P _ P0 Ok T x ltac:(lra)) as K. assert (P * (x - T) <= P * (6 * N * uro * V)) by (apply Rmult_le_compat_l; lra). lra.
    - apply Rabs_le. destruct (Rle_lt_dec x T) as [L|L].
      + rewrite (proceeds_all P _ Ok x) by lra. rewrite (proceeds_all P _ Ok T) by lra. lra.
      + pose proof (proceeds_lip P _ P0 Ok T x ltac:(lra)) as K. assert (P * (x - T) <= P * (6 * N * uro * V)) by (apply Rmult_le_compat_l; lra). lra. }
  destruct Nx as [Fx Nx]. split; [exact Fx|]. apply Rabs_le_inv in Nx. apply Rabs_le_inv in K. apply Rabs_le.
  assert (P * (6 * N * uro * V) = 6 * N * uro * M) as E by (unfold M; ring). rewrite E in K.
  assert ((8 * INR (length l) + 6) * uro * M <= 14 * N * uro * M).
  { apply Rmult_le_compat_r; [assumption|]. apply Rmult_le_compat_r; lra. }
  lra.
Qed.
Lemma prefix_srow l x y : Forall srow l -> total_volume (map exact_row l) <= V -> l = x ++ y ->
  Forall srow x /\ total_volume (map exact_row x) <= V /\ (length x <= length l)%nat.
Proof.
  intros H T ->. apply Forall_app in H as [H1 H2]. split; [exact H1|]. rewrite map_app, total_app in T.
  pose proof (total_nonneg P _ (srow_ok y H2)). split; [lra|]. rewrite app_length. lia.
Qed.
Definition near_result (e : R) (o : go (f64 * option err)) (o' : go (R * option err)) : Prop :=
  match o, o' with
  | Ret (v, er), Ret (v', er') => near v v' e /\ er = er'
  | Panic p, Panic p' => p = p'
  | _, _ => False
  end.
Lemma calculation_near f g A B : asks A <> [] -> Forall srow (asks A) -> total_volume (map exact_row (asks A)) <= V ->
  Forall srow (bids B) -> total_volume (map exact_row (bids B)) <= V ->
  INR (length (asks A)) <= N -> INR (length (bids B)) <= N ->
  near_result (33 * N * uro * M) (overlap_calculation_fused f g A B) (@overlap_calculation R R_num (exact_book A) (exact_book B)).
Proof.
  intros Ne SA TA SB TB LA LB. unfold overlap_calculation_fused, overlap_calculation. pose proof uro_pos. pose proof M0.
  cbn [exact_book asks bids]. destruct (asks A) as [|a0 la] eqn:EA; [contradiction|].
  destruct (bids B) as [|b0 lb] eqn:EB; [cbn; reflexivity|].
  cbn [map]. change (exact_row a0 :: map exact_row la) with (map exact_row (a0 :: la)).
  change (exact_row b0 :: map exact_row lb) with (map exact_row (b0 :: lb)).
  change (index (a0 :: la) 0%Z) with (Ret a0). change (index (b0 :: lb) 0%Z) with (Ret b0).
  change (index (map exact_row (a0 :: la)) 0%Z) with (Ret (exact_row a0)).
  change (index (map exact_row (b0 :: lb)) 0%Z) with (Ret (exact_row b0)). cbn [bind].
  set (la' := a0 :: la) in *. set (lb' := b0 :: lb) in *.
  assert (forall r, In r la' -> is_finite (price r) = true) as FA.
  { intros r Hr. rewrite Forall_forall in SA. apply (SA r Hr). }
  assert (forall r, In r lb' -> is_finite (price r) = true) as FB.
  { intros r Hr. rewrite Forall_forall in SB. apply (SB r Hr). }
  assert (In a0 la') as Ia by (left; reflexivity). assert (In b0 lb') as Ib by (left; reflexivity).
  assert (near (i2f 0) 0 0) as Z by (apply (near_int 0); unfold exact_int; lia).
  assert (0 <= B2R (i2f 0)) as Z0 by (destruct Z as [_ Z]; apply Rabs_le_inv in Z; lra).
  assert (forall x, x = 0 -> near (i2f 0) 0 x) as Z' by (intros x ->; exact Z).
  destruct (scan_near (fun r => f64_lt (price b0) (price r)) (fun r => Rlt_bool (price (exact_row b0)) (price r)) la' SA)
    with (i := 0%Z) (w := i2f 0) (W := 0%R) (k := 0%R) as (ia & w & W & S1 & S2 & Nw & HW & w0); try lra.
  { intros r Hr. apply fin_lt; auto. }
  { apply Z'. ring. }
  destruct (scan_near (fun r => f64_lt (price r) (price a0)) (fun r => Rlt_bool (price r) (price (exact_row a0))) lb' SB)
    with (i := 0%Z) (w := i2f 0) (W := 0%R) (k := 0%R) as (ib & u & U & S3 & S4 & _ & _ & _); try lra.
  { intros r Hr. apply fin_lt; auto. }
  { apply Z'. ring. }
  change (@flt f64 f64_num) with f64_lt. change (@flt R R_num) with Rlt_bool.
  change (@fzero f64 f64_num) with (i2f 0). change (@fzero R R_num) with 0%R.
  rewrite S1, S2. cbn [bind]. rewrite S3, S4. cbn [bind]. rewrite !reslice_map.
  destruct (reslice lb' 0 ib) as [bs|p] eqn:Rb; [|reflexivity]. cbn [bind].
  destruct (reslice la' 0 ia) as [as_|p] eqn:Ra; [|reflexivity]. cbn [bind].
  destruct (reslice_prefix _ _ _ Rb) as (yb & Eyb). destruct (reslice_prefix _ _ _ Ra) as (ya & Eya).
  destruct (prefix_srow _ _ _ SB TB Eyb) as (Sb & Tb & Lb). destruct (prefix_srow _ _ _ SA TA Eya) as (Sa & Ta & La).
  apply le_INR in Lb. apply le_INR in La.
  assert (value (map exact_row as_) <= M) as Va.
  { eapply Rle_trans; [apply (value_bound P _ P0 (srow_ok _ Sa))|]. apply Rmult_le_compat_l; assumption. }
  pose proof (cost_near g as_ Sa 0%Z (i2f 0) 0 0 ltac:(apply Z'; ring) ltac:(lra) ltac:(lra) ltac:(lra) ltac:(lra)) as NC. rewrite Rplus_0_l in NC.
  destruct (sell_near_exact f (rev bs) w W) as [NS HS]; try assumption; try lra.
  { now apply Forall_rev. }
  { rewrite rev_length. lra. }
  { rewrite map_rev, total_rev. exact Tb. }
  rewrite map_rev in NS, HS.
  change (@fabs R R_num) with Rabs. change (@fsub R R_num) with Rminus.
  assert (0 <= @overlap_cost R R_num (map exact_row as_) 0 <= M) as HC.
  { rewrite cost_value. pose proof (value_bound P _ P0 (srow_ok _ Sa)). lra. }
  set (c := overlap_cost_fused g as_ 0 (i2f 0)) in *. set (C := @overlap_cost R R_num (map exact_row as_) 0) in *.
  set (s := overlap_sell_fused f (rev bs) 0 w (i2f 0) (i2f 0)) in *.
  set (Sx := @overlap_sell R R_num (rev (map exact_row bs)) W 0 0) in *.
  apply (near_weaken _ _ _ (8 * N * uro * M)) in NC.
  2:{ apply Rmult_le_compat_r; [assumption|]. apply Rmult_le_compat_r; lra. }
  pose proof (small_M (8 * N) ltac:(lra)). pose proof (small_M (20 * N) ltac:(lra)).
  pose proof (near_sub _ _ _ _ _ _ NC NS) as ND. rewrite (Rabs_pos_eq C), (Rabs_pos_eq Sx) in ND by lra.
  specialize (ND ltac:(unfold M in *; lra)). assert (Rabs (C - Sx) <= M) by (apply Rabs_le; lra).
  assert (uro * (Rabs (C - Sx) + 8 * N * uro * M + 20 * N * uro * M) <= uro * (2 * M)) by (apply Rmult_le_compat_l; lra).
  assert (uro * M <= N * uro * M) by (apply Rmult_le_compat_r; [assumption|]; rewrite <- (Rmult_1_l uro) at 1; apply Rmult_le_compat_r; lra).
  assert (eta <= uro * M) by exact EM.
  destruct ND as [F E]. destruct (fin_abs _ F) as [F2 E2]. cbn [near_result]. split; [|reflexivity]. split; [exact F2|].
  rewrite E2. eapply Rle_trans; [apply Rabs_triang_inv2|]. eapply Rle_trans; [exact E|]. lra.
Qed.
Lemma overlap_near_loops f g A B :
  Forall srow (asks A) -> total_volume (map exact_row (asks A)) <= V -> Forall srow (bids A) -> total_volume (map exact_row (bids A)) <= V ->
  Forall srow (asks B) -> total_volume (map exact_row (asks B)) <= V -> Forall srow (bids B) -> total_volume (map exact_row (bids B)) <= V ->
  INR (length (asks A)) <= N -> INR (length (bids A)) <= N -> INR (length (asks B)) <= N -> INR (length (bids B)) <= N ->
  near_result (33 * N * uro * M) (calculate_overlap_fused f g A B) (@calculate_overlap R R_num (exact_book A) (exact_book B)).
Proof.
  intros S1 T1 S2 T2 S3 T3 S4 T4 L1 L2 L3 L4.
  pose proof (fun H => calculation_near f g A B H S1 T1 S4 T4 L1 L4) as K1. pose proof (fun H => calculation_near f g B A H S3 T3 S2 T2 L3 L2) as K2.
  unfold calculate_overlap_fused, calculate_overlap.
  assert (forall l, Forall srow l -> forall r, In r l -> is_finite (price r) = true) as FW.
  { intros l S r Hr. rewrite Forall_forall in S. apply (S r Hr). }
  pose proof (FW _ S1) as F1. pose proof (FW _ S2) as F2. pose proof (FW _ S3) as F3. pose proof (FW _ S4) as F4.
  set (KA := overlap_calculation_fused f g A B) in *. set (KB := overlap_calculation_fused f g B A) in *.
  set (KA' := @overlap_calculation R R_num (exact_book A) (exact_book B)) in *.
  set (KB' := @overlap_calculation R R_num (exact_book B) (exact_book A)) in *.
  cbn [exact_book asks bids].
  destruct (asks A) as [|a0 la]; [reflexivity|]. destruct (bids B) as [|b0 lb]; [reflexivity|]. cbn [map].
  change (index (a0 :: la) 0%Z) with (Ret a0). change (index (b0 :: lb) 0%Z) with (Ret b0).
  change (index (exact_row a0 :: map exact_row la) 0%Z) with (Ret (exact_row a0)).
  change (index (exact_row b0 :: map exact_row lb) 0%Z) with (Ret (exact_row b0)). cbn [bind].
  change (@flt f64 f64_num) with f64_lt. change (@flt R R_num) with Rlt_bool.
  rewrite fin_lt by ((apply F1; left; reflexivity) || (apply F4; left; reflexivity)).
  change (B2R (price a0)) with (price (exact_row a0)). change (B2R (price b0)) with (price (exact_row b0)).
  destruct (Rlt_bool (price (exact_row a0)) (price (exact_row b0))); [apply K1; discriminate|].
  destruct (bids A) as [|b1 lb1]; [reflexivity|]. destruct (asks B) as [|a1 la1]; [reflexivity|]. cbn [map].
  change (index (a1 :: la1) 0%Z) with (Ret a1). change (index (b1 :: lb1) 0%Z) with (Ret b1).
  change (index (exact_row a1 :: map exact_row la1) 0%Z) with (Ret (exact_row a1)).
  change (index (exact_row b1 :: map exact_row lb1) 0%Z) with (Ret (exact_row b1)). cbn [bind].
  rewrite fin_lt by ((apply F2; left; reflexivity) || (apply F3; left; reflexivity)).
  change (B2R (price a1)) with (price (exact_row a1)). change (B2R (price b1)) with (price (exact_row b1)).
  destruct (Rlt_bool (price (exact_row a1)) (price (exact_row b1))); [apply K2; discriminate|].
  cbn [near_result]. change (@fofZ R R_num) with IZR. split; [|reflexivity].
  eapply near_weaken; [apply (near_int (-1)); unfold exact_int; lia|]. pose proof (small_M (33 / 2 * N) ltac:(lra)). lra.
Qed.
End Loops.

Lemma medium_sizes P V : medium P -> medium V -> 0 <= P /\ 0 <= V /\ eta <= uro * V /\ eta <= uro * (P * V) /\ 64 * V <= huge /\ 100 * (P * V) <= huge.
Proof.
  intros [P1 P2] [V1 V2]. pose proof (bpow_gt_0 radix2 (-400)). pose proof (bpow_gt_0 radix2 400). pose proof uro_pos.
  assert (bpow radix2 (-800) <= P * V) as L.
  { change (-800)%Z with (-400 + -400)%Z. rewrite bpow_plus. apply Rmult_le_compat; lra. }
  assert (P * V <= bpow radix2 800) as U.
  { change 800%Z with (400 + 400)%Z. rewrite bpow_plus. apply Rmult_le_compat; lra. }
  assert (bpow radix2 (-800) <= bpow radix2 (-400)) by (apply bpow_le; lia).
  assert (bpow radix2 400 <= bpow radix2 800) by (apply bpow_le; lia).
  destruct (scale_sizes (bpow radix2 (-800))) as [HL _]; [split; apply bpow_le; lia|].
  destruct (scale_sizes (bpow radix2 800)) as [_ HH]; [split; apply bpow_le; lia|]. pose proof lowM_pos.
  pose proof eta_lowM. pose proof eta_pos. assert (uro * lowM <= uro * bpow radix2 (-800)) by (apply Rmult_le_compat_l; lra).
  pose proof highM_huge as G. pose proof b60_ge. assert (1000 * highM <= huge).
  { eapply Rle_trans; [|exact G]. apply Rmult_le_compat_r; [|assumption]. lra. }
  split; [lra|]. split; [lra|]. split; [|split].
  - assert (uro * bpow radix2 (-800) <= uro * V) by (apply Rmult_le_compat_l; lra). lra.
  - assert (uro * bpow radix2 (-800) <= uro * (P * V)) by (apply Rmult_le_compat_l; lra). lra.
  - split; lra.
Qed.
Lemma overlap_near f g (A B : book f64) P V : medium P -> medium V -> sound_book P V A -> sound_book P V B -> few_rows A B ->
  match calculate_overlap_fused f g A B, @calculate_overlap R R_num (exact_book A) (exact_book B) with
  | Ret (v, e), Ret (v', e') => approx (17 * INR (rows_of A B) * (2 * uro) * (P * V)) v v' /\ e = e'
  | Panic p, Panic p' => p = p'
  | _, _ => False
  end.
Proof.
  intros MP MV [[A1 A2] [A3 A4]] [[B1 B2] [B3 B4]] Few. destruct (medium_sizes P V MP MV) as (H1 & H2 & H3 & H4 & H5 & H6).
  destruct (asks A) as [|a la] eqn:Ea.
  { unfold calculate_overlap_fused, calculate_overlap. cbn [exact_book asks]. rewrite Ea. reflexivity. }
  rewrite <- Ea in A1, A2. set (N := INR (rows_of A B)) in *.
  assert (1 <= N) as N1.
  { change 1 with (INR 1). apply le_INR. unfold rows_of. rewrite Ea. cbn [List.length]. lia. }
  assert (64 * N * uro <= / 64) as NU.
  { pose proof uro_pos. pose proof steps_uro as K. assert (64 * N * uro <= 64 * steps * uro); [|lra]. apply Rmult_le_compat_r; [lra|].
    apply Rmult_le_compat_l; [lra|]. exact Few. }
  assert (forall k, (k <= rows_of A B)%nat -> INR k <= N) as L by (intros k Hk; apply le_INR; exact Hk).
  pose proof (overlap_near_loops P V N H1 H2 N1 NU H3 H4 H5 H6 f g A B A1 A2 A3 A4 B1 B2 B3 B4
    (L (length (asks A)) ltac:(unfold rows_of; lia)) (L (length (bids A)) ltac:(unfold rows_of; lia)) (L (length (asks B)) ltac:(unfold rows_of; lia)) (L (length (bids B)) ltac:(unfold rows_of; lia))) as K.
  unfold near_result in K. destruct (calculate_overlap_fused f g A B) as [[v e]|p], (@calculate_overlap R R_num (exact_book A) (exact_book B)) as [[v' e']|p']; try exact K.
  destruct K as [K1 K2]. split; [|exact K2]. apply approx_near. eapply near_weaken; [exact K1|]. pose proof uro_pos.
  assert (0 <= N * uro * (P * V)) by (apply Rmult_le_pos; [apply Rmult_le_pos; lra|now apply Rmult_le_pos]). lra.
Qed.
