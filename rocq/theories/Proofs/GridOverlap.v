(** CalculateOverlap on books of whole ticks and whole lots (for C128).  As
    Proofs/WholeOverlap.v, with three units instead of one. *)
From Coq Require Import Sorting.Sorted Reals Lra.
From Flocq Require Import Core BinarySingleNaN.
From Verif Require Import Go.Outcome Go.Int64 Go.Slice Go.Float64 Go.FloatOrder Go.FloatReal Go.Num
  Model.OrderBook Spec.OrderBookSpec Spec.WholeSpec Spec.TickSpec Spec.GridBookSpec Proofs.Lists Proofs.OrderBook Proofs.DepthOverlap
  Proofs.WholeOverlap Proofs.Ticks.
Open Scope list_scope.
Open Scope R_scope.

Definition most (g : Z) : R := IZR (2 ^ 53) * bpow radix2 g.
Definition on (g : Z) (X : R) : Prop := exists z, (0 <= z)%Z /\ X = IZR z * bpow radix2 g.
Lemma on_pos g X : on g X -> 0 <= X.
Proof. intros (z & Hz & ->). apply Rmult_le_pos; [now apply IZR_le|apply bpow_ge_0]. Qed.
Lemma on_add g X Y : on g X -> on g Y -> on g (X + Y).
Proof. intros (a & Ha & ->) (b & Hb & ->). exists (a + b)%Z. rewrite plus_IZR. split; [lia|ring]. Qed.
Lemma on_mul g h X Y : on g X -> on h Y -> on (g + h) (X * Y).
Proof. intros (a & Ha & ->) (b & Hb & ->). exists (a * b)%Z. rewrite mult_IZR, bpow_plus. split; [lia|ring]. Qed.
Lemma on_sub g X Y : on g X -> on g Y -> Y <= X -> on g (X - Y).
Proof.
  intros (a & Ha & ->) (b & Hb & ->) L. exists (a - b)%Z. rewrite minus_IZR. split; [|ring].
  apply Rmult_le_reg_r in L; [|apply bpow_gt_0]. apply le_IZR in L. lia.
Qed.
Lemma on_0 g : on g 0.
Proof. exists 0%Z. split; [lia|ring]. Qed.
Lemma grid_op g (z : f64) (r : R) : tick g -> is_nan z = false /\ xr z = sat (rnd r) ->
  (exists k, r = IZR k * bpow radix2 g) -> Rabs r <= most g -> is_finite z = true /\ B2R z = r.
Proof.
  intros Hg H (k & E) B. rewrite E in B |- *.
  assert (ticks g z k) as T; [|exact T]. apply (tick_op z r g k H Hg); [|exact E].
  unfold most in B. rewrite Rabs_mult, <- abs_IZR, (Rabs_pos_eq (bpow radix2 g)) in B by apply bpow_ge_0.
  apply Rmult_le_reg_r in B; [|apply bpow_gt_0]. now apply le_IZR in B.
Qed.

(** [x] is [X], a number of units 2^g. *)
Definition isg (g : Z) (x : f64) (X : R) : Prop := is_finite x = true /\ B2R x = X /\ on g X.
Lemma isg_add g x X y Y : tick g -> isg g x X -> isg g y Y -> X + Y <= most g -> isg g (f64_add x y) (X + Y).
Proof.
  intros Hg (Fx & <- & Nx) (Fy & <- & Ny) H. pose proof (on_add _ _ _ Nx Ny) as Ns.
  destruct (grid_op g (f64_add x y) (B2R x + B2R y) Hg (add_xr x y Fx Fy)) as [F E].
  - destruct Ns as (k & _ & E). eauto.
  - rewrite Rabs_pos_eq; [assumption|now apply (on_pos g)].
  - split; [exact F|]. split; assumption.
Qed.
Lemma isg_mul g h x X y Y : tick (g + h) -> isg g x X -> isg h y Y -> X * Y <= most (g + h) -> isg (g + h) (f64_mul x y) (X * Y).
Proof.
  intros Hg (Fx & <- & Nx) (Fy & <- & Ny) H. pose proof (on_mul _ _ _ _ Nx Ny) as Ns.
  destruct (grid_op (g + h) (f64_mul x y) (B2R x * B2R y) Hg (mul_xr x y Fx Fy)) as [F E].
  - destruct Ns as (k & _ & E). eauto.
  - rewrite Rabs_pos_eq; [assumption|now apply (on_pos (g + h))].
  - split; [exact F|]. split; assumption.
Qed.
Lemma isg_sub g x X y Y : tick g -> isg g x X -> isg g y Y -> Y <= X -> X <= most g -> isg g (f64_sub x y) (X - Y).
Proof.
  intros Hg (Fx & <- & Nx) (Fy & <- & Ny) L H. pose proof (on_sub _ _ _ Nx Ny L) as Ns.
  destruct (grid_op g (f64_sub x y) (B2R x - B2R y) Hg (sub_xr x y Fx Fy)) as [F E].
  - destruct Ns as (k & _ & E). eauto.
  - pose proof (on_pos _ _ Ny). rewrite Rabs_pos_eq; [lra|now apply (on_pos g)].
  - split; [exact F|]. split; assumption.
Qed.
Lemma isg_zero g : isg g (i2f 0) 0.
Proof. split; [reflexivity|]. split; [apply i2f_B2R; unfold exact_int; lia|apply on_0]. Qed.

Section Grid.
Variables e f : Z.
Hypothesis G : grid e f.
Let Ge : tick e := proj1 G.
Let Gf : tick f := proj1 (proj2 G).
Let Gv : tick (e + f) := proj2 (proj2 G).

Definition wrow (r : row f64) : Prop := units e (price r) /\ units f (volume r).
Lemma wrow_price r : wrow r -> isg e (price r) (price (exact_row r)).
Proof. intros [(z & Hz & F & E) _]. split; [assumption|]. split; [reflexivity|]. exists z. auto. Qed.
Lemma wrow_volume r : wrow r -> isg f (volume r) (volume (exact_row r)).
Proof. intros [_ (z & Hz & F & E)]. split; [assumption|]. split; [reflexivity|]. exists z. auto. Qed.
Lemma wrow_nonneg r : wrow r -> 0 <= price (exact_row r) /\ 0 <= volume (exact_row r).
Proof.
  intros W. destruct (wrow_price r W) as (_ & _ & Hp). destruct (wrow_volume r W) as (_ & _ & Hv).
  split; [now apply (on_pos e)|now apply (on_pos f)].
Qed.
Lemma value_nonneg l : Forall wrow l -> 0 <= value (map exact_row l).
Proof.
  induction 1 as [|r l W _ IH]; [apply Rle_refl|]. cbn [map value fold_right]. fold (value (map exact_row l)).
  destruct (wrow_nonneg r W). nra.
Qed.
Lemma volume_nonneg l : Forall wrow l -> 0 <= total_volume (map exact_row l).
Proof.
  induction 1 as [|r l W _ IH]; [apply Rle_refl|]. cbn [map total_volume fold_right]. fold (total_volume (map exact_row l)).
  destruct (wrow_nonneg r W). lra.
Qed.

Lemma scan_whole stop stop' l : Forall wrow l -> (forall r, In r l -> stop r = stop' (exact_row r)) ->
  forall i acc a, isg f acc a -> a + total_volume (map exact_row l) <= most f ->
  exists j w W, @overlap_scan f64 f64_num stop l i acc = (j, w) /\
    @overlap_scan R R_num stop' (map exact_row l) i a = (j, W) /\ isg f w W /\ W <= most f.
Proof.
  intros Wl. induction Wl as [|r l W Wl IH]; intros St i acc a Ha Hb.
  - exists 0%Z, acc, a. cbn in *. repeat split; try apply Ha. lra.
  - cbn [map total_volume fold_right] in Hb. fold (total_volume (map exact_row l)) in Hb.
    pose proof (volume_nonneg l Wl). destruct (wrow_nonneg r W).
    cbn [overlap_scan map]. rewrite <- (St r) by (left; reflexivity). destruct (stop r).
    + exists i, acc, a. split; [reflexivity|]. split; [reflexivity|]. split; [assumption|lra].
    + apply IH.
      * intros x Hx. apply St. now right.
      * change (@fadd R R_num) with Rplus. apply (isg_add f); [exact Gf|assumption|now apply wrow_volume|lra].
      * change (@fadd R R_num) with Rplus. lra.
Qed.

Lemma cost_whole l : Forall wrow l -> forall acc a, isg (e + f) acc a -> a + value (map exact_row l) <= most (e + f) ->
  isg (e + f) (@overlap_cost f64 f64_num l acc) (@overlap_cost R R_num (map exact_row l) a) /\
  @overlap_cost R R_num (map exact_row l) a <= most (e + f).
Proof.
  intros Wl. induction Wl as [|r l W Wl IH]; intros acc a Ha Hb.
  - cbn in *. split; [assumption|lra].
  - cbn [map value fold_right] in Hb. fold (value (map exact_row l)) in Hb.
    pose proof (value_nonneg l Wl). destruct (wrow_nonneg r W). pose proof (on_pos (e + f) a ltac:(apply Ha)).
    cbn [overlap_cost map]. change (@fadd R R_num) with Rplus. change (@fmul R R_num) with Rmult. apply IH; [|lra].
    apply (isg_add (e + f)); [exact Gv|assumption| |lra]. apply (isg_mul e f); [exact Gv|now apply wrow_price|now apply wrow_volume|lra].
Qed.

Lemma sell_whole l : Forall wrow l -> forall total T vol V acc a, isg f total T -> isg f vol V -> isg (e + f) acc a ->
  V <= T -> T <= most f -> V + total_volume (map exact_row l) <= most f -> a + value (map exact_row l) <= most (e + f) ->
  isg (e + f) (@overlap_sell f64 f64_num l total vol acc) (@overlap_sell R R_num (map exact_row l) T V a) /\
  @overlap_sell R R_num (map exact_row l) T V a <= most (e + f).
Proof.
  intros Wl. induction Wl as [|r l W Wl IH]; intros total T vol V acc a HT HV Ha VT TP Hv Hb.
  - cbn in *. split; [assumption|lra].
  - cbn [map value total_volume fold_right] in Hb, Hv. fold (value (map exact_row l)) in Hb.
    fold (total_volume (map exact_row l)) in Hv.
    pose proof (value_nonneg l Wl). pose proof (volume_nonneg l Wl). destruct (wrow_nonneg r W) as [Pp Pv].
    pose proof (on_pos (e + f) a ltac:(apply Ha)). pose proof (on_pos f V ltac:(apply HV)).
    pose proof (isg_add _ _ _ _ _ Gf HV (wrow_volume r W) ltac:(lra)) as HS.
    cbn [overlap_sell map]. change (@fadd R R_num) with Rplus. change (@fmul R R_num) with Rmult.
    change (@fsub R R_num) with Rminus. change (@flt R R_num) with Rlt_bool.
    change (@flt f64 f64_num) with f64_lt. change (@fadd f64 f64_num) with f64_add. change (@fmul f64 f64_num) with f64_mul.
    change (@fsub f64 f64_num) with f64_sub.
    assert (f64_lt total (f64_add vol (volume r)) = Rlt_bool T (V + volume (exact_row r))) as ->.
    { destruct HT as (F1 & <- & _). destruct HS as (F2 & <- & _). now apply fin_lt. }
    destruct (Rlt_bool_spec T (V + volume (exact_row r))) as [L|L].
    + assert ((T - V) * price (exact_row r) <= price (exact_row r) * volume (exact_row r)) as K by nra.
      split; [|lra]. apply (isg_add (e + f)); [exact Gv|assumption| |lra].
      rewrite (Z.add_comm e f). apply (isg_mul f e); [rewrite Z.add_comm; exact Gv|apply isg_sub; assumption|now apply wrow_price|].
      rewrite Z.add_comm. lra.
    + apply IH; try assumption; try lra.
      apply (isg_add (e + f)); [exact Gv|assumption| |lra]. apply (isg_mul e f); [exact Gv|now apply wrow_price|now apply wrow_volume|lra].
Qed.

Lemma prefix_whole l x y : grid_side e f l -> l = x ++ y -> grid_side e f x.
Proof.
  intros (W & V & T) ->. apply Forall_app in W as [W1 W2]. rewrite map_app, value_app in V. rewrite map_app, total_app in T.
  pose proof (value_nonneg y W2). pose proof (volume_nonneg y W2).
  split; [assumption|]. split; [eapply Rle_trans; [|exact V]|eapply Rle_trans; [|exact T]]; lra.
Qed.

Lemma calculation_whole A B : grid_side e f (asks A) -> grid_side e f (bids B) ->
  exact_result (@overlap_calculation f64 f64_num A B) (@overlap_calculation R R_num (exact_book A) (exact_book B)).
Proof.
  intros WA WB. unfold overlap_calculation.
  cbn [exact_book asks bids]. destruct (asks A) as [|a0 la] eqn:EA.
  { destruct (bids B) as [|b0 lb] eqn:EB; [|reflexivity].
    change (exact_result (Ret (f64_abs (f64_sub (i2f 0) (i2f 0)), None)) (Ret (Rabs (0 - 0), None))).
    destruct (isg_zero (e + f)) as (F & E & _). unfold exact_result.
    destruct (grid_op (e + f) (f64_sub (i2f 0) (i2f 0)) (B2R (i2f 0) - B2R (i2f 0)) Gv (sub_xr _ _ F F)) as [F1 E1].
    - exists 0%Z. rewrite E. lra.
    - rewrite E, Rminus_0_r, Rabs_R0. apply Rmult_le_pos; [apply IZR_le; lia|apply bpow_ge_0].
    - destruct (fin_abs _ F1) as [F2 E2]. split; [exact F2|]. split; [|reflexivity].
      etransitivity; [exact E2|]. rewrite E1, E. reflexivity. }
  destruct (bids B) as [|b0 lb] eqn:EB; [cbn; reflexivity|].
  cbn [map]. change (exact_row a0 :: map exact_row la) with (map exact_row (a0 :: la)).
  change (exact_row b0 :: map exact_row lb) with (map exact_row (b0 :: lb)).
  change (index (a0 :: la) 0%Z) with (Ret a0). change (index (b0 :: lb) 0%Z) with (Ret b0).
  change (index (map exact_row (a0 :: la)) 0%Z) with (Ret (exact_row a0)).
  change (index (map exact_row (b0 :: lb)) 0%Z) with (Ret (exact_row b0)). cbn [bind].
  set (la' := a0 :: la) in *. set (lb' := b0 :: lb) in *.
  assert (forall r, In r la' -> is_finite (price r) = true) as FA.
  { intros r Hr. destruct WA as [W _]. rewrite Forall_forall in W. destruct (wrow_price r (W r Hr)) as (F & _). exact F. }
  assert (forall r, In r lb' -> is_finite (price r) = true) as FB.
  { intros r Hr. destruct WB as [W _]. rewrite Forall_forall in W. destruct (wrow_price r (W r Hr)) as (F & _). exact F. }
  assert (In a0 la') as Ia by (left; reflexivity). assert (In b0 lb') as Ib by (left; reflexivity).
  destruct (scan_whole (fun r => f64_lt (price b0) (price r)) (fun r => Rlt_bool (price (exact_row b0)) (price r)) la'
    (proj1 WA)) with (i := 0%Z) (acc := i2f 0) (a := 0%R) as (ia & w & W & S1 & S2 & Hw & LW).
  { intros r Hr. apply fin_lt; auto. }
  { apply isg_zero. }
  { rewrite Rplus_0_l. apply WA. }
  destruct (scan_whole (fun r => f64_lt (price r) (price a0)) (fun r => Rlt_bool (price r) (price (exact_row a0))) lb'
    (proj1 WB)) with (i := 0%Z) (acc := i2f 0) (a := 0%R) as (ib & u & U & S3 & S4 & Hu & LU).
  { intros r Hr. apply fin_lt; auto. }
  { apply isg_zero. }
  { rewrite Rplus_0_l. apply WB. }
  change (@flt f64 f64_num) with f64_lt. change (@flt R R_num) with Rlt_bool.
  change (@fzero f64 f64_num) with (i2f 0). change (@fzero R R_num) with 0%R.
  rewrite S1, S2. cbn [bind]. rewrite S3, S4. cbn [bind]. rewrite !reslice_map.
  destruct (reslice lb' 0 ib) as [bs|p] eqn:Rb; [|reflexivity]. cbn [bind].
  destruct (reslice la' 0 ia) as [as_|p] eqn:Ra; [|reflexivity]. cbn [bind].
  destruct (reslice_prefix _ _ _ Rb) as (yb & Eyb). destruct (reslice_prefix _ _ _ Ra) as (ya & Eya).
  pose proof (prefix_whole _ _ _ WB Eyb) as Wbs. pose proof (prefix_whole _ _ _ WA Eya) as Was.
  destruct Wbs as (Wbs & Vbs & Tbs). destruct Was as (Was & Vas & Tas).
  destruct (cost_whole as_ Was (i2f 0) 0 (isg_zero _)) as [HC LC]; [rewrite Rplus_0_l; exact Vas|].
  assert (Forall wrow (rev bs)) as Wr by now apply Forall_rev.
  destruct (sell_whole (rev bs) Wr w W (i2f 0) 0 (i2f 0) 0 Hw (isg_zero _) (isg_zero _)) as [HS LS].
  { apply (on_pos f), Hw. }
  { assumption. }
  { rewrite Rplus_0_l, map_rev, total_rev. exact Tbs. }
  { rewrite Rplus_0_l, map_rev, value_rev. exact Vbs. }
  rewrite map_rev in HS, LS. cbn [exact_result].
  change (@fabs f64 f64_num) with f64_abs. change (@fsub f64 f64_num) with f64_sub.
  change (@fabs R R_num) with Rabs. change (@fsub R R_num) with Rminus.
  set (c := @overlap_cost f64 f64_num as_ (i2f 0)) in *. set (C := @overlap_cost R R_num (map exact_row as_) 0) in *.
  set (s := @overlap_sell f64 f64_num (rev bs) w (i2f 0) (i2f 0)) in *.
  set (S := @overlap_sell R R_num (rev (map exact_row bs)) W 0 0) in *.
  destruct HC as (Fc & Ec & Nc). destruct HS as (Fs & Es & Ns).
  destruct (grid_op (e + f) (f64_sub c s) (B2R c - B2R s) Gv (sub_xr c s Fc Fs)) as [F E].
  { rewrite Ec, Es. destruct Nc as (z1 & _ & ->), Ns as (z2 & _ & ->). exists (z1 - z2)%Z. rewrite minus_IZR. ring. }
  { rewrite Ec, Es. pose proof (on_pos _ _ Nc). pose proof (on_pos _ _ Ns). apply Rabs_le. lra. }
  destruct (fin_abs _ F) as [F2 E2]. split; [assumption|]. split; [|reflexivity]. rewrite E2, E, Ec, Es. reflexivity.
Qed.

Lemma overlap_whole A B : grid_book e f A -> grid_book e f B ->
  exact_result (@calculate_overlap f64 f64_num A B) (@calculate_overlap R R_num (exact_book A) (exact_book B)).
Proof.
  intros [WA1 WA2] [WB1 WB2]. pose proof (calculation_whole A B WA1 WB2) as K1. pose proof (calculation_whole B A WB1 WA2) as K2.
  unfold calculate_overlap.
  assert (forall l, grid_side e f l -> forall r, In r l -> is_finite (price r) = true) as FW.
  { intros l W r Hr. destruct W as [W _]. rewrite Forall_forall in W. destruct (wrow_price r (W r Hr)) as (F & _). exact F. }
  pose proof (FW _ WA1) as F1. pose proof (FW _ WA2) as F2. pose proof (FW _ WB1) as F3. pose proof (FW _ WB2) as F4.
  set (KA := @overlap_calculation f64 f64_num A B) in *. set (KB := @overlap_calculation f64 f64_num B A) in *.
  set (KA' := @overlap_calculation R R_num (exact_book A) (exact_book B)) in *.
  set (KB' := @overlap_calculation R R_num (exact_book B) (exact_book A)) in *.
  cbn [exact_book asks bids].
  destruct (asks A) as [|a0 la]; [reflexivity|]. destruct (bids B) as [|b0 lb]; [reflexivity|]. cbn [map].
  change (index (a0 :: la) 0%Z) with (Ret a0). change (index (b0 :: lb) 0%Z) with (Ret b0).
  change (index (exact_row a0 :: map exact_row la) 0%Z) with (Ret (exact_row a0)).
  change (index (exact_row b0 :: map exact_row lb) 0%Z) with (Ret (exact_row b0)). cbn [bind].
  change (@flt f64 f64_num) with f64_lt. change (@flt R R_num) with Rlt_bool.
  rewrite fin_lt by ((apply F1; left; reflexivity) || (apply F4; left; reflexivity)).
  change (B2R (price a0)) with (price (exact_row a0)). change (B2R (price b0)) with (price (exact_row b0)).
  destruct (Rlt_bool (price (exact_row a0)) (price (exact_row b0))); [exact K1|].
  destruct (bids A) as [|b1 lb1]; [reflexivity|]. destruct (asks B) as [|a1 la1]; [reflexivity|]. cbn [map].
  change (index (a1 :: la1) 0%Z) with (Ret a1). change (index (b1 :: lb1) 0%Z) with (Ret b1).
  change (index (exact_row a1 :: map exact_row la1) 0%Z) with (Ret (exact_row a1)).
  change (index (exact_row b1 :: map exact_row lb1) 0%Z) with (Ret (exact_row b1)). cbn [bind].
  rewrite fin_lt by ((apply F2; left; reflexivity) || (apply F3; left; reflexivity)).
  change (B2R (price a1)) with (price (exact_row a1)). change (B2R (price b1)) with (price (exact_row b1)).
  destruct (Rlt_bool (price (exact_row a1)) (price (exact_row b1))); [exact K2|].
  cbn [exact_result]. change (@fofZ f64 f64_num) with i2f. change (@fofZ R R_num) with IZR.
  split; [reflexivity|]. split; [|reflexivity]. apply i2f_B2R. unfold exact_int. lia.
Qed.
End Grid.
