(** Fused multiply-add (C97): overlaps of whole books. *)
From Coq Require Import Reals Lra Lia Psatz.
From Flocq Require Import Core BinarySingleNaN.
From Verif Require Import Go.Outcome Go.Int64 Go.Slice Go.Float64 Go.FloatOrder Go.FloatReal Go.FloatError Go.Num
  Model.OrderBook Model.Fused Spec.OrderBookSpec Spec.WholeSpec Spec.FusedSpec
  Proofs.Lists Proofs.OrderBook Proofs.DepthOverlap Proofs.WholeOverlap Proofs.Fma.
Open Scope list_scope.
Open Scope R_scope.
Local Notation length := List.length.
Local Notation B2R := (@B2R 53 1024).

Lemma isw_add_product b x X y Y z Z : isw x X -> isw y Y -> isw z Z -> Z + X * Y <= P53 -> isw (add_product b z x y) (Z + X * Y).
Proof.
  intros Hx Hy Hz H. pose proof (nat_real_pos Z ltac:(apply Hz)) as Z0. destruct b; cbn [add_product].
  - destruct Hx as (Fx & <- & Nx). destruct Hy as (Fy & <- & Ny). destruct Hz as (Fz & <- & Nz).
    pose proof (nat_real_add _ _ Nz (nat_real_mul _ _ Nx Ny)) as Ns. pose proof (nat_real_pos _ Ns).
    rewrite Rplus_comm in Ns, H |- *. destruct (exact_op (f64_fma x y z) (B2R x * B2R y + B2R z) (fma_xr x y z Fx Fy Fz)) as [F E].
    + destruct Ns as (k & _ & E). eauto.
    + rewrite Rabs_pos_eq; [exact H|now apply nat_real_pos].
    + split; [exact F|]. split; [exact E|exact Ns].
  - assert (X * Y <= P53) by lra. apply isw_add; [exact Hz|now apply isw_mul|exact H].
Qed.
Lemma cost_fused_whole f l : Forall wrow l -> forall i acc a, isw acc a -> a + value (map exact_row l) <= P53 ->
  isw (overlap_cost_fused f l i acc) (@overlap_cost R R_num (map exact_row l) a) /\
  @overlap_cost R R_num (map exact_row l) a <= P53.
Proof.
  intros Wl. induction Wl as [|r l W Wl IH]; intros i acc a Ha Hb.
  - cbn in *. split; [assumption|lra].
  - cbn [map value fold_right] in Hb. fold (value (map exact_row l)) in Hb.
    pose proof (value_nonneg l Wl). destruct (wrow_nonneg r W). pose proof (nat_real_pos a ltac:(apply Ha)).
    cbn [overlap_cost overlap_cost_fused map]. change (@fadd R R_num) with Rplus. change (@fmul R R_num) with Rmult. apply IH; [|lra].
    apply isw_add_product; [now apply wrow_price|now apply wrow_volume|assumption|lra].
Qed.
Lemma sell_fused_whole f l : Forall wrow l -> forall i total T vol V acc a, isw total T -> isw vol V -> isw acc a ->
  V <= T -> T <= P53 -> V + total_volume (map exact_row l) <= P53 -> a + value (map exact_row l) <= P53 ->
  isw (overlap_sell_fused f l i total vol acc) (@overlap_sell R R_num (map exact_row l) T V a) /\
  @overlap_sell R R_num (map exact_row l) T V a <= P53.
Proof.
  intros Wl. induction Wl as [|r l W Wl IH]; intros i total T vol V acc a HT HV Ha VT TP Hv Hb.
  - cbn in *. split; [assumption|lra].
  - cbn [map value total_volume fold_right] in Hb, Hv. fold (value (map exact_row l)) in Hb.
    fold (total_volume (map exact_row l)) in Hv.
    pose proof (value_nonneg l Wl). pose proof (volume_nonneg l Wl). destruct (wrow_nonneg r W) as [Pp Pv].
    pose proof (nat_real_pos a ltac:(apply Ha)). pose proof (nat_real_pos V ltac:(apply HV)).
    pose proof (isw_add _ _ _ _ HV (wrow_volume r W) ltac:(lra)) as HS.
    cbn [overlap_sell overlap_sell_fused map]. change (@fadd R R_num) with Rplus. change (@fmul R R_num) with Rmult.
    change (@fsub R R_num) with Rminus. change (@flt R R_num) with Rlt_bool.
    assert (f64_lt total (f64_add vol (volume r)) = Rlt_bool T (V + volume (exact_row r))) as ->.
    { destruct HT as (F1 & <- & _). destruct HS as (F2 & <- & _). now apply fin_lt. }
    destruct (Rlt_bool_spec T (V + volume (exact_row r))) as [L|L].
    + assert ((T - V) * price (exact_row r) <= price (exact_row r) * volume (exact_row r)) as K by nra.
      split; [|lra]. apply isw_add_product; [apply isw_sub; assumption|now apply wrow_price|assumption|lra].
    + apply IH; try assumption; try lra.
      apply isw_add_product; [now apply wrow_price|now apply wrow_volume|assumption|lra].
Qed.
Lemma calculation_fused_whole f g A B : whole_side (asks A) -> whole_side (bids B) ->
  exact_result (overlap_calculation_fused f g A B) (@overlap_calculation R R_num (exact_book A) (exact_book B)).
Proof.
  intros WA WB. unfold overlap_calculation_fused, overlap_calculation.
  cbn [exact_book asks bids]. destruct (asks A) as [|a0 la] eqn:EA.
  { destruct (bids B) as [|b0 lb] eqn:EB; [|reflexivity].
    change (exact_result (Ret (f64_abs (f64_sub (i2f 0) (i2f 0)), None)) (Ret (Rabs (0 - 0), None))).
    destruct isw_zero as (F & E & _). unfold exact_result.
    destruct (exact_op (f64_sub (i2f 0) (i2f 0)) (B2R (i2f 0) - B2R (i2f 0)) (sub_xr _ _ F F)) as [F1 E1].
    - exists 0%Z. rewrite E. lra.
    - rewrite E, Rminus_0_r, Rabs_R0. unfold P53. apply IZR_le. lia.
    - destruct (fin_abs _ F1) as [F2 E2]. split; [exact F2|]. split; [|reflexivity].
      etransitivity; [exact E2|]. rewrite E1, E. reflexivity. }
  destruct (bids B) as [|b0 lb] eqn:EB; [cbn; reflexivity|].
  cbn [map]. change (exact_row a0 :: map exact_row la) with (map exact_row (a0 :: la)).
  change (exact_row b0 :: map exact_row lb) with (map exact_row (b0 :: lb)).
  change (index (a0 :: la) 0%Z) with (Ret a0). change (index (b0 :: lb) 0%Z) with (Ret b0).
  change (index (map exact_row (a0 :: la)) 0%Z) with (Ret (exact_row a0)).
  change (index (map exact_row (b0 :: lb)) 0%Z) with (Ret (exact_row b0)). cbn [bind].
  set (la' := a0 :: la) in *. set (lb' := b0 :: lb) in *.
  assert (forall r, In r la' -> is_finite (price r) = true) as FA.
  { intros r Hr. destruct WA as [W _]. rewrite Forall_forall in W. apply (W r Hr). }
  assert (forall r, In r lb' -> is_finite (price r) = true) as FB.
  { intros r Hr. destruct WB as [W _]. rewrite Forall_forall in W. apply (W r Hr). }
  assert (In a0 la') as Ia by (left; reflexivity). assert (In b0 lb') as Ib by (left; reflexivity).
  destruct (scan_whole (fun r => f64_lt (price b0) (price r)) (fun r => Rlt_bool (price (exact_row b0)) (price r)) la'
    (proj1 WA)) with (i := 0%Z) (acc := i2f 0) (a := 0%R) as (ia & w & W & S1 & S2 & Hw & LW).
  { intros r Hr. apply fin_lt; auto. }
  { apply isw_zero. }
  { rewrite Rplus_0_l. apply WA. }
  destruct (scan_whole (fun r => f64_lt (price r) (price a0)) (fun r => Rlt_bool (price r) (price (exact_row a0))) lb'
    (proj1 WB)) with (i := 0%Z) (acc := i2f 0) (a := 0%R) as (ib & u & U & S3 & S4 & Hu & LU).
  { intros r Hr. apply fin_lt; auto. }
  { apply isw_zero. }
  { rewrite Rplus_0_l. apply WB. }
  change (@flt f64 f64_num) with f64_lt. change (@flt R R_num) with Rlt_bool.
  change (@fzero f64 f64_num) with (i2f 0). change (@fzero R R_num) with 0%R.
  rewrite S1, S2. cbn [bind]. rewrite S3, S4. cbn [bind]. rewrite !reslice_map.
  destruct (reslice lb' 0 ib) as [bs|p] eqn:Rb; [|reflexivity]. cbn [bind].
  destruct (reslice la' 0 ia) as [as_|p] eqn:Ra; [|reflexivity]. cbn [bind].
  destruct (reslice_prefix _ _ _ Rb) as (yb & Eyb). destruct (reslice_prefix _ _ _ Ra) as (ya & Eya).
  pose proof (prefix_whole _ _ _ WB Eyb) as Wbs. pose proof (prefix_whole _ _ _ WA Eya) as Was.
  destruct Wbs as (Wbs & Vbs & Tbs). destruct Was as (Was & Vas & Tas).
  destruct (cost_fused_whole g as_ Was 0%Z (i2f 0) 0 isw_zero) as [HC LC]; [rewrite Rplus_0_l; exact Vas|].
  assert (Forall wrow (rev bs)) as Wr by now apply Forall_rev.
  destruct (sell_fused_whole f (rev bs) Wr 0%Z w W (i2f 0) 0 (i2f 0) 0 Hw isw_zero isw_zero) as [HS LS].
  { apply nat_real_pos, Hw. }
  { assumption. }
  { rewrite Rplus_0_l, map_rev, total_rev. exact Tbs. }
  { rewrite Rplus_0_l, map_rev, value_rev. exact Vbs. }
  rewrite map_rev in HS, LS. cbn [exact_result].
  change (@fabs f64 f64_num) with f64_abs. change (@fsub f64 f64_num) with f64_sub.
  change (@fabs R R_num) with Rabs. change (@fsub R R_num) with Rminus.
  set (c := overlap_cost_fused g as_ 0 (i2f 0)) in *. set (C := @overlap_cost R R_num (map exact_row as_) 0) in *.
  set (s := overlap_sell_fused f (rev bs) 0 w (i2f 0) (i2f 0)) in *.
  set (S := @overlap_sell R R_num (rev (map exact_row bs)) W 0 0) in *.
  destruct HC as (Fc & Ec & Nc). destruct HS as (Fs & Es & Ns).
  destruct (exact_op (f64_sub c s) (B2R c - B2R s) (sub_xr c s Fc Fs)) as [F E].
  { rewrite Ec, Es. destruct Nc as (z1 & _ & ->), Ns as (z2 & _ & ->). exists (z1 - z2)%Z. now rewrite minus_IZR. }
  { rewrite Ec, Es. pose proof (nat_real_pos _ Nc). pose proof (nat_real_pos _ Ns). apply Rabs_le. lra. }
  destruct (fin_abs _ F) as [F2 E2]. split; [assumption|]. split; [|reflexivity]. rewrite E2, E, Ec, Es. reflexivity.
Qed.
Lemma overlap_fused_whole f g A B : whole_book A -> whole_book B ->
  exact_result (calculate_overlap_fused f g A B) (@calculate_overlap R R_num (exact_book A) (exact_book B)).
Proof.
  intros [WA1 WA2] [WB1 WB2]. pose proof (calculation_fused_whole f g A B WA1 WB2) as K1. pose proof (calculation_fused_whole f g B A WB1 WA2) as K2.
  unfold calculate_overlap_fused, calculate_overlap.
  assert (forall l, whole_side l -> forall r, In r l -> is_finite (price r) = true) as FW.
  { intros l W r Hr. destruct W as [W _]. rewrite Forall_forall in W. apply (W r Hr). }
  pose proof (FW _ WA1) as F1. pose proof (FW _ WA2) as F2. pose proof (FW _ WB1) as F3. pose proof (FW _ WB2) as F4.
  set (KA := overlap_calculation_fused f g A B) in *. set (KB := overlap_calculation_fused f g B A) in *.
  set (KA' := @overlap_calculation R R_num (exact_book A) (exact_book B)) in *.
  set (KB' := @overlap_calculation R R_num (exact_book B) (exact_book A)) in *.
  cbn [exact_book asks bids].
  destruct (asks A) as [|a0 la]; [reflexivity|]. destruct (bids B) as [|b0 lb]; [reflexivity|]. cbn [map].
  change (index (a0 :: la) 0%Z) with (Ret a0). change (index (b0 :: lb) 0%Z) with (Ret b0).
  change (index (exact_row a0 :: map exact_row la) 0%Z) with (Ret (exact_row a0)).
  change (index (exact_row b0 :: map exact_row lb) 0%Z) with (Ret (exact_row b0)). cbn [bind].
  change (@flt f64 f64_num) with f64_lt. change (@flt R R_num) with Rlt_bool.
  rewrite fin_lt by ((apply F1; left; reflexivity) || (apply F4; left; reflexivity)).
  change (B2R (price a0)) with (price (exact_row a0)). change (B2R (price b0)) with (price (exact_row b0)).
  destruct (Rlt_bool (price (exact_row a0)) (price (exact_row b0))); [exact K1|].
  destruct (bids A) as [|b1 lb1]; [reflexivity|]. destruct (asks B) as [|a1 la1]; [reflexivity|]. cbn [map].
  change (index (a1 :: la1) 0%Z) with (Ret a1). change (index (b1 :: lb1) 0%Z) with (Ret b1).
  change (index (exact_row a1 :: map exact_row la1) 0%Z) with (Ret (exact_row a1)).
  change (index (exact_row b1 :: map exact_row lb1) 0%Z) with (Ret (exact_row b1)). cbn [bind].
  rewrite fin_lt by ((apply F2; left; reflexivity) || (apply F3; left; reflexivity)).
  change (B2R (price a1)) with (price (exact_row a1)). change (B2R (price b1)) with (price (exact_row b1)).
  destruct (Rlt_bool (price (exact_row a1)) (price (exact_row b1))); [exact K2|].
  cbn [exact_result]. change (@fofZ f64 f64_num) with i2f. change (@fofZ R R_num) with IZR.
  split; [reflexivity|]. split; [|reflexivity]. apply i2f_B2R. unfold exact_int. lia.
Qed.

(** Any book: the same panics and errors. *)
Lemma calculation_fused_same f g A B :
  same_ending (overlap_calculation_fused f g A B) (@overlap_calculation f64 f64_num A B).
Proof.
  unfold overlap_calculation_fused, overlap_calculation.
  match goal with |- context [bind ?m _] => set (m1 := m) end. destruct m1 as [[ia va]|p1]; cbn [bind]; [|reflexivity].
  match goal with |- context [bind ?m _] => set (m2 := m) end. destruct m2 as [[ib vb]|p2]; cbn [bind]; [|reflexivity].
  destruct (reslice (bids B) 0 ib) as [bs|]; cbn [bind]; [|reflexivity].
  destruct (reslice (asks A) 0 ia) as [as_|]; cbn [bind]; reflexivity.
Qed.
Lemma overlap_fused_same f g A B :
  same_ending (calculate_overlap_fused f g A B) (@calculate_overlap f64 f64_num A B).
Proof.
  pose proof (calculation_fused_same f g A B) as K1. pose proof (calculation_fused_same f g B A) as K2.
  unfold calculate_overlap_fused, calculate_overlap. change (@flt f64 f64_num) with f64_lt.
  destruct (index (asks A) 0) as [aA|]; cbn [bind]; [|reflexivity].
  destruct (index (bids B) 0) as [bB|]; cbn [bind]; [|reflexivity].
  destruct (f64_lt (price aA) (price bB)); [exact K1|].
  destruct (index (bids A) 0) as [bA|]; cbn [bind]; [|reflexivity].
  destruct (index (asks B) 0) as [aB|]; cbn [bind]; [|reflexivity].
  destruct (f64_lt (price aB) (price bA)); [exact K2|reflexivity].
Qed.
Lemma sell_apart l : forall i total vol res, overlap_sell_fused (fun _ => false) l i total vol res = @overlap_sell f64 f64_num l total vol res.
Proof.
  induction l as [|r l IH]; intros i total vol res; cbn [overlap_sell_fused overlap_sell]; [reflexivity|].
  change (@flt f64 f64_num) with f64_lt. change (@fadd f64 f64_num) with f64_add. destruct (f64_lt _ _); [reflexivity|apply IH].
Qed.
Lemma cost_apart l : forall i res, overlap_cost_fused (fun _ => false) l i res = @overlap_cost f64 f64_num l res.
Proof. induction l as [|r l IH]; intros i res; cbn [overlap_cost_fused overlap_cost]; [reflexivity|apply IH]. Qed.
Lemma calculation_apart A B : overlap_calculation_fused (fun _ => false) (fun _ => false) A B = @overlap_calculation f64 f64_num A B.
Proof.
  unfold overlap_calculation_fused, overlap_calculation.
  match goal with |- bind ?m _ = _ => destruct m as [[ia va]|] end; cbn [bind]; [|reflexivity].
  match goal with |- bind ?m _ = _ => destruct m as [[ib vb]|] end; cbn [bind]; [|reflexivity].
  destruct (reslice (bids B) 0 ib) as [bs|]; cbn [bind]; [|reflexivity].
  destruct (reslice (asks A) 0 ia) as [as_|]; cbn [bind]; [|reflexivity]. rewrite sell_apart, cost_apart. reflexivity.
Qed.
Lemma overlap_apart A B : calculate_overlap_fused (fun _ => false) (fun _ => false) A B = @calculate_overlap f64 f64_num A B.
Proof. unfold calculate_overlap_fused, calculate_overlap. rewrite !calculation_apart. reflexivity. Qed.
