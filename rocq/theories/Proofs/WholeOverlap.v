(** CalculateOverlap: the complete value in exact arithmetic, and float64
    computing exactly that on whole numbers. *)
From Coq Require Import Sorting.Sorted Reals Lra.
From Flocq Require Import Core BinarySingleNaN.
From Verif Require Import Go.Outcome Go.Int64 Go.Slice Go.Float64 Go.FloatOrder Go.FloatReal Go.Num
  Model.OrderBook Spec.OrderBookSpec Spec.WholeSpec Proofs.Lists Proofs.OrderBook Proofs.DepthOverlap.
Open Scope list_scope.
Open Scope R_scope.

Lemma scan_none_full {F} {N : GoFloat F} stop (a : list (row F)) i acc :
  Forall (fun x => stop x = false) a ->
  overlap_scan stop a i acc = (0%Z, fold_left (fun s x => fadd s (volume x)) a acc).
Proof.
  revert i acc. induction a as [|x a IH]; intros i acc Ha; simpl; [reflexivity|].
  inversion Ha; subst. rewrite H1. auto.
Qed.

Lemma existsb_none {A} (f : A -> bool) l : existsb f l = false -> Forall (fun x => f x = false) l.
Proof.
  induction l as [|x l IH]; cbn [existsb]; intros H; constructor.
  - now apply orb_false_iff in H.
  - apply IH. now apply orb_false_iff in H.
Qed.
Lemma filter_all {A} (f : A -> bool) l : Forall (fun x => f x = true) l -> filter f l = l.
Proof. induction 1 as [|x l H _ IH]; cbn [filter]; [reflexivity|]. now rewrite H, IH. Qed.

(** What the scan of one side leaves. *)
Lemma scan_side (rel : row R -> row R -> Prop) (t keep : row R -> bool) (l : list (row R)) :
  StronglySorted rel l -> (forall x y, rel x y -> t x = true -> t y = true) ->
  (forall r, keep r = negb (t r)) ->
  exists i, overlap_scan t l 0 0 = (i, total_volume (filter keep l)) /\
    reslice l 0 i = Ret (if existsb t l then filter keep l else []).
Proof.
  intros S M K. destruct (existsb t l) eqn:E.
  - apply existsb_exists in E. destruct (sorted_prefix rel t l S M E) as (a & r & b & El & Fa & Tr & Ea).
    assert (filter keep l = a) as -> by (rewrite Ea; apply filter_ext; exact K).
    exists (0 + zlen a)%Z. rewrite El at 1. rewrite scan_app by assumption. rewrite volume_total, Rplus_0_l. split; [reflexivity|].
    rewrite El. pose proof (zlen_nonneg a). pose proof (zlen_nonneg b).
    rewrite reslice_ok by (rewrite ?zlen_app, ?zlen_cons; lia).
    rewrite Z.sub_0_r. simpl skipn. now rewrite zto_len, firstn_app_exact.
  - apply existsb_none in E. exists 0%Z. rewrite scan_none_full by assumption. rewrite volume_total, Rplus_0_l.
    rewrite filter_all by (eapply Forall_impl; [|exact E]; intros x Hx; rewrite K, Hx; reflexivity).
    split; [reflexivity|]. rewrite reslice_ok by (pose proof (zlen_nonneg l); lia). reflexivity.
Qed.

Lemma overlap_calculation_value (A B : book R) a0 la b0 lb :
  asks A = a0 :: la -> bids B = b0 :: lb -> ascending (asks A) -> descending (bids B) ->
  overlap_calculation A B = Ret (overlap_value (asks A) (bids B) (price a0) (price b0), None).
Proof.
  intros EA EB SA SB.
  destruct (scan_side _ (fun r => Rlt_bool (price b0) (price r)) (fun r => Rle_bool (price r) (price b0)) (asks A) SA)
    as (ia & E1 & E2).
  { intros x y H. destruct (Rlt_bool_spec (price b0) (price x)); [|discriminate]. intros _. apply Rlt_bool_true. lra. }
  { intros r. destruct (Rlt_bool_spec (price b0) (price r)), (Rle_bool_spec (price r) (price b0)); simpl; auto; lra. }
  destruct (scan_side _ (fun r => Rlt_bool (price r) (price a0)) (fun r => Rle_bool (price a0) (price r)) (bids B) SB)
    as (ib & E3 & E4).
  { intros x y H. destruct (Rlt_bool_spec (price x) (price a0)); [|discriminate]. intros _. apply Rlt_bool_true. lra. }
  { intros r. destruct (Rlt_bool_spec (price r) (price a0)), (Rle_bool_spec (price a0) (price r)); simpl; auto; lra. }
  unfold overlap_calculation. rewrite EA, EB in *.
  change (index (a0 :: la) 0%Z) with (Ret a0). change (index (b0 :: lb) 0%Z) with (Ret b0). cbn [bind].
  change flt with Rlt_bool. change (@fzero R R_num) with 0. rewrite E1. cbn [bind]. rewrite E3. cbn [bind].
  rewrite E4. cbn [bind]. rewrite E2. cbn [bind]. rewrite sell_proceeds, cost_value.
  unfold overlap_value. cbn [fabs fsub R_num]. rewrite !Rplus_0_l, Rminus_0_r.
  destruct (existsb (fun r => Rlt_bool (price b0) (price r)) (a0 :: la)),
    (existsb (fun r => Rlt_bool (price r) (price a0)) (b0 :: lb)); reflexivity.
Qed.

Lemma overlap_complete (A B : book R) a0 la b0 lb :
  asks A = a0 :: la -> bids B = b0 :: lb -> ascending (asks A) -> descending (bids B) ->
  price a0 < price b0 ->
  calculate_overlap A B = Ret (overlap_value (asks A) (bids B) (price a0) (price b0), None).
Proof.
  intros EA EB SA SB L. unfold calculate_overlap.
  rewrite <- (overlap_calculation_value A B a0 la b0 lb EA EB SA SB). rewrite EA, EB.
  change (index (a0 :: la) 0%Z) with (Ret a0). change (index (b0 :: lb) 0%Z) with (Ret b0). cbn [bind].
  change flt with Rlt_bool. now rewrite Rlt_bool_true.
Qed.
Lemma overlap_complete_other (A B : book R) a0 la b0 lb a1 l1 b1 l2 :
  asks A = a1 :: l1 -> bids B = b1 :: l2 -> price b1 <= price a1 ->
  asks B = a0 :: la -> bids A = b0 :: lb -> ascending (asks B) -> descending (bids A) ->
  price a0 < price b0 ->
  calculate_overlap A B = Ret (overlap_value (asks B) (bids A) (price a0) (price b0), None).
Proof.
  intros E1 E2 U EA EB SA SB L. unfold calculate_overlap.
  rewrite <- (overlap_calculation_value B A a0 la b0 lb EA EB SA SB). rewrite E1, E2, EA, EB.
  change (index (a0 :: la) 0%Z) with (Ret a0). change (index (b0 :: lb) 0%Z) with (Ret b0).
  change (index (a1 :: l1) 0%Z) with (Ret a1). change (index (b1 :: l2) 0%Z) with (Ret b1). cbn [bind].
  change flt with Rlt_bool. rewrite Rlt_bool_false by assumption. now rewrite Rlt_bool_true.
Qed.

(** ** Whole numbers *)
Definition P53 : R := IZR (2 ^ 53).
Definition nat_real (X : R) : Prop := exists z, (0 <= z)%Z /\ X = IZR z.
Lemma nat_real_pos X : nat_real X -> 0 <= X.
Proof. intros (z & Hz & ->). now apply IZR_le. Qed.
Lemma nat_real_add X Y : nat_real X -> nat_real Y -> nat_real (X + Y).
Proof. intros (a & Ha & ->) (b & Hb & ->). exists (a + b)%Z. rewrite plus_IZR. split; [lia|reflexivity]. Qed.
Lemma nat_real_mul X Y : nat_real X -> nat_real Y -> nat_real (X * Y).
Proof. intros (a & Ha & ->) (b & Hb & ->). exists (a * b)%Z. rewrite mult_IZR. split; [lia|reflexivity]. Qed.
Lemma nat_real_sub X Y : nat_real X -> nat_real Y -> Y <= X -> nat_real (X - Y).
Proof. intros (a & Ha & ->) (b & Hb & ->) L. apply le_IZR in L. exists (a - b)%Z. rewrite minus_IZR. split; [lia|reflexivity]. Qed.
Lemma nat_real_0 : nat_real 0.
Proof. exists 0%Z. split; [lia|reflexivity]. Qed.

Lemma exact_op (z : f64) (r : R) : is_nan z = false /\ xr z = sat (rnd r) ->
  (exists k, r = IZR k) -> Rabs r <= P53 -> is_finite z = true /\ B2R z = r.
Proof.
  intros [N E] (k & ->) B. assert (exact_int k) as X.
  { unfold P53 in B. rewrite <- abs_IZR in B. apply le_IZR in B. unfold exact_int. lia. }
  rewrite rnd_int, sat_id in E by (assumption || (apply Rlt_le; now apply exact_lt_big)).
  assert (is_finite z = true) as F.
  { apply xr_lt_finite; [assumption|]. rewrite E. now apply exact_lt_big. }
  split; [assumption|]. rewrite <- E. symmetry. now apply xr_finite.
Qed.

(** [x] is the whole number [X]. *)
Definition isw (x : f64) (X : R) : Prop := is_finite x = true /\ B2R x = X /\ nat_real X.
Lemma isw_add x X y Y : isw x X -> isw y Y -> X + Y <= P53 -> isw (f64_add x y) (X + Y).
Proof.
  intros (Fx & <- & Nx) (Fy & <- & Ny) H. pose proof (nat_real_add _ _ Nx Ny) as Ns.
  destruct (exact_op (f64_add x y) (B2R x + B2R y) (add_xr x y Fx Fy)) as [F E].
  - destruct Ns as (k & _ & E). eauto.
  - rewrite Rabs_pos_eq; [assumption|now apply nat_real_pos].
  - repeat split; assumption.
Qed.
Lemma isw_mul x X y Y : isw x X -> isw y Y -> X * Y <= P53 -> isw (f64_mul x y) (X * Y).
Proof.
  intros (Fx & <- & Nx) (Fy & <- & Ny) H. pose proof (nat_real_mul _ _ Nx Ny) as Ns.
  destruct (exact_op (f64_mul x y) (B2R x * B2R y) (mul_xr x y Fx Fy)) as [F E].
  - destruct Ns as (k & _ & E). eauto.
  - rewrite Rabs_pos_eq; [assumption|now apply nat_real_pos].
  - repeat split; assumption.
Qed.
Lemma isw_sub x X y Y : isw x X -> isw y Y -> Y <= X -> X <= P53 -> isw (f64_sub x y) (X - Y).
Proof.
  intros (Fx & <- & Nx) (Fy & <- & Ny) L H. pose proof (nat_real_sub _ _ Nx Ny L) as Ns.
  destruct (exact_op (f64_sub x y) (B2R x - B2R y) (sub_xr x y Fx Fy)) as [F E].
  - destruct Ns as (k & _ & E). eauto.
  - pose proof (nat_real_pos _ Ny). rewrite Rabs_pos_eq; [lra|now apply nat_real_pos].
  - repeat split; assumption.
Qed.
Lemma fin_lt x y : is_finite x = true -> is_finite y = true -> f64_lt x y = Rlt_bool (B2R x) (B2R y).
Proof.
  intros Fx Fy. rewrite f64_lt_xr, !xr_finite by (assumption || (destruct x, y; discriminate || reflexivity)). reflexivity.
Qed.
Lemma fin_abs x : is_finite x = true -> is_finite (f64_abs x) = true /\ B2R (f64_abs x) = Rabs (B2R x).
Proof.
  intros F. assert (is_finite (f64_abs x) = true) as F' by (destruct x; discriminate || reflexivity).
  destruct (f64_abs_xr x) as [_ E]; [destruct x; discriminate || reflexivity|].
  rewrite !xr_finite in E by assumption. auto.
Qed.
Lemma isw_zero : isw (i2f 0) 0.
Proof. split; [reflexivity|]. split; [apply i2f_B2R; unfold exact_int; lia|apply nat_real_0]. Qed.

Definition wrow (r : row f64) : Prop := whole (price r) /\ whole (volume r).
Lemma wrow_price r : wrow r -> isw (price r) (price (exact_row r)).
Proof. intros [[F N] _]. split; [assumption|]. split; [reflexivity|]. destruct N as (z & Hz & E). exists z. auto. Qed.
Lemma wrow_volume r : wrow r -> isw (volume r) (volume (exact_row r)).
Proof. intros [_ [F N]]. split; [assumption|]. split; [reflexivity|]. destruct N as (z & Hz & E). exists z. auto. Qed.
Lemma wrow_nonneg r : wrow r -> 0 <= price (exact_row r) /\ 0 <= volume (exact_row r).
Proof.
  intros W. destruct (wrow_price r W) as (_ & _ & Hp). destruct (wrow_volume r W) as (_ & _ & Hv).
  split; now apply nat_real_pos.
Qed.
Lemma value_nonneg l : Forall wrow l -> 0 <= value (map exact_row l).
Proof.
  induction 1 as [|r l W _ IH]; [apply Rle_refl|]. cbn [map value fold_right]. fold (value (map exact_row l)).
  destruct (wrow_nonneg r W). nra.
Qed.
Lemma volume_nonneg l : Forall wrow l -> 0 <= total_volume (map exact_row l).
Proof.
  induction 1 as [|r l W _ IH]; [apply Rle_refl|]. cbn [map total_volume fold_right]. fold (total_volume (map exact_row l)).
  destruct (wrow_nonneg r W). lra.
Qed.

Lemma scan_whole stop stop' l : Forall wrow l -> (forall r, In r l -> stop r = stop' (exact_row r)) ->
  forall i acc a, isw acc a -> a + total_volume (map exact_row l) <= P53 ->
  exists j w W, @overlap_scan f64 f64_num stop l i acc = (j, w) /\
    @overlap_scan R R_num stop' (map exact_row l) i a = (j, W) /\ isw w W /\ W <= P53.
Proof.
  intros Wl. induction Wl as [|r l W Wl IH]; intros St i acc a Ha Hb.
  - exists 0%Z, acc, a. cbn in *. repeat split; try apply Ha. lra.
  - cbn [map total_volume fold_right] in Hb. fold (total_volume (map exact_row l)) in Hb.
    pose proof (volume_nonneg l Wl). destruct (wrow_nonneg r W).
    cbn [overlap_scan map]. rewrite <- (St r) by (left; reflexivity). destruct (stop r).
    + exists i, acc, a. split; [reflexivity|]. split; [reflexivity|]. split; [assumption|lra].
    + apply IH.
      * intros x Hx. apply St. now right.
      * change (@fadd R R_num) with Rplus. apply isw_add; [assumption|now apply wrow_volume|lra].
      * change (@fadd R R_num) with Rplus. lra.
Qed.

Lemma cost_whole l : Forall wrow l -> forall acc a, isw acc a -> a + value (map exact_row l) <= P53 ->
  isw (@overlap_cost f64 f64_num l acc) (@overlap_cost R R_num (map exact_row l) a) /\
  @overlap_cost R R_num (map exact_row l) a <= P53.
Proof.
  intros Wl. induction Wl as [|r l W Wl IH]; intros acc a Ha Hb.
  - cbn in *. split; [assumption|lra].
  - cbn [map value fold_right] in Hb. fold (value (map exact_row l)) in Hb.
    pose proof (value_nonneg l Wl). destruct (wrow_nonneg r W). pose proof (nat_real_pos a ltac:(apply Ha)).
    cbn [overlap_cost map]. change (@fadd R R_num) with Rplus. change (@fmul R R_num) with Rmult. apply IH; [|lra].
    apply isw_add; [assumption| |lra]. apply isw_mul; [now apply wrow_price|now apply wrow_volume|lra].
Qed.

Lemma sell_whole l : Forall wrow l -> forall total T vol V acc a, isw total T -> isw vol V -> isw acc a ->
  V <= T -> T <= P53 -> V + total_volume (map exact_row l) <= P53 -> a + value (map exact_row l) <= P53 ->
  isw (@overlap_sell f64 f64_num l total vol acc) (@overlap_sell R R_num (map exact_row l) T V a) /\
  @overlap_sell R R_num (map exact_row l) T V a <= P53.
Proof.
  intros Wl. induction Wl as [|r l W Wl IH]; intros total T vol V acc a HT HV Ha VT TP Hv Hb.
  - cbn in *. split; [assumption|lra].
  - cbn [map value total_volume fold_right] in Hb, Hv. fold (value (map exact_row l)) in Hb.
    fold (total_volume (map exact_row l)) in Hv.
    pose proof (value_nonneg l Wl). pose proof (volume_nonneg l Wl). destruct (wrow_nonneg r W) as [Pp Pv].
    pose proof (nat_real_pos a ltac:(apply Ha)). pose proof (nat_real_pos V ltac:(apply HV)).
    pose proof (isw_add _ _ _ _ HV (wrow_volume r W) ltac:(lra)) as HS.
    cbn [overlap_sell map]. change (@fadd R R_num) with Rplus. change (@fmul R R_num) with Rmult.
    change (@fsub R R_num) with Rminus. change (@flt R R_num) with Rlt_bool.
    change (@flt f64 f64_num) with f64_lt. change (@fadd f64 f64_num) with f64_add. change (@fmul f64 f64_num) with f64_mul.
    change (@fsub f64 f64_num) with f64_sub.
    assert (f64_lt total (f64_add vol (volume r)) = Rlt_bool T (V + volume (exact_row r))) as ->.
    { destruct HT as (F1 & <- & _). destruct HS as (F2 & <- & _). now apply fin_lt. }
    destruct (Rlt_bool_spec T (V + volume (exact_row r))) as [L|L].
    + assert ((T - V) * price (exact_row r) <= price (exact_row r) * volume (exact_row r)) as K by nra.
      split; [|lra]. apply isw_add; [assumption| |lra].
      apply isw_mul; [apply isw_sub; assumption|now apply wrow_price|lra].
    + apply IH; try assumption; try lra.
      apply isw_add; [assumption| |lra]. apply isw_mul; [now apply wrow_price|now apply wrow_volume|lra].
Qed.

Lemma reslice_map {A B} (f : A -> B) (l : list A) i j :
  reslice (map f l) i j = match reslice l i j with Ret x => Ret (map f x) | Panic p => Panic p end.
Proof.
  unfold reslice, zlen. rewrite map_length. destruct (_ && _); [|reflexivity].
  now rewrite skipn_map, firstn_map.
Qed.
Lemma reslice_prefix {A} (l : list A) j x : reslice l 0 j = Ret x -> exists y, l = x ++ y.
Proof.
  unfold reslice. destruct (_ && _); [|discriminate]. intros [= <-]. simpl skipn.
  eexists. symmetry. apply firstn_skipn.
Qed.
Lemma value_cons r l : value (r :: l) = price r * volume r + value l. Proof. reflexivity. Qed.
Lemma total_cons r l : total_volume (r :: l) = volume r + total_volume l. Proof. reflexivity. Qed.
Lemma value_nil : value [] = 0. Proof. reflexivity. Qed.
Lemma total_nil : total_volume [] = 0. Proof. reflexivity. Qed.
Lemma value_app a b : value (a ++ b) = value a + value b.
Proof. induction a as [|r a IH]; cbn [app]; rewrite ?value_nil, ?value_cons; [|rewrite IH]; lra. Qed.
Lemma total_app a b : total_volume (a ++ b) = total_volume a + total_volume b.
Proof. induction a as [|r a IH]; cbn [app]; rewrite ?total_nil, ?total_cons; [|rewrite IH]; lra. Qed.
Lemma value_rev l : value (rev l) = value l.
Proof. induction l as [|r l IH]; cbn [rev]; [reflexivity|]. rewrite value_app, IH, !value_cons, value_nil. lra. Qed.
Lemma total_rev l : total_volume (rev l) = total_volume l.
Proof. induction l as [|r l IH]; cbn [rev]; [reflexivity|]. rewrite total_app, IH, !total_cons, total_nil. lra. Qed.

Lemma prefix_whole l x y : whole_side l -> l = x ++ y -> whole_side x.
Proof.
  intros (W & V & T) ->. apply Forall_app in W as [W1 W2]. rewrite map_app, value_app in V. rewrite map_app, total_app in T.
  pose proof (value_nonneg y W2). pose proof (volume_nonneg y W2).
  split; [assumption|]. split; [eapply Rle_trans; [|exact V]|eapply Rle_trans; [|exact T]]; lra.
Qed.

(** [calculate_overlap] on the floats is [calculate_overlap] on the reals. *)
Definition exact_result (o : go (f64 * option err)) (o' : go (R * option err)) : Prop :=
  match o, o' with
  | Ret (v, e), Ret (v', e') => is_finite v = true /\ B2R v = v' /\ e = e'
  | Panic p, Panic p' => p = p'
  | _, _ => False
  end.

Lemma calculation_whole A B : whole_side (asks A) -> whole_side (bids B) ->
  exact_result (@overlap_calculation f64 f64_num A B) (@overlap_calculation R R_num (exact_book A) (exact_book B)).
Proof.
  intros WA WB. unfold overlap_calculation.
  cbn [exact_book asks bids]. destruct (asks A) as [|a0 la] eqn:EA.
  { destruct (bids B) as [|b0 lb] eqn:EB; [|reflexivity].
    change (exact_result (Ret (f64_abs (f64_sub (i2f 0) (i2f 0)), None)) (Ret (Rabs (0 - 0), None))).
    destruct isw_zero as (F & E & _). unfold exact_result.
    destruct (exact_op (f64_sub (i2f 0) (i2f 0)) (B2R (i2f 0) - B2R (i2f 0)) (sub_xr _ _ F F)) as [F1 E1].
    - exists 0%Z. rewrite E. lra.
    - rewrite E, Rminus_0_r, Rabs_R0. unfold P53. apply IZR_le. lia.
    - destruct (fin_abs _ F1) as [F2 E2]. split; [exact F2|]. split; [|reflexivity].
      etransitivity; [exact E2|]. rewrite E1, E. reflexivity. }
  destruct (bids B) as [|b0 lb] eqn:EB; [cbn; reflexivity|].
  cbn [map]. change (exact_row a0 :: map exact_row la) with (map exact_row (a0 :: la)).
  change (exact_row b0 :: map exact_row lb) with (map exact_row (b0 :: lb)).
  change (index (a0 :: la) 0%Z) with (Ret a0). change (index (b0 :: lb) 0%Z) with (Ret b0).
  change (index (map exact_row (a0 :: la)) 0%Z) with (Ret (exact_row a0)).
  change (index (map exact_row (b0 :: lb)) 0%Z) with (Ret (exact_row b0)). cbn [bind].
  set (la' := a0 :: la) in *. set (lb' := b0 :: lb) in *.
  assert (forall r, In r la' -> is_finite (price r) = true) as FA.
  { intros r Hr. destruct WA as [W _]. rewrite Forall_forall in W. apply (W r Hr). }
  assert (forall r, In r lb' -> is_finite (price r) = true) as FB.
  { intros r Hr. destruct WB as [W _]. rewrite Forall_forall in W. apply (W r Hr). }
  assert (In a0 la') as Ia by (left; reflexivity). assert (In b0 lb') as Ib by (left; reflexivity).
  destruct (scan_whole (fun r => f64_lt (price b0) (price r)) (fun r => Rlt_bool (price (exact_row b0)) (price r)) la'
    (proj1 WA)) with (i := 0%Z) (acc := i2f 0) (a := 0%R) as (ia & w & W & S1 & S2 & Hw & LW).
  { intros r Hr. apply fin_lt; auto. }
  { apply isw_zero. }
  { rewrite Rplus_0_l. apply WA. }
  destruct (scan_whole (fun r => f64_lt (price r) (price a0)) (fun r => Rlt_bool (price r) (price (exact_row a0))) lb'
    (proj1 WB)) with (i := 0%Z) (acc := i2f 0) (a := 0%R) as (ib & u & U & S3 & S4 & Hu & LU).
  { intros r Hr. apply fin_lt; auto. }
  { apply isw_zero. }
  { rewrite Rplus_0_l. apply WB. }
  change (@flt f64 f64_num) with f64_lt. change (@flt R R_num) with Rlt_bool.
  change (@fzero f64 f64_num) with (i2f 0). change (@fzero R R_num) with 0%R.
  rewrite S1, S2. cbn [bind]. rewrite S3, S4. cbn [bind]. rewrite !reslice_map.
  destruct (reslice lb' 0 ib) as [bs|p] eqn:Rb; [|reflexivity]. cbn [bind].
  destruct (reslice la' 0 ia) as [as_|p] eqn:Ra; [|reflexivity]. cbn [bind].
  destruct (reslice_prefix _ _ _ Rb) as (yb & Eyb). destruct (reslice_prefix _ _ _ Ra) as (ya & Eya).
  pose proof (prefix_whole _ _ _ WB Eyb) as Wbs. pose proof (prefix_whole _ _ _ WA Eya) as Was.
  destruct Wbs as (Wbs & Vbs & Tbs). destruct Was as (Was & Vas & Tas).
  destruct (cost_whole as_ Was (i2f 0) 0 isw_zero) as [HC LC]; [rewrite Rplus_0_l; exact Vas|].
  assert (Forall wrow (rev bs)) as Wr by now apply Forall_rev.
  destruct (sell_whole (rev bs) Wr w W (i2f 0) 0 (i2f 0) 0 Hw isw_zero isw_zero) as [HS LS].
  { apply nat_real_pos, Hw. }
  { assumption. }
  { rewrite Rplus_0_l, map_rev, total_rev. exact Tbs. }
  { rewrite Rplus_0_l, map_rev, value_rev. exact Vbs. }
  rewrite map_rev in HS, LS. cbn [exact_result].
  change (@fabs f64 f64_num) with f64_abs. change (@fsub f64 f64_num) with f64_sub.
  change (@fabs R R_num) with Rabs. change (@fsub R R_num) with Rminus.
  set (c := @overlap_cost f64 f64_num as_ (i2f 0)) in *. set (C := @overlap_cost R R_num (map exact_row as_) 0) in *.
  set (s := @overlap_sell f64 f64_num (rev bs) w (i2f 0) (i2f 0)) in *.
  set (S := @overlap_sell R R_num (rev (map exact_row bs)) W 0 0) in *.
  destruct HC as (Fc & Ec & Nc). destruct HS as (Fs & Es & Ns).
  destruct (exact_op (f64_sub c s) (B2R c - B2R s) (sub_xr c s Fc Fs)) as [F E].
  { rewrite Ec, Es. destruct Nc as (z1 & _ & ->), Ns as (z2 & _ & ->). exists (z1 - z2)%Z. now rewrite minus_IZR. }
  { rewrite Ec, Es. pose proof (nat_real_pos _ Nc). pose proof (nat_real_pos _ Ns). apply Rabs_le. lra. }
  destruct (fin_abs _ F) as [F2 E2]. split; [assumption|]. split; [|reflexivity]. rewrite E2, E, Ec, Es. reflexivity.
Qed.

Lemma overlap_whole A B : whole_book A -> whole_book B ->
  exact_result (@calculate_overlap f64 f64_num A B) (@calculate_overlap R R_num (exact_book A) (exact_book B)).
Proof.
  intros [WA1 WA2] [WB1 WB2]. pose proof (calculation_whole A B WA1 WB2) as K1. pose proof (calculation_whole B A WB1 WA2) as K2.
  unfold calculate_overlap.
  assert (forall l, whole_side l -> forall r, In r l -> is_finite (price r) = true) as FW.
  { intros l W r Hr. destruct W as [W _]. rewrite Forall_forall in W. apply (W r Hr). }
  pose proof (FW _ WA1) as F1. pose proof (FW _ WA2) as F2. pose proof (FW _ WB1) as F3. pose proof (FW _ WB2) as F4.
  set (KA := @overlap_calculation f64 f64_num A B) in *. set (KB := @overlap_calculation f64 f64_num B A) in *.
  set (KA' := @overlap_calculation R R_num (exact_book A) (exact_book B)) in *.
  set (KB' := @overlap_calculation R R_num (exact_book B) (exact_book A)) in *.
  cbn [exact_book asks bids].
  destruct (asks A) as [|a0 la]; [reflexivity|]. destruct (bids B) as [|b0 lb]; [reflexivity|]. cbn [map].
  change (index (a0 :: la) 0%Z) with (Ret a0). change (index (b0 :: lb) 0%Z) with (Ret b0).
  change (index (exact_row a0 :: map exact_row la) 0%Z) with (Ret (exact_row a0)).
  change (index (exact_row b0 :: map exact_row lb) 0%Z) with (Ret (exact_row b0)). cbn [bind].
  change (@flt f64 f64_num) with f64_lt. change (@flt R R_num) with Rlt_bool.
  rewrite fin_lt by ((apply F1; left; reflexivity) || (apply F4; left; reflexivity)).
  change (B2R (price a0)) with (price (exact_row a0)). change (B2R (price b0)) with (price (exact_row b0)).
  destruct (Rlt_bool (price (exact_row a0)) (price (exact_row b0))); [exact K1|].
  destruct (bids A) as [|b1 lb1]; [reflexivity|]. destruct (asks B) as [|a1 la1]; [reflexivity|]. cbn [map].
  change (index (a1 :: la1) 0%Z) with (Ret a1). change (index (b1 :: lb1) 0%Z) with (Ret b1).
  change (index (exact_row a1 :: map exact_row la1) 0%Z) with (Ret (exact_row a1)).
  change (index (exact_row b1 :: map exact_row lb1) 0%Z) with (Ret (exact_row b1)). cbn [bind].
  rewrite fin_lt by ((apply F2; left; reflexivity) || (apply F3; left; reflexivity)).
  change (B2R (price a1)) with (price (exact_row a1)). change (B2R (price b1)) with (price (exact_row b1)).
  destruct (Rlt_bool (price (exact_row a1)) (price (exact_row b1))); [exact K2|].
  cbn [exact_result]. change (@fofZ f64 f64_num) with i2f. change (@fofZ R R_num) with IZR.
  split; [reflexivity|]. split; [|reflexivity]. apply i2f_B2R. unfold exact_int. lia.
Qed.
