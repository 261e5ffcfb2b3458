(** GetDepth and CalculateOverlap. *)
From Coq Require Import Sorting.Sorted Sorting.Permutation Reals Lra.
From Flocq Require Import Core BinarySingleNaN.
From Verif Require Import Go.Outcome Go.Int64 Go.Slice Go.Sort Go.Float64 Go.FloatOrder Go.FloatReal Go.Num
  Model.OrderBook Spec.OrderBookSpec Proofs.Lists Proofs.OrderBook Proofs.Updates.
Open Scope list_scope.
Open Scope Z_scope.

Lemma index_app {A} (a : list A) x b : index (a ++ x :: b) (zlen a) = Ret x.
Proof.
  apply index_nth; [apply zlen_nonneg|]. unfold zlen. rewrite Nat2Z.id.
  rewrite nth_error_app2 by lia. now rewrite Nat.sub_diag.
Qed.
Lemma index_last {A} (l : list A) : l <> [] -> exists a x, l = a ++ [x] /\ index l (zlen l - 1) = Ret x.
Proof.
  intros H. destruct (exists_last H) as (a & x & ->). exists a, x. split; [reflexivity|].
  rewrite zlen_app. replace (zlen a + zlen [x] - 1) with (zlen a) by (unfold zlen; simpl; lia).
  apply index_app.
Qed.

(** The row found by one of the two searches: keys, ascending. *)
Lemma depth_search (k : rw -> Z) (q : Z) (beyond : rw -> bool) (l : rows) first last m :
  l = first :: m -> (exists a, l = a ++ [last]) -> zlen l <= 2 ^ 53 ->
  StronglySorted (fun a b => k a <= k b) l ->
  (forall r, In r l -> beyond r = (q <? k r)) ->
  k first <= q -> q <= k last ->
  exists r : rw, In r l /\ k r <= q /\ (forall r', In r' l -> k r' <= q -> k r' <= k r) /\
   match find_from beyond l 0 with
   | Some j => x <- index l (f2i (f64_max (i2f 0) (i2f (j - 1)))) ;; Ret (price x, @None err)
   | None => Ret (price last, None)
   end = Ret (price r, None).
Proof.
  intros E (a0 & E0) Hl S Hb Lf Ll. destruct (find_from beyond l 0) as [j|] eqn:Ff.
  - apply find_from_some in Ff as (a & r & b & Es & -> & Tr & Fa). rewrite Z.add_0_l.
    assert (q < k r) as Hr. { rewrite Hb in Tr by (rewrite Es; apply in_elt). now apply Z.ltb_lt. }
    destruct a as [|a1 a2] using rev_ind.
    { rewrite E in Es. injection Es as -> _. lia. }
    clear IHa2. assert (zlen l = zlen a2 + zlen b + 2) as Len.
    { rewrite Es, !zlen_app, !zlen_cons, zlen_nil. lia. }
    pose proof (zlen_nonneg a2). pose proof (zlen_nonneg b).
    replace (zlen (a2 ++ [a1]) - 1) with (zlen a2) by (rewrite zlen_app; unfold zlen; simpl; lia).
    rewrite f2i_max by (unfold exact_int; lia). rewrite Z.max_r by lia.
    rewrite <- app_assoc in Es. simpl in Es. exists a1.
    assert (beyond a1 = false) as T1.
    { rewrite Forall_app in Fa. destruct Fa as [_ Fa]. now inversion Fa. }
    rewrite Hb in T1 by (rewrite Es; apply in_elt). apply Z.ltb_ge in T1.
    split; [rewrite Es; apply in_elt|]. split; [assumption|]. split.
    + intros r' Hr' Lr'. rewrite Es in S. apply ss_app in S as (_ & S & Sab).
      apply ss_cons in S as [S S1]. apply ss_cons in S as [_ S2].
      rewrite Es in Hr'. apply in_app_or in Hr' as [Hr'|[<-|[<-|Hr']]].
      * apply (Sab r' a1); simpl; auto.
      * lia.
      * lia.
      * specialize (S2 r' Hr'). simpl in S2. lia.
    + rewrite Es at 1. rewrite index_app. reflexivity.
  - exists last. apply find_from_none in Ff. rewrite Forall_forall in Ff.
    assert (In last l) as Il by (rewrite E0; apply in_elt). split; [assumption|].
    pose proof (Ff last Il) as T. rewrite Hb in T by assumption. apply Z.ltb_ge in T.
    split; [assumption|]. split; [|reflexivity].
    intros r' Hr' _. rewrite E0 in S, Hr'. apply ss_app in S as (_ & _ & S).
    apply in_app_or in Hr' as [Hr'|[<-|[]]]; [|lia]. apply S; simpl; auto.
Qed.

Lemma head_last_span (k : rw -> Z) (l : rows) first m last a :
  l = first :: m -> l = a ++ [last] -> StronglySorted (fun a b => k a <= k b) l ->
  forall r, In r l -> k first <= k r <= k last.
Proof.
  intros E E' S r Hr. split.
  - rewrite E in S, Hr. apply ss_cons in S as [_ S]. destruct Hr as [<-|Hr]; [lia|]. now apply S.
  - rewrite E' in S, Hr. apply ss_app in S as (_ & _ & S). apply in_app_or in Hr as [Hr|[<-|[]]]; [|lia].
    apply S; simpl; auto.
Qed.

Lemma get_depth_cases ob p : well_ordered ob -> asks ob <> [] -> bids ob <> [] ->
  zlen (asks ob) <= 2 ^ 53 -> zlen (bids ob) <= 2 ^ 53 -> f64_le p (i2f 0) = false ->
  (spans (asks ob) p /\ exists r, highest_below p (asks ob) r /\ get_depth ob p = Ret (price r, None)) \/
  (~ spans (asks ob) p /\ spans (bids ob) p /\
     exists r, lowest_above p (bids ob) r /\ get_depth ob p = Ret (price r, None)) \/
  (~ spans (asks ob) p /\ ~ spans (bids ob) p /\ get_depth ob p = Ret (i2f 0, Some gd_notfound)).
Proof.
  intros (Na & Nb & Sa & Sb) Ea Eb La Lb Hp.
  unfold get_depth. change fle with f64_le. change fzero with (i2f 0). rewrite Hp.
  destruct (asks ob) as [|fa ma] eqn:Qa; [contradiction|].
  destruct (bids ob) as [|fb mb] eqn:Qb; [contradiction|].
  destruct (index_last (fa :: ma) Ea) as (aa & la & Ela & ->).
  destruct (index_last (fb :: mb) Eb) as (ab & lb & Elb & ->).
  change (index (fa :: ma) 0) with (Ret fa). change (index (fb :: mb) 0) with (Ret fb). cbn [bind].
  destruct (f64_is_nan p) eqn:Np.
  { (* NaN: every comparison is false *)
    assert (forall l, ~ spans l p) as NS.
    { intros l [(r & _ & H) _]. rewrite f64_le_nan_r in H by assumption. discriminate. }
    right; right. do 2 (split; [apply NS|]).
    rewrite (f64_le_nan_r _ p), (f64_le_nan_r _ p) by assumption. reflexivity. }
  apply asks_ordered_k in Sa; [|assumption]. apply bids_ordered_k in Sb; [|assumption].
  unfold nan_free in Na, Nb. rewrite Forall_forall in Na, Nb.
  assert (Na' : forall r, In r (fa :: ma) -> Pn r) by (intros; now apply Na).
  assert (Nb' : forall r, In r (fb :: mb) -> Pn r) by (intros; now apply Nb).
  assert (In fa (fa :: ma)) as Ifa by (simpl; auto). assert (In fb (fb :: mb)) as Ifb by (simpl; auto).
  assert (In la (fa :: ma)) as Ila by (rewrite Ela; apply in_elt).
  assert (In lb (fb :: mb)) as Ilb by (rewrite Elb; apply in_elt).
  pose proof (head_last_span kA _ _ _ _ _ eq_refl Ela Sa) as HA.
  pose proof (head_last_span kB _ _ _ _ _ eq_refl Elb Sb) as HB.
  assert (forall r, Pn r -> f64_le (price r) p = (kA r <=? key p)) as L1 by (intros; now apply f64_le_key).
  assert (forall r, Pn r -> f64_le p (price r) = (key p <=? kA r)) as L2 by (intros; now apply f64_le_key).
  assert (spans (fa :: ma) p <-> kA fa <= key p <= kA la) as SA.
  { split.
    - intros [(r1 & I1 & H1) (r2 & I2 & H2)]. rewrite L1 in H1 by auto. rewrite L2 in H2 by auto.
      apply Z.leb_le in H1, H2. pose proof (HA r1 I1). pose proof (HA r2 I2). lia.
    - intros [H1 H2]. split; [exists fa|exists la]; split; auto; [rewrite L1 by auto|rewrite L2 by auto]; now apply Z.leb_le. }
  assert (spans (fb :: mb) p <-> kA lb <= key p <= kA fb) as SB.
  { unfold kA in *. unfold kB in HB. split.
    - intros [(r1 & I1 & H1) (r2 & I2 & H2)]. rewrite L1 in H1 by auto. rewrite L2 in H2 by auto.
      apply Z.leb_le in H1, H2. pose proof (HB r1 I1). pose proof (HB r2 I2). lia.
    - intros [H1 H2]. split; [exists lb|exists fb]; split; auto; [rewrite L1 by auto|rewrite L2 by auto]; now apply Z.leb_le. }
  assert (f64_le (price fa) p && f64_le p (price la) = true <-> spans (fa :: ma) p) as BA.
  { rewrite andb_true_iff, L1, L2, !Z.leb_le, SA by auto. tauto. }
  assert (f64_le (price lb) p && f64_le p (price fb) = true <-> spans (fb :: mb) p) as BB.
  { rewrite andb_true_iff, L1, L2, !Z.leb_le, SB by auto. tauto. }
  destruct (f64_le (price fa) p && f64_le p (price la)) eqn:CA.
  - left. assert (spans (fa :: ma) p) as Sp by now apply BA. split; [assumption|]. apply SA in Sp.
    destruct (depth_search kA (key p) (fun r => f64_lt p (price r)) (fa :: ma) fa la ma eq_refl) as (r & Ir & Lr & Mr & Er);
      auto; try (eexists; exact Ela); try tauto.
    { intros r Hr. apply ask_gt; auto. }
    exists r. split; [|exact Er]. split; [assumption|]. split; [rewrite L1 by auto; now apply Z.leb_le|].
    intros r' Ir' Hr'. rewrite L1 in Hr' by auto. apply Z.leb_le in Hr'. rewrite f64_le_key by (apply Na'; auto).
    apply Z.leb_le. now apply Mr.
  - assert (~ spans (fa :: ma) p) as NSA by (intros H; apply BA in H; discriminate).
    destruct (f64_le (price lb) p && f64_le p (price fb)) eqn:CB.
    + right; left. assert (spans (fb :: mb) p) as Sp by now apply BB. split; [assumption|]. split; [assumption|].
      apply SB in Sp.
      destruct (depth_search kB (- key p) (fun r => f64_lt (price r) p) (fb :: mb) fb lb mb eq_refl) as (r & Ir & Lr & Mr & Er);
        auto; try (eexists; exact Elb); try (unfold kA in Sp; unfold kB; lia).
      { intros r Hr. apply bid_gt; auto. }
      exists r. split; [|exact Er]. split; [assumption|].
      split; [rewrite L2 by auto; apply Z.leb_le; unfold kA; unfold kB in Lr; lia|].
      intros r' Ir' Hr'. rewrite L2 in Hr' by auto. apply Z.leb_le in Hr'. rewrite f64_le_key by (apply Nb'; auto).
      apply Z.leb_le. specialize (Mr r' Ir'). unfold kA in Hr'. unfold kB in Mr. lia.
    + right; right. split; [assumption|]. split; [|reflexivity]. intros H; apply BB in H; discriminate.
Qed.

Lemma get_depth_nonpositive (ob : book f64) p : f64_le p (i2f 0) = true ->
  get_depth ob p = Ret (i2f 0, Some gd_invalid).
Proof. intros H. unfold get_depth. change fle with f64_le. change fzero with (i2f 0). now rewrite H. Qed.
Lemma get_depth_empty (ob : book f64) p : f64_le p (i2f 0) = false -> asks ob = [] \/ bids ob = [] ->
  get_depth ob p = Panic PIndex.
Proof.
  intros H E. unfold get_depth. change fle with f64_le. change fzero with (i2f 0). rewrite H.
  destruct (asks ob) as [|fa ma] eqn:Qa; [reflexivity|]. destruct E as [E|E]; [discriminate|].
  rewrite E. assert (fa :: ma <> []) as Hne by discriminate.
  destruct (index_last (fa :: ma) Hne) as (aa & la & _ & ->). reflexivity.
Qed.

(** ** Overlap *)

Section Overlap.
Context {F : Type} {N : GoFloat F}.

Lemma scan_bound stop (l : list (row F)) i acc : 0 <= i ->
  0 <= fst (overlap_scan stop l i acc) <= i + zlen l.
Proof.
  revert i acc. induction l as [|r l IH]; intros i acc Hi; simpl.
  - unfold zlen; simpl; lia.
  - rewrite zlen_cons. pose proof (zlen_nonneg l). destruct (stop r); simpl; [lia|].
    specialize (IH (i + 1) (fadd acc (volume r))). lia.
Qed.

Lemma overlap_total (A B : book F) : asks A <> [] -> bids B <> [] ->
  exists x, overlap_calculation A B = Ret (fabs x, None).
Proof.
  intros HA HB. unfold overlap_calculation.
  destruct (asks A) as [|a0 la] eqn:EA; [contradiction|]. destruct (bids B) as [|b0 lb] eqn:EB; [contradiction|].
  change (index (b0 :: lb) 0) with (Ret b0). change (index (a0 :: la) 0) with (Ret a0). cbn [bind].
  destruct (overlap_scan (fun r => flt (price b0) (price r)) (a0 :: la) 0 fzero) as [ia va] eqn:E1. cbn [bind].
  destruct (overlap_scan (fun r => flt (price r) (price a0)) (b0 :: lb) 0 fzero) as [ib vb] eqn:E2. cbn [bind].
  pose proof (scan_bound (fun r => flt (price b0) (price r)) (a0 :: la) 0 fzero ltac:(lia)) as B1. rewrite E1 in B1.
  pose proof (scan_bound (fun r => flt (price r) (price a0)) (b0 :: lb) 0 fzero ltac:(lia)) as B2. rewrite E2 in B2.
  cbn [fst] in *. rewrite !reslice_ok by lia. cbn [bind]. eexists; reflexivity.
Qed.

(** Scanning a list whose rows up to the first stop are [a]. *)
Lemma scan_app stop (a : list (row F)) r b i acc :
  Forall (fun x => stop x = false) a -> stop r = true ->
  overlap_scan stop (a ++ r :: b) i acc =
  (i + zlen a, fold_left (fun s x => fadd s (volume x)) a acc).
Proof.
  revert i acc. induction a as [|x a IH]; intros i acc Ha Hr; simpl.
  - rewrite Hr, zlen_nil. f_equal; lia.
  - inversion Ha; subst. rewrite H1, IH by assumption. rewrite zlen_cons. f_equal; lia.
Qed.
Lemma scan_none stop (a : list (row F)) i acc :
  Forall (fun x => stop x = false) a ->
  fst (overlap_scan stop a i acc) = 0.
Proof.
  revert i acc. induction a as [|x a IH]; intros i acc Ha; simpl; [reflexivity|].
  inversion Ha; subst. rewrite H1. auto.
Qed.
End Overlap.

Lemma fabs_nonneg x : f64_lt (f64_abs x) (i2f 0) = false.
Proof.
  destruct (is_nan x) eqn:E.
  - destruct x; try discriminate. reflexivity.
  - destruct (f64_abs_xr x E) as [H1 H2]. rewrite f64_lt_xr; [|assumption|apply i2f_xr].
    rewrite H2, i2f_exact_xr by (unfold exact_int; lia). apply Rlt_bool_false. apply Rabs_pos.
Qed.

Lemma overlap_detect A B aA bA aB bB :
  best_ask A aA -> best_bid A bA -> best_ask B aB -> best_bid B bB ->
  (f64_lt aA bB = false /\ f64_lt aB bA = false /\ calculate_overlap A B = Ret (i2f (-1), Some no_overlap)) \/
  ((f64_lt aA bB = true \/ f64_lt aB bA = true) /\
   exists v, calculate_overlap A B = Ret (v, None) /\ f64_lt v (i2f 0) = false).
Proof.
  intros (r1 & l1 & E1 & <-) (r2 & l2 & E2 & <-) (r3 & l3 & E3 & <-) (r4 & l4 & E4 & <-).
  unfold calculate_overlap. rewrite E1, E2, E3, E4.
  change (index (r1 :: l1) 0) with (Ret r1). change (index (r2 :: l2) 0) with (Ret r2).
  change (index (r3 :: l3) 0) with (Ret r3). change (index (r4 :: l4) 0) with (Ret r4). cbn [bind].
  change flt with f64_lt.
  destruct (f64_lt (price r1) (price r4)) eqn:L1.
  - right. split; [auto|]. destruct (overlap_total A B) as (x & ->); [rewrite E1; discriminate|rewrite E4; discriminate|].
    eexists. split; [reflexivity|apply fabs_nonneg].
  - destruct (f64_lt (price r3) (price r2)) eqn:L2.
    + right. split; [auto|]. destruct (overlap_total B A) as (x & ->); [rewrite E3; discriminate|rewrite E2; discriminate|].
      eexists. split; [reflexivity|apply fabs_nonneg].
    + left. auto.
Qed.

Lemma overlap_symmetric A B aA bA aB bB :
  best_ask A aA -> best_bid A bA -> best_ask B aB -> best_bid B bB ->
  f64_le bA aA = true -> f64_le bB aB = true ->
  calculate_overlap A B = calculate_overlap B A.
Proof.
  intros (r1 & l1 & E1 & <-) (r2 & l2 & E2 & <-) (r3 & l3 & E3 & <-) (r4 & l4 & E4 & <-) UA UB.
  unfold calculate_overlap. rewrite E1, E2, E3, E4.
  change (index (r1 :: l1) 0) with (Ret r1). change (index (r2 :: l2) 0) with (Ret r2).
  change (index (r3 :: l3) 0) with (Ret r3). change (index (r4 :: l4) 0) with (Ret r4). cbn [bind].
  change flt with f64_lt.
  destruct (f64_lt (price r1) (price r4)) eqn:L1, (f64_lt (price r3) (price r2)) eqn:L2; try reflexivity.
  exfalso. apply f64_lt_true in L1, L2. apply f64_le_true in UA, UB. lia.
Qed.

Lemma overlap_panics (A B : book f64) :
  (calculate_overlap A B = Panic PIndex <->
   asks A = [] \/ bids B = [] \/
   exists a b, best_ask A a /\ best_bid B b /\ f64_lt a b = false /\ (bids A = [] \/ asks B = [])) /\
  (forall p, calculate_overlap A B = Panic p -> p = PIndex).
Proof.
  unfold calculate_overlap.
  destruct (asks A) as [|a0 la] eqn:EA; [split; [tauto|intros p [= <-]; reflexivity]|].
  destruct (bids B) as [|b0 lb] eqn:EB; [split; [tauto|intros p [= <-]; reflexivity]|].
  change (index (a0 :: la) 0) with (Ret a0). change (index (b0 :: lb) 0) with (Ret b0). cbn [bind].
  change flt with f64_lt. unfold best_ask, best_bid. rewrite EA, EB.
  destruct (f64_lt (price a0) (price b0)) eqn:L.
  - destruct (overlap_total A B) as (x & ->); [rewrite EA; discriminate|rewrite EB; discriminate|].
    split; [|discriminate]. split; [discriminate|]. intros [H|[H|H]]; [discriminate|discriminate|].
    destruct H as (a & b & (r1 & l1 & [= <- <-] & <-) & (r2 & l2 & [= <- <-] & <-) & H & _). congruence.
  - destruct (bids A) as [|b1 lb1] eqn:EA2.
    { split; [|intros p [= <-]; reflexivity]. split; [|reflexivity]. intros _. right; right.
      exists (price a0), (price b0). split; [eauto|]. split; [eauto|]. auto. }
    destruct (asks B) as [|a1 la1] eqn:EB2.
    { split; [|intros p [= <-]; reflexivity]. split; [|reflexivity]. intros _. right; right.
      exists (price a0), (price b0). split; [eauto|]. split; [eauto|]. auto. }
    change (index (a1 :: la1) 0) with (Ret a1). change (index (b1 :: lb1) 0) with (Ret b1). cbn [bind].
    assert (exists x, (if f64_lt (price a1) (price b1) then overlap_calculation B A
      else Ret (fofZ (-1), Some no_overlap)) = Ret x) as (x & ->).
    { destruct (f64_lt (price a1) (price b1)); [|eauto].
      destruct (overlap_total B A) as (x & ->); [rewrite EB2; discriminate|rewrite EA2; discriminate|eauto]. }
    split; [|discriminate]. split; [discriminate|]. intros [H|[H|H]]; [discriminate|discriminate|].
    destruct H as (a & b & _ & _ & _ & [H|H]); discriminate.
Qed.

(** ** The value, in exact arithmetic *)
Open Scope R_scope.

Lemma sell_proceeds (l : list (row R)) total vol res :
  overlap_sell l total vol res = res + proceeds (total - vol) l.
Proof.
  revert vol res. induction l as [|r l IH]; intros vol res; cbn [overlap_sell proceeds].
  - lra.
  - change flt with Rlt_bool. cbn [fadd fmul fsub R_num].
    destruct (Rlt_bool_spec total (vol + volume r)) as [L|L].
    + destruct (Rlt_dec (total - vol) (volume r)); [reflexivity|exfalso; lra].
    + destruct (Rlt_dec (total - vol) (volume r)); [exfalso; lra|]. rewrite IH.
      replace (total - (vol + volume r)) with (total - vol - volume r) by ring. lra.
Qed.
Lemma cost_value (l : list (row R)) res : overlap_cost l res = res + value l.
Proof.
  revert res. induction l as [|r l IH]; intros res; cbn [overlap_cost value fold_right].
  - lra.
  - rewrite IH. cbn [fadd fmul R_num]. unfold value. lra.
Qed.
Lemma volume_total (l : list (row R)) acc :
  fold_left (fun s x => fadd s (volume x)) l acc = acc + total_volume l.
Proof.
  revert acc. induction l as [|r l IH]; intros acc; cbn [fold_left total_volume fold_right].
  - lra.
  - rewrite IH. cbn [fadd R_num]. unfold total_volume. lra.
Qed.

Lemma sorted_prefix (R : row R -> row R -> Prop) (t : row Rdefinitions.R -> bool) l :
  StronglySorted R l -> (forall x y, R x y -> t x = true -> t y = true) ->
  (exists x, In x l /\ t x = true) ->
  exists a r b, l = a ++ r :: b /\ Forall (fun x => t x = false) a /\ t r = true /\
    a = filter (fun x => negb (t x)) l.
Proof.
  intros S M. induction S as [|x l S IH Fx]; intros (y & Hy & Ty); [destruct Hy|].
  destruct (t x) eqn:Tx.
  - exists [], x, l. repeat split; auto. simpl. rewrite Tx. simpl. symmetry. apply filter_none.
    rewrite Forall_forall in *. intros z Hz. rewrite (M x z); auto.
  - destruct IH as (a & r & b & -> & Ha & Hr & E).
    { destruct Hy as [<-|Hy]; [congruence|eauto]. }
    exists (x :: a), r, b. repeat split; auto. simpl. rewrite Tx. simpl. now rewrite <- E.
Qed.

Lemma overlap_exact (A B : book R) a0 la b0 lb :
  asks A = a0 :: la -> bids B = b0 :: lb -> ascending (asks A) -> descending (bids B) ->
  price a0 < price b0 ->
  (exists r, In r (asks A) /\ price b0 < price r) -> (exists r, In r (bids B) /\ price r < price a0) ->
  let over_asks := filter (fun r => Rle_bool (price r) (price b0)) (asks A) in
  let over_bids := filter (fun r => Rle_bool (price a0) (price r)) (bids B) in
  calculate_overlap A B =
    Ret (Rabs (value over_asks - proceeds (total_volume over_asks) (rev over_bids)), None).
Proof.
  intros EA EB SA SB L HA HB oa ob_. unfold calculate_overlap. rewrite EA, EB.
  change (index (a0 :: la) 0%Z) with (Ret a0). change (index (b0 :: lb) 0%Z) with (Ret b0). cbn [bind].
  change flt with Rlt_bool. rewrite Rlt_bool_true by assumption.
  unfold overlap_calculation.
  destruct (sorted_prefix (fun x y => price x <= price y) (fun r => Rlt_bool (price b0) (price r)) (asks A)) as (pa & ra & qa & E1 & H1 & H1' & H1''); auto.
  { intros x y H. destruct (Rlt_bool_spec (price b0) (price x)); [|discriminate]. intros _. apply Rlt_bool_true. lra. }
  { destruct HA as (r & Ir & Lr). exists r. split; [assumption|]. now apply Rlt_bool_true. }
  destruct (sorted_prefix (fun x y => price y <= price x) (fun r => Rlt_bool (price r) (price a0)) (bids B)) as (pb & rb & qb & E2 & H2 & H2' & H2''); auto.
  { intros x y H. destruct (Rlt_bool_spec (price x) (price a0)); [|discriminate]. intros _. apply Rlt_bool_true. lra. }
  { destruct HB as (r & Ir & Lr). exists r. split; [assumption|]. now apply Rlt_bool_true. }
  assert (pa = oa) as <-.
  { rewrite H1''. unfold oa. apply filter_ext. intros r. destruct (Rlt_bool_spec (price b0) (price r)), (Rle_bool_spec (price r) (price b0)); simpl; auto; lra. }
  assert (pb = ob_) as <-.
  { rewrite H2''. unfold ob_. apply filter_ext. intros r. destruct (Rlt_bool_spec (price r) (price a0)), (Rle_bool_spec (price a0) (price r)); simpl; auto; lra. }
  rewrite EA in E1 at 1. rewrite EB in E2 at 1. rewrite EA, EB.
  change (index (a0 :: la) 0%Z) with (Ret a0). change (index (b0 :: lb) 0%Z) with (Ret b0). cbn [bind].
  change flt with Rlt_bool.
  rewrite E1 at 1. rewrite scan_app by assumption. rewrite E2 at 1. rewrite scan_app by assumption. cbn [bind].
  rewrite E1, E2.
  pose proof (zlen_nonneg pa). pose proof (zlen_nonneg pb).
  rewrite (reslice_ok (pb ++ rb :: qb)) by (rewrite ?zlen_app, ?zlen_cons; pose proof (zlen_nonneg qb); lia). cbn [bind].
  rewrite (reslice_ok (pa ++ ra :: qa)) by (rewrite ?zlen_app, ?zlen_cons; pose proof (zlen_nonneg qa); lia). cbn [bind].
  rewrite !Z.sub_0_r. simpl skipn. rewrite !zto_len, !firstn_app_exact.
  rewrite sell_proceeds, cost_value, volume_total. change (@fzero R R_num) with 0.
  do 2 f_equal. cbn [fabs fsub R_num]. f_equal. rewrite !Rplus_0_l, Rminus_0_r. reflexivity.
Qed.
