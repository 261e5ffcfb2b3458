(** Property C119: CalculateOverlap and the gain that can be made between two
    books.  Model: Model/OrderBook.v; vocabulary: Spec/ArbitrageSpec.v. *)
From Coq Require Import List Reals Lra Lia Sorting.Sorted.
From Flocq Require Import Core BinarySingleNaN.
From Verif Require Import Go.Outcome Go.Float64 Go.FloatReal Go.Num Model.OrderBook Spec.OrderBookSpec Spec.WholeSpec Spec.ArbitrageSpec
  Proofs.Lists Proofs.DepthOverlap Proofs.WholeOverlap Proofs.Arbitrage.
Import ListNotations.
Open Scope list_scope.
Open Scope R_scope.

(** Best against best, while it pays, is the best that can be done. *)
Theorem C119_best_matching : forall la lb, ascending la -> descending lb -> stocked la -> stocked lb ->
  best_gain la lb (matched_gain la lb).
Proof. exact matched_best. Qed.
Theorem C119_best_unique : forall la lb g g', best_gain la lb g -> best_gain la lb g' -> g = g'.
Proof. exact best_unique. Qed.

(** A book with both sides, sorted, of ordinary prices and positive volumes. *)
Definition trading (ob : book f64) : Prop :=
  asks ob <> [] /\ bids ob <> [] /\
  Forall (fun r => is_finite (price r) = true /\ is_finite (volume r) = true /\ 0 < B2R (volume r)) (asks ob ++ bids ob) /\
  ascending (map exact_row (asks ob)) /\ descending (map exact_row (bids ob)).
(** Some deal makes a gain. *)
Definition gainful (la lb : list (row R)) : Prop := exists xs ys, deal la lb xs ys /\ 0 < gain la lb xs ys.

Lemma Rlt_bool_true_iff x y : Rlt_bool x y = true -> x < y.
Proof. destruct (Rlt_bool_spec x y); [auto|discriminate]. Qed.
Lemma gainful_iff a la b lb : ascending (a :: la) -> descending (b :: lb) -> stocked (a :: la) -> stocked (b :: lb) ->
  0 < volume a -> 0 < volume b -> gainful (a :: la) (b :: lb) <-> price a < price b.
Proof.
  intros Sa Sb Va Vb Pa Pb. split.
  - intros (xs & ys & D & G). destruct (Rlt_le_dec (price a) (price b)) as [Q|Q]; [assumption|]. exfalso.
    pose proof (gain_bound (price a) _ _ _ _ D) as B. rewrite under_none in B by (auto; now apply asc_head).
    rewrite over_none in B; [lra|assumption|]. eapply Forall_impl; [|exact (desc_head _ _ Sb)]. cbn. intros; lra.
  - intros Q. destruct (matched_deal 1 (a :: la) (b :: lb) Va Vb) as (xs & ys & D & G). exists xs, ys. split; [assumption|].
    rewrite G. cbn. destruct (Rlt_dec (price a) (price b)); [|lra]. destruct (Rle_dec (volume a) (volume b)); nra.
Qed.

(** CalculateOverlap reports an overlap exactly when some deal, buying on one
    of the books and selling on the other, makes a gain. *)
Theorem C119_found : forall A B, trading A -> trading B ->
  (exists v, calculate_overlap A B = Ret (v, None)) <->
  gainful (map exact_row (asks A)) (map exact_row (bids B)) \/ gainful (map exact_row (asks B)) (map exact_row (bids A)).
Proof.
  intros A B (A1 & A2 & A3 & A4 & A5) (B1 & B2 & B3 & B4 & B5).
  destruct (asks A) as [|a la] eqn:Ea; [congruence|]. destruct (bids A) as [|c lc] eqn:Ec; [congruence|].
  destruct (asks B) as [|d ld] eqn:Ed; [congruence|]. destruct (bids B) as [|b lb] eqn:Eb; [congruence|].
  apply Forall_app in A3, B3. destruct A3 as [A3 A6], B3 as [B3 B6].
  assert (forall l : list (row f64), Forall (fun r => is_finite (price r) = true /\ is_finite (volume r) = true /\ 0 < B2R (volume r)) l ->
    stocked (map exact_row l)) as St.
  { intros l H. apply Forall_map. eapply Forall_impl; [|exact H]. intros r (_ & _ & K). cbn [exact_row volume]. apply Rlt_le. exact K. }
  pose proof (St _ A3) as Sa. pose proof (St _ A6) as Sc. pose proof (St _ B3) as Sd. pose proof (St _ B6) as Sb. clear St.
  apply Forall_inv in A3, A6, B3, B6. cbn [map] in *.
  rewrite (gainful_iff (exact_row a) _ (exact_row b)) by (cbn [exact_row volume]; tauto).
  rewrite (gainful_iff (exact_row d) _ (exact_row c)) by (cbn [exact_row volume]; tauto). cbn [exact_row price].
  destruct (overlap_detect A B (price a) (price c) (price d) (price b)) as [(L1 & L2 & E)|(L & v & E & _)]; unfold best_ask, best_bid; eauto.
  - rewrite fin_lt in L1, L2 by tauto. split.
    + intros (v & Q). rewrite E in Q. discriminate.
    + intros [Q|Q]; [rewrite Rlt_bool_true in L1 by exact Q|rewrite Rlt_bool_true in L2 by exact Q]; discriminate.
  - rewrite !fin_lt in L by tauto. split; [|eauto]. intros _. destruct L as [L|L]; [left|right]; revert L; apply Rlt_bool_true_iff.
Qed.

(** Where rows lie outside the overlap on both sides and the bids can take the
    volume: the value is, up to sign, the gain of one particular deal -- buy
    every ask not above the best bid, sell it to the overlapping bids from the
    worst upwards. *)
Theorem C119_value_is_a_deal : forall (A B : book R) a0 la b0 lb,
  asks A = a0 :: la -> bids B = b0 :: lb -> ascending (asks A) -> descending (bids B) ->
  stocked (asks A) -> stocked (bids B) -> price a0 < price b0 ->
  (exists r, In r (asks A) /\ price b0 < price r) -> (exists r, In r (bids B) /\ price r < price a0) ->
  let over_asks := filter (fun r => Rle_bool (price r) (price b0)) (asks A) in
  let over_bids := filter (fun r => Rle_bool (price a0) (price r)) (bids B) in
  total_volume over_asks <= total_volume over_bids ->
  exists xs ys, deal (asks A) (bids B) xs ys /\ amount xs = total_volume over_asks /\ worth xs (asks A) = value over_asks /\
    worth ys (bids B) = proceeds (total_volume over_asks) (rev over_bids) /\
    calculate_overlap A B = Ret (Rabs (gain (asks A) (bids B) xs ys), None).
Proof.
  intros A B a0 la b0 lb Ea Eb Sa Sb Va Vb L Oa Ob oa ob T.
  pose proof (overlap_exact A B a0 la b0 lb Ea Eb Sa Sb L Oa Ob) as V. cbv zeta in V. fold oa ob in V.
  destruct (taken_all oa (stocked_filter _ _ Va)) as (P1 & P2 & P3).
  destruct (taken_filter (fun r => Rle_bool (price r) (price b0)) _ _ Va P1) as (xs & X1 & X2 & X3). fold oa in X3.
  assert (stocked ob) as Vo by (now apply stocked_filter).
  destruct (proceeds_taken (rev ob) (total_volume oa)) as (zs & Z1 & Z2 & Z3).
  { now apply stocked_rev. } { rewrite total_rev. split; [apply total_nonneg; now apply stocked_filter|assumption]. }
  destruct (taken_rev _ _ Z1) as (R1 & R2 & R3). rewrite rev_involutive in R1, R3.
  destruct (taken_filter (fun r => Rle_bool (price a0) (price r)) _ _ Vb R1) as (ys & Y1 & Y2 & Y3). fold ob in Y3.
  exists xs, ys. split; [split; [assumption|split; [assumption|congruence]]|]. split; [congruence|]. split; [congruence|]. split; [congruence|].
  rewrite V. do 2 f_equal. unfold gain. rewrite Rabs_minus_sym. f_equal. f_equal; congruence.
Qed.
(** Then, if that deal does not lose, the value is within what can be made. *)
Theorem C119_within_best : forall (A B : book R) a0 la b0 lb g,
  asks A = a0 :: la -> bids B = b0 :: lb -> ascending (asks A) -> descending (bids B) ->
  stocked (asks A) -> stocked (bids B) -> price a0 < price b0 ->
  (exists r, In r (asks A) /\ price b0 < price r) -> (exists r, In r (bids B) /\ price r < price a0) ->
  let over_asks := filter (fun r => Rle_bool (price r) (price b0)) (asks A) in
  let over_bids := filter (fun r => Rle_bool (price a0) (price r)) (bids B) in
  total_volume over_asks <= total_volume over_bids ->
  value over_asks <= proceeds (total_volume over_asks) (rev over_bids) ->
  best_gain (asks A) (bids B) g ->
  exists v, calculate_overlap A B = Ret (v, None) /\ 0 <= v <= g.
Proof.
  intros A B a0 la b0 lb g Ea Eb Sa Sb Va Vb L Oa Ob oa ob T P G.
  destruct (C119_value_is_a_deal A B a0 la b0 lb Ea Eb Sa Sb Va Vb L Oa Ob T) as (xs & ys & D & _ & W1 & W2 & E).
  fold oa ob in W1, W2. eexists. split; [exact E|]. split; [apply Rabs_pos|].
  rewrite Rabs_right by (unfold gain; lra). now apply G.
Qed.

(** If only the best bid overlaps and it can take the volume, the value is the
    best gain. *)
Theorem C119_one_bid : forall (A B : book R) a0 la b0 b1 lb,
  asks A = a0 :: la -> bids B = b0 :: b1 :: lb -> ascending (asks A) -> descending (bids B) ->
  stocked (asks A) -> stocked (bids B) -> price b1 < price a0 < price b0 ->
  (exists r, In r (asks A) /\ price b0 < price r) ->
  total_volume (filter (fun r => Rle_bool (price r) (price b0)) (asks A)) <= volume b0 ->
  exists g, best_gain (asks A) (bids B) g /\ calculate_overlap A B = Ret (g, None).
Proof.
  intros A B a0 la b0 b1 lb Ea Eb Sa Sb Va Vb [L1 L2] Oa T.
  assert (filter (fun r => Rle_bool (price a0) (price r)) (bids B) = [b0]) as Fb.
  { rewrite Eb in *. cbn [filter]. rewrite Rle_bool_true, Rle_bool_false by lra. f_equal.
    inversion Sb as [|? ? Sb1 _]; subst. apply desc_head in Sb1. inversion Sb1 as [|? ? _ Sb2]; subst.
    clear - Sb2 L1. induction Sb2 as [|r l H _ IH]; [reflexivity|]. cbn [filter]. rewrite Rle_bool_false by lra. exact IH. }
  destruct (C119_value_is_a_deal A B a0 la b0 (b1 :: lb) Ea Eb Sa Sb Va Vb L2 Oa) as (xs & ys & D & X1 & X2 & X3 & E).
  { rewrite Eb. exists b1. split; [right; now left|lra]. }
  { rewrite Fb. cbn. lra. }
  rewrite Fb in X3. set (oa := filter (fun r => Rle_bool (price r) (price b0)) (asks A)) in *.
  assert (under (price b0) (asks A) = total_volume oa * price b0 - value oa) as U.
  { apply under_filter. intros r _. split; [|apply Rle_bool_true]. destruct (Rle_bool_spec (price r) (price b0)); [auto|discriminate]. }
  assert (gain (asks A) (bids B) xs ys = under (price b0) (asks A)) as G.
  { unfold gain. rewrite X2, X3, U. cbn [rev app proceeds]. destruct (Rlt_dec (total_volume oa) (volume b0)) as [Q|Q]; [lra|].
    assert (total_volume oa = volume b0) as <- by lra. lra. }
  assert (0 <= under (price b0) (asks A)) as P.
  { clear - Va. induction Va as [|r l H _ IH]; cbn; [lra|]. fold (under (price b0) l). pose proof (Rmax_l 0 (price b0 - price r)). nra. }
  exists (gain (asks A) (bids B) xs ys). split.
  - split; [eauto|]. intros xs' ys' D'. rewrite G. apply Rle_trans with (under (price b0) (asks A) + over (price b0) (bids B)).
    + now apply gain_bound.
    + rewrite over_none; [lra|assumption|]. rewrite Eb in *. now apply desc_head.
  - rewrite E. now rewrite Rabs_right by lra.
Qed.

(** In general the value is not the best gain.  First pair: 100 where at most
    10 can be made (the deal that is valued loses 100).  Second pair: 2 where 4
    can be made. *)
Definition rr (p v : R) : row R := mkRow p v 0.
Ltac booleans := repeat match goal with |- context [Rle_bool ?x ?y] =>
  first [rewrite (Rle_bool_true x y) by lra | rewrite (Rle_bool_false x y) by lra] end.
Theorem C119_is_best_refuted :
  (exists A B : book R, ascending (asks A) /\ descending (bids B) /\ stocked (asks A) /\ stocked (bids B) /\
     best_gain (asks A) (bids B) 10 /\ calculate_overlap A B = Ret (100, None)) /\
  (exists A B : book R, ascending (asks A) /\ descending (bids B) /\ stocked (asks A) /\ stocked (bids B) /\
     best_gain (asks A) (bids B) 4 /\ calculate_overlap A B = Ret (2, None)).
Proof.
  split.
  - exists (mkBook 0 [rr 10 1; rr 20 10; rr 30 1] [] 5), (mkBook 0 [] [rr 20 1; rr 10 11; rr 5 1] 5). cbn [asks bids].
    split; [unfold ascending; repeat constructor; cbn; lra|]. split; [unfold descending; repeat constructor; cbn; lra|].
    split; [repeat constructor; cbn; lra|]. split; [repeat constructor; cbn; lra|]. split.
    + split.
      * exists [1; 0; 0], [1; 0; 0]. split; [|unfold gain; cbn; lra]. split; [repeat constructor; cbn; lra|]. split; [repeat constructor; cbn; lra|reflexivity].
      * intros xs ys D. eapply Rle_trans; [apply (gain_bound 20); exact D|]. cbn.
        rewrite (Rmax_right 0 (20 - 10)), (Rmax_left 0 (20 - 20)), (Rmax_left 0 (20 - 30)), (Rmax_left 0 (10 - 20)), (Rmax_left 0 (5 - 20)) by lra. lra.
    + erewrite overlap_exact; cbn [asks bids]; [|reflexivity|reflexivity|unfold ascending; repeat constructor; cbn; lra
        |unfold descending; repeat constructor; cbn; lra|cbn; lra|exists (rr 30 1)|exists (rr 5 1)]; [|cbn; split; [tauto|lra]..].
      cbn [filter price rr]. booleans. cbn [rev app value total_volume fold_right price volume proceeds rr].
      destruct (Rlt_dec (1 + (10 + 0)) 11); [lra|].
      destruct (Rlt_dec (1 + (10 + 0) - 11) 1); [|lra]. f_equal. f_equal. rewrite Rabs_right; lra.
  - exists (mkBook 0 [rr 1 1; rr 9 1] [] 5), (mkBook 0 [] [rr 5 1; rr 3 1; rr 0 1] 5). cbn [asks bids].
    split; [unfold ascending; repeat constructor; cbn; lra|]. split; [unfold descending; repeat constructor; cbn; lra|].
    split; [repeat constructor; cbn; lra|]. split; [repeat constructor; cbn; lra|]. split.
    + split.
      * exists [1; 0], [1; 0; 0]. split; [|unfold gain; cbn; lra]. split; [repeat constructor; cbn; lra|]. split; [repeat constructor; cbn; lra|cbn; lra].
      * intros xs ys D. eapply Rle_trans; [apply (gain_bound 5); exact D|]. cbn.
        rewrite (Rmax_right 0 (5 - 1)), (Rmax_left 0 (5 - 9)), (Rmax_left 0 (5 - 5)), (Rmax_left 0 (3 - 5)), (Rmax_left 0 (0 - 5)) by lra. lra.
    + erewrite overlap_exact; cbn [asks bids]; [|reflexivity|reflexivity|unfold ascending; repeat constructor; cbn; lra
        |unfold descending; repeat constructor; cbn; lra|cbn; lra|exists (rr 9 1)|exists (rr 0 1)]; [|cbn; split; [tauto|lra]..].
      cbn [filter price rr]. booleans. cbn [rev app value total_volume fold_right price volume proceeds rr].
      destruct (Rlt_dec (1 + 0) 1); [lra|].
      destruct (Rlt_dec (1 + 0 - 1) 1); [|lra]. f_equal. f_equal. rewrite Rabs_left; lra.
Qed.

(** One overlapping bid of 5 for ten units, asks 3 units at 2 and one at 4
    below it: 3*3 + 1*1 = 10. *)
Example C119_example :
  let la := [rr 2 3; rr 4 1; rr 9 1] in let lb := [rr 5 10; rr 1 1] in
  matched_gain la lb = 10 /\ best_gain la lb 10 /\ calculate_overlap (mkBook 0 la [] 5) (mkBook 0 [] lb 5) = Ret (10, None).
Proof.
  cbv zeta. set (la := [rr 2 3; rr 4 1; rr 9 1]). set (lb := [rr 5 10; rr 1 1]).
  assert (ascending la) as Sa by (unfold la, ascending; repeat constructor; cbn; lra).
  assert (descending lb) as Sb by (unfold lb, descending; repeat constructor; cbn; lra).
  assert (stocked la) as Va by (unfold la; repeat constructor; cbn; lra).
  assert (stocked lb) as Vb by (unfold lb; repeat constructor; cbn; lra).
  assert (matched_gain la lb = 10) as M.
  { unfold matched_gain, la, lb, rr. cbn.
    repeat match goal with |- context [Rlt_dec ?x ?y] => destruct (Rlt_dec x y); try lra end;
    repeat match goal with |- context [Rle_dec ?x ?y] => destruct (Rle_dec x y); try lra end. }
  assert (best_gain la lb 10) as G by (rewrite <- M; now apply matched_best).
  split; [assumption|]. split; [assumption|].
  destruct (C119_one_bid (mkBook 0 la [] 5) (mkBook 0 [] lb 5) (rr 2 3) [rr 4 1; rr 9 1] (rr 5 10) (rr 1 1) []) as (g & G' & ->); auto.
  - cbn. lra.
  - exists (rr 9 1). cbn. split; [tauto|lra].
  - cbn [asks filter la price rr volume]. booleans. cbn. lra.
  - cbn [asks bids] in G'. now rewrite (best_unique _ _ _ _ G G').
Qed.
Definition ra (p v : Z) : row f64 := mkRow (i2f p) (i2f v) (i2f 0).
Example C119_trading_example : trading (mkBook 0 [ra 2 3; ra 9 1] [ra 1 1] 5).
Proof.
  unfold trading. cbn [asks bids app]. split; [discriminate|]. split; [discriminate|].
  assert (forall p v, exact_int p -> exact_int v -> (0 < v)%Z ->
    is_finite (price (ra p v)) = true /\ is_finite (volume (ra p v)) = true /\ 0 < B2R (volume (ra p v))) as K.
  { intros p v P V L. cbn [ra price volume]. split; [now apply i2f_finite|]. split; [now apply i2f_finite|].
    rewrite i2f_B2R by assumption. now apply IZR_lt. }
  assert (forall p, (0 <= p <= 9)%Z -> exact_int p) as X by (intros; unfold exact_int; lia).
  split; [repeat (apply Forall_cons; [apply K; try apply X; lia|]); apply Forall_nil|].
  split; [unfold ascending|unfold descending]; cbn [map].
  - apply SSorted_cons; [repeat constructor|]. repeat constructor. unfold exact_row, ra. cbn [price].
    rewrite !i2f_B2R by (apply X; lia). lra.
  - repeat constructor.
Qed.

Print Assumptions C119_best_matching.
Print Assumptions C119_found.
Print Assumptions C119_value_is_a_deal.
Print Assumptions C119_within_best.
Print Assumptions C119_one_bid.
Print Assumptions C119_is_best_refuted.
