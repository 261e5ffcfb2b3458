(** Accumulated volumes influence nothing (C104). *)
From Coq Require Import Lia ZArith.
From Verif Require Import Go.Outcome Go.Int64 Go.Slice Go.Sort Go.Float64 Go.FloatOrder Go.Num Model.OrderBook
  Spec.OrderBookSpec Spec.SymmetrySpec Spec.RebuildSpec Proofs.NewBook Proofs.UpdateThms Proofs.OrderBookHeap Proofs.Symmetry.
Open Scope list_scope.
Open Scope Z_scope.

Definition row_alike (a b : row f64) : Prop := pv a = pv b.
Lemma alike_rows l m : map pv l = map pv m <-> Forall2 row_alike l m.
Proof.
  split.
  - revert m. induction l as [|a l IH]; intros [|b m] H; try discriminate; constructor; cbn in H; injection H; intros; [|now apply IH].
    unfold row_alike, pv. congruence.
  - intros H. induction H as [|a b l m E H IH]; [reflexivity|]. cbn [map]. now rewrite E, IH.
Qed.
Lemma ra_price a b : row_alike a b -> price a = price b. Proof. intros H. now injection H. Qed.
Lemma ra_volume a b : row_alike a b -> volume a = volume b. Proof. intros H. now injection H. Qed.

Definition with_time (t : Z) (ob : book f64) : book f64 := mkBook t (asks ob) (bids ob) (max_depth ob).
Lemma time_finish t ob : finish (with_time t ob) = go_map (fun r => (with_time t (fst r), snd r)) (finish ob).
Proof.
  unfold finish, limit. cbn [with_time asks bids b_time max_depth]. destruct (limit_side (asks ob) (max_depth ob)); [|reflexivity].
  rewrite !bind_ret. destruct (limit_side (bids ob) (max_depth ob)); reflexivity.
Qed.
Lemma time_update t u ob : apply_update u (with_time t ob) = go_map (fun r => (with_time t (fst r), snd r)) (apply_update u ob).
Proof.
  rewrite !apply_update_v. unfold v_update. cbv zeta. cbn [with_time asks bids b_time max_depth].
  assert (forall la lb, finish (mkBook t la lb (max_depth ob)) =
    go_map (fun r => (with_time t (fst r), snd r)) (finish (mkBook (b_time ob) la lb (max_depth ob)))) as K by (intros; apply (time_finish t (mkBook (b_time ob) la lb (max_depth ob)))).
  destruct (String.eqb (u_side u) "ask"); [|destruct (String.eqb (u_side u) "bid"); [|reflexivity]]; destruct (negb _).
  - destruct (v_remove _ _ _ (bids ob)) as [lb|]; [|reflexivity]. rewrite !bind_ret. destruct (v_insert _ (asks ob) _) as [la|]; [|reflexivity]. rewrite !bind_ret. apply K.
  - destruct (find_from _ (asks ob) 0); [|reflexivity]. apply K.
  - destruct (v_remove _ _ _ (asks ob)) as [lb|]; [|reflexivity]. rewrite !bind_ret. destruct (v_insert _ (bids ob) _) as [la|]; [|reflexivity]. rewrite !bind_ret. apply K.
  - destruct (find_from _ (bids ob) 0); [|reflexivity]. apply K.
Qed.

Lemma order_same : same_order (@eq f64) (@flt f64 f64_num) flt.
Proof. intros x y x' y' -> ->. reflexivity. Qed.
Lemma order_eq : same_order (@eq f64) (@feq f64 f64_num) feq.
Proof. intros x y x' y' -> ->. reflexivity. Qed.
Lemma levels_update u x y : same_levels x y ->
  alike (fun a b => same_levels (fst a) (fst b) /\ snd a = snd b) (apply_update u x) (apply_update u y).
Proof.
  intros (A & B & D). pose proof (time_update (b_time y) u x) as T.
  assert (same_books row_alike (with_time (b_time y) x) y) as S.
  { split; [reflexivity|]. cbn [with_time asks bids max_depth]. rewrite <- !alike_rows. auto. }
  assert (same_update (@eq f64) row_alike u u) as U by (repeat split; reflexivity).
  pose proof (update_same (@eq f64) row_alike ra_price order_eq u u _ _ order_same U S) as G. rewrite T in G.
  destruct (apply_update u x) as [[a e]|p], (apply_update u y) as [[b e']|q]; cbn [go_map grel alike fst snd with_err] in *; try contradiction; [|exact G].
  destruct G as [(_ & HA & HB & HD) E]. cbn [with_time asks bids max_depth] in *. rewrite <- alike_rows in HA, HB. repeat split; assumption.
Qed.
Lemma levels_history us : forall x y, same_levels x y -> alike same_levels (apply_updates us x) (apply_updates us y).
Proof.
  induction us as [|u us IH]; intros x y H; cbn [apply_updates]; [exact H|]. pose proof (levels_update u x y H) as G.
  destruct (apply_update u x) as [[a e]|p], (apply_update u y) as [[b e']|q]; cbn [alike bind fst] in *; try contradiction; [|exact G]. now apply IH.
Qed.

Lemma find_alike s l m i : (forall a b, row_alike a b -> s a = s b) -> Forall2 row_alike l m -> @find_from f64 s l i = find_from s m i.
Proof. intros H F. now apply (find_rel row_alike). Qed.
Lemma levels_depth x y p : same_levels x y -> get_depth x p = get_depth y p.
Proof.
  intros (A & B & _). rewrite alike_rows in A, B. unfold get_depth. rewrite (f2_len _ _ _ A), (f2_len _ _ _ B).
  assert (forall l m i, Forall2 row_alike l m -> match index l i, index m i with Ret a, Ret b => price a = price b | Panic e, Panic f => e = f | _, _ => False end) as I.
  { intros l m i H. pose proof (f2_index _ l m i H) as G. destruct (index l i), (index m i); cbn [grel] in G; try contradiction; [now apply ra_price|exact G]. }
  assert (forall a b, row_alike a b -> @flt f64 f64_num p (price a) = flt p (price b)) as F1 by (intros a b H; now rewrite (ra_price a b H)).
  assert (forall a b, row_alike a b -> @flt f64 f64_num (price a) p = flt (price b) p) as F2 by (intros a b H; now rewrite (ra_price a b H)).
  rewrite (find_alike (fun r => flt p (price r)) _ _ 0 F1 A), (find_alike (fun r => flt (price r) p) _ _ 0 F2 B).
  destruct (fle p fzero); [reflexivity|].
  pose proof (I _ _ 0 A) as I1. pose proof (I _ _ (zlen (asks y) - 1) A) as I2. pose proof (I _ _ 0 B) as I3. pose proof (I _ _ (zlen (bids y) - 1) B) as I4.
  destruct (index (asks x) 0), (index (asks y) 0); try contradiction; [|now subst]. rewrite !bind_ret.
  destruct (index (asks x) _), (index (asks y) _); try contradiction; [|now subst]. rewrite !bind_ret.
  destruct (index (bids x) 0), (index (bids y) 0); try contradiction; [|now subst]. rewrite !bind_ret.
  destruct (index (bids x) _), (index (bids y) (zlen (bids y) - 1)); try contradiction; [|now subst]. rewrite !bind_ret.
  rewrite I1, I2, I3, I4. destruct (_ && _).
  - destruct (find_from _ (asks y) 0) as [k|]; [|reflexivity]. pose proof (I _ _ (f2i (f64_max (i2f 0) (i2f (k - 1)))) A) as I5.
    destruct (index (asks x) _), (index (asks y) _); try contradiction; [rewrite !bind_ret; now rewrite I5|now subst].
  - destruct (_ && _); [|reflexivity].
    destruct (find_from _ (bids y) 0) as [k|]; [|reflexivity]. pose proof (I _ _ (f2i (f64_max (i2f 0) (i2f (k - 1)))) B) as I5.
    destruct (index (bids x) _), (index (bids y) _); try contradiction; [rewrite !bind_ret; now rewrite I5|now subst].
Qed.

Lemma scan_alike s t l m : (forall a b, row_alike a b -> s a = t b) -> Forall2 row_alike l m -> forall i acc, @overlap_scan f64 f64_num s l i acc = overlap_scan t m i acc.
Proof.
  intros H F. induction F as [|a b l m E F IH]; intros i acc; cbn [overlap_scan]; [reflexivity|]. rewrite (H a b E), (ra_volume a b E). destruct (t b); [reflexivity|]. apply IH.
Qed.
Lemma sell_alike l m : Forall2 row_alike l m -> forall t v r, @overlap_sell f64 f64_num l t v r = overlap_sell m t v r.
Proof.
  intros F. induction F as [|a b l m E F IH]; intros t v r; cbn [overlap_sell]; [reflexivity|]. rewrite (ra_price a b E), (ra_volume a b E), IH. reflexivity.
Qed.
Lemma cost_alike l m : Forall2 row_alike l m -> forall r, @overlap_cost f64 f64_num l r = overlap_cost m r.
Proof. intros F. induction F as [|a b l m E F IH]; intros r; cbn [overlap_cost]; [reflexivity|]. now rewrite (ra_price a b E), (ra_volume a b E), IH. Qed.
Lemma f2_rev {A B} (R : A -> B -> Prop) l m : Forall2 R l m -> Forall2 R (rev l) (rev m).
Proof. intros H. induction H; cbn [rev]; [constructor|]. apply Forall2_app; [assumption|]. constructor; [assumption|constructor]. Qed.

Lemma calc_alike x x' y y' : same_levels x x' -> same_levels y y' -> overlap_calculation x y = overlap_calculation x' y'.
Proof.
  intros (A & _ & _) (_ & B & _). rewrite alike_rows in A, B. unfold overlap_calculation.
  assert (forall l m, Forall2 row_alike l m -> match index l 0, index m 0 with Ret a, Ret b => price a = price b | Panic e, Panic f => e = f | _, _ => False end) as I.
  { intros l m H. pose proof (f2_index _ l m 0 H) as G. destruct (index l 0), (index m 0); cbn [grel] in G; try contradiction; [now apply ra_price|exact G]. }
  pose proof (I _ _ A) as IA. pose proof (I _ _ B) as IB.
  match goal with |- bind ?u _ = bind ?w _ => assert (u = w) as ->;
    [|destruct w as [[ia va]|]; [rewrite !bind_ret|reflexivity]] end.
  { inversion A as [|a a' l l' Ea A' E1 E2]; [reflexivity|].
    destruct (index (bids y) 0), (index (bids y') 0); try contradiction; [|now subst]. rewrite !bind_ret. f_equal.
    apply scan_alike; [|constructor; assumption]. intros c d H. now rewrite IB, (ra_price c d H). }
  match goal with |- bind ?u _ = bind ?w _ => assert (u = w) as ->;
    [|destruct w as [[ib vb]|]; [rewrite !bind_ret|reflexivity]] end.
  { inversion B as [|a a' l l' Ea B' E1 E2]; [reflexivity|].
    destruct (index (asks x) 0), (index (asks x') 0); try contradiction; [|now subst]. rewrite !bind_ret. f_equal.
    apply scan_alike; [|constructor; assumption]. intros c d H. now rewrite IA, (ra_price c d H). }
  pose proof (f2_reslice _ _ _ 0 ib B) as RB. destruct (reslice (bids y) 0 ib), (reslice (bids y') 0 ib); cbn [grel] in RB; try contradiction; [|now subst]. rewrite !bind_ret.
  pose proof (f2_reslice _ _ _ 0 ia A) as RA. destruct (reslice (asks x) 0 ia), (reslice (asks x') 0 ia); cbn [grel] in RA; try contradiction; [|now subst]. rewrite !bind_ret.
  rewrite (sell_alike _ _ (f2_rev _ _ _ RB)), (cost_alike _ _ RA). reflexivity.
Qed.
Lemma levels_overlap x x' y y' : same_levels x x' -> same_levels y y' -> calculate_overlap x y = calculate_overlap x' y'.
Proof.
  intros Hx Hy. pose proof (calc_alike _ _ _ _ Hx Hy) as C1. pose proof (calc_alike _ _ _ _ Hy Hx) as C2.
  destruct Hx as (Ax & Bx & _). destruct Hy as (Ay & By & _). rewrite alike_rows in Ax, Bx, Ay, By. unfold calculate_overlap.
  assert (forall l m, Forall2 row_alike l m -> match index l 0, index m 0 with Ret a, Ret b => price a = price b | Panic e, Panic f => e = f | _, _ => False end) as I.
  { intros l m H. pose proof (f2_index _ l m 0 H) as G. destruct (index l 0), (index m 0); cbn [grel] in G; try contradiction; [now apply ra_price|exact G]. }
  pose proof (I _ _ Ax) as I1. pose proof (I _ _ By) as I2. pose proof (I _ _ Bx) as I3. pose proof (I _ _ Ay) as I4. rewrite C1, C2.
  destruct (index (asks x) 0), (index (asks x') 0); try contradiction; [|now subst]. rewrite !bind_ret.
  destruct (index (bids y) 0), (index (bids y') 0); try contradiction; [|now subst]. rewrite !bind_ret. rewrite I1, I2.
  destruct (flt _ _); [reflexivity|].
  destruct (index (bids x) 0), (index (bids x') 0); try contradiction; [|now subst]. rewrite !bind_ret.
  destruct (index (asks y) 0), (index (asks y') 0); try contradiction; [|now subst]. rewrite !bind_ret. now rewrite I3, I4.
Qed.

(** NewOrderBook recomputes all accumulated volumes. *)
Lemma accum_alike l m : Forall2 row_alike l m -> forall prev, @accum_rows f64 f64_num prev l = accum_rows prev m.
Proof.
  intros F. induction F as [|a b l m E F IH]; intros prev; cbn [accum_rows]; [reflexivity|]. now rewrite (ra_price a b E), (ra_volume a b E), IH.
Qed.
Lemma levels_new now la la' lb lb' d : map pv la = map pv la' -> map pv lb = map pv lb' ->
  new_order_book now la lb d = new_order_book now la' lb' d.
Proof.
  rewrite !alike_rows. intros A B. unfold new_order_book, sort_book. cbv zeta. cbn [asks bids b_time max_depth].
  assert (Forall2 row_alike (slice_stable (fun x y => flt (price x) (price y)) la) (slice_stable (fun x y => flt (price x) (price y)) la')) as SA.
  { apply slice_stable_rel; [|exact A]. intros a b a' b' H1 H2. now rewrite (ra_price _ _ H1), (ra_price _ _ H2). }
  assert (Forall2 row_alike (slice_stable (fun x y => flt (price y) (price x)) lb) (slice_stable (fun x y => flt (price y) (price x)) lb')) as SB.
  { apply slice_stable_rel; [|exact B]. intros a b a' b' H1 H2. now rewrite (ra_price _ _ H1), (ra_price _ _ H2). }
  rewrite (f2_len _ _ _ SA), (f2_len _ _ _ SB).
  match goal with |- bind (reslice _ _ ?i) _ = _ => pose proof (f2_reslice _ _ _ 0 i SA) as RA end.
  destruct (reslice _ 0 _), (reslice _ 0 _); cbn [grel] in RA; try contradiction; [|now subst]. rewrite !bind_ret.
  match goal with |- bind (reslice _ _ ?i) _ = _ => pose proof (f2_reslice _ _ _ 0 i SB) as RB end.
  destruct (reslice _ 0 _), (reslice _ 0 _); cbn [grel] in RB; try contradiction; [|now subst]. rewrite !bind_ret.
  now rewrite (accum_alike _ _ RA), (accum_alike _ _ RB).
Qed.

Lemma rebuild now ob : well_ordered ob -> within_depth ob -> zlen (asks ob) <= 2 ^ 53 -> zlen (bids ob) <= 2 ^ 53 ->
  exists r, new_order_book now (asks ob) (bids ob) (max_depth ob) = Ret r /\ b_time r = now /\ same_levels r ob /\ true_totals r.
Proof.
  intros (Na & Nb & Oa & Ob) (Da & Db) La Lb. pose proof (zlen_nonneg (asks ob)) as Za.
  rewrite new_book_ok by (assumption || lia). eexists. split; [reflexivity|]. split; [reflexivity|].
  assert (slice_stable (fun x y => flt (price x) (price y)) (asks ob) = asks ob) as Ea.
  { apply (stable_asks_unique (asks ob)); [exact Na|apply (stable_of_sort_asks (asks ob) Na La)|]. split; [exact Oa|]. split; [reflexivity|reflexivity]. }
  assert (slice_stable (fun x y => flt (price y) (price x)) (bids ob) = bids ob) as Eb.
  { apply (stable_bids_unique (bids ob)); [exact Nb|apply (stable_of_sort_bids (bids ob) Nb Lb)|]. split; [exact Ob|]. split; [reflexivity|reflexivity]. }
  rewrite Ea, Eb.
  assert (forall l : list (row f64), zlen l <= max_depth ob -> take (max_depth ob) l = l) as T.
  { intros l Hl. unfold take. apply firstn_all2. unfold zlen in Hl. lia. }
  rewrite !T by assumption. split.
  - split; [|split]; cbn [asks bids max_depth]; try reflexivity; apply (accum_pv pair).
  - split; cbn [asks bids]; rewrite accum_running, (accum_pv (fun _ v => v)); reflexivity.
Qed.
Lemma rebuild_again now now' ob r : new_order_book now (asks ob) (bids ob) (max_depth ob) = Ret r -> same_levels r ob ->
  new_order_book now' (asks r) (bids r) (max_depth r) = Ret (mkBook now' (asks r) (bids r) (max_depth r)).
Proof.
  intros E (A & B & D). rewrite (levels_new now' _ (asks ob) _ (bids ob)) by assumption. rewrite D.
  unfold new_order_book, sort_book in *. cbv zeta in *. cbn [asks bids b_time max_depth] in *.
  destruct (reslice _ 0 _); [|discriminate E]. rewrite !bind_ret in *. destruct (reslice _ 0 _); [|discriminate E]. rewrite !bind_ret in *. now injection E as <-.
Qed.
Lemma rebuild_history us now ob : sizes_ok ob -> well_ordered ob -> within_depth ob -> Forall real_price us ->
  exists ob' r, apply_updates us ob = Ret ob' /\ new_order_book now (asks ob') (bids ob') (max_depth ob') = Ret r /\
    same_levels r ob' /\ true_totals r.
Proof.
  intros S W D U. destruct (updates_ordered us ob S W U) as (ob' & E & W'). destruct (updates_depth us ob S D) as (b & E' & D' & M & _).
  rewrite E in E'. injection E' as <-. destruct S as (_ & _ & M1 & M2). destruct (rebuild now ob' W' D') as (r & R & _ & L & T); [destruct D'; lia|destruct D'; lia|].
  exists ob', r. auto.
Qed.
