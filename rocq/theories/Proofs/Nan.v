(** C114: what a NaN does to an order book. *)
From Coq Require Import ZArith Lia List String Bool.
Import ListNotations.
From Flocq Require Import BinarySingleNaN.
From Verif Require Import Go.Outcome Go.Int64 Go.Slice Go.Float64 Go.Num Model.OrderBook Spec.OrderBookSpec Spec.NanSpec Proofs.Lists Proofs.OrderBook Proofs.NewBook.
Open Scope list_scope.
Open Scope Z_scope.

Lemma nan_is p : f64_is_nan p = true -> p = B754_nan.
Proof. destruct p as [s|s| |s m e B]; intros H; try discriminate H; reflexivity. Qed.
Lemma nan_lt_l p : f64_lt B754_nan p = false.
Proof. destruct p as [s|s| |s m e B]; reflexivity. Qed.
Lemma nan_lt_r p : f64_lt p B754_nan = false.
Proof. destruct p as [s|s| |s m e B]; reflexivity. Qed.
Lemma nan_eq_r p : f64_eq p B754_nan = false.
Proof. destruct p as [s|s| |s m e B]; reflexivity. Qed.
Lemma nan_eq_l p : f64_eq B754_nan p = false.
Proof. destruct p as [s|s| |s m e B]; reflexivity. Qed.
Lemma all_false {A} (t : A -> bool) (l : list A) : (forall x, t x = false) -> Forall (fun x => t x = false) l.
Proof. intros H. apply Forall_forall. auto. Qed.

Lemma own_nan u (l : rows) : nan_price u ->
  own_set (fun r => feq (price r) (u_price u)) (fun r => flt (u_price u) (price r)) (new_row u) l = l ++ [row_of u] /\
  own_set (fun r => feq (price r) (u_price u)) (fun r => flt (price r) (u_price u)) (new_row u) l = l ++ [row_of u].
Proof.
  intros H. apply nan_is in H. unfold own_set. rewrite H. cbn [feq flt f64_num].
  rewrite !find_from_all; [split; reflexivity|..]; apply all_false; intros x; auto using nan_eq_r, nan_lt_l, nan_lt_r.
Qed.
Lemma cut_nan p (l : rows) : f64_is_nan p = true ->
  cut (fun r => flt (price r) p) (fun r => flt p (price r)) l = without_best l /\
  cut (fun r => flt p (price r)) (fun r => flt (price r) p) l = without_best l.
Proof.
  intros H. apply nan_is in H. subst p. destruct l as [|r l]; [split; reflexivity|]. unfold cut. cbn [flt f64_num].
  rewrite nan_lt_l, nan_lt_r. cbn [after_crossed]. rewrite nan_lt_l, nan_lt_r. split; destruct l; reflexivity.
Qed.

Lemma nan_ask u ob : u_side u = "ask"%string -> nan_price u -> nonzero u -> 0 <= max_depth ob -> zlen (bids ob) <= 2 ^ 53 ->
  apply_update u ob = Ret (mkBook (b_time ob) (take (max_depth ob) (asks ob ++ [row_of u]))
                             (take (max_depth ob) (without_best (bids ob))) (max_depth ob), None).
Proof.
  intros S P V D L. rewrite apply_ask_set; [|exact S| |exact D|exact L].
  - rewrite (proj1 (own_nan u _ P)), (proj1 (cut_nan (u_price u) _ P)). reflexivity.
  - unfold is_set. apply negb_true_iff. exact V.
Qed.
Lemma nan_bid u ob : u_side u = "bid"%string -> nan_price u -> nonzero u -> 0 <= max_depth ob -> zlen (asks ob) <= 2 ^ 53 ->
  apply_update u ob = Ret (mkBook (b_time ob) (take (max_depth ob) (without_best (asks ob)))
                             (take (max_depth ob) (bids ob ++ [row_of u])) (max_depth ob), None).
Proof.
  intros S P V D L. rewrite apply_bid_set; [|exact S| |exact D|exact L].
  - rewrite (proj2 (own_nan u _ P)), (proj2 (cut_nan (u_price u) _ P)). reflexivity.
  - unfold is_set. apply negb_true_iff. exact V.
Qed.
Lemma nan_zero u ob : u_side u = "ask"%string \/ u_side u = "bid"%string -> nan_price u -> zero u -> 0 <= max_depth ob ->
  apply_update u ob = Ret (ob, None).
Proof.
  intros S P V D. assert (is_set u = false) as V' by (unfold is_set; apply negb_false_iff; exact V). apply nan_is in P.
  destruct S as [S|S]; [rewrite apply_ask_del|rewrite apply_bid_del]; try assumption;
    rewrite find_from_all; try reflexivity; apply all_false; intros x; rewrite P; apply nan_eq_r.
Qed.

(** ** Many of them *)
Lemma take_snoc {A} d (l : list A) x : 0 <= d -> take d (take d l ++ [x]) = take d (l ++ [x]).
Proof.
  intros H. unfold take. destruct (Nat.le_gt_cases (Z.to_nat d) (List.length l)) as [L|L].
  - rewrite (firstn_app (Z.to_nat d) l). replace (Z.to_nat d - List.length l)%nat with 0%nat by lia. cbn [firstn]. rewrite app_nil_r.
    rewrite firstn_app, firstn_length. replace (Z.to_nat d - Nat.min (Z.to_nat d) (List.length l))%nat with 0%nat by lia.
    cbn [firstn]. rewrite app_nil_r, firstn_firstn. f_equal. lia.
  - rewrite (firstn_all2 l) by lia. reflexivity.
Qed.
Lemma take_all {A} d (l : list A) : zlen l <= d -> take d l = l.
Proof. intros H. unfold take, zlen in *. apply firstn_all2. lia. Qed.
Lemma without_best_len l : zlen (without_best l) <= zlen l.
Proof. destruct l as [|a [|b l]]; cbn [without_best]; rewrite ?zlen_cons; lia. Qed.
Lemma without_best_skip n l : without_best (skipn (Nat.min n (List.length l - 1)) l) = skipn (Nat.min (S n) (List.length l - 1)) l.
Proof.
  revert n. induction l as [|a l IH]; intros n; [now rewrite !skipn_nil|]. cbn [List.length]. rewrite Nat.sub_succ, Nat.sub_0_r.
  destruct l as [|b l].
  - cbn [List.length]. rewrite !Nat.min_0_r. reflexivity.
  - destruct n as [|n]; [cbn [List.length Nat.min skipn without_best]; reflexivity|].
    cbn [List.length]. rewrite <- !Nat.succ_min_distr. cbn [skipn]. specialize (IH n). cbn [List.length] in IH.
    rewrite Nat.sub_succ, Nat.sub_0_r in IH. exact IH.
Qed.

Lemma apply_repeat u ob n r : apply_updates (repeat u n) ob = Ret r ->
  apply_updates (repeat u (S n)) ob = ('(x, _) <- apply_update u r ;; Ret x).
Proof.
  intros H. replace (repeat u (S n)) with (repeat u n ++ [u]).
  - revert ob H. induction n as [|n IH]; intros ob H; cbn [repeat app apply_updates] in *.
    + injection H as <-. destruct (apply_update u ob) as [[x e]|]; reflexivity.
    + destruct (apply_update u ob) as [[x e]|p]; [|discriminate H]. cbn [bind] in *. now apply IH.
  - clear. induction n as [|n IH]; [reflexivity|]. cbn [repeat app]. now rewrite IH.
Qed.
Lemma snoc_repeat {A} (x : A) n : repeat x (S n) = repeat x n ++ [x].
Proof. induction n as [|n IH]; [reflexivity|]. cbn [repeat app] in *. now rewrite <- IH. Qed.

Lemma nan_asks n u ob : u_side u = "ask"%string -> nan_price u -> nonzero u -> within_depth ob -> zlen (bids ob) <= 2 ^ 53 ->
  apply_updates (repeat u n) ob = Ret (mkBook (b_time ob) (take (max_depth ob) (asks ob ++ repeat (row_of u) n))
                                         (skipn (Nat.min n (List.length (bids ob) - 1)) (bids ob)) (max_depth ob)).
Proof.
  intros S P V [W1 W2] L. pose proof (zlen_nonneg (asks ob)). induction n as [|n IH].
  - cbn [repeat apply_updates Nat.min skipn]. rewrite app_nil_r, take_all by exact W1. now destruct ob.
  - rewrite (apply_repeat _ _ _ _ IH).
    assert (zlen (skipn (Nat.min n (List.length (bids ob) - 1)) (bids ob)) <= zlen (bids ob)) as B by (unfold zlen; rewrite skipn_length; lia).
    rewrite nan_ask; cbn [max_depth bids asks b_time bind]; try assumption; try lia.
    rewrite take_snoc by lia. rewrite snoc_repeat, <- app_assoc. rewrite without_best_skip.
    rewrite (take_all _ (skipn (Nat.min (Datatypes.S n) (List.length (bids ob) - 1)) (bids ob))); [reflexivity|].
    unfold zlen in *. rewrite skipn_length. lia.
Qed.
Lemma nan_bids n u ob : u_side u = "bid"%string -> nan_price u -> nonzero u -> within_depth ob -> zlen (asks ob) <= 2 ^ 53 ->
  apply_updates (repeat u n) ob = Ret (mkBook (b_time ob) (skipn (Nat.min n (List.length (asks ob) - 1)) (asks ob))
                                         (take (max_depth ob) (bids ob ++ repeat (row_of u) n)) (max_depth ob)).
Proof.
  intros S P V [W1 W2] L. pose proof (zlen_nonneg (bids ob)). induction n as [|n IH].
  - cbn [repeat apply_updates Nat.min skipn]. rewrite app_nil_r, take_all by exact W2. now destruct ob.
  - rewrite (apply_repeat _ _ _ _ IH).
    assert (zlen (skipn (Nat.min n (List.length (asks ob) - 1)) (asks ob)) <= zlen (asks ob)) as B by (unfold zlen; rewrite skipn_length; lia).
    rewrite nan_bid; cbn [max_depth bids asks b_time bind]; try assumption; try lia.
    rewrite take_snoc by lia. rewrite snoc_repeat, <- app_assoc. rewrite without_best_skip.
    rewrite (take_all _ (skipn (Nat.min (Datatypes.S n) (List.length (asks ob) - 1)) (asks ob))); [reflexivity|].
    unfold zlen in *. rewrite skipn_length. lia.
Qed.

(** ** NaN rows among real updates *)
Lemma own_set_rows eqt gtt new (l : rows) : (forall r, is_real r = false -> eqt r = false /\ gtt r = false) -> is_real new = true ->
  real_rows (own_set eqt gtt new l) = own_set eqt gtt new (real_rows l) /\ nan_rows (own_set eqt gtt new l) = nan_rows l.
Proof.
  intros N Hn.
  assert (forall t (a : rows), Forall (fun x => t x = false) a -> Forall (fun x => t x = false) (real_rows a)) as Ff.
  { intros t a Fa. apply Forall_forall. intros x Hx. apply filter_In in Hx. rewrite Forall_forall in Fa. now apply Fa. }
  assert (forall r, eqt r = true -> is_real r = true) as Ne by (intros r H; destruct (is_real r) eqn:E; [reflexivity|]; apply N in E; destruct E; congruence).
  assert (forall r, gtt r = true -> is_real r = true) as Ng by (intros r H; destruct (is_real r) eqn:E; [reflexivity|]; apply N in E; destruct E; congruence).
  unfold own_set, real_rows, nan_rows in *. destruct (find_from eqt l 0) as [i|] eqn:E.
  - apply find_from_some in E as (a & r & b & -> & -> & Tr & Fa). rewrite zto_len, set_nth_app.
    rewrite !filter_app. cbn [filter]. rewrite Hn, (Ne r Tr). cbn [negb].
    rewrite find_from_app by auto. rewrite zto_len, set_nth_app. split; reflexivity.
  - apply find_from_none in E. rewrite (find_from_all eqt (filter is_real l)) by auto.
    destruct (find_from gtt l 0) as [i|] eqn:G.
    + apply find_from_some in G as (a & r & b & -> & -> & Tr & Fa). rewrite zto_len, firstn_app_exact, skipn_app_exact.
      rewrite !filter_app. cbn [filter]. rewrite Hn, (Ng r Tr). cbn [negb].
      rewrite find_from_app by auto. rewrite zto_len, firstn_app_exact, skipn_app_exact. split; reflexivity.
    + apply find_from_none in G. rewrite (find_from_all gtt (filter is_real l)) by auto.
      rewrite !filter_app. cbn [filter]. rewrite Hn. cbn [negb]. rewrite app_nil_r. split; reflexivity.
Qed.
Lemma own_del_rows eqt (l : rows) : (forall r, is_real r = false -> eqt r = false) ->
  real_rows (own_del eqt l) = own_del eqt (real_rows l) /\ nan_rows (own_del eqt l) = nan_rows l.
Proof.
  intros N.
  assert (forall (a : rows), Forall (fun x => eqt x = false) a -> Forall (fun x => eqt x = false) (real_rows a)) as Ff.
  { intros a Fa. apply Forall_forall. intros x Hx. apply filter_In in Hx. rewrite Forall_forall in Fa. now apply Fa. }
  assert (forall r, eqt r = true -> is_real r = true) as Ne by (intros r H; destruct (is_real r) eqn:E; [reflexivity|]; apply N in E; congruence).
  unfold own_del, real_rows, nan_rows in *. destruct (find_from eqt l 0) as [i|] eqn:E.
  - apply find_from_some in E as (a & r & b & -> & -> & Tr & Fa). rewrite zto_len, remove_element_app.
    rewrite !filter_app. cbn [filter]. rewrite (Ne r Tr). cbn [negb].
    rewrite find_from_app by auto. rewrite zto_len, remove_element_app. split; reflexivity.
  - apply find_from_none in E. rewrite (find_from_all eqt (filter is_real l)) by auto. split; reflexivity.
Qed.
Lemma real_rows_len l : zlen (real_rows l) <= zlen l.
Proof.
  unfold zlen, real_rows. induction l as [|r l IH]; [cbn; lia|]. cbn [filter List.length]. destruct (is_real r); cbn [List.length]; lia.
Qed.
Lemma not_real r p : is_real r = false -> f64_eq (price r) p = false /\ f64_lt p (price r) = false /\ f64_lt (price r) p = false.
Proof. unfold is_real. intros H. apply negb_false_iff in H. apply nan_is in H. rewrite H. auto using nan_eq_l, nan_lt_l, nan_lt_r. Qed.
Lemma own_set_short eqt gtt new (l : rows) : zlen (own_set eqt gtt new l) <= zlen l + 1.
Proof. destruct (own_set_shape eqt gtt new l) as (a & e & b & -> & -> & _ & _). rewrite !zlen_app, zlen_cons. pose proof (zlen_nonneg e). lia. Qed.

(** The own side: real rows as if the NaN rows were not there. *)
Lemma real_ask u ob : u_side u = "ask"%string -> real_price u -> zlen (asks ob) < max_depth ob -> zlen (bids ob) <= 2 ^ 53 ->
  exists x y, apply_update u ob = Ret (x, None) /\ apply_update u (real_book ob) = Ret (y, None) /\
    real_rows (asks x) = asks y /\ nan_rows (asks x) = nan_rows (asks ob).
Proof.
  intros S P D L. pose proof (zlen_nonneg (asks ob)). pose proof (real_rows_len (asks ob)). pose proof (real_rows_len (bids ob)).
  unfold real_book. destruct (is_set u) eqn:V.
  - rewrite !apply_ask_set; cbn [max_depth bids asks b_time]; try assumption; try lia. eexists. eexists. split; [reflexivity|]. split; [reflexivity|].
    unfold truncated. cbn [asks max_depth b_time bids].
    destruct (own_set_rows (fun r => feq (price r) (u_price u)) (fun r => flt (u_price u) (price r)) (new_row u) (asks ob)) as [E1 E2].
    { intros r Hr. split; apply (not_real r (u_price u) Hr). }
    { unfold is_real, new_row. cbn [price]. now rewrite P. }
    pose proof (own_set_short (fun r => feq (price r) (u_price u)) (fun r => flt (u_price u) (price r)) (new_row u) (asks ob)) as K1.
    pose proof (own_set_short (fun r => feq (price r) (u_price u)) (fun r => flt (u_price u) (price r)) (new_row u) (real_rows (asks ob))) as K2.
    rewrite !firstn_all2 by (unfold zlen in *; lia). split; [exact E1|exact E2].
  - rewrite !apply_ask_del; cbn [max_depth bids asks b_time]; try assumption; try lia.
    destruct (own_del_rows (fun r => feq (price r) (u_price u)) (asks ob)) as [E1 E2]; [intros r Hr; apply (not_real r (u_price u) Hr)|].
    pose proof (own_del_len (fun r => feq (price r) (u_price u)) (asks ob)) as K1.
    pose proof (own_del_len (fun r => feq (price r) (u_price u)) (real_rows (asks ob))) as K2.
    set (t := fun r => feq (price r) (u_price u)) in *.
    assert (forall o : book f64, 0 <= max_depth o -> zlen (asks o) <= max_depth o -> exists x,
      match find_from t (asks o) 0 with Some _ => Ret (truncated (with_asks o (own_del t (asks o))), None) | None => Ret (o, None) end
      = Ret (x, @None err) /\ asks x = own_del t (asks o)) as G.
    { intros o O1 O2. pose proof (own_del_len t (asks o)) as K. destruct (own_del_shape t (asks o)) as [(_ & E & F)|(a & r & b & E & E' & _ & _ & F)].
      - rewrite F. exists o. now rewrite E.
      - destruct (find_from t (asks o) 0); [|now destruct F]. eexists. split; [reflexivity|]. unfold truncated, with_asks. cbn [asks max_depth].
        apply firstn_all2. unfold zlen in *. lia. }
    destruct (G ob ltac:(lia) ltac:(lia)) as (x & -> & Ex).
    destruct (G (mkBook (b_time ob) (real_rows (asks ob)) (real_rows (bids ob)) (max_depth ob))) as (y & E & Ey); cbn [max_depth asks] in *; [lia|lia|].
    rewrite E. exists x, y. split; [reflexivity|]. split; [reflexivity|]. rewrite Ex, Ey. split; [exact E1|exact E2].
Qed.
Lemma real_bid u ob : u_side u = "bid"%string -> real_price u -> zlen (bids ob) < max_depth ob -> zlen (asks ob) <= 2 ^ 53 ->
  exists x y, apply_update u ob = Ret (x, None) /\ apply_update u (real_book ob) = Ret (y, None) /\
    real_rows (bids x) = bids y /\ nan_rows (bids x) = nan_rows (bids ob).
Proof.
  intros S P D L. pose proof (zlen_nonneg (bids ob)). pose proof (real_rows_len (bids ob)). pose proof (real_rows_len (asks ob)).
  unfold real_book. destruct (is_set u) eqn:V.
  - rewrite !apply_bid_set; cbn [max_depth bids asks b_time]; try assumption; try lia. eexists. eexists. split; [reflexivity|]. split; [reflexivity|].
    unfold truncated. cbn [asks max_depth b_time bids].
    destruct (own_set_rows (fun r => feq (price r) (u_price u)) (fun r => flt (price r) (u_price u)) (new_row u) (bids ob)) as [E1 E2].
    { intros r Hr. split; apply (not_real r (u_price u) Hr). }
    { unfold is_real, new_row. cbn [price]. now rewrite P. }
    pose proof (own_set_short (fun r => feq (price r) (u_price u)) (fun r => flt (price r) (u_price u)) (new_row u) (bids ob)) as K1.
    pose proof (own_set_short (fun r => feq (price r) (u_price u)) (fun r => flt (price r) (u_price u)) (new_row u) (real_rows (bids ob))) as K2.
    rewrite !firstn_all2 by (unfold zlen in *; lia). split; [exact E1|exact E2].
  - rewrite !apply_bid_del; cbn [max_depth bids asks b_time]; try assumption; try lia.
    destruct (own_del_rows (fun r => feq (price r) (u_price u)) (bids ob)) as [E1 E2]; [intros r Hr; apply (not_real r (u_price u) Hr)|].
    set (t := fun r => feq (price r) (u_price u)) in *.
    assert (forall o : book f64, 0 <= max_depth o -> zlen (bids o) <= max_depth o -> exists x,
      match find_from t (bids o) 0 with Some _ => Ret (truncated (with_bids o (own_del t (bids o))), None) | None => Ret (o, None) end
      = Ret (x, @None err) /\ bids x = own_del t (bids o)) as G.
    { intros o O1 O2. pose proof (own_del_len t (bids o)) as K. destruct (own_del_shape t (bids o)) as [(_ & E & F)|(a & r & b & E & E' & _ & _ & F)].
      - rewrite F. exists o. now rewrite E.
      - destruct (find_from t (bids o) 0); [|now destruct F]. eexists. split; [reflexivity|]. unfold truncated, with_bids. cbn [bids max_depth].
        apply firstn_all2. unfold zlen in *. lia. }
    destruct (G ob ltac:(lia) ltac:(lia)) as (x & -> & Ex).
    destruct (G (mkBook (b_time ob) (real_rows (asks ob)) (real_rows (bids ob)) (max_depth ob))) as (y & E & Ey); cbn [max_depth bids] in *; [lia|lia|].
    rewrite E. exists x, y. split; [reflexivity|]. split; [reflexivity|]. rewrite Ex, Ey. split; [exact E1|exact E2].
Qed.

(** ** NaN volumes *)
Lemma add_nan_l x : f64_add B754_nan x = B754_nan.
Proof. destruct x as [s|s| |s m e B]; reflexivity. Qed.
Lemma add_nan_r x : f64_add x B754_nan = B754_nan.
Proof. destruct x as [s|s| |s m e B]; reflexivity. Qed.
Lemma accum_nan (l : rows) : forall prev i j r r', nth_error (accum_rows prev l) i = Some r -> f64_is_nan (volume r) = true ->
  (i <= j)%nat -> nth_error (accum_rows prev l) j = Some r' -> f64_is_nan (accum r') = true.
Proof.
  assert (forall (l : rows) j r', nth_error (accum_rows (Some (B754_nan : f64)) l) j = Some r' -> f64_is_nan (accum r') = true) as G.
  { clear. induction l as [|a l IH]; intros j r' H; [destruct j; discriminate H|]. cbn [accum_rows fadd f64_num] in H. rewrite add_nan_r in H.
    destruct j as [|j]; [injection H as <-; reflexivity|]. cbn [nth_error] in H. now apply IH in H. }
  induction l as [|a l IH]; intros prev i j r r' H V K H'; [destruct i; discriminate H|]. cbn [accum_rows] in H, H'.
  destruct i as [|i].
  - cbn [nth_error] in H. injection H as <-. cbn [volume] in V. apply nan_is in V. rewrite V in H'. cbn [fadd f64_num] in H'.
    assert (match prev with None => B754_nan | Some p => f64_add B754_nan p end = (B754_nan : f64)) as E by (destruct prev; [apply add_nan_l|reflexivity]).
    rewrite E in H'. destruct j as [|j]; [injection H' as <-; reflexivity|]. cbn [nth_error] in H'. now apply G in H'.
  - destruct j as [|j]; [lia|]. cbn [nth_error] in H, H'. apply (IH _ i j r r' H V ltac:(lia) H').
Qed.
