(** ApplyUpdate on float64 books. *)
From Coq Require Import Sorting.Sorted Sorting.Permutation.
From Flocq Require Import BinarySingleNaN.
From Verif Require Import Go.Outcome Go.Int64 Go.Slice Go.Sort Go.Float64 Go.FloatOrder Go.FloatReal Go.Num
  Model.OrderBook Spec.OrderBookSpec Proofs.Lists Proofs.OrderBook Proofs.Keyed.
Open Scope list_scope.
Open Scope Z_scope.

Definition kA (r : rw) : Z := key (price r).
Definition kB (r : rw) : Z := - key (price r).
Definition Pn (r : rw) : Prop := f64_is_nan (price r) = false.

Section Tests.
Variable q : f64.
Hypothesis Hq : f64_is_nan q = false.
Lemma ask_eq r : Pn r -> f64_eq (price r) q = (kA r =? key q).
Proof. intros H. now apply f64_eq_key. Qed.
Lemma ask_gt r : Pn r -> f64_lt q (price r) = (key q <? kA r).
Proof. intros H. now apply f64_lt_key. Qed.
Lemma ask_lt r : Pn r -> f64_lt (price r) q = (kA r <? key q).
Proof. intros H. now apply f64_lt_key. Qed.
Lemma bid_eq r : Pn r -> f64_eq (price r) q = (kB r =? - key q).
Proof.
  intros H. rewrite f64_eq_key by assumption. unfold kB.
  destruct (Z.eqb_spec (key (price r)) (key q)), (Z.eqb_spec (- key (price r)) (- key q)); lia || reflexivity.
Qed.
Lemma bid_gt r : Pn r -> f64_lt (price r) q = (- key q <? kB r).
Proof.
  intros H. rewrite f64_lt_key by assumption. unfold kB.
  destruct (Z.ltb_spec (key (price r)) (key q)), (Z.ltb_spec (- key q) (- key (price r))); lia || reflexivity.
Qed.
Lemma bid_lt r : Pn r -> f64_lt q (price r) = (kB r <? - key q).
Proof.
  intros H. rewrite f64_lt_key by assumption. unfold kB.
  destruct (Z.ltb_spec (key q) (key (price r))), (Z.ltb_spec (- key (price r)) (- key q)); lia || reflexivity.
Qed.
End Tests.

Notation SLA := (StronglySorted (fun a b => kA a < kA b)).
Notation SEA := (StronglySorted (fun a b => kA a <= kA b)).
Notation SLB := (StronglySorted (fun a b => kB a < kB b)).
Notation SEB := (StronglySorted (fun a b => kB a <= kB b)).

Lemma asks_sorted_k l : nan_free l -> asks_sorted l <-> SLA l.
Proof.
  intros H. unfold nan_free in H. rewrite Forall_forall in H. split; apply ss_impl; intros x y Hx Hy L.
  - apply f64_lt_true in L. unfold kA. tauto.
  - rewrite f64_lt_key by (apply H; assumption). now apply Z.ltb_lt.
Qed.
Lemma asks_ordered_k l : nan_free l -> asks_ordered l <-> SEA l.
Proof.
  intros H. unfold nan_free in H. rewrite Forall_forall in H. split; apply ss_impl; intros x y Hx Hy L.
  - apply f64_le_true in L. unfold kA. tauto.
  - rewrite f64_le_key by (apply H; assumption). now apply Z.leb_le.
Qed.
Lemma bids_sorted_k l : nan_free l -> bids_sorted l <-> SLB l.
Proof.
  intros H. unfold nan_free in H. rewrite Forall_forall in H. split; apply ss_impl; intros x y Hx Hy L.
  - apply f64_lt_true in L. unfold kB. lia.
  - rewrite f64_lt_key by (apply H; assumption). unfold kB in L. apply Z.ltb_lt. lia.
Qed.
Lemma bids_ordered_k l : nan_free l -> bids_ordered l <-> SEB l.
Proof.
  intros H. unfold nan_free in H. rewrite Forall_forall in H. split; apply ss_impl; intros x y Hx Hy L.
  - apply f64_le_true in L. unfold kB. lia.
  - rewrite f64_le_key by (apply H; assumption). unfold kB in L. apply Z.leb_le. lia.
Qed.

Lemma sorted_ordered_asks l : nan_free l -> asks_sorted l -> asks_ordered l.
Proof. intros H S. apply asks_ordered_k; auto. apply asks_sorted_k in S; auto. revert S. apply ss_impl. lia. Qed.
Lemma sorted_ordered_bids l : nan_free l -> bids_sorted l -> bids_ordered l.
Proof. intros H S. apply bids_ordered_k; auto. apply bids_sorted_k in S; auto. revert S. apply ss_impl. lia. Qed.
Lemma well_sorted_ordered ob : well_sorted ob -> well_ordered ob.
Proof.
  intros (H1 & H2 & H3 & H4). repeat split; auto using sorted_ordered_asks, sorted_ordered_bids.
Qed.

Lemma Forall_firstn {A} (P : A -> Prop) n l : Forall P l -> Forall P (firstn n l).
Proof. intros H. rewrite <- (firstn_skipn n l), Forall_app in H. tauto. Qed.
Lemma Forall_cut {F} (P : row F -> Prop) out t l : Forall P l -> Forall P (cut out t l).
Proof. intros H. rewrite Forall_forall in *. intros x Hx. apply H. now apply cut_in in Hx. Qed.

Lemma zlen_firstn {A} n (l : list A) : zlen (firstn n l) <= zlen l.
Proof. unfold zlen. rewrite firstn_length. lia. Qed.
Lemma zlen_take {A} d (l : list A) : 0 <= d -> zlen (take d l) <= d.
Proof. intros H. unfold take, zlen. rewrite firstn_length. lia. Qed.
Lemma take_all {A} d (l : list A) : zlen l <= d -> take d l = l.
Proof. intros H. unfold take. apply firstn_all2. unfold zlen in H. lia. Qed.
Lemma take_take {A} d (l : list A) : take d (take d l) = take d l.
Proof. unfold take. now rewrite firstn_firstn, Nat.min_id. Qed.

(** ** The five outcomes of an update *)

Notation aeq q := (fun r : rw => f64_eq (price r) q).
Notation agt q := (fun r : rw => f64_lt q (price r)).
Notation alt q := (fun r : rw => f64_lt (price r) q).

Definition set_asks (q : f64) (new : rw) (l : rows) : rows := own_set (aeq q) (agt q) new l.
Definition set_bids (q : f64) (new : rw) (l : rows) : rows := own_set (aeq q) (alt q) new l.
Definition del_row (q : f64) (l : rows) : rows := own_del (aeq q) l.
Definition cut_asks (q : f64) (l : rows) : rows := cut (agt q) (alt q) l.
Definition cut_bids (q : f64) (l : rows) : rows := cut (alt q) (agt q) l.

Definition row_of (u : update f64) : rw := mkRow (u_price u) (u_volume u) (i2f 0).

Lemma is_set_nonzero u : is_set u = true <-> nonzero u.
Proof. unfold is_set, nonzero. rewrite negb_true_iff. reflexivity. Qed.
Lemma is_set_zero u : is_set u = false <-> zero u.
Proof. unfold is_set, zero. rewrite negb_false_iff. reflexivity. Qed.

Lemma step_ask_set u ob : u_side u = "ask"%string -> nonzero u -> 0 <= max_depth ob -> zlen (bids ob) <= 2 ^ 53 ->
  apply_update u ob = Ret (mkBook (b_time ob)
    (take (max_depth ob) (set_asks (u_price u) (row_of u) (asks ob)))
    (take (max_depth ob) (cut_bids (u_price u) (bids ob))) (max_depth ob), None).
Proof. intros Hs Hv Hd Hl. apply is_set_nonzero in Hv. now rewrite apply_ask_set. Qed.
Lemma step_bid_set u ob : u_side u = "bid"%string -> nonzero u -> 0 <= max_depth ob -> zlen (asks ob) <= 2 ^ 53 ->
  apply_update u ob = Ret (mkBook (b_time ob)
    (take (max_depth ob) (cut_asks (u_price u) (asks ob)))
    (take (max_depth ob) (set_bids (u_price u) (row_of u) (bids ob))) (max_depth ob), None).
Proof. intros Hs Hv Hd Hl. apply is_set_nonzero in Hv. now rewrite apply_bid_set. Qed.
Lemma step_ask_del u ob : u_side u = "ask"%string -> zero u -> 0 <= max_depth ob ->
  (Forall (fun r => f64_eq (price r) (u_price u) = false) (asks ob) /\ apply_update u ob = Ret (ob, None)) \/
  (Exists (fun r => f64_eq (price r) (u_price u) = true) (asks ob) /\
   apply_update u ob = Ret (mkBook (b_time ob)
    (take (max_depth ob) (del_row (u_price u) (asks ob)))
    (take (max_depth ob) (bids ob)) (max_depth ob), None)).
Proof.
  intros Hs Hv Hd. apply is_set_zero in Hv. rewrite apply_ask_del by assumption.
  destruct (own_del_shape (aeq (u_price u)) (asks ob)) as [(H & _ & E)|(a & r & b & E & _ & Hr & _ & Hf)].
  - left. split; [assumption|]. change (fun r => feq (price r) (u_price u)) with (aeq (u_price u)). now rewrite E.
  - right. split; [rewrite E; apply Exists_app; right; now constructor|].
    change (fun r => feq (price r) (u_price u)) with (aeq (u_price u)).
    destruct (find_from (aeq (u_price u)) (asks ob) 0); [reflexivity|contradiction].
Qed.
Lemma step_bid_del u ob : u_side u = "bid"%string -> zero u -> 0 <= max_depth ob ->
  (Forall (fun r => f64_eq (price r) (u_price u) = false) (bids ob) /\ apply_update u ob = Ret (ob, None)) \/
  (Exists (fun r => f64_eq (price r) (u_price u) = true) (bids ob) /\
   apply_update u ob = Ret (mkBook (b_time ob)
    (take (max_depth ob) (asks ob))
    (take (max_depth ob) (del_row (u_price u) (bids ob))) (max_depth ob), None)).
Proof.
  intros Hs Hv Hd. apply is_set_zero in Hv. rewrite apply_bid_del by assumption.
  destruct (own_del_shape (aeq (u_price u)) (bids ob)) as [(H & _ & E)|(a & r & b & E & _ & Hr & _ & Hf)].
  - left. split; [assumption|]. change (fun r => feq (price r) (u_price u)) with (aeq (u_price u)). now rewrite E.
  - right. split; [rewrite E; apply Exists_app; right; now constructor|].
    change (fun r => feq (price r) (u_price u)) with (aeq (u_price u)).
    destruct (find_from (aeq (u_price u)) (bids ob) 0); [reflexivity|contradiction].
Qed.

Definition shape (u : update f64) (ob ob' : book f64) : Prop :=
  let d := max_depth ob in let q := u_price u in
  ob' = ob \/
  ob' = mkBook (b_time ob) (take d (set_asks q (row_of u) (asks ob))) (take d (cut_bids q (bids ob))) d \/
  ob' = mkBook (b_time ob) (take d (cut_asks q (asks ob))) (take d (set_bids q (row_of u) (bids ob))) d \/
  ob' = mkBook (b_time ob) (take d (del_row q (asks ob))) (take d (bids ob)) d \/
  ob' = mkBook (b_time ob) (take d (asks ob)) (take d (del_row q (bids ob))) d.

Lemma zero_or u : zero u \/ nonzero u.
Proof. unfold zero, nonzero. destruct (f64_eq _ _); auto. Qed.

Lemma step u ob : sizes_ok ob -> exists ob' e, apply_update u ob = Ret (ob', e) /\ shape u ob ob'.
Proof.
  intros (Ha & Hb & Hd). unfold shape.
  destruct (string_dec (u_side u) "ask") as [Sa|Sa].
  { destruct (zero_or u) as [Z|Z].
    - destruct (step_ask_del u ob Sa Z) as [[_ ->]|[_ ->]]; [lia| |]; do 2 eexists; split; eauto 6.
    - rewrite step_ask_set by (assumption || lia). do 2 eexists; split; eauto 6. }
  destruct (string_dec (u_side u) "bid") as [Sb|Sb].
  { destruct (zero_or u) as [Z|Z].
    - destruct (step_bid_del u ob Sb Z) as [[_ ->]|[_ ->]]; [lia| |]; do 2 eexists; split; eauto 8.
    - rewrite step_bid_set by (assumption || lia). do 2 eexists; split; eauto 6. }
  rewrite apply_bad_side by assumption. do 2 eexists; split; eauto.
Qed.

Lemma shape_meta u ob ob' : shape u ob ob' -> b_time ob' = b_time ob /\ max_depth ob' = max_depth ob.
Proof. intros [->|[->|[->|[->| ->]]]]; auto. Qed.

Lemma shape_depth u ob ob' : 0 <= max_depth ob -> within_depth ob -> shape u ob ob' -> within_depth ob'.
Proof.
  intros Hd [Ha Hb] [->|[->|[->|[->| ->]]]]; split; cbn [asks bids max_depth]; auto using zlen_take.
Qed.
Lemma shape_sizes u ob ob' : sizes_ok ob -> shape u ob ob' -> sizes_ok ob'.
Proof.
  intros (Ha & Hb & Hd) [->|[->|[->|[->| ->]]]]; repeat split; cbn [asks bids max_depth]; auto; try lia;
  match goal with |- zlen (take _ ?l) < _ => pose proof (zlen_take (max_depth ob) l); lia end.
Qed.

(** ** Invariants of one step *)

Lemma row_of_P u : real_price u -> Pn (row_of u).
Proof. auto. Qed.

Lemma shape_nan u ob ob' : real_price u -> nan_free (asks ob) -> nan_free (bids ob) -> shape u ob ob' ->
  nan_free (asks ob') /\ nan_free (bids ob').
Proof.
  intros Hu Ha Hb. unfold nan_free in *. change (fun r => f64_is_nan (price r) = false) with Pn in *.
  intros [->|[->|[->|[->| ->]]]]; cbn [asks bids]; split; auto; apply Forall_firstn;
    unfold set_asks, set_bids, del_row, cut_asks, cut_bids; auto using Forall_cut, own_set_P, own_del_P, row_of_P.
Qed.

Lemma set_asks_se q new l : f64_is_nan q = false -> price new = q -> Forall Pn l -> SEA l -> SEA (set_asks q new l).
Proof.
  intros Hq En. apply (own_set_se Pn kA (key q)).
  - intros; now apply ask_eq.
  - intros; now apply ask_gt.
  - unfold kA. now rewrite En.
Qed.
Lemma set_bids_se q new l : f64_is_nan q = false -> price new = q -> Forall Pn l -> SEB l -> SEB (set_bids q new l).
Proof.
  intros Hq En. apply (own_set_se Pn kB (- key q)).
  - intros; now apply bid_eq.
  - intros; now apply bid_gt.
  - unfold kB. now rewrite En.
Qed.
Lemma set_asks_sl q new l : f64_is_nan q = false -> price new = q -> Forall Pn l -> SLA l ->
  SLA (set_asks q new l) /\ forall r, In r (set_asks q new l) <-> r = new \/ (In r l /\ kA r <> key q).
Proof.
  intros Hq En. apply (own_set_sl Pn kA (key q)).
  - intros; now apply ask_eq.
  - intros; now apply ask_gt.
  - unfold kA. now rewrite En.
Qed.
Lemma set_bids_sl q new l : f64_is_nan q = false -> price new = q -> Forall Pn l -> SLB l ->
  SLB (set_bids q new l) /\ forall r, In r (set_bids q new l) <-> r = new \/ (In r l /\ kB r <> - key q).
Proof.
  intros Hq En. apply (own_set_sl Pn kB (- key q)).
  - intros; now apply bid_eq.
  - intros; now apply bid_gt.
  - unfold kB. now rewrite En.
Qed.
Lemma del_asks_sl q l : f64_is_nan q = false -> Forall Pn l -> SLA l ->
  SLA (del_row q l) /\ forall r, In r (del_row q l) <-> In r l /\ kA r <> key q.
Proof. intros Hq. apply (own_del_sl Pn kA (key q)). intros; now apply ask_eq. Qed.
Lemma del_bids_sl q l : f64_is_nan q = false -> Forall Pn l -> SLB l ->
  SLB (del_row q l) /\ forall r, In r (del_row q l) <-> In r l /\ kB r <> - key q.
Proof. intros Hq. apply (own_del_sl Pn kB (- key q)). intros; now apply bid_eq. Qed.
Lemma cut_asks_ge q l : f64_is_nan q = false -> Forall Pn l -> SEA l ->
  Forall (fun r => key q <= kA r) (cut_asks q l).
Proof.
  intros Hq. apply (cut_ge Pn kA (key q)).
  - intros; now apply ask_gt.
  - intros; now apply ask_lt.
Qed.
Lemma cut_bids_ge q l : f64_is_nan q = false -> Forall Pn l -> SEB l ->
  Forall (fun r => - key q <= kB r) (cut_bids q l).
Proof.
  intros Hq. apply (cut_ge Pn kB (- key q)).
  - intros; now apply bid_gt.
  - intros; now apply bid_lt.
Qed.

Lemma step_ordered u ob ob' : real_price u -> well_ordered ob -> shape u ob ob' -> well_ordered ob'.
Proof.
  intros Hu (Na & Nb & Sa & Sb) Sh. destruct (shape_nan u ob ob' Hu Na Nb Sh) as [Na' Nb'].
  apply asks_ordered_k in Sa; [|assumption]. apply bids_ordered_k in Sb; [|assumption].
  unfold well_ordered. rewrite asks_ordered_k, bids_ordered_k by assumption.
  split; [assumption|]. split; [assumption|]. clear Na' Nb'.
  destruct Sh as [->|[->|[->|[->| ->]]]]; cbn [asks bids]; split; auto; apply ss_firstn; auto;
    unfold cut_asks, cut_bids, del_row; auto using cut_ss, own_del_se, set_asks_se, set_bids_se.
Qed.
Lemma step_sorted u ob ob' : real_price u -> well_sorted ob -> shape u ob ob' -> well_sorted ob'.
Proof.
  intros Hu (Na & Nb & Sa & Sb) Sh. destruct (shape_nan u ob ob' Hu Na Nb Sh) as [Na' Nb'].
  apply asks_sorted_k in Sa; [|assumption]. apply bids_sorted_k in Sb; [|assumption].
  unfold well_sorted. rewrite asks_sorted_k, bids_sorted_k by assumption.
  split; [assumption|]. split; [assumption|]. clear Na' Nb'.
  destruct Sh as [->|[->|[->|[->| ->]]]]; cbn [asks bids]; split; auto; apply ss_firstn; auto.
  - now apply set_asks_sl.
  - now apply cut_ss.
  - now apply cut_ss.
  - now apply set_bids_sl.
  - now apply del_asks_sl.
  - now apply del_bids_sl.
Qed.

Lemma step_uncrossed u ob ob' : real_price u -> well_ordered ob -> uncrossed ob -> shape u ob ob' -> uncrossed ob'.
Proof.
  intros Hu (Na & Nb & Sa & Sb) U Sh.
  apply asks_ordered_k in Sa; [|assumption]. apply bids_ordered_k in Sb; [|assumption].
  pose proof (cut_asks_ge (u_price u) (asks ob) Hu Na Sa) as Ca.
  pose proof (cut_bids_ge (u_price u) (bids ob) Hu Nb Sb) as Cb.
  unfold nan_free in *. rewrite Forall_forall in *.
  assert (forall b a, Pn b -> Pn a -> kA b <= kA a -> f64_le (price b) (price a) = true) as LE.
  { intros b a Pb Pa L. rewrite f64_le_key by assumption. now apply Z.leb_le. }
  intros b a Hb Ha. destruct Sh as [->|[->|[->|[->| ->]]]]; cbn [asks bids] in *.
  - now apply U.
  - apply in_firstn in Hb, Ha.
    assert (In b (bids ob)) as Hb' by now apply cut_in in Hb.
    destruct (own_set_shape (aeq (u_price u)) (agt (u_price u)) (row_of u) (asks ob)) as (x & e & y & E & E' & _ & _).
    unfold set_asks in Ha. rewrite E' in Ha.
    assert (a = row_of u \/ In a (asks ob)) as [->|Ha'].
    { rewrite E. apply in_app_or in Ha as [Ha|[Ha|Ha]]; auto; right; rewrite !in_app_iff; auto. }
    + apply LE; [now apply Nb|exact Hu|]. specialize (Cb b Hb). unfold kB in Cb. unfold kA. unfold row_of in *. cbn [price] in *. lia.
    + now apply U.
  - apply in_firstn in Hb, Ha.
    assert (In a (asks ob)) as Ha' by now apply cut_in in Ha.
    destruct (own_set_shape (aeq (u_price u)) (alt (u_price u)) (row_of u) (bids ob)) as (x & e & y & E & E' & _ & _).
    unfold set_bids in Hb. rewrite E' in Hb.
    assert (b = row_of u \/ In b (bids ob)) as [->|Hb'].
    { rewrite E. apply in_app_or in Hb as [Hb|[Hb|Hb]]; auto; right; rewrite !in_app_iff; auto. }
    + apply LE; [exact Hu|now apply Na|]. specialize (Ca a Ha). unfold kA in *. unfold row_of in *. cbn [price] in *. lia.
    + now apply U.
  - apply in_firstn in Hb, Ha. apply U; auto.
    destruct (own_del_shape (aeq (u_price u)) (asks ob)) as [(_ & E & _)|(x & r & y & E & E' & _)];
      unfold del_row in Ha; [now rewrite E in Ha|]. rewrite E' in Ha. rewrite E.
    rewrite in_app_iff in *. simpl. tauto.
  - apply in_firstn in Hb, Ha. apply U; auto.
    destruct (own_del_shape (aeq (u_price u)) (bids ob)) as [(_ & E & _)|(x & r & y & E & E' & _)];
      unfold del_row in Hb; [now rewrite E in Hb|]. rewrite E' in Hb. rewrite E.
    rewrite in_app_iff in *. simpl. tauto.
Qed.

(** ** Histories *)

Lemma history (I : book f64 -> Prop) (Q : update f64 -> Prop) :
  (forall u ob ob', Q u -> sizes_ok ob -> I ob -> shape u ob ob' -> I ob') ->
  forall us ob, Forall Q us -> sizes_ok ob -> I ob ->
  exists ob', apply_updates us ob = Ret ob' /\ sizes_ok ob' /\ I ob' /\
    b_time ob' = b_time ob /\ max_depth ob' = max_depth ob.
Proof.
  intros St us. induction us as [|u us IH]; intros ob HQ Sz HI; simpl.
  - exists ob. auto.
  - inversion HQ; subst. destruct (step u ob Sz) as (ob1 & e & -> & Sh). cbn [bind].
    destruct (IH ob1) as (ob' & E & H1' & H2' & H3' & H4'); eauto using shape_sizes.
    apply shape_meta in Sh as [T D]. exists ob'. do 3 (split; [assumption|]). split; congruence.
Qed.

(** Where the rows of an updated book come from, side by side. *)
Lemma own_set_in q (new r : rw) t (l : rows) :
  In r (own_set (fun x : rw => f64_eq (price x) q) t new l) -> r = new \/ In r l.
Proof.
  intros I. destruct (own_set_shape (fun x : rw => f64_eq (price x) q) t new l) as (x & y & z & El & Eo & _).
  rewrite Eo in I. rewrite El. apply in_app_or in I as [I|[I|I]]; auto; right; rewrite !in_app_iff; auto.
Qed.
Lemma del_row_in q (r : rw) (l : rows) : In r (del_row q l) -> In r l.
Proof.
  intros I. unfold del_row in I.
  destruct (own_del_shape (fun x : rw => f64_eq (price x) q) l) as [(_ & El & _)|(x & y & z & El & Eo & _)].
  - now rewrite El in I.
  - rewrite Eo in I. rewrite El. rewrite in_app_iff in *. simpl. tauto.
Qed.
Lemma take_in {A} d (l : list A) x : In x (take d l) -> In x l.
Proof. unfold take. intros H. rewrite <- (firstn_skipn (Z.to_nat d) l). apply in_or_app. auto. Qed.
Lemma rows_after_update u ob ob' : sizes_ok ob -> apply_update u ob = Ret (ob', None) ->
  (forall r, In r (asks ob') ->
     In r (asks ob) \/ (u_side u = "ask"%string /\ nonzero u /\ r = mkRow (u_price u) (u_volume u) (i2f 0))) /\
  (forall r, In r (bids ob') ->
     In r (bids ob) \/ (u_side u = "bid"%string /\ nonzero u /\ r = mkRow (u_price u) (u_volume u) (i2f 0))).
Proof.
  intros (Ha & Hb & Hd) H.
  destruct (string_dec (u_side u) "ask") as [Sa|Sa].
  { destruct (zero_or u) as [Z|Z].
    - destruct (step_ask_del u ob Sa Z) as [[_ E]|[_ E]]; [lia| |]; rewrite E in H; injection H as <-; [auto|].
      cbn [asks bids]. split; intros r I; left; apply take_in in I; [now apply del_row_in in I|assumption].
    - rewrite step_ask_set in H by (assumption || lia). injection H as <-. cbn [asks bids].
      split; intros r I; apply take_in in I.
      + apply own_set_in in I as [->|I]; auto.
      + left. now apply cut_in in I. }
  destruct (string_dec (u_side u) "bid") as [Sb|Sb].
  { destruct (zero_or u) as [Z|Z].
    - destruct (step_bid_del u ob Sb Z) as [[_ E]|[_ E]]; [lia| |]; rewrite E in H; injection H as <-; [auto|].
      cbn [asks bids]. split; intros r I; left; apply take_in in I; [assumption|now apply del_row_in in I].
    - rewrite step_bid_set in H by (assumption || lia). injection H as <-. cbn [asks bids].
      split; intros r I; apply take_in in I.
      + left. now apply cut_in in I.
      + apply own_set_in in I as [->|I]; auto. }
  rewrite apply_bad_side in H by assumption. discriminate.
Qed.
