(** Streams of updates some of which are delivered more than once. *)
From Coq Require Import Sorting.Sorted Sorting.Permutation.
From Flocq Require Import BinarySingleNaN.
From Verif Require Import Go.Outcome Go.Int64 Go.Slice Go.Sort Go.Float64 Go.FloatOrder Go.FloatReal Go.Num
  Model.OrderBook Spec.OrderBookSpec Spec.HistorySpec Proofs.Lists Proofs.OrderBook Proofs.Keyed Proofs.Updates
  Proofs.UpdateThms Proofs.StableSort Proofs.NewBook Proofs.History.
Open Scope list_scope.
Open Scope Z_scope.

(** *** As many rows as different prices *)
Lemma covered_len (l : rows) ps : NoDup (map (fun r : rw => key (price r)) l) ->
  (forall r, In r l -> covers ps (price r)) -> zlen l <= zlen ps.
Proof.
  intros Nd H.
  assert (incl (map (fun r : rw => key (price r)) l) (map key ps)) as I.
  { intros k Hk. apply in_map_iff in Hk. destruct Hk as (r & <- & Hr).
    destruct (H r Hr) as (q & Hq & E). apply in_map_iff. exists q. split; [|assumption].
    symmetry. now apply f64_eq_true. }
  pose proof (NoDup_incl_length Nd I) as L. rewrite !map_length in L. unfold zlen. lia.
Qed.
Lemma asks_covered l ps : nan_free l -> asks_sorted l ->
  (forall r, In r l -> covers ps (price r)) -> zlen l <= zlen ps.
Proof.
  intros Hn S. apply covered_len. clear ps. unfold nan_free in Hn.
  induction S as [|x l S IH Hx]; [constructor|]. inversion Hn; subst. cbn [map]. constructor; [|auto].
  intros H. apply in_map_iff in H. destruct H as (y & E & Hy). rewrite Forall_forall in Hx.
  specialize (Hx y Hy). simpl in Hx. apply f64_lt_true in Hx. lia.
Qed.
Lemma bids_covered l ps : nan_free l -> bids_sorted l ->
  (forall r, In r l -> covers ps (price r)) -> zlen l <= zlen ps.
Proof.
  intros Hn S. apply covered_len. clear ps. unfold nan_free in Hn.
  induction S as [|x l S IH Hx]; [constructor|]. inversion Hn; subst. cbn [map]. constructor; [|auto].
  intros H. apply in_map_iff in H. destruct H as (y & E & Hy). rewrite Forall_forall in Hx.
  specialize (Hx y Hy). simpl in Hx. apply f64_lt_true in Hx. lia.
Qed.

(** *** A run that never truncates *)
Lemma run_room us : forall tm d A B pa pb,
  Forall real_price us -> nan_free A -> nan_free B -> asks_sorted A -> bids_sorted B ->
  0 <= d < 2 ^ 53 -> apart_full A B us -> zlen pa <= d -> zlen pb <= d ->
  (forall r, In r A -> covers pa (price r)) -> (forall r, In r B -> covers pb (price r)) ->
  (forall u, In u us -> u_side u = "ask"%string -> nonzero u -> covers pa (u_price u)) ->
  (forall u, In u us -> u_side u = "bid"%string -> nonzero u -> covers pb (u_price u)) ->
  apply_updates us (mkBook tm A B d) = Ret (mkBook tm (fA us A) (fB us B) d).
Proof.
  induction us as [|u us IH]; intros tm d A B pa pb Q Na Nb Sa Sb Hd (X1 & X2 & X3) La Lb Ca Cb Ua Ub; [reflexivity|].
  inversion Q; subst. cbn [apply_updates fA fB fold_left]. fold (fA us). fold (fB us).
  destruct (upd_asks_in u A) as (Na1 & Sa1 & Ma1); auto. destruct (upd_bids_in u B) as (Nb1 & Sb1 & Mb1); auto.
  pose proof (asks_covered A pa Na Sa Ca) as LA. pose proof (bids_covered B pb Nb Sb Cb) as LB.
  destruct (string_dec (u_side u) "ask") as [Ss|Ss].
  { rewrite Ss. change (String.eqb "ask" "ask") with true. change (String.eqb "ask" "bid") with false. cbn beta iota.
    assert (forall r, In r (upd_asks u A) -> covers pa (price r)) as Ca1.
    { intros r Hr. apply Ma1 in Hr. destruct Hr as [[Zu ->]|[Hr _]]; [|auto]. cbn [row_of price]. apply Ua; auto. now left. }
    pose proof (asks_covered _ pa Na1 Sa1 Ca1) as LA1.
    assert (apply_update u (mkBook tm A B d) = Ret (mkBook tm (upd_asks u A) B d, None)) as E.
    { unfold upd_asks in *. destruct (zero_or u) as [Z|Z].
      - rewrite (proj2 (is_set_zero u) Z) in *.
        destruct (step_ask_del u (mkBook tm A B d) Ss Z) as [[F ->]|[F ->]]; cbn [max_depth asks bids b_time] in *; [lia| |].
        + now rewrite del_row_none by assumption.
        + rewrite !take_all by lia. reflexivity.
      - rewrite (proj2 (is_set_nonzero u) Z) in *.
        rewrite step_ask_set; cbn [max_depth asks bids b_time]; try assumption; try lia.
        rewrite cut_bids_free; [|assumption|assumption|intros b Hb; apply X1; auto; now left].
        rewrite !take_all by lia. reflexivity. }
    rewrite E. cbn [bind]. apply (IH tm d _ _ pa pb); auto.
    - split; [intros; apply X1; auto; now right|]. split; [|intros; apply X3; auto; now right].
      intros v a Hv Sv Zv Ha. apply Ma1 in Ha. destruct Ha as [[Zu ->]|[Ha _]].
      + cbn [row_of price]. apply X3; auto; [now left|now right].
      + apply X2; auto. now right.
    - intros; apply Ua; auto; now right.
    - intros; apply Ub; auto; now right. }
  destruct (string_dec (u_side u) "bid") as [Ss'|Ss'].
  { rewrite Ss'. change (String.eqb "bid" "ask") with false. change (String.eqb "bid" "bid") with true. cbn beta iota.
    assert (forall r, In r (upd_bids u B) -> covers pb (price r)) as Cb1.
    { intros r Hr. apply Mb1 in Hr. destruct Hr as [[Zu ->]|[Hr _]]; [|auto]. cbn [row_of price]. apply Ub; auto. now left. }
    pose proof (bids_covered _ pb Nb1 Sb1 Cb1) as LB1.
    assert (apply_update u (mkBook tm A B d) = Ret (mkBook tm A (upd_bids u B) d, None)) as E.
    { unfold upd_bids in *. destruct (zero_or u) as [Z|Z].
      - rewrite (proj2 (is_set_zero u) Z) in *.
        destruct (step_bid_del u (mkBook tm A B d) Ss' Z) as [[F ->]|[F ->]]; cbn [max_depth asks bids b_time] in *; [lia| |].
        + now rewrite del_row_none by assumption.
        + rewrite !take_all by lia. reflexivity.
      - rewrite (proj2 (is_set_nonzero u) Z) in *.
        rewrite step_bid_set; cbn [max_depth asks bids b_time]; try assumption; try lia.
        rewrite cut_asks_free; [|assumption|assumption|intros a Ha; apply X2; auto; now left].
        rewrite !take_all by lia. reflexivity. }
    rewrite E. cbn [bind]. apply (IH tm d _ _ pa pb); auto.
    - split; [|split; [intros; apply X2; auto; now right|intros; apply X3; auto; now right]].
      intros v b Hv Sv Zv Hb. apply Mb1 in Hb. destruct Hb as [[Zu ->]|[Hb _]].
      + cbn [row_of price]. apply X3; auto; [now right|now left].
      + apply X1; auto. now right.
    - intros; apply Ua; auto; now right.
    - intros; apply Ub; auto; now right. }
  rewrite apply_bad_side by assumption. cbn [bind].
  apply String.eqb_neq in Ss, Ss'. rewrite Ss, Ss'. apply (IH tm d _ _ pa pb); auto.
  - split; [intros; apply X1; auto; now right|]. split; [intros; apply X2; auto; now right|intros; apply X3; auto; now right].
  - intros; apply Ua; auto; now right.
  - intros; apply Ub; auto; now right.
Qed.

Lemma run_book_room us ob : Forall real_price us -> sizes_ok ob -> well_sorted ob -> sides_apart ob us -> room ob us ->
  apply_updates us ob = Ret (mkBook (b_time ob) (fA us (asks ob)) (fB us (bids ob)) (max_depth ob)).
Proof.
  intros Q (La & Lb & Hd) (Na & Nb & Sa & Sb) X (pa & pb & R1 & R2 & R3 & R4 & R5 & R6).
  destruct ob as [tm A B d]. cbn [asks bids b_time max_depth] in *.
  now apply (run_room us tm d A B pa pb).
Qed.
Lemma room_complete us ob : Forall real_price us -> sizes_ok ob -> well_sorted ob -> sides_apart ob us -> room ob us ->
  exists ob', apply_updates us ob = Ret ob' /\
    (forall r, In r (asks ob') <-> justified "ask" (asks ob) us r) /\
    (forall r, In r (bids ob') <-> justified "bid" (bids ob) us r).
Proof.
  intros Q Sz W X R. exists (mkBook (b_time ob) (fA us (asks ob)) (fB us (bids ob)) (max_depth ob)).
  split; [now apply run_book_room|]. cbn [asks bids].
  destruct W as (Na & Nb & Sa & Sb). split; [now apply fA_in|now apply fB_in].
Qed.
Lemma room_last us vs ob : Forall real_price us -> Forall real_price vs -> sizes_ok ob -> well_sorted ob ->
  sides_apart ob us -> sides_apart ob vs -> room ob us -> room ob vs ->
  (forall p, last_at "ask" p us = last_at "ask" p vs) -> (forall p, last_at "bid" p us = last_at "bid" p vs) ->
  apply_updates us ob = apply_updates vs ob.
Proof.
  intros Qu Qv Sz W Xu Xv Ru Rv Ea Eb. rewrite !run_book_room by assumption.
  destruct W as (Na & Nb & Sa & Sb).
  destruct (fA_in us (asks ob)) as (_ & S1 & M1); auto. destruct (fA_in vs (asks ob)) as (_ & S2 & M2); auto.
  destruct (fB_in us (bids ob)) as (_ & S3 & M3); auto. destruct (fB_in vs (bids ob)) as (_ & S4 & M4); auto.
  replace (fA vs (asks ob)) with (fA us (asks ob)); [replace (fB vs (bids ob)) with (fB us (bids ob)); [reflexivity|]|].
  - eapply ss_unique; [|exact S3|exact S4|].
    + intros x y H1 H2. now apply (lt_asym (price y) (price x)).
    + intros r. rewrite M3, M4. unfold justified. now rewrite Eb.
  - eapply ss_unique; [|exact S1|exact S2|].
    + intros x y H1 H2. now apply (lt_asym (price x) (price y)).
    + intros r. rewrite M1, M2. unfold justified. now rewrite Ea.
Qed.

(** *** Rewinding *)
Lemma last_at_app_or side p us vs :
  last_at side p (us ++ vs) = match last_at side p vs with Some v => Some v | None => last_at side p us end.
Proof.
  induction us as [|u us IH]; cbn [app last_at]; [now destruct (last_at side p vs)|].
  rewrite IH. now destruct (last_at side p vs).
Qed.
Lemma redelivered_last side p us vs : redelivered us vs -> last_at side p vs = last_at side p us.
Proof.
  induction 1 as [|pre k rest H IH]; [reflexivity|]. rewrite <- IH, !last_at_app_or.
  destruct (last_at side p rest); [reflexivity|]. now destruct (last_at side p k).
Qed.
Lemma redelivered_in {A} (us vs : list A) x : redelivered us vs -> In x vs -> In x us.
Proof.
  induction 1 as [|pre k rest H IH]; [auto|]. intros Hx. apply IH. rewrite !in_app_iff in *. tauto.
Qed.
Lemma redelivered_same us vs ob : redelivered us vs ->
  Forall real_price us -> sizes_ok ob -> well_sorted ob -> sides_apart ob us -> room ob us ->
  apply_updates vs ob = apply_updates us ob.
Proof.
  intros H Q Sz W X R. pose proof (fun x => redelivered_in us vs x H) as I.
  apply room_last; auto.
  - rewrite Forall_forall in *. auto.
  - destruct X as (X1 & X2 & X3). split; [|split]; intros; [apply X1|apply X2|apply X3]; auto.
  - destruct R as (pa & pb & R1 & R2 & R3 & R4 & R5 & R6). exists pa, pb. repeat split; auto.
  - intros p. now apply redelivered_last.
  - intros p. now apply redelivered_last.
Qed.
Lemma updates_app us vs : forall ob ob', apply_updates us ob = Ret ob' ->
  apply_updates (us ++ vs) ob = apply_updates vs ob'.
Proof.
  induction us as [|u us IH]; intros ob ob'; cbn [app apply_updates].
  - intros H. now injection H as ->.
  - destruct (apply_update u ob) as [[ob1 e]|]; cbn [bind]; try discriminate. apply IH.
Qed.
Lemma replay_same pre us ob ob' :
  Forall real_price (pre ++ us) -> sizes_ok ob -> well_sorted ob -> sides_apart ob (pre ++ us) -> room ob (pre ++ us) ->
  apply_updates (pre ++ us) ob = Ret ob' -> apply_updates us ob' = Ret ob'.
Proof.
  intros Q Sz W X R E. rewrite <- (updates_app (pre ++ us) us ob ob' E), <- app_assoc, <- E.
  apply redelivered_same; auto.
  replace (pre ++ us ++ us) with (pre ++ us ++ us ++ []) by now rewrite app_nil_r.
  apply rewound. rewrite app_nil_r. apply as_sent.
Qed.
