(** GetDepth rounds prices to the levels of the book (C105). *)
From Coq Require Import Lia ZArith.
From Verif Require Import Go.Outcome Go.Int64 Go.Slice Go.Float64 Go.FloatOrder Go.Num Model.OrderBook
  Spec.OrderBookSpec Spec.LevelSpec Proofs.DepthOverlap.
Open Scope list_scope.
Open Scope Z_scope.

Lemma le_trans x y z : f64_le x y = true -> f64_le y z = true -> f64_le x z = true.
Proof.
  intros H1 H2. destruct (f64_le_true _ _ H1) as (N1 & N2 & K1). destruct (f64_le_true _ _ H2) as (_ & N3 & K2).
  rewrite f64_le_key by assumption. lia.
Qed.
Lemma le_refl x : f64_is_nan x = false -> f64_le x x = true.
Proof. intros H. rewrite f64_le_key by assumption. lia. Qed.
Lemma lt_not_le x y : f64_lt x y = true -> f64_le y x = false.
Proof.
  intros H. destruct (f64_lt_true _ _ H) as (N1 & N2 & K1). rewrite f64_le_key by assumption. lia.
Qed.
Lemma pos_le_eq x y : f64_lt (i2f 0) x = true -> f64_le x y = true -> f64_le y x = true -> x = y.
Proof.
  intros P H1 H2. destruct (f64_le_true _ _ H1) as (N1 & N2 & K1). destruct (f64_le_true _ _ H2) as (_ & _ & K2).
  assert (key x = key y) as K by lia. destruct (f64_lt_true _ _ P) as (_ & _ & K0).
  destruct (key_inj x y N1 N2 K) as [E|(sx & sy & -> & _)]; [exact E|]. exfalso. destruct sx; vm_compute in P; discriminate P.
Qed.

Section Book.
Variable ob : book f64.
Hypothesis W : well_ordered ob.
Hypothesis T : two_sided ob.

Lemma pos_not_le p : f64_lt (i2f 0) p = true -> f64_le p (i2f 0) = false.
Proof. apply lt_not_le. Qed.
Lemma cases p : f64_le p (i2f 0) = false ->
  (spans (asks ob) p /\ exists r, highest_below p (asks ob) r /\ get_depth ob p = Ret (price r, None)) \/
  (~ spans (asks ob) p /\ spans (bids ob) p /\
     exists r, lowest_above p (bids ob) r /\ get_depth ob p = Ret (price r, None)) \/
  (~ spans (asks ob) p /\ ~ spans (bids ob) p /\ get_depth ob p = Ret (i2f 0, Some gd_notfound)).
Proof. destruct T as (A & B & C & D). now apply get_depth_cases. Qed.
(** Where an answer comes from. *)
Lemma answer_from p d : answered ob p d ->
  (spans (asks ob) p /\ exists r, highest_below p (asks ob) r /\ d = price r) \/
  (~ spans (asks ob) p /\ spans (bids ob) p /\ exists r, lowest_above p (bids ob) r /\ d = price r).
Proof.
  unfold answered. intros E. destruct (f64_le p (i2f 0)) eqn:P.
  - unfold get_depth in E. change fle with f64_le in E. change fzero with (i2f 0) in E. rewrite P in E. discriminate E.
  - destruct (cases p P) as [(S & r & H & G)|[(NS & S & r & H & G)|(_ & _ & G)]]; rewrite E in G; [| |discriminate G]; injection G as ->; eauto 8.
Qed.
Lemma answer_level p d : answered ob p d -> exists r, (In r (asks ob) \/ In r (bids ob)) /\ d = price r.
Proof. intros E. destruct (answer_from p d E) as [(_ & r & (H & _) & ->)|(_ & _ & r & (H & _) & ->)]; eauto. Qed.
Lemma nan_row r : In r (asks ob) \/ In r (bids ob) -> f64_is_nan (price r) = false.
Proof. destruct W as (A & B & _). unfold nan_free in A, B. rewrite Forall_forall in A, B. intros [H|H]; auto. Qed.

Hypothesis U : uncrossed ob.
Lemma level_fixed r : In r (asks ob) \/ In r (bids ob) -> f64_lt (i2f 0) (price r) = true -> answered ob (price r) (price r).
Proof.
  intros H P. pose proof (nan_row r H) as N. unfold answered.
  destruct (cases (price r) (pos_not_le _ P)) as [(S & a & (Ia & La & Ha) & ->)|[(NS & S & b & (Ib & Lb & Hb) & ->)|(NA & NB & _)]].
  - do 2 f_equal. symmetry. apply pos_le_eq; [exact P| |exact La]. destruct H as [H|H].
    + apply Ha; [exact H|now apply le_refl].
    + now apply U.
  - do 2 f_equal. symmetry. apply pos_le_eq; [exact P|exact Lb|]. destruct H as [H|H].
    + exfalso. apply NS. split; exists r; split; auto using le_refl.
    + apply Hb; [exact H|now apply le_refl].
  - exfalso. destruct H as [H|H]; [apply NA|apply NB]; split; exists r; split; auto using le_refl.
Qed.
Lemma idempotent p d : answered ob p d -> f64_lt (i2f 0) d = true -> answered ob d d.
Proof. intros E P. destruct (answer_level p d E) as (r & H & ->). now apply level_fixed. Qed.
Lemma monotone p q d e : f64_le p q = true -> answered ob p d -> answered ob q e -> f64_le d e = true.
Proof.
  intros L E1 E2.
  destruct (answer_from p d E1) as [(S1 & r & (I1 & L1 & H1) & ->)|(N1 & S1 & r & (I1 & L1 & H1) & ->)];
  destruct (answer_from q e E2) as [(S2 & s & (I2 & L2 & H2) & ->)|(N2 & S2 & s & (I2 & L2 & H2) & ->)].
  - apply H2; [exact I1|]. eapply le_trans; eassumption.
  - exfalso. apply N2. split.
    + exists r. split; [exact I1|]. exact (le_trans _ _ _ L1 L).
    + destruct S2 as [_ (b & Ib & Lb)]. exists r. split; [exact I1|]. eapply le_trans; [exact Lb|]. now apply U.
  - now apply U.
  - apply H1; [exact I2|]. exact (le_trans _ _ _ L L2).
Qed.
Lemma toward_spread p d : answered ob p d ->
  (spans (asks ob) p /\ f64_le d p = true) \/ (spans (bids ob) p /\ f64_le p d = true).
Proof. intros E. destruct (answer_from p d E) as [(S & r & (_ & L & _) & ->)|(_ & S & r & (_ & L & _) & ->)]; auto. Qed.
Lemma in_spread p : (forall r, In r (asks ob) -> f64_lt p (price r) = true) -> (forall r, In r (bids ob) -> f64_lt (price r) p = true) ->
  forall d, ~ answered ob p d.
Proof.
  intros HA HB d E. destruct (answer_from p d E) as [([(r & I & L) _] & _)|(_ & [_ (r & I & L)] & _)].
  - rewrite (lt_not_le _ _ (HA r I)) in L. discriminate L.
  - rewrite (lt_not_le _ _ (HB r I)) in L. discriminate L.
Qed.
End Book.
