(** NewOrderBook. *)
From Coq Require Import Sorting.Sorted Sorting.Permutation Reals Lra.
From Flocq Require Import Core BinarySingleNaN.
From Verif Require Import Go.Outcome Go.Int64 Go.Slice Go.Sort Go.Float64 Go.FloatOrder Go.FloatReal Go.Num
  Model.OrderBook Spec.OrderBookSpec Proofs.Lists Proofs.StableSort Proofs.OrderBook Proofs.Updates.
Open Scope list_scope.
Open Scope Z_scope.

Lemma depth_of_ok len d : 0 <= len <= 2 ^ 53 -> 0 <= d -> depth_of len d = Z.min len d.
Proof. intros. now apply f2i_min_depth. Qed.

Lemma reslice_min {A} (l : list A) d : 0 <= d -> reslice l 0 (Z.min (zlen l) d) = Ret (take d l).
Proof.
  intros H. pose proof (zlen_nonneg l). rewrite reslice_ok by lia. rewrite Z.sub_0_r. simpl skipn.
  f_equal. unfold take. destruct (Z.le_ge_cases (zlen l) d).
  - rewrite Z.min_l by assumption. rewrite !firstn_all2; [reflexivity| |]; unfold zlen in *; lia.
  - now rewrite Z.min_r.
Qed.

Lemma sort_len {A} (less : A -> A -> bool) l : zlen (slice_stable less l) = zlen l.
Proof. unfold zlen. f_equal. apply Permutation_length, Permutation_sym, sort_perm. Qed.

Section Any.
Context {F : Type} {N : GoFloat F}.
Lemma new_book_ok now (la lb : list (row F)) d :
  zlen la <= 2 ^ 53 -> zlen lb <= 2 ^ 53 -> 0 <= d ->
  new_order_book now la lb d = Ret (mkBook now
    (accum_rows None (take d (slice_stable (fun x y => flt (price x) (price y)) la)))
    (accum_rows None (take d (slice_stable (fun x y => flt (price y) (price x)) lb))) d).
Proof.
  intros Ha Hb Hd. unfold new_order_book, sort_book. cbn [asks bids max_depth b_time].
  rewrite !depth_of_ok by (rewrite ?sort_len; auto using zlen_nonneg).
  rewrite !reslice_min by assumption. reflexivity.
Qed.
Lemma new_book_neg now (la lb : list (row F)) d : d < 0 ->
  new_order_book now la lb d = Panic PSlice.
Proof.
  intros Hd. unfold new_order_book, sort_book. cbn [asks bids max_depth b_time].
  rewrite reslice_panic; [reflexivity|]. right; left. apply f2i_min_neg; [apply zlen_nonneg|assumption].
Qed.

Lemma accum_pv {G} (f : F -> F -> G) prev (l : list (row F)) :
  map (fun r => f (price r) (volume r)) (accum_rows prev l) = map (fun r => f (price r) (volume r)) l.
Proof. revert prev. induction l as [|r l IH]; intros prev; simpl; [reflexivity|]. now rewrite IH. Qed.

Lemma accum_running_some a (l : list (row F)) :
  map accum (accum_rows (Some a) l) = running fadd a (map volume l).
Proof. revert a. induction l as [|r l IH]; intros a; simpl; [reflexivity|]. now rewrite IH. Qed.
Lemma accum_running (l : list (row F)) :
  map accum (accum_rows None l) = running_totals fadd (map volume (accum_rows None l)).
Proof.
  rewrite (accum_pv (fun _ v => v)). destruct l as [|r l]; simpl; [reflexivity|]. f_equal. apply accum_running_some.
Qed.
End Any.

Lemma stable_of_sort_asks l : nan_free l -> zlen l <= 2 ^ 53 ->
  stable_asks l (slice_stable (fun x y : rw => f64_lt (price x) (price y)) l).
Proof.
  intros Hn _.
  destruct (slice_stable_spec (fun x y : rw => f64_lt (price x) (price y)) kA Pn) with (l := l) as (S & Pm & Fl);
    [intros; now apply f64_lt_key|assumption|].
  assert (nan_free (slice_stable (fun x y : rw => f64_lt (price x) (price y)) l)) as Hn'.
  { unfold nan_free in *. rewrite Forall_forall in *. intros r Hr. apply Hn. eapply Permutation_in; [|exact Hr]. now apply Permutation_sym. }
  split; [now apply asks_ordered_k|]. split; [assumption|]. intros p.
  destruct (f64_is_nan p) eqn:Np.
  - rewrite !filter_none; [reflexivity| |]; rewrite Forall_forall; intros; now apply f64_eq_nan_r.
  - specialize (Fl (key p)).
    assert (forall m, nan_free m -> filter (fun r => f64_eq (price r) p) m = filter (fun a => kA a =? key p) m) as Q.
    { intros m Hm. apply filter_ext_in. intros r Hr. unfold nan_free in Hm. rewrite Forall_forall in Hm.
      apply ask_eq; [assumption|now apply Hm]. }
    rewrite !Q by assumption. exact Fl.
Qed.
Lemma stable_of_sort_bids l : nan_free l -> zlen l <= 2 ^ 53 ->
  stable_bids l (slice_stable (fun x y : rw => f64_lt (price y) (price x)) l).
Proof.
  intros Hn _.
  destruct (slice_stable_spec (fun x y : rw => f64_lt (price y) (price x)) kB Pn) with (l := l) as (S & Pm & Fl);
    [|assumption|].
  { intros x y Hx Hy. rewrite (bid_lt (price y)) by assumption. reflexivity. }
  assert (nan_free (slice_stable (fun x y : rw => f64_lt (price y) (price x)) l)) as Hn'.
  { unfold nan_free in *. rewrite Forall_forall in *. intros r Hr. apply Hn. eapply Permutation_in; [|exact Hr]. now apply Permutation_sym. }
  split; [now apply bids_ordered_k|]. split; [assumption|]. intros p.
  destruct (f64_is_nan p) eqn:Np.
  - rewrite !filter_none; [reflexivity| |]; rewrite Forall_forall; intros; now apply f64_eq_nan_r.
  - specialize (Fl (- key p)).
    assert (forall m, nan_free m -> filter (fun r => f64_eq (price r) p) m = filter (fun a => kB a =? - key p) m) as Q.
    { intros m Hm. apply filter_ext_in. intros r Hr. unfold nan_free in Hm. rewrite Forall_forall in Hm.
      apply bid_eq; [assumption|now apply Hm]. }
    rewrite !Q by assumption. exact Fl.
Qed.

Lemma perm_nan_free l l' : Permutation l l' -> nan_free l -> nan_free l'.
Proof.
  unfold nan_free. rewrite !Forall_forall. intros Pm H r Hr. apply H. eapply Permutation_in; [|exact Hr].
  now apply Permutation_sym.
Qed.

Lemma filter_key (k : rw -> Z) (c : Z -> Z) l l1 :
  (forall p r, f64_is_nan p = false -> Pn r -> f64_eq (price r) p = (k r =? c (key p))) ->
  (forall r, k r = c (key (price r))) ->
  nan_free l -> nan_free l1 ->
  (forall p, filter (fun r => f64_eq (price r) p) l1 = filter (fun r => f64_eq (price r) p) l) ->
  forall v, filter (fun a => k a =? v) l1 = filter (fun a => k a =? v) l.
Proof.
  intros Hk Kc Hn Hn1 H v.
  destruct (existsb (fun a => k a =? v) (l ++ l1)) eqn:E.
  - apply existsb_exists in E as (r & Hr & Er). apply Z.eqb_eq in Er.
    assert (Pn r) as Pr.
    { unfold nan_free in *. rewrite Forall_forall in *. apply in_app_or in Hr as [Hr|Hr]; [now apply Hn|now apply Hn1]. }
    specialize (H (price r)).
    assert (forall m, nan_free m -> filter (fun x => f64_eq (price x) (price r)) m = filter (fun a => k a =? v) m) as Q.
    { intros m Hm. apply filter_ext_in. intros x Hx. unfold nan_free in Hm. rewrite Forall_forall in Hm.
      rewrite Hk; [|assumption|now apply Hm]. now rewrite <- Kc, Er. }
    now rewrite !Q in H by assumption.
  - assert (forall m, incl m (l ++ l1) -> filter (fun a => k a =? v) m = []) as Q.
    { intros m Hm. apply filter_none. rewrite Forall_forall. intros x Hx. apply Hm in Hx.
      destruct (k x =? v) eqn:Ex; [|reflexivity]. exfalso.
      assert (existsb (fun a => k a =? v) (l ++ l1) = true) by (apply existsb_exists; eauto). congruence. }
    rewrite !Q; [reflexivity| |]; intros x Hx; apply in_or_app; auto.
Qed.

Lemma stable_asks_unique l s1 s2 : nan_free l -> stable_asks l s1 -> stable_asks l s2 -> s1 = s2.
Proof.
  intros Hn (S1 & P1 & F1) (S2 & P2 & F2).
  pose proof (perm_nan_free _ _ P1 Hn) as N1. pose proof (perm_nan_free _ _ P2 Hn) as N2.
  apply (stable_unique kA); [now apply asks_ordered_k|now apply asks_ordered_k|].
  intros v. rewrite (filter_key kA (fun z => z) l s1), (filter_key kA (fun z => z) l s2); auto;
    intros; now apply ask_eq.
Qed.
Lemma stable_bids_unique l s1 s2 : nan_free l -> stable_bids l s1 -> stable_bids l s2 -> s1 = s2.
Proof.
  intros Hn (S1 & P1 & F1) (S2 & P2 & F2).
  pose proof (perm_nan_free _ _ P1 Hn) as N1. pose proof (perm_nan_free _ _ P2 Hn) as N2.
  apply (stable_unique kB); [now apply bids_ordered_k|now apply bids_ordered_k|].
  intros v. rewrite (filter_key kB Z.opp l s1), (filter_key kB Z.opp l s2); auto;
    intros; now apply bid_eq.
Qed.

Lemma new_book_spec now la lb d : nan_free la -> nan_free lb ->
  zlen la <= 2 ^ 53 -> zlen lb <= 2 ^ 53 -> 0 <= d ->
  exists ob sa sb, new_order_book now la lb d = Ret ob /\
    b_time ob = now /\ max_depth ob = d /\
    stable_asks la sa /\ stable_bids lb sb /\
    map pv (asks ob) = map pv (take d sa) /\ map pv (bids ob) = map pv (take d sb).
Proof.
  intros Na Nb La Lb Hd. rewrite new_book_ok by assumption. do 3 eexists. split; [reflexivity|].
  cbn [asks bids max_depth b_time]. do 2 (split; [reflexivity|]).
  split; [apply stable_of_sort_asks; eassumption|]. split; [apply stable_of_sort_bids; eassumption|].
  split; apply (accum_pv pair).
Qed.

(** ** Accumulated volumes *)

Lemma totals_R : forall (l : list R) a i x, nth_error (running Rplus a l) i = Some x ->
  x = (a + fold_right Rplus 0 (firstn (S i) l))%R.
Proof.
  induction l as [|v l IH]; intros a [|i] x H; simpl in H; try discriminate.
  - injection H as <-. change (firstn 1 (v :: l)) with [v]. cbn [fold_right]. lra.
  - apply IH in H. rewrite H. change (firstn (S (S i)) (v :: l)) with (v :: firstn (S i) l).
    cbn [fold_right]. lra.
Qed.
Lemma running_totals_R (l : list R) i x : nth_error (running_totals Rplus l) i = Some x ->
  x = fold_right Rplus 0%R (firstn (S i) l).
Proof.
  destruct l as [|v l]; [destruct i; discriminate|]. destruct i as [|i]; simpl; intros H.
  - injection H as <-. cbn. lra.
  - apply totals_R in H. rewrite H. reflexivity.
Qed.

(** Adding a non-negative float to a non-negative float does not decrease it. *)
Lemma add_nonneg v a : f64_le (i2f 0) v = true -> f64_le (i2f 0) a = true ->
  f64_le (i2f 0) (f64_add v a) = true /\ f64_le a (f64_add v a) = true.
Proof.
  intros Hv Ha.
  assert (is_nan (i2f 0) = false) as N0 by apply i2f_xr.
  assert (xr (i2f 0) = 0%R) as X0 by (rewrite i2f_exact_xr by (unfold exact_int; lia); reflexivity).
  apply f64_le_true in Hv as (_ & Nv & Kv). apply f64_le_true in Ha as (_ & Na & Ka).
  apply key_le_xr in Kv; auto. apply key_le_xr in Ka; auto. rewrite X0 in Kv, Ka.
  assert (is_nan (f64_add v a) = false /\ (xr a <= xr (f64_add v a))%R) as [Ns Xs].
  { destruct (is_finite v) eqn:Fv, (is_finite a) eqn:Fa.
    - destruct (add_xr v a Fv Fa) as [H1 H2]. split; [assumption|]. rewrite H2.
      rewrite xr_finite in Kv, Ka by assumption. rewrite xr_finite by assumption.
      assert (sat (rnd (B2R a)) = B2R a) as Ea.
      { unfold rnd. rewrite round_generic; [|apply valid_rnd_N|apply generic_format_B2R].
        apply sat_id. apply Rlt_le. now apply B2R_lt_big. }
      rewrite <- Ea at 1. apply sat_mono, rnd_mono. lra.
    - destruct a as [| [] | |]; try discriminate.
      + exfalso. simpl in Ka. pose proof big_pos. lra.
      + destruct v as [| | |]; try discriminate; simpl; split; auto; lra.
    - destruct v as [| [] | |]; try discriminate.
      + exfalso. simpl in Kv. pose proof big_pos. lra.
      + pose proof (xr_range a). destruct a as [| | |]; try discriminate; simpl in *; split; auto; lra.
    - destruct v as [| [] | |]; try discriminate; destruct a as [| [] | |]; try discriminate;
        try (exfalso; simpl in *; pose proof big_pos; lra). simpl; split; auto; lra. }
  split.
  - rewrite f64_le_key by assumption. apply Z.leb_le. apply key_le_xr; auto. rewrite X0. lra.
  - rewrite f64_le_key by assumption. apply Z.leb_le. now apply key_le_xr.
Qed.

Lemma running_nondecreasing : forall l a, f64_le (i2f 0) a = true ->
  Forall (fun v => f64_le (i2f 0) v = true) l ->
  StronglySorted (fun x y => f64_le x y = true) (a :: running f64_add a l).
Proof.
  assert (forall x y z, f64_le x y = true -> f64_le y z = true -> f64_le x z = true) as Tr.
  { intros x y z H1 H2. apply f64_le_true in H1, H2. rewrite f64_le_key by tauto. apply Z.leb_le. lia. }
  induction l as [|v l IH]; intros a Ha Hl; simpl.
  - repeat constructor.
  - inversion Hl; subst. destruct (add_nonneg v a) as [A1 A2]; auto.
    specialize (IH (f64_add v a) A1 H2). apply ss_cons. split; [assumption|].
    apply ss_cons in IH as [_ IH]. intros y [<-|Hy]; [assumption|]. eauto.
Qed.
Lemma totals_nondecreasing l : Forall (fun v => f64_le (i2f 0) v = true) l ->
  StronglySorted (fun x y => f64_le x y = true) (running_totals f64_add l).
Proof.
  destruct l as [|v l]; simpl; [constructor|]. intros H; inversion H; subst. now apply running_nondecreasing.
Qed.
