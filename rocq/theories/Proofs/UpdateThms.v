(** Theorems about ApplyUpdate, in the vocabulary of Spec/OrderBookSpec.v. *)
From Coq Require Import Sorting.Sorted Sorting.Permutation.
From Flocq Require Import BinarySingleNaN.
From Verif Require Import Go.Outcome Go.Int64 Go.Slice Go.Sort Go.Float64 Go.FloatOrder Go.FloatReal Go.Num
  Model.OrderBook Spec.OrderBookSpec Proofs.Lists Proofs.OrderBook Proofs.Keyed Proofs.Updates.
Open Scope list_scope.
Open Scope Z_scope.

Lemma updates_sorted us ob : sizes_ok ob -> well_sorted ob -> Forall real_price us ->
  exists ob', apply_updates us ob = Ret ob' /\ well_sorted ob'.
Proof.
  intros Sz W Q. destruct (history well_sorted real_price) with (us := us) (ob := ob)
    as (ob' & E & _ & H & _); eauto using step_sorted.
Qed.
Lemma updates_ordered us ob : sizes_ok ob -> well_ordered ob -> Forall real_price us ->
  exists ob', apply_updates us ob = Ret ob' /\ well_ordered ob'.
Proof.
  intros Sz W Q. destruct (history well_ordered real_price) with (us := us) (ob := ob)
    as (ob' & E & _ & H & _); eauto using step_ordered.
Qed.
Lemma updates_depth us ob : sizes_ok ob -> within_depth ob ->
  exists ob', apply_updates us ob = Ret ob' /\ within_depth ob' /\
    max_depth ob' = max_depth ob /\ b_time ob' = b_time ob.
Proof.
  intros Sz W. destruct (history within_depth (fun _ => True)) with (us := us) (ob := ob)
    as (ob' & E & _ & H & H1 & H2); eauto.
  - intros u o o' _ (Ha & Hb & Hd). apply shape_depth. lia.
  - now apply Forall_forall.
Qed.
Lemma updates_uncrossed us ob : sizes_ok ob -> well_ordered ob -> uncrossed ob -> Forall real_price us ->
  exists ob', apply_updates us ob = Ret ob' /\ uncrossed ob'.
Proof.
  intros Sz W U Q.
  destruct (history (fun o => well_ordered o /\ uncrossed o) real_price) with (us := us) (ob := ob)
    as (ob' & E & _ & [_ H] & _); eauto.
  intros u o o' Hu _ [W1 U1] Sh. split; eauto using step_ordered, step_uncrossed.
Qed.
Lemma updates_total us ob : sizes_ok ob -> exists ob', apply_updates us ob = Ret ob' /\ sizes_ok ob'.
Proof.
  intros Sz. destruct (history (fun _ => True) (fun _ => True)) with (us := us) (ob := ob)
    as (ob' & E & H & _); eauto. now apply Forall_forall.
Qed.

(** One level. *)
Lemma eq_kA q r : f64_is_nan q = false -> Pn r -> f64_eq (price r) q = false <-> kA r <> key q.
Proof. intros Hq Hr. rewrite (ask_eq q Hq r Hr). apply Z.eqb_neq. Qed.
Lemma eq_kB q r : f64_is_nan q = false -> Pn r -> f64_eq (price r) q = false <-> kB r <> - key q.
Proof. intros Hq Hr. rewrite (bid_eq q Hq r Hr). apply Z.eqb_neq. Qed.

Lemma and_iff_in (A B C : Prop) : (A -> (B <-> C)) -> (A /\ B <-> A /\ C).
Proof. tauto. Qed.

Lemma set_asks_level u l : real_price u -> nan_free l -> asks_sorted l ->
  level_set asks_sorted l (row_of u) (set_asks (u_price u) (row_of u) l).
Proof.
  intros Hu Hn S. destruct (set_asks_sl (u_price u) (row_of u) l Hu eq_refl Hn) as [S' M];
    [now apply asks_sorted_k|].
  assert (nan_free (set_asks (u_price u) (row_of u) l)) as Hn' by (apply own_set_P; auto).
  split; [now apply asks_sorted_k|]. intros r. rewrite M. apply or_iff_compat_l.
  apply and_iff_in. intros Hx. unfold nan_free in Hn. rewrite Forall_forall in Hn.
  symmetry. apply eq_kA; [exact Hu|now apply Hn].
Qed.
Lemma set_bids_level u l : real_price u -> nan_free l -> bids_sorted l ->
  level_set bids_sorted l (row_of u) (set_bids (u_price u) (row_of u) l).
Proof.
  intros Hu Hn S. destruct (set_bids_sl (u_price u) (row_of u) l Hu eq_refl Hn) as [S' M];
    [now apply bids_sorted_k|].
  assert (nan_free (set_bids (u_price u) (row_of u) l)) as Hn' by (apply own_set_P; auto).
  split; [now apply bids_sorted_k|]. intros r. rewrite M. apply or_iff_compat_l.
  apply and_iff_in. intros Hx. unfold nan_free in Hn. rewrite Forall_forall in Hn.
  symmetry. apply eq_kB; [exact Hu|now apply Hn].
Qed.
Lemma del_asks_level u l : real_price u -> nan_free l -> asks_sorted l ->
  level_deleted asks_sorted l (u_price u) (del_row (u_price u) l).
Proof.
  intros Hu Hn S. destruct (del_asks_sl (u_price u) l Hu Hn) as [S' M]; [now apply asks_sorted_k|].
  assert (nan_free (del_row (u_price u) l)) as Hn' by (apply own_del_P; auto).
  split; [now apply asks_sorted_k|]. intros r. rewrite M.
  apply and_iff_in. intros Hx. unfold nan_free in Hn. rewrite Forall_forall in Hn.
  symmetry. apply eq_kA; [exact Hu|now apply Hn].
Qed.
Lemma del_bids_level u l : real_price u -> nan_free l -> bids_sorted l ->
  level_deleted bids_sorted l (u_price u) (del_row (u_price u) l).
Proof.
  intros Hu Hn S. destruct (del_bids_sl (u_price u) l Hu Hn) as [S' M]; [now apply bids_sorted_k|].
  assert (nan_free (del_row (u_price u) l)) as Hn' by (apply own_del_P; auto).
  split; [now apply bids_sorted_k|]. intros r. rewrite M.
  apply and_iff_in. intros Hx. unfold nan_free in Hn. rewrite Forall_forall in Hn.
  symmetry. apply eq_kB; [exact Hu|now apply Hn].
Qed.

Lemma level_set_ask u ob : u_side u = "ask"%string -> nonzero u -> real_price u -> sizes_ok ob ->
  nan_free (asks ob) -> asks_sorted (asks ob) ->
  exists ob' full, apply_update u ob = Ret (ob', None) /\
    level_set asks_sorted (asks ob) (mkRow (u_price u) (u_volume u) (i2f 0)) full /\
    asks ob' = take (max_depth ob) full.
Proof.
  intros Hs Hv Hu (Ha & Hb & Hd) Hn S. rewrite step_ask_set by (assumption || lia).
  eexists _, _. split; [reflexivity|]. split; [now apply (set_asks_level u)|reflexivity].
Qed.
Lemma level_set_bid u ob : u_side u = "bid"%string -> nonzero u -> real_price u -> sizes_ok ob ->
  nan_free (bids ob) -> bids_sorted (bids ob) ->
  exists ob' full, apply_update u ob = Ret (ob', None) /\
    level_set bids_sorted (bids ob) (mkRow (u_price u) (u_volume u) (i2f 0)) full /\
    bids ob' = take (max_depth ob) full.
Proof.
  intros Hs Hv Hu (Ha & Hb & Hd) Hn S. rewrite step_bid_set by (assumption || lia).
  eexists _, _. split; [reflexivity|]. split; [now apply (set_bids_level u)|reflexivity].
Qed.
Lemma level_del_ask u ob : u_side u = "ask"%string -> zero u -> real_price u -> sizes_ok ob -> within_depth ob ->
  nan_free (asks ob) -> asks_sorted (asks ob) ->
  exists ob', apply_update u ob = Ret (ob', None) /\
    level_deleted asks_sorted (asks ob) (u_price u) (asks ob').
Proof.
  intros Hs Hv Hu (Ha & Hb & Hd) [Wa Wb] Hn S. destruct (step_ask_del u ob Hs Hv) as [[F ->]|[_ ->]]; [lia| |].
  - eexists. split; [reflexivity|]. split; [assumption|]. intros r. rewrite Forall_forall in F. split; [|tauto].
    intros H. split; auto.
  - eexists. split; [reflexivity|]. cbn [asks]. rewrite take_all.
    + now apply del_asks_level.
    + pose proof (own_del_len (fun r => f64_eq (price r) (u_price u)) (asks ob)). unfold del_row. lia.
Qed.
Lemma level_del_bid u ob : u_side u = "bid"%string -> zero u -> real_price u -> sizes_ok ob -> within_depth ob ->
  nan_free (bids ob) -> bids_sorted (bids ob) ->
  exists ob', apply_update u ob = Ret (ob', None) /\
    level_deleted bids_sorted (bids ob) (u_price u) (bids ob').
Proof.
  intros Hs Hv Hu (Ha & Hb & Hd) [Wa Wb] Hn S. destruct (step_bid_del u ob Hs Hv) as [[F ->]|[_ ->]]; [lia| |].
  - eexists. split; [reflexivity|]. split; [assumption|]. intros r. rewrite Forall_forall in F. split; [|tauto].
    intros H. split; auto.
  - eexists. split; [reflexivity|]. cbn [bids]. rewrite take_all.
    + now apply del_bids_level.
    + pose proof (own_del_len (fun r => f64_eq (price r) (u_price u)) (bids ob)). unfold del_row. lia.
Qed.

Lemma lt_asym a b : f64_lt a b = true -> f64_lt b a = true -> False.
Proof. intros H1 H2. apply f64_lt_true in H1, H2. lia. Qed.
Lemma level_set_unique_asks old new f1 f2 :
  level_set asks_sorted old new f1 -> level_set asks_sorted old new f2 -> f1 = f2.
Proof.
  intros [S1 M1] [S2 M2]. eapply ss_unique; [|exact S1|exact S2|].
  - intros x y H1 H2. now apply (lt_asym (price x) (price y)).
  - intros x. now rewrite M1, M2.
Qed.
Lemma level_set_unique_bids old new f1 f2 :
  level_set bids_sorted old new f1 -> level_set bids_sorted old new f2 -> f1 = f2.
Proof.
  intros [S1 M1] [S2 M2]. eapply ss_unique; [|exact S1|exact S2|].
  - intros x y H1 H2. now apply (lt_asym (price y) (price x)).
  - intros x. now rewrite M1, M2.
Qed.

(** Opposite side. *)
Lemma opp_bids u ob cr keep :
  u_side u = "ask"%string -> nonzero u -> real_price u -> sizes_ok ob -> nan_free (bids ob) ->
  bids ob = cr ++ keep ->
  Forall (fun r => f64_lt (u_price u) (price r) = true) cr ->
  Forall (fun r => f64_le (price r) (u_price u) = true) keep ->
  exists ob' surv, apply_update u ob = Ret (ob', None) /\ bids ob' = take (max_depth ob) surv /\
    (cr = [] -> forall x rest, keep = x :: rest -> f64_lt (price x) (u_price u) = true -> surv = keep) /\
    (forall x, keep = [x] -> surv = [x]) /\
    (keep = [] -> surv = []) /\
    (forall x y rest, keep = x :: y :: rest ->
       cr <> [] \/ f64_eq (price x) (u_price u) = true -> surv = y :: rest).
Proof.
  intros Hs Hv Hu (Ha & Hb & Hd) Hn E Hc Hk. rewrite step_ask_set by (assumption || lia).
  eexists _, _. split; [reflexivity|]. split; [reflexivity|].
  unfold cut_bids.
  rewrite (cut_cases Pn kB (- key (u_price u)) (fun r => f64_lt (price r) (u_price u))
    (fun r => f64_lt (u_price u) (price r)) (fun r H => bid_gt (u_price u) Hu r H)
    (fun r H => bid_lt (u_price u) Hu r H) (bids ob) cr keep Hn E).
  2:{ rewrite Forall_forall in *. intros x Hx. specialize (Hc x Hx). apply f64_lt_true in Hc. unfold kB. lia. }
  2:{ rewrite Forall_forall in *. intros x Hx. specialize (Hk x Hx). apply f64_le_true in Hk. unfold kB. lia. }
  assert (forall x, In x keep -> f64_lt (price x) (u_price u) = (- key (u_price u) <? kB x)) as T.
  { intros x Hx. apply bid_gt; [assumption|]. unfold nan_free in Hn. rewrite Forall_forall in Hn. apply Hn.
    rewrite E. apply in_or_app; auto. }
  split; [|split; [|split]].
  - intros -> x rest -> L. rewrite <- T, L by (simpl; auto). reflexivity.
  - intros x ->. destruct cr; [|reflexivity]. now destruct (_ <? _).
  - intros ->. now destruct cr.
  - intros x y rest -> H. destruct cr; [|reflexivity]. destruct H as [H|H]; [now destruct H|].
    apply f64_eq_true in H. unfold kB. destruct (Z.ltb_spec (- key (u_price u)) (- key (price x))); [lia|reflexivity].
Qed.
Lemma opp_asks u ob cr keep :
  u_side u = "bid"%string -> nonzero u -> real_price u -> sizes_ok ob -> nan_free (asks ob) ->
  asks ob = cr ++ keep ->
  Forall (fun r => f64_lt (price r) (u_price u) = true) cr ->
  Forall (fun r => f64_le (u_price u) (price r) = true) keep ->
  exists ob' surv, apply_update u ob = Ret (ob', None) /\ asks ob' = take (max_depth ob) surv /\
    (cr = [] -> forall x rest, keep = x :: rest -> f64_lt (u_price u) (price x) = true -> surv = keep) /\
    (forall x, keep = [x] -> surv = [x]) /\
    (keep = [] -> surv = []) /\
    (forall x y rest, keep = x :: y :: rest ->
       cr <> [] \/ f64_eq (price x) (u_price u) = true -> surv = y :: rest).
Proof.
  intros Hs Hv Hu (Ha & Hb & Hd) Hn E Hc Hk. rewrite step_bid_set by (assumption || lia).
  eexists _, _. split; [reflexivity|]. split; [reflexivity|].
  unfold cut_asks.
  rewrite (cut_cases Pn kA (key (u_price u)) (fun r => f64_lt (u_price u) (price r))
    (fun r => f64_lt (price r) (u_price u)) (fun r H => ask_gt (u_price u) Hu r H)
    (fun r H => ask_lt (u_price u) Hu r H) (asks ob) cr keep Hn E).
  2:{ rewrite Forall_forall in *. intros x Hx. specialize (Hc x Hx). apply f64_lt_true in Hc. unfold kA. lia. }
  2:{ rewrite Forall_forall in *. intros x Hx. specialize (Hk x Hx). apply f64_le_true in Hk. unfold kA. lia. }
  assert (forall x, In x keep -> f64_lt (u_price u) (price x) = (key (u_price u) <? kA x)) as T.
  { intros x Hx. apply ask_gt; [assumption|]. unfold nan_free in Hn. rewrite Forall_forall in Hn. apply Hn.
    rewrite E. apply in_or_app; auto. }
  split; [|split; [|split]].
  - intros -> x rest -> L. rewrite <- T, L by (simpl; auto). reflexivity.
  - intros x ->. destruct cr; [|reflexivity]. now destruct (_ <? _).
  - intros ->. now destruct cr.
  - intros x y rest -> H. destruct cr; [|reflexivity]. destruct H as [H|H]; [now destruct H|].
    apply f64_eq_true in H. unfold kA. destruct (Z.ltb_spec (key (u_price u)) (key (price x))); [lia|reflexivity].
Qed.

(** Zero-volume updates. *)
Lemma del_ask_effect u ob : u_side u = "ask"%string -> zero u ->
  (forall r, In r (asks ob) -> f64_eq (price r) (u_price u) = false) -> apply_update u ob = Ret (ob, None).
Proof.
  intros Hs Hv H. apply is_set_zero in Hv. unfold apply_update. rewrite Hs.
  change (String.eqb "ask" "ask") with true. cbv iota. unfold is_set in Hv. rewrite Hv.
  rewrite find_from_all; [reflexivity|]. now apply Forall_forall.
Qed.
Lemma del_bid_effect u ob : u_side u = "bid"%string -> zero u ->
  (forall r, In r (bids ob) -> f64_eq (price r) (u_price u) = false) -> apply_update u ob = Ret (ob, None).
Proof.
  intros Hs Hv H. apply is_set_zero in Hv. unfold apply_update. rewrite Hs.
  change (String.eqb "bid" "ask") with false. change (String.eqb "bid" "bid") with true.
  cbv iota. unfold is_set in Hv. rewrite Hv.
  rewrite find_from_all; [reflexivity|]. now apply Forall_forall.
Qed.
Lemma del_opposite u ob : zero u -> 0 <= max_depth ob -> within_depth ob ->
  exists ob' e, apply_update u ob = Ret (ob', e) /\
    (u_side u = "ask"%string -> bids ob' = bids ob) /\ (u_side u = "bid"%string -> asks ob' = asks ob) /\
    b_time ob' = b_time ob /\ max_depth ob' = max_depth ob.
Proof.
  intros Hv Hd [Wa Wb].
  destruct (string_dec (u_side u) "ask") as [Sa|Sa].
  { rewrite Sa. destruct (step_ask_del u ob Sa Hv Hd) as [[_ ->]|[_ ->]]; do 2 eexists; (split; [reflexivity|]);
      cbn [asks bids b_time max_depth]; repeat split; auto; try discriminate. intros _. now apply take_all. }
  destruct (string_dec (u_side u) "bid") as [Sb|Sb].
  { rewrite Sb. destruct (step_bid_del u ob Sb Hv Hd) as [[_ ->]|[_ ->]]; do 2 eexists; (split; [reflexivity|]);
      cbn [asks bids b_time max_depth]; repeat split; auto; try discriminate. intros _. now apply take_all. }
  rewrite apply_bad_side by assumption. do 2 eexists; split; [reflexivity|]. auto.
Qed.

Lemma good_side_no_error u (ob : book f64) ob' e :
  u_side u = "ask"%string \/ u_side u = "bid"%string -> apply_update u ob = Ret (ob', e) -> e = None.
Proof.
  assert (forall (m : go (book f64)) x, (ob2 <- m ;; Ret (ob2, @None err)) = Ret x -> snd x = None) as G.
  { intros [a|p] x H; simpl in H; [injection H as <-; reflexivity|discriminate]. }
  intros [Hs|Hs]; unfold apply_update; rewrite Hs;
    change (String.eqb "ask" "ask") with true; change (String.eqb "bid" "ask") with false;
    change (String.eqb "bid" "bid") with true; cbv iota;
    (destruct (negb _); [|destruct (find_from _ _ _); intros H; [now apply G in H|now injection H as _ <-]]);
    (destruct (remove_invalid _ _ _) as [[n ob1]|]; cbn [bind]; [|discriminate]);
    (destruct (find_from _ _ 0); [intros H; now apply G in H|]);
    (destruct (_ =? 0); [intros H; now apply G in H|]);
    (destruct (_ =? 1); [destruct (index _ 0); cbn [bind]; [|discriminate]; destruct (flt _ _); intros H; now apply G in H|]);
    (destruct (find_from _ _ 0); intros H; now apply G in H).
Qed.

Lemma negative_depth u ob : max_depth ob < 0 -> nonzero u ->
  zlen (asks ob) <= 2 ^ 53 -> zlen (bids ob) <= 2 ^ 53 ->
  u_side u = "ask"%string \/ u_side u = "bid"%string -> apply_update u ob = Panic PSlice.
Proof.
  intros Hd Hv La Lb Hs. apply is_set_nonzero in Hv. unfold is_set in Hv.
  unfold apply_update. destruct Hs as [Hs|Hs]; rewrite Hs;
    change (String.eqb "ask" "ask") with true; change (String.eqb "bid" "ask") with false;
    change (String.eqb "bid" "bid") with true; cbv iota; rewrite Hv.
  - destruct (remove_bid_ok ob (u_price u) Lb) as (n & ->). cbn [bind].
    destruct (find_from _ _ 0); [now rewrite limit_neg|].
    destruct (_ =? 0); [now rewrite limit_neg|].
    unfold with_bids; cbn [asks]. destruct (Z.eqb_spec (zlen (asks ob)) 1) as [L|L].
    + destruct (asks ob) as [|r0 l]; [discriminate|]. change (index (r0 :: l) 0) with (Ret r0). cbn [bind].
      destruct (flt _ _); now rewrite limit_neg.
    + destruct (find_from _ _ 0); now rewrite limit_neg.
  - destruct (remove_ask_ok ob (u_price u) La) as (n & ->). cbn [bind].
    destruct (find_from _ _ 0); [now rewrite limit_neg|].
    destruct (_ =? 0); [now rewrite limit_neg|].
    unfold with_asks; cbn [bids]. destruct (Z.eqb_spec (zlen (bids ob)) 1) as [L|L].
    + destruct (bids ob) as [|r0 l]; [discriminate|]. change (index (r0 :: l) 0) with (Ret r0). cbn [bind].
      destruct (flt _ _); now rewrite limit_neg.
    + destruct (find_from _ _ 0); now rewrite limit_neg.
Qed.

(** Idempotence. *)
Lemma cut_le_take (out t : rw -> bool) l d : zlen l <= d -> take d (cut out t l) = cut out t l.
Proof. intros H. apply take_all. pose proof (cut_len out t l). lia. Qed.

Lemma update_idempotent u ob ob1 e : real_price u -> sizes_ok ob -> well_sorted ob -> within_depth ob ->
  apply_update u ob = Ret (ob1, e) -> apply_update u ob1 = Ret (ob1, e).
Proof.
  intros Hu Sz (Na & Nb & Sa & Sb) [Wa Wb]. pose proof Sz as (La & Lb & Hd).
  pose proof (proj1 (asks_sorted_k _ Na) Sa) as Ka. pose proof (proj1 (bids_sorted_k _ Nb) Sb) as Kb.
  destruct (string_dec (u_side u) "ask") as [Ss|Ss].
  { destruct (zero_or u) as [Z|Z].
    - destruct (step_ask_del u ob Ss Z) as [[F E]|[F E]]; [lia| |]; rewrite E; intros H; injection H as <- <-; [assumption|].
      apply del_ask_effect; auto. cbn [asks]. intros r Hr. apply in_firstn in Hr.
      destruct (del_asks_level u (asks ob) Hu Na Sa) as [_ M]. now apply M in Hr.
    - rewrite step_ask_set by (assumption || lia). intros H; injection H as <- <-.
      rewrite step_ask_set; cbn [asks bids max_depth b_time]; try assumption; try lia.
      2:{ pose proof (zlen_take (max_depth ob) (cut_bids (u_price u) (bids ob))). lia. }
      do 3 f_equal.
      + apply (own_set_idem Pn kA (key (u_price u))); auto.
        * intros; now apply ask_eq.
        * intros; now apply ask_gt.
      + unfold cut_bids. rewrite (cut_le_take _ _ (bids ob)) by assumption.
        rewrite (cut_idem Pn kB (- key (u_price u))); auto.
        * rewrite cut_le_take by assumption. reflexivity.
        * intros; now apply bid_gt.
        * intros; now apply bid_lt. }
  destruct (string_dec (u_side u) "bid") as [Ss'|Ss'].
  { destruct (zero_or u) as [Z|Z].
    - destruct (step_bid_del u ob Ss' Z) as [[F E]|[F E]]; [lia| |]; rewrite E; intros H; injection H as <- <-; [assumption|].
      apply del_bid_effect; auto. cbn [bids]. intros r Hr. apply in_firstn in Hr.
      destruct (del_bids_level u (bids ob) Hu Nb Sb) as [_ M]. now apply M in Hr.
    - rewrite step_bid_set by (assumption || lia). intros H; injection H as <- <-.
      rewrite step_bid_set; cbn [asks bids max_depth b_time]; try assumption; try lia.
      2:{ pose proof (zlen_take (max_depth ob) (cut_asks (u_price u) (asks ob))). lia. }
      do 3 f_equal.
      + unfold cut_asks. rewrite (cut_le_take _ _ (asks ob)) by assumption.
        rewrite (cut_idem Pn kA (key (u_price u))); auto.
        * rewrite cut_le_take by assumption. reflexivity.
        * intros; now apply ask_gt.
        * intros; now apply ask_lt.
      + apply (own_set_idem Pn kB (- key (u_price u))); auto.
        * intros; now apply bid_eq.
        * intros; now apply bid_gt. }
  rewrite apply_bad_side by assumption. intros H; injection H as <- <-. now apply apply_bad_side.
Qed.

(** Updates that neither cross nor truncate act on their own side only. *)
Definition upd_asks (u : update f64) (l : rows) : rows :=
  if is_set u then set_asks (u_price u) (row_of u) l else del_row (u_price u) l.
Definition upd_bids (u : update f64) (l : rows) : rows :=
  if is_set u then set_bids (u_price u) (row_of u) l else del_row (u_price u) l.

Lemma upd_asks_len u l : zlen (upd_asks u l) <= zlen l + 1.
Proof.
  unfold upd_asks, set_asks, del_row. destruct (is_set u).
  - apply own_set_len.
  - pose proof (own_del_len (fun r : rw => f64_eq (price r) (u_price u)) l). lia.
Qed.
Lemma upd_bids_len u l : zlen (upd_bids u l) <= zlen l + 1.
Proof.
  unfold upd_bids, set_bids, del_row. destruct (is_set u).
  - apply own_set_len.
  - pose proof (own_del_len (fun r : rw => f64_eq (price r) (u_price u)) l). lia.
Qed.

Lemma free_ask u ob : u_side u = "ask"%string -> real_price u -> sizes_ok ob -> nan_free (bids ob) ->
  (nonzero u -> forall b, In b (bids ob) -> f64_lt (price b) (u_price u) = true) ->
  zlen (upd_asks u (asks ob)) <= max_depth ob -> zlen (asks ob) <= max_depth ob -> zlen (bids ob) <= max_depth ob ->
  apply_update u ob = Ret (with_asks ob (upd_asks u (asks ob)), None).
Proof.
  intros Hs Hu (La & Lb & Hd) Nb Hx Lu Wa Wb. unfold upd_asks, with_asks in *.
  destruct (zero_or u) as [Z|Z].
  - rewrite (proj2 (is_set_zero u) Z) in *.
    destruct (step_ask_del u ob Hs Z) as [[F ->]|[_ ->]]; [lia| |].
    + unfold del_row. replace (own_del _ (asks ob)) with (asks ob); [now destruct ob|].
      unfold own_del. rewrite find_from_all by assumption. reflexivity.
    + rewrite !take_all by assumption. reflexivity.
  - rewrite (proj2 (is_set_nonzero u) Z) in *. rewrite step_ask_set by (assumption || lia).
    unfold cut_bids. rewrite (cut_out Pn kB (- key (u_price u))).
    + now rewrite !take_all by assumption.
    + intros; now apply bid_gt.
    + assumption.
    + rewrite Forall_forall. intros b Hb. specialize (Hx Z b Hb). apply f64_lt_true in Hx. unfold kB. lia.
Qed.
Lemma free_bid u ob : u_side u = "bid"%string -> real_price u -> sizes_ok ob -> nan_free (asks ob) ->
  (nonzero u -> forall a, In a (asks ob) -> f64_lt (u_price u) (price a) = true) ->
  zlen (upd_bids u (bids ob)) <= max_depth ob -> zlen (asks ob) <= max_depth ob -> zlen (bids ob) <= max_depth ob ->
  apply_update u ob = Ret (with_bids ob (upd_bids u (bids ob)), None).
Proof.
  intros Hs Hu (La & Lb & Hd) Nb Hx Lu Wa Wb. unfold upd_bids, with_bids in *.
  destruct (zero_or u) as [Z|Z].
  - rewrite (proj2 (is_set_zero u) Z) in *.
    destruct (step_bid_del u ob Hs Z) as [[F ->]|[_ ->]]; [lia| |].
    + unfold del_row. replace (own_del _ (bids ob)) with (bids ob); [now destruct ob|].
      unfold own_del. rewrite find_from_all by assumption. reflexivity.
    + rewrite !take_all by assumption. reflexivity.
  - rewrite (proj2 (is_set_nonzero u) Z) in *. rewrite step_bid_set by (assumption || lia).
    unfold cut_asks. rewrite (cut_out Pn kA (key (u_price u))).
    + now rewrite !take_all by assumption.
    + intros; now apply ask_gt.
    + assumption.
    + rewrite Forall_forall. intros b Hb. specialize (Hx Z b Hb). apply f64_lt_true in Hx. unfold kA. lia.
Qed.

Lemma upd_asks_in u l : real_price u -> nan_free l -> asks_sorted l ->
  nan_free (upd_asks u l) /\ asks_sorted (upd_asks u l) /\
  forall r, In r (upd_asks u l) <->
    (nonzero u /\ r = row_of u) \/ (In r l /\ f64_eq (price r) (u_price u) = false).
Proof.
  intros Hu Hn S. unfold upd_asks. destruct (zero_or u) as [Z|Z].
  - rewrite (proj2 (is_set_zero u) Z). destruct (del_asks_level u l Hu Hn S) as [S' M].
    split; [apply own_del_P; auto|]. split; [assumption|]. intros r. rewrite M.
    split; [tauto|]. intros [[H _]|H]; [|assumption]. unfold zero, nonzero in *. congruence.
  - rewrite (proj2 (is_set_nonzero u) Z). destruct (set_asks_level u l Hu Hn S) as [S' M].
    split; [apply own_set_P; auto|]. split; [assumption|]. intros r. rewrite M. cbn [row_of price]. tauto.
Qed.
Lemma upd_bids_in u l : real_price u -> nan_free l -> bids_sorted l ->
  nan_free (upd_bids u l) /\ bids_sorted (upd_bids u l) /\
  forall r, In r (upd_bids u l) <->
    (nonzero u /\ r = row_of u) \/ (In r l /\ f64_eq (price r) (u_price u) = false).
Proof.
  intros Hu Hn S. unfold upd_bids. destruct (zero_or u) as [Z|Z].
  - rewrite (proj2 (is_set_zero u) Z). destruct (del_bids_level u l Hu Hn S) as [S' M].
    split; [apply own_del_P; auto|]. split; [assumption|]. intros r. rewrite M.
    split; [tauto|]. intros [[H _]|H]; [|assumption]. unfold zero, nonzero in *. congruence.
  - rewrite (proj2 (is_set_nonzero u) Z). destruct (set_bids_level u l Hu Hn S) as [S' M].
    split; [apply own_set_P; auto|]. split; [assumption|]. intros r. rewrite M. cbn [row_of price]. tauto.
Qed.

Lemma eq_sym_false a b : f64_is_nan a = false -> f64_is_nan b = false -> f64_eq a b = false -> f64_eq b a = false.
Proof. intros Ha Hb. rewrite !f64_eq_key by assumption. rewrite !Z.eqb_neq. auto. Qed.

Lemma upd_asks_comm u v l : real_price u -> real_price v -> nan_free l -> asks_sorted l ->
  f64_eq (u_price u) (u_price v) = false -> upd_asks u (upd_asks v l) = upd_asks v (upd_asks u l).
Proof.
  intros Hu Hv Hn S D. pose proof (eq_sym_false _ _ Hu Hv D) as D'.
  destruct (upd_asks_in u l Hu Hn S) as (Nu & Su & Mu). destruct (upd_asks_in v l Hv Hn S) as (Nv & Sv & Mv).
  destruct (upd_asks_in u _ Hu Nv Sv) as (_ & S1 & M1). destruct (upd_asks_in v _ Hv Nu Su) as (_ & S2 & M2).
  eapply ss_unique; [|exact S1|exact S2|].
  - intros x y H1 H2. now apply (lt_asym (price x) (price y)).
  - intros r. rewrite M1, M2, Mu, Mv. split; (intros [[H ->]|[[[H ->]|[H1 H2]] H3]]; cbn [row_of price] in *; auto).
Qed.
Lemma upd_bids_comm u v l : real_price u -> real_price v -> nan_free l -> bids_sorted l ->
  f64_eq (u_price u) (u_price v) = false -> upd_bids u (upd_bids v l) = upd_bids v (upd_bids u l).
Proof.
  intros Hu Hv Hn S D. pose proof (eq_sym_false _ _ Hu Hv D) as D'.
  destruct (upd_bids_in u l Hu Hn S) as (Nu & Su & Mu). destruct (upd_bids_in v l Hv Hn S) as (Nv & Sv & Mv).
  destruct (upd_bids_in u _ Hu Nv Sv) as (_ & S1 & M1). destruct (upd_bids_in v _ Hv Nu Su) as (_ & S2 & M2).
  eapply ss_unique; [|exact S1|exact S2|].
  - intros x y H1 H2. now apply (lt_asym (price y) (price x)).
  - intros r. rewrite M1, M2, Mu, Mv. split; (intros [[H ->]|[[[H ->]|[H1 H2]] H3]]; cbn [row_of price] in *; auto).
Qed.

Lemma two_asks u v ob : ask_free ob u -> ask_free ob v -> sizes_ok ob -> well_sorted ob ->
  zlen (asks ob) + 2 <= max_depth ob -> zlen (bids ob) <= max_depth ob ->
  apply_updates [u; v] ob = Ret (with_asks ob (upd_asks v (upd_asks u (asks ob)))).
Proof.
  intros (Su & Hu & Fu) (Sv & Hv & Fv) (La & Lb & Hd) (Na & Nb & Sa & Sb) W1 W2.
  pose proof (upd_asks_len u (asks ob)). simpl.
  rewrite free_ask; auto; try lia; [|repeat split; auto; lia]. cbn [bind].
  pose proof (upd_asks_len v (upd_asks u (asks ob))).
  rewrite free_ask; cbn [with_asks asks bids max_depth]; auto; try lia.
  repeat split; cbn [with_asks asks bids max_depth]; lia.
Qed.
Lemma two_bids u v ob : bid_free ob u -> bid_free ob v -> sizes_ok ob -> well_sorted ob ->
  zlen (bids ob) + 2 <= max_depth ob -> zlen (asks ob) <= max_depth ob ->
  apply_updates [u; v] ob = Ret (with_bids ob (upd_bids v (upd_bids u (bids ob)))).
Proof.
  intros (Su & Hu & Fu) (Sv & Hv & Fv) (La & Lb & Hd) (Na & Nb & Sa & Sb) W1 W2.
  pose proof (upd_bids_len u (bids ob)). simpl.
  rewrite free_bid; auto; try lia; [|repeat split; auto; lia]. cbn [bind].
  pose proof (upd_bids_len v (upd_bids u (bids ob))).
  rewrite free_bid; cbn [with_bids asks bids max_depth]; auto; try lia.
  repeat split; cbn [with_bids asks bids max_depth]; lia.
Qed.

Lemma set_del_asks u v l : nonzero u -> zero v -> real_price u -> u_price v = u_price u ->
  nan_free l -> asks_sorted l -> (forall r, In r l -> f64_eq (price r) (u_price u) = false) ->
  upd_asks v (upd_asks u l) = l.
Proof.
  intros Zu Zv Hu E Hn S A. assert (real_price v) as Hv by (unfold real_price; now rewrite E).
  destruct (upd_asks_in u l Hu Hn S) as (Nu & Su & Mu).
  destruct (upd_asks_in v _ Hv Nu Su) as (_ & S2 & M2). eapply ss_unique; [|exact S2|exact S|].
  - intros x y H1 H2. now apply (lt_asym (price x) (price y)).
  - intros r. rewrite M2, Mu, E. split.
    + intros [[H _]|[[[_ ->]|[H _]] H2]]; auto.
      * unfold zero, nonzero in *; congruence.
      * cbn [row_of price] in H2. rewrite f64_eq_refl in H2 by assumption. discriminate.
    + intros H. right. split; auto.
Qed.
Lemma set_del_bids u v l : nonzero u -> zero v -> real_price u -> u_price v = u_price u ->
  nan_free l -> bids_sorted l -> (forall r, In r l -> f64_eq (price r) (u_price u) = false) ->
  upd_bids v (upd_bids u l) = l.
Proof.
  intros Zu Zv Hu E Hn S A. assert (real_price v) as Hv by (unfold real_price; now rewrite E).
  destruct (upd_bids_in u l Hu Hn S) as (Nu & Su & Mu).
  destruct (upd_bids_in v _ Hv Nu Su) as (_ & S2 & M2). eapply ss_unique; [|exact S2|exact S|].
  - intros x y H1 H2. now apply (lt_asym (price y) (price x)).
  - intros r. rewrite M2, Mu, E. split.
    + intros [[H _]|[[[_ ->]|[H _]] H2]]; auto.
      * unfold zero, nonzero in *; congruence.
      * cbn [row_of price] in H2. rewrite f64_eq_refl in H2 by assumption. discriminate.
    + intros H. right. split; auto.
Qed.

Lemma insert_delete_ask u v ob : u_side u = "ask"%string -> u_side v = "ask"%string ->
  nonzero u -> zero v -> real_price u -> u_price v = u_price u -> sizes_ok ob -> well_sorted ob ->
  (forall r, In r (asks ob) -> f64_eq (price r) (u_price u) = false) ->
  (forall b, In b (bids ob) -> f64_lt (price b) (u_price u) = true) ->
  zlen (asks ob) < max_depth ob -> zlen (bids ob) <= max_depth ob ->
  apply_updates [u; v] ob = Ret ob.
Proof.
  intros Su Sv Zu Zv Hu E (La & Lb & Hd) (Na & Nb & Sa & Sb) A X W1 W2.
  pose proof (upd_asks_len u (asks ob)). simpl.
  rewrite free_ask; auto; try lia; [|repeat split; auto; lia]. cbn [bind].
  pose proof (set_del_asks u v (asks ob) Zu Zv Hu E Na Sa A) as Q.
  rewrite free_ask; cbn [with_asks asks bids max_depth b_time]; auto; try lia.
  - rewrite Q. now destruct ob.
  - unfold real_price. now rewrite E.
  - repeat split; cbn [with_asks asks bids max_depth]; lia.
  - unfold zero, nonzero in *; congruence.
  - rewrite Q. lia.
Qed.
Lemma insert_delete_bid u v ob : u_side u = "bid"%string -> u_side v = "bid"%string ->
  nonzero u -> zero v -> real_price u -> u_price v = u_price u -> sizes_ok ob -> well_sorted ob ->
  (forall r, In r (bids ob) -> f64_eq (price r) (u_price u) = false) ->
  (forall a, In a (asks ob) -> f64_lt (u_price u) (price a) = true) ->
  zlen (bids ob) < max_depth ob -> zlen (asks ob) <= max_depth ob ->
  apply_updates [u; v] ob = Ret ob.
Proof.
  intros Su Sv Zu Zv Hu E (La & Lb & Hd) (Na & Nb & Sa & Sb) A X W1 W2.
  pose proof (upd_bids_len u (bids ob)). simpl.
  rewrite free_bid; auto; try lia; [|repeat split; auto; lia]. cbn [bind].
  pose proof (set_del_bids u v (bids ob) Zu Zv Hu E Nb Sb A) as Q.
  rewrite free_bid; cbn [with_bids asks bids max_depth b_time]; auto; try lia.
  - rewrite Q. now destruct ob.
  - unfold real_price. now rewrite E.
  - repeat split; cbn [with_bids asks bids max_depth]; lia.
  - unfold zero, nonzero in *; congruence.
  - rewrite Q. lia.
Qed.
