(** A MaxDepth that no side can reach has no influence. *)
From Verif Require Import Go.Outcome Go.Int64 Go.Slice Go.Sort Go.Float64 Go.FloatOrder Go.FloatReal Go.Num
  Model.OrderBook Spec.OrderBookSpec Spec.DepthSpec Proofs.Lists Proofs.OrderBook Proofs.Keyed Proofs.Updates
  Proofs.UpdateThms.
Open Scope list_scope.
Open Scope Z_scope.

Lemma take_all {A} d (l : list A) : zlen l <= d -> take d l = l.
Proof. intros H. unfold take, zlen in *. apply firstn_all2. lia. Qed.

Lemma deepen_step u ob : zlen (asks ob) <= 2 ^ 53 -> zlen (bids ob) <= 2 ^ 53 ->
  exists ob' e,
    zlen (asks ob') <= zlen (asks ob) + 1 /\ zlen (bids ob') <= zlen (bids ob) + 1 /\
    forall d, zlen (asks ob) + 1 <= d -> zlen (bids ob) + 1 <= d ->
      apply_update u (with_depth d ob) = Ret (with_depth d ob', e).
Proof.
  intros Ha Hb. pose proof (zlen_nonneg (asks ob)) as Na. pose proof (zlen_nonneg (bids ob)) as Nb.
  destruct (string_dec (u_side u) "ask") as [Sa|Sa].
  { destruct (zero_or u) as [Z|Z].
    - destruct (step_ask_del u (with_depth (zlen (asks ob)) ob) Sa Z Na) as [[Hf _]|[Hf _]];
        cbn [with_depth asks bids] in Hf.
      + exists ob, None. split; [lia|]. split; [lia|]. intros d Da Db.
        destruct (step_ask_del u (with_depth d ob) Sa Z) as [[_ ->]|[He _]]; [cbn; lia|reflexivity|].
        exfalso. cbn [with_depth asks] in He. apply Exists_exists in He as (r & Ir & Er).
        rewrite Forall_forall in Hf. rewrite (Hf r Ir) in Er. discriminate.
      + exists (mkBook (b_time ob) (del_row (u_price u) (asks ob)) (bids ob) (max_depth ob)), None.
        pose proof (own_del_len (aeq (u_price u)) (asks ob)) as L.
        change (own_del (aeq (u_price u)) (asks ob)) with (del_row (u_price u) (asks ob)) in L.
        cbn [asks bids]. split; [lia|]. split; [lia|]. intros d Da Db.
        destruct (step_ask_del u (with_depth d ob) Sa Z) as [[He _]|[_ ->]]; [cbn; lia| |].
        * exfalso. cbn [with_depth asks] in He. apply Exists_exists in Hf as (r & Ir & Er).
          rewrite Forall_forall in He. rewrite (He r Ir) in Er. discriminate.
        * cbn [with_depth asks bids b_time max_depth].
          rewrite !take_all by lia. reflexivity.
    - exists (mkBook (b_time ob) (set_asks (u_price u) (row_of u) (asks ob)) (cut_bids (u_price u) (bids ob)) (max_depth ob)), None.
      assert (zlen (set_asks (u_price u) (row_of u) (asks ob)) <= zlen (asks ob) + 1) as La by apply own_set_len.
      assert (zlen (cut_bids (u_price u) (bids ob)) <= zlen (bids ob)) as Lb by apply cut_len.
      cbn [asks bids]. split; [lia|]. split; [lia|]. intros d Da Db.
      rewrite step_ask_set by (assumption || (cbn; lia)).
      cbn [with_depth asks bids b_time max_depth]. rewrite !take_all by lia. reflexivity. }
  destruct (string_dec (u_side u) "bid") as [Sb|Sb].
  { destruct (zero_or u) as [Z|Z].
    - destruct (step_bid_del u (with_depth (zlen (bids ob)) ob) Sb Z Nb) as [[Hf _]|[Hf _]];
        cbn [with_depth asks bids] in Hf.
      + exists ob, None. split; [lia|]. split; [lia|]. intros d Da Db.
        destruct (step_bid_del u (with_depth d ob) Sb Z) as [[_ ->]|[He _]]; [cbn; lia|reflexivity|].
        exfalso. cbn [with_depth bids] in He. apply Exists_exists in He as (r & Ir & Er).
        rewrite Forall_forall in Hf. rewrite (Hf r Ir) in Er. discriminate.
      + exists (mkBook (b_time ob) (asks ob) (del_row (u_price u) (bids ob)) (max_depth ob)), None.
        pose proof (own_del_len (aeq (u_price u)) (bids ob)) as L.
        change (own_del (aeq (u_price u)) (bids ob)) with (del_row (u_price u) (bids ob)) in L.
        cbn [asks bids]. split; [lia|]. split; [lia|]. intros d Da Db.
        destruct (step_bid_del u (with_depth d ob) Sb Z) as [[He _]|[_ ->]]; [cbn; lia| |].
        * exfalso. cbn [with_depth bids] in He. apply Exists_exists in Hf as (r & Ir & Er).
          rewrite Forall_forall in He. rewrite (He r Ir) in Er. discriminate.
        * cbn [with_depth asks bids b_time max_depth].
          rewrite !take_all by lia. reflexivity.
    - exists (mkBook (b_time ob) (cut_asks (u_price u) (asks ob)) (set_bids (u_price u) (row_of u) (bids ob)) (max_depth ob)), None.
      assert (zlen (set_bids (u_price u) (row_of u) (bids ob)) <= zlen (bids ob) + 1) as Lb by apply own_set_len.
      assert (zlen (cut_asks (u_price u) (asks ob)) <= zlen (asks ob)) as La by apply cut_len.
      cbn [asks bids]. split; [lia|]. split; [lia|]. intros d Da Db.
      rewrite step_bid_set by (assumption || (cbn; lia)).
      cbn [with_depth asks bids b_time max_depth]. rewrite !take_all by lia. reflexivity. }
  exists ob, (Some bad_side). split; [lia|]. split; [lia|]. intros d _ _. now rewrite apply_bad_side.
Qed.

Lemma unreached_depth us : forall ob,
  zlen (asks ob) + zlen us <= 2 ^ 53 -> zlen (bids ob) + zlen us <= 2 ^ 53 ->
  exists ob',
    zlen (asks ob') <= zlen (asks ob) + zlen us /\ zlen (bids ob') <= zlen (bids ob) + zlen us /\
    forall d, zlen (asks ob) + zlen us <= d -> zlen (bids ob) + zlen us <= d ->
      apply_updates us (with_depth d ob) = Ret (with_depth d ob').
Proof.
  induction us as [|u us IH]; intros ob Ha Hb.
  { exists ob. change (zlen (@nil (update f64))) with 0. split; [lia|]. split; [lia|]. reflexivity. }
  rewrite zlen_cons in *. pose proof (zlen_nonneg us).
  destruct (deepen_step u ob) as (ob1 & e & La & Lb & E); [lia|lia|].
  destruct (IH ob1) as (ob' & La' & Lb' & E'); [lia|lia|].
  exists ob'. split; [lia|]. split; [lia|]. intros d Da Db.
  cbn [apply_updates]. rewrite E by lia. cbn [bind]. apply E'; lia.
Qed.

Lemma with_depth_self ob : with_depth (max_depth ob) ob = ob.
Proof. now destruct ob. Qed.

Lemma any_depth_total us ob : 0 <= max_depth ob ->
  zlen (asks ob) + zlen us < 2 ^ 53 -> zlen (bids ob) + zlen us < 2 ^ 53 ->
  exists ob', apply_updates us ob = Ret ob'.
Proof.
  intros Hd Ha Hb. destruct (Z_lt_le_dec (max_depth ob) (2 ^ 53)) as [L|L].
  - destruct (updates_total us ob) as (ob' & E & _); [|eauto].
    pose proof (zlen_nonneg us). repeat split; lia.
  - destruct (unreached_depth us ob) as (ob' & _ & _ & E); [lia|lia|].
    rewrite <- (with_depth_self ob), E by lia. eauto.
Qed.

(** Below the bound every depth behaves as one below 2^53. *)
Lemma huge_depth us ob d : 2 ^ 53 <= d ->
  zlen (asks ob) + zlen us < 2 ^ 53 -> zlen (bids ob) + zlen us < 2 ^ 53 ->
  exists ob', apply_updates us (with_depth (2 ^ 53 - 1) ob) = Ret (with_depth (2 ^ 53 - 1) ob') /\
    apply_updates us (with_depth d ob) = Ret (with_depth d ob') /\
    sizes_ok (with_depth (2 ^ 53 - 1) ob) /\ within_depth (with_depth (2 ^ 53 - 1) ob).
Proof.
  intros Hd Ha Hb. destruct (unreached_depth us ob) as (ob' & _ & _ & E); [lia|lia|].
  exists ob'. split; [apply E; lia|]. split; [apply E; lia|].
  pose proof (zlen_nonneg us). unfold sizes_ok, within_depth. cbn [with_depth asks bids max_depth]. lia.
Qed.
