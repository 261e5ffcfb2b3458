(** Whole histories of updates. *)
From Coq Require Import Sorting.Sorted Sorting.Permutation.
From Flocq Require Import BinarySingleNaN.
From Verif Require Import Go.Outcome Go.Int64 Go.Slice Go.Sort Go.Float64 Go.FloatOrder Go.FloatReal Go.Num
  Model.OrderBook Spec.OrderBookSpec Spec.HistorySpec Proofs.Lists Proofs.OrderBook Proofs.Keyed Proofs.Updates
  Proofs.UpdateThms Proofs.StableSort Proofs.NewBook.
Open Scope list_scope.
Open Scope Z_scope.

Section Keyed.
Variable P : rw -> Prop.
Variable kap : rw -> Z.
Variable p : Z.
Variables eqt gtt : rw -> bool.
Hypothesis eqt_k : forall r, P r -> eqt r = (kap r =? p).
Hypothesis gtt_k : forall r, P r -> gtt r = (p <? kap r).
Variable new : rw.

Lemma own_set_eq a x b : Forall P a -> P x -> Forall (fun r => kap r < p) a -> kap x = p ->
  own_set eqt gtt new (a ++ x :: b) = a ++ new :: b.
Proof.
  intros Pa Px Ha Hx. unfold own_set. rewrite find_from_app.
  - now rewrite zto_len, set_nth_app.
  - rewrite eqt_k by assumption. now apply Z.eqb_eq.
  - rewrite Forall_forall in *. intros y Hy. rewrite eqt_k by auto.
    apply Z.eqb_neq. specialize (Ha y Hy). simpl in Ha. lia.
Qed.
Lemma own_set_gt a x b : Forall P a -> P x -> Forall P b -> Forall (fun r => kap r < p) a -> p < kap x ->
  Forall (fun r => p < kap r) b ->
  own_set eqt gtt new (a ++ x :: b) = a ++ new :: x :: b.
Proof.
  intros Pa Px Pb Ha Hx Hb. unfold own_set. rewrite find_from_all.
  - rewrite find_from_app.
    + now rewrite zto_len, firstn_app_exact, skipn_app_exact.
    + rewrite gtt_k by assumption. now apply Z.ltb_lt.
    + rewrite Forall_forall in *. intros y Hy. rewrite gtt_k by auto.
      apply Z.ltb_ge. specialize (Ha y Hy). simpl in Ha. lia.
  - apply Forall_app. split; [|constructor].
    + rewrite Forall_forall in *. intros y Hy. rewrite eqt_k by auto.
      apply Z.eqb_neq. specialize (Ha y Hy). simpl in Ha. lia.
    + rewrite eqt_k by assumption. apply Z.eqb_neq. lia.
    + rewrite Forall_forall in *. intros y Hy. rewrite eqt_k by auto.
      apply Z.eqb_neq. specialize (Hb y Hy). simpl in Hb. lia.
Qed.

(** Truncating before setting a level changes nothing that survives truncation. *)
Lemma own_set_trunc d l : Forall P l -> StronglySorted (fun a b => kap a < kap b) l ->
  firstn d (own_set eqt gtt new (firstn d l)) = firstn d (own_set eqt gtt new l).
Proof.
  intros HP S.
  destruct (own_set_split P kap p eqt gtt eqt_k gtt_k new l HP (sl_se kap l S)) as (a & e & b & E & -> & Ha & Hb & C).
  subst l. apply Forall_app in HP. destruct HP as [Pa HP]. apply Forall_app in HP. destruct HP as [Pe Pb].
  destruct (Nat.le_gt_cases d (List.length a)) as [L|L].
  - rewrite !(firstn_app d a). replace (d - List.length a)%nat with 0%nat by lia.
    cbn [firstn]. rewrite !app_nil_r. rewrite (own_set_end P kap p).
    + rewrite firstn_app, firstn_firstn, Nat.min_id, firstn_length_le by lia.
      rewrite Nat.sub_diag. cbn [firstn]. apply app_nil_r.
    + assumption.
    + assumption.
    + now apply Forall_firstn.
    + now apply Forall_firstn.
  - rewrite !(firstn_app d a). rewrite !(firstn_all2 a) by lia.
    destruct (d - List.length a)%nat as [|n] eqn:Q; [lia|].
    destruct C as [(r & -> & Hr)|[-> Ne]].
    + cbn [app firstn]. rewrite own_set_eq; auto; [|now inversion Pe].
      rewrite firstn_app, (firstn_all2 a) by lia. rewrite Q. cbn [firstn].
      now rewrite firstn_firstn, Nat.min_id.
    + cbn [app]. destruct b as [|x b].
      * rewrite firstn_nil, app_nil_r. rewrite (own_set_end P kap p) by assumption.
        rewrite firstn_app, (firstn_all2 a) by lia. now rewrite Q.
      * cbn [firstn]. apply Forall_app in Ne. destruct Ne as [_ Ne].
        assert (Forall (fun r => p < kap r) (x :: b)) as Gt.
        { rewrite Forall_forall in *. intros y Hy. specialize (Hb y Hy). specialize (Ne y Hy). simpl in *. lia. }
        inversion Gt; subst. inversion Pb; subst.
        rewrite own_set_gt; auto using Forall_firstn.
        rewrite firstn_app, (firstn_all2 a) by lia. rewrite Q. cbn [firstn]. do 2 f_equal.
        destruct n as [|n]; [reflexivity|]. change (firstn (Datatypes.S n) (x :: firstn (Datatypes.S n) b)) with (x :: firstn n (firstn (Datatypes.S n) b)).
        rewrite firstn_firstn. now replace (Nat.min n (Datatypes.S n)) with n by lia.
Qed.
End Keyed.

Lemma set_asks_trunc q new d l : f64_is_nan q = false -> Forall Pn l -> SLA l ->
  take d (set_asks q new (take d l)) = take d (set_asks q new l).
Proof.
  intros Hq. apply (own_set_trunc Pn kA (key q)).
  - intros; now apply ask_eq.
  - intros; now apply ask_gt.
Qed.
Lemma set_bids_trunc q new d l : f64_is_nan q = false -> Forall Pn l -> SLB l ->
  take d (set_bids q new (take d l)) = take d (set_bids q new l).
Proof.
  intros Hq. apply (own_set_trunc Pn kB (- key q)).
  - intros; now apply bid_eq.
  - intros; now apply bid_gt.
Qed.

(** *** Where a shown row comes from *)
Lemma step_origin u ob ob' e : real_price u -> sizes_ok ob -> well_sorted ob ->
  apply_update u ob = Ret (ob', e) ->
  (forall r, In r (asks ob') ->
     if String.eqb (u_side u) "ask" && f64_eq (price r) (u_price u) then nonzero u /\ r = row_of u
     else In r (asks ob)) /\
  (forall r, In r (bids ob') ->
     if String.eqb (u_side u) "bid" && f64_eq (price r) (u_price u) then nonzero u /\ r = row_of u
     else In r (bids ob)).
Proof.
  intros Hu (La & Lb & Hd) (Na & Nb & Sa & Sb).
  destruct (string_dec (u_side u) "ask") as [Ss|Ss].
  { rewrite Ss. change (String.eqb "ask" "ask") with true. change (String.eqb "ask" "bid") with false. cbn [andb].
    destruct (zero_or u) as [Z|Z].
    - destruct (step_ask_del u ob Ss Z) as [[F E]|[F E]]; [lia| |]; rewrite E; intros H; injection H as <- <-.
      + split; [|auto]. intros r Hr. rewrite Forall_forall in F. now rewrite (F r Hr).
      + cbn [asks bids]. split; [|intros r Hr; now apply in_firstn in Hr].
        intros r Hr. apply in_firstn in Hr.
        destruct (del_asks_level u (asks ob) Hu Na Sa) as [_ M]. apply M in Hr. destruct Hr as [Hr1 Hr2].
        now rewrite Hr2.
    - rewrite step_ask_set by (assumption || lia). intros H; injection H as <- <-. cbn [asks bids].
      split; [|intros r Hr; apply in_firstn in Hr; now apply cut_in in Hr].
      intros r Hr. apply in_firstn in Hr.
      destruct (set_asks_level u (asks ob) Hu Na Sa) as [_ M]. apply M in Hr. cbn [row_of price] in Hr.
      destruct Hr as [->|[Hr1 Hr2]].
      + cbn [row_of price]. rewrite f64_eq_refl by assumption. auto.
      + now rewrite Hr2. }
  destruct (string_dec (u_side u) "bid") as [Ss'|Ss'].
  { rewrite Ss'. change (String.eqb "bid" "ask") with false. change (String.eqb "bid" "bid") with true. cbn [andb].
    destruct (zero_or u) as [Z|Z].
    - destruct (step_bid_del u ob Ss' Z) as [[F E]|[F E]]; [lia| |]; rewrite E; intros H; injection H as <- <-.
      + split; [auto|]. intros r Hr. rewrite Forall_forall in F. now rewrite (F r Hr).
      + cbn [asks bids]. split; [intros r Hr; now apply in_firstn in Hr|].
        intros r Hr. apply in_firstn in Hr.
        destruct (del_bids_level u (bids ob) Hu Nb Sb) as [_ M]. apply M in Hr. destruct Hr as [Hr1 Hr2].
        now rewrite Hr2.
    - rewrite step_bid_set by (assumption || lia). intros H; injection H as <- <-. cbn [asks bids].
      split; [intros r Hr; apply in_firstn in Hr; now apply cut_in in Hr|].
      intros r Hr. apply in_firstn in Hr.
      destruct (set_bids_level u (bids ob) Hu Nb Sb) as [_ M]. apply M in Hr. cbn [row_of price] in Hr.
      destruct Hr as [->|[Hr1 Hr2]].
      + cbn [row_of price]. rewrite f64_eq_refl by assumption. auto.
      + now rewrite Hr2. }
  rewrite apply_bad_side by assumption. intros H; injection H as <- <-.
  apply String.eqb_neq in Ss, Ss'. rewrite Ss, Ss'. cbn [andb]. auto.
Qed.

Lemma history_origin us : forall ob, Forall real_price us -> sizes_ok ob -> well_sorted ob ->
  exists ob', apply_updates us ob = Ret ob' /\
    (forall r, In r (asks ob') -> justified "ask" (asks ob) us r) /\
    (forall r, In r (bids ob') -> justified "bid" (bids ob) us r).
Proof.
  induction us as [|u us IH]; intros ob Q Sz W.
  { exists ob. split; [reflexivity|]. unfold justified. cbn [last_at]. auto. }
  inversion Q; subst.
  destruct (step u ob Sz) as (ob1 & e & E & Sh).
  destruct (IH ob1) as (ob' & E' & Ia & Ib); [assumption|eapply shape_sizes; eauto|eapply step_sorted; eauto|].
  exists ob'. cbn [apply_updates]. rewrite E. cbn [bind]. split; [exact E'|].
  destruct (step_origin u ob ob1 e) as [Oa Ob]; auto.
  split; intros r Hr.
  - specialize (Ia r Hr). unfold justified in *. cbn [last_at].
    destruct (last_at "ask" (price r) us); [assumption|]. specialize (Oa r Ia).
    destruct (String.eqb (u_side u) "ask"); cbn [andb] in Oa; [|assumption].
    destruct (f64_eq (price r) (u_price u)); assumption.
  - specialize (Ib r Hr). unfold justified in *. cbn [last_at].
    destruct (last_at "bid" (price r) us); [assumption|]. specialize (Ob r Ib).
    destruct (String.eqb (u_side u) "bid"); cbn [andb] in Ob; [|assumption].
    destruct (f64_eq (price r) (u_price u)); assumption.
Qed.

(** *** Histories whose sides stay apart *)
Definition fA (us : list (update f64)) (l : rows) : rows :=
  fold_left (fun l u => if String.eqb (u_side u) "ask" then upd_asks u l else l) us l.
Definition fB (us : list (update f64)) (l : rows) : rows :=
  fold_left (fun l u => if String.eqb (u_side u) "bid" then upd_bids u l else l) us l.

Lemma fA_in us : forall l, Forall real_price us -> nan_free l -> asks_sorted l ->
  nan_free (fA us l) /\ asks_sorted (fA us l) /\ forall r, In r (fA us l) <-> justified "ask" l us r.
Proof.
  induction us as [|u us IH]; intros l Q Hn S.
  { unfold justified. cbn. split; [assumption|]. split; [assumption|]. reflexivity. }
  inversion Q; subst. cbn [fA fold_left].
  set (l1 := if String.eqb (u_side u) "ask" then upd_asks u l else l).
  destruct (upd_asks_in u l) as (N1 & S1 & M1); auto.
  destruct (IH l1) as (N' & S' & M').
  - assumption.
  - unfold l1. destruct (String.eqb (u_side u) "ask"); auto.
  - unfold l1. destruct (String.eqb (u_side u) "ask"); auto.
  - split; [exact N'|]. split; [exact S'|]. intros r. fold (fA us l1). rewrite M'.
    unfold justified. cbn [last_at]. destruct (last_at "ask" (price r) us) as [v|]; [reflexivity|].
    unfold l1. destruct (String.eqb (u_side u) "ask"); [|reflexivity]. rewrite M1.
    destruct (f64_eq (price r) (u_price u)) eqn:Ep.
    + split; [intros [H|[_ H]]; [exact H|discriminate]|auto].
    + split; [intros [[_ ->]|[H _]]; [|assumption]|auto].
      cbn [row_of price] in Ep. rewrite f64_eq_refl in Ep by assumption. discriminate.
Qed.
Lemma fB_in us : forall l, Forall real_price us -> nan_free l -> bids_sorted l ->
  nan_free (fB us l) /\ bids_sorted (fB us l) /\ forall r, In r (fB us l) <-> justified "bid" l us r.
Proof.
  induction us as [|u us IH]; intros l Q Hn S.
  { unfold justified. cbn. split; [assumption|]. split; [assumption|]. reflexivity. }
  inversion Q; subst. cbn [fB fold_left].
  set (l1 := if String.eqb (u_side u) "bid" then upd_bids u l else l).
  destruct (upd_bids_in u l) as (N1 & S1 & M1); auto.
  destruct (IH l1) as (N' & S' & M').
  - assumption.
  - unfold l1. destruct (String.eqb (u_side u) "bid"); auto.
  - unfold l1. destruct (String.eqb (u_side u) "bid"); auto.
  - split; [exact N'|]. split; [exact S'|]. intros r. fold (fB us l1). rewrite M'.
    unfold justified. cbn [last_at]. destruct (last_at "bid" (price r) us) as [v|]; [reflexivity|].
    unfold l1. destruct (String.eqb (u_side u) "bid"); [|reflexivity]. rewrite M1.
    destruct (f64_eq (price r) (u_price u)) eqn:Ep.
    + split; [intros [H|[_ H]]; [exact H|discriminate]|auto].
    + split; [intros [[_ ->]|[H _]]; [|assumption]|auto].
      cbn [row_of price] in Ep. rewrite f64_eq_refl in Ep by assumption. discriminate.
Qed.

Lemma cut_bids_free q l : f64_is_nan q = false -> nan_free l ->
  (forall b, In b l -> f64_lt (price b) q = true) -> cut_bids q l = l.
Proof.
  intros Hq Hn H. apply (cut_out Pn kB (- key q)).
  - intros; now apply bid_gt.
  - assumption.
  - rewrite Forall_forall. intros b Hb. specialize (H b Hb). apply f64_lt_true in H. unfold kB. lia.
Qed.
Lemma cut_asks_free q l : f64_is_nan q = false -> nan_free l ->
  (forall a, In a l -> f64_lt q (price a) = true) -> cut_asks q l = l.
Proof.
  intros Hq Hn H. apply (cut_out Pn kA (key q)).
  - intros; now apply ask_gt.
  - assumption.
  - rewrite Forall_forall. intros b Hb. specialize (H b Hb). apply f64_lt_true in H. unfold kA. lia.
Qed.

(** Full, untruncated sides [A] and [B] behind the shown ones. *)
Definition apart_full (A B : rows) (us : list (update f64)) : Prop :=
  (forall u b, In u us -> u_side u = "ask"%string -> nonzero u -> In b B -> f64_lt (price b) (u_price u) = true) /\
  (forall u a, In u us -> u_side u = "bid"%string -> nonzero u -> In a A -> f64_lt (u_price u) (price a) = true) /\
  (forall u v, In u us -> In v us -> u_side u = "ask"%string -> u_side v = "bid"%string ->
     nonzero u -> nonzero v -> f64_lt (u_price v) (u_price u) = true).
Definition safe (d : Z) (A B : rows) (us : list (update f64)) : Prop :=
  Forall nonzero us \/ (zlen A + zlen us <= d /\ zlen B + zlen us <= d).

Lemma del_row_none q l : Forall (fun r : rw => f64_eq (price r) q = false) l -> del_row q l = l.
Proof. intros H. unfold del_row, own_del. now rewrite find_from_all. Qed.

Lemma run us : forall tm d A B,
  Forall real_price us -> nan_free A -> nan_free B -> asks_sorted A -> bids_sorted B ->
  0 <= d < 2 ^ 53 -> apart_full A B us -> safe d A B us ->
  apply_updates us (mkBook tm (take d A) (take d B) d) = Ret (mkBook tm (take d (fA us A)) (take d (fB us B)) d).
Proof.
  induction us as [|u us IH]; intros tm d A B Q Na Nb Sa Sb Hd (X1 & X2 & X3) Sf; [reflexivity|].
  inversion Q; subst. cbn [apply_updates fA fB fold_left]. fold (fA us). fold (fB us).
  pose proof (zlen_take d A) as LA. pose proof (zlen_take d B) as LB.
  destruct (upd_asks_in u A) as (Na1 & Sa1 & Ma1); auto. destruct (upd_bids_in u B) as (Nb1 & Sb1 & Mb1); auto.
  pose proof (proj1 (asks_sorted_k A Na) Sa) as Ka. pose proof (proj1 (bids_sorted_k B Nb) Sb) as Kb.
  assert (Forall nonzero us \/ zlen A + zlen us + 1 <= d /\ zlen B + zlen us + 1 <= d) as Sf1.
  { destruct Sf as [H|[G1 G2]]; [left; now inversion H|right]. rewrite zlen_cons in G1, G2. lia. }
  assert (zero u -> zlen A <= d /\ zlen B <= d) as Sfz.
  { intros Z. pose proof (zlen_nonneg (u :: us)) as Hpos. destruct Sf as [HF|[G1 G2]]; [|lia].
    inversion HF; subst. unfold zero, nonzero in *. congruence. }
  destruct (string_dec (u_side u) "ask") as [Ss|Ss].
  { rewrite Ss. change (String.eqb "ask" "ask") with true. change (String.eqb "ask" "bid") with false. cbn beta iota.
    assert (apply_update u (mkBook tm (take d A) (take d B) d) = Ret (mkBook tm (take d (upd_asks u A)) (take d B) d, None)) as E.
    { unfold upd_asks. destruct (zero_or u) as [Z|Z].
      - rewrite (proj2 (is_set_zero u) Z). specialize (Sfz Z). rewrite (take_all d A), (take_all d B) by lia.
        destruct (step_ask_del u (mkBook tm A B d) Ss Z) as [[F ->]|[F ->]]; cbn [max_depth asks bids b_time] in *; [lia| |].
        + rewrite del_row_none by assumption. now rewrite (take_all d A) by lia.
        + now rewrite (take_all d B) by lia.
      - rewrite (proj2 (is_set_nonzero u) Z).
        rewrite step_ask_set; cbn [max_depth asks bids b_time]; try assumption; try lia.
        rewrite set_asks_trunc by assumption. rewrite cut_bids_free; [now rewrite take_take|assumption|now apply Forall_firstn|].
        intros b Hb. apply in_firstn in Hb. apply X1; auto. now left. }
    rewrite E. cbn [bind]. apply IH; auto.
    - split; [intros; apply X1; auto; now right|]. split; [|intros; apply X3; auto; now right].
      intros v a Hv Sv Zv Ha. apply Ma1 in Ha. destruct Ha as [[Zu ->]|[Ha _]].
      + cbn [row_of price]. apply X3; auto; [now left|now right].
      + apply X2; auto. now right.
    - destruct Sf1 as [H|[G1 G2]]; [now left|right]. pose proof (upd_asks_len u A). lia. }
  destruct (string_dec (u_side u) "bid") as [Ss'|Ss'].
  { rewrite Ss'. change (String.eqb "bid" "ask") with false. change (String.eqb "bid" "bid") with true. cbn beta iota.
    assert (apply_update u (mkBook tm (take d A) (take d B) d) = Ret (mkBook tm (take d A) (take d (upd_bids u B)) d, None)) as E.
    { unfold upd_bids. destruct (zero_or u) as [Z|Z].
      - rewrite (proj2 (is_set_zero u) Z). specialize (Sfz Z). rewrite (take_all d A), (take_all d B) by lia.
        destruct (step_bid_del u (mkBook tm A B d) Ss' Z) as [[F ->]|[F ->]]; cbn [max_depth asks bids b_time] in *; [lia| |].
        + rewrite del_row_none by assumption. now rewrite (take_all d B) by lia.
        + now rewrite (take_all d A) by lia.
      - rewrite (proj2 (is_set_nonzero u) Z).
        rewrite step_bid_set; cbn [max_depth asks bids b_time]; try assumption; try lia.
        rewrite set_bids_trunc by assumption. rewrite cut_asks_free; [now rewrite take_take|assumption|now apply Forall_firstn|].
        intros b Hb. apply in_firstn in Hb. apply X2; auto. now left. }
    rewrite E. cbn [bind]. apply IH; auto.
    - split; [|split; [intros; apply X2; auto; now right|intros; apply X3; auto; now right]].
      intros v b Hv Sv Zv Hb. apply Mb1 in Hb. destruct Hb as [[Zu ->]|[Hb _]].
      + cbn [row_of price]. apply X3; auto; [now right|now left].
      + apply X1; auto. now right.
    - destruct Sf1 as [H|[G1 G2]]; [now left|right]. pose proof (upd_bids_len u B). lia. }
  rewrite apply_bad_side by assumption. cbn [bind].
  apply String.eqb_neq in Ss, Ss'. rewrite Ss, Ss'. apply IH; auto.
  - split; [intros; apply X1; auto; now right|]. split; [intros; apply X2; auto; now right|intros; apply X3; auto; now right].
  - destruct Sf1 as [H|[G1 G2]]; [now left|right; lia].
Qed.

Lemma run_book us ob : Forall real_price us -> sizes_ok ob -> well_sorted ob -> within_depth ob -> sides_apart ob us ->
  safe (max_depth ob) (asks ob) (bids ob) us ->
  apply_updates us ob =
    Ret (mkBook (b_time ob) (take (max_depth ob) (fA us (asks ob))) (take (max_depth ob) (fB us (bids ob))) (max_depth ob)).
Proof.
  intros Q (La & Lb & Hd) (Na & Nb & Sa & Sb) [Wa Wb] X Sf.
  replace (apply_updates us ob) with (apply_updates us (mkBook (b_time ob) (take (max_depth ob) (asks ob))
    (take (max_depth ob) (bids ob)) (max_depth ob))).
  - now apply run.
  - rewrite !take_all by assumption. now destruct ob.
Qed.

Lemma fA_len us : forall l, zlen (fA us l) <= zlen l + zlen us.
Proof.
  induction us as [|u us IH]; intros l; [pose proof (zlen_nonneg (@nil (update f64))); cbn [fA fold_left]; lia|].
  rewrite zlen_cons. change (fA (u :: us) l) with (fA us (if String.eqb (u_side u) "ask" then upd_asks u l else l)).
  specialize (IH (if String.eqb (u_side u) "ask" then upd_asks u l else l)).
  pose proof (upd_asks_len u l); destruct (String.eqb (u_side u) "ask"); lia.
Qed.
Lemma fB_len us : forall l, zlen (fB us l) <= zlen l + zlen us.
Proof.
  induction us as [|u us IH]; intros l; [pose proof (zlen_nonneg (@nil (update f64))); cbn [fB fold_left]; lia|].
  rewrite zlen_cons. change (fB (u :: us) l) with (fB us (if String.eqb (u_side u) "bid" then upd_bids u l else l)).
  specialize (IH (if String.eqb (u_side u) "bid" then upd_bids u l else l)).
  pose proof (upd_bids_len u l); destruct (String.eqb (u_side u) "bid"); lia.
Qed.

Lemma history_complete us ob : Forall real_price us -> sizes_ok ob -> well_sorted ob -> sides_apart ob us ->
  zlen (asks ob) + zlen us <= max_depth ob -> zlen (bids ob) + zlen us <= max_depth ob ->
  exists ob', apply_updates us ob = Ret ob' /\
    (forall r, In r (asks ob') <-> justified "ask" (asks ob) us r) /\
    (forall r, In r (bids ob') <-> justified "bid" (bids ob) us r).
Proof.
  intros Q Sz W X L1 L2. pose proof (zlen_nonneg us).
  exists (mkBook (b_time ob) (take (max_depth ob) (fA us (asks ob))) (take (max_depth ob) (fB us (bids ob))) (max_depth ob)).
  split; [apply run_book; auto|].
  - split; lia.
  - right. lia.
  - cbn [asks bids]. pose proof (fA_len us (asks ob)). pose proof (fB_len us (bids ob)). rewrite !take_all by lia.
    destruct W as (Na & Nb & Sa & Sb). split; [now apply fA_in|now apply fB_in].
Qed.
Lemma history_inserts us ob : Forall real_price us -> Forall nonzero us -> sizes_ok ob -> well_sorted ob ->
  within_depth ob -> sides_apart ob us ->
  exists ob' fa fb, apply_updates us ob = Ret ob' /\
    asks ob' = take (max_depth ob) fa /\ bids ob' = take (max_depth ob) fb /\
    asks_sorted fa /\ bids_sorted fb /\
    (forall r, In r fa <-> justified "ask" (asks ob) us r) /\
    (forall r, In r fb <-> justified "bid" (bids ob) us r).
Proof.
  intros Q NZ Sz W D X.
  exists (mkBook (b_time ob) (take (max_depth ob) (fA us (asks ob))) (take (max_depth ob) (fB us (bids ob))) (max_depth ob)),
    (fA us (asks ob)), (fB us (bids ob)).
  split; [apply run_book; auto; now left|]. cbn [asks bids].
  destruct W as (Na & Nb & Sa & Sb). destruct (fA_in us (asks ob)) as (_ & S1 & M1); auto.
  destruct (fB_in us (bids ob)) as (_ & S2 & M2); auto.
  split; [reflexivity|]. split; [reflexivity|]. auto.
Qed.

(** Only the last update at each price matters. *)
Lemma history_last us vs ob : Forall real_price us -> Forall real_price vs -> sizes_ok ob -> well_sorted ob ->
  sides_apart ob us -> sides_apart ob vs -> within_depth ob ->
  safe (max_depth ob) (asks ob) (bids ob) us -> safe (max_depth ob) (asks ob) (bids ob) vs ->
  (forall p, last_at "ask" p us = last_at "ask" p vs) -> (forall p, last_at "bid" p us = last_at "bid" p vs) ->
  apply_updates us ob = apply_updates vs ob.
Proof.
  intros Qu Qv Sz W Xu Xv D Su Sv Ea Eb. rewrite !run_book by assumption.
  destruct W as (Na & Nb & Sa & Sb).
  destruct (fA_in us (asks ob)) as (_ & S1 & M1); auto. destruct (fA_in vs (asks ob)) as (_ & S2 & M2); auto.
  destruct (fB_in us (bids ob)) as (_ & S3 & M3); auto. destruct (fB_in vs (bids ob)) as (_ & S4 & M4); auto.
  replace (fA vs (asks ob)) with (fA us (asks ob)); [replace (fB vs (bids ob)) with (fB us (bids ob)); [reflexivity|]|].
  - eapply ss_unique; [|exact S3|exact S4|].
    + intros x y H1 H2. now apply (lt_asym (price y) (price x)).
    + intros r. rewrite M3, M4. unfold justified. now rewrite Eb.
  - eapply ss_unique; [|exact S1|exact S2|].
    + intros x y H1 H2. now apply (lt_asym (price x) (price y)).
    + intros r. rewrite M1, M2. unfold justified. now rewrite Ea.
Qed.

(** *** Reordering *)
Lemma last_at_some side p us u : last_at side p us = Some u ->
  In u us /\ u_side u = side /\ f64_eq p (u_price u) = true.
Proof.
  induction us as [|v us IH]; cbn [last_at]; [discriminate|].
  destruct (last_at side p us) as [w|]; intros H.
  - injection H as ->. destruct (IH eq_refl) as (H1 & H2). split; [now right|assumption].
  - destruct (String.eqb (u_side v) side) eqn:Es; [|discriminate]. destruct (f64_eq p (u_price v)) eqn:Ep; [|discriminate].
    injection H as <-. apply String.eqb_eq in Es. split; [now left|auto].
Qed.
Lemma last_at_in side p us u : In u us -> u_side u = side -> f64_eq p (u_price u) = true ->
  last_at side p us <> None.
Proof.
  induction us as [|v us IH]; cbn [last_at In]; [tauto|].
  intros [->|H] Hs Hp.
  - destruct (last_at side p us); [discriminate|]. apply String.eqb_eq in Hs. rewrite Hs, Hp. discriminate.
  - specialize (IH H Hs Hp). destruct (last_at side p us); [discriminate|]. now destruct IH.
Qed.
Lemma last_at_unique side p us u : In u us -> u_side u = side -> f64_eq p (u_price u) = true ->
  (forall v, In v us -> u_side v = side -> f64_eq p (u_price v) = true -> v = u) ->
  last_at side p us = Some u.
Proof.
  intros H Hs Hp U. destruct (last_at side p us) as [v|] eqn:E.
  - apply last_at_some in E. destruct E as (H1 & H2 & H3). f_equal. now apply U.
  - exfalso. revert E. now apply last_at_in with u.
Qed.

Lemma eq_trans_l a b c : f64_eq a b = true -> f64_eq a c = true -> f64_eq b c = true.
Proof.
  intros H1 H2. apply f64_eq_true in H1, H2. destruct H1 as (N1 & N2 & K1), H2 as (_ & N3 & K2).
  rewrite f64_eq_key by assumption. apply Z.eqb_eq. lia.
Qed.

Lemma last_at_perm side p us vs : Permutation us vs -> one_each us -> last_at side p us = last_at side p vs.
Proof.
  intros Pm U. destruct (last_at side p us) as [u|] eqn:E.
  - apply last_at_some in E. destruct E as (H1 & H2 & H3). symmetry. apply last_at_unique; auto.
    + now apply (Permutation_in _ Pm).
    + intros v Hv Hs Hp. symmetry. apply U; auto.
      * apply (Permutation_in v (Permutation_sym Pm)). assumption.
      * congruence.
      * now apply (eq_trans_l p).
  - destruct (last_at side p vs) as [v|] eqn:E'; [|reflexivity].
    apply last_at_some in E'. destruct E' as (H1 & H2 & H3).
    exfalso. revert E. apply last_at_in with v; auto. now apply (Permutation_in _ (Permutation_sym Pm)).
Qed.
Lemma sides_apart_perm ob us vs : Permutation us vs -> sides_apart ob us -> sides_apart ob vs.
Proof.
  intros Pm (X1 & X2 & X3). assert (forall u, In u vs -> In u us) as I.
  { intros u. apply Permutation_in. now apply Permutation_sym. }
  split; [|split]; intros; auto.
Qed.
Lemma zlen_perm {A} (l l' : list A) : Permutation l l' -> zlen l = zlen l'.
Proof. intros H. unfold zlen. now rewrite (Permutation_length H). Qed.
Lemma Forall_perm {A} (Q : A -> Prop) l l' : Permutation l l' -> Forall Q l -> Forall Q l'.
Proof. intros H. rewrite !Forall_forall. intros G x Hx. apply G. now apply (Permutation_in x (Permutation_sym H)). Qed.

Lemma history_perm us vs ob : Forall real_price us -> sizes_ok ob -> well_sorted ob -> within_depth ob ->
  sides_apart ob us -> one_each us -> safe (max_depth ob) (asks ob) (bids ob) us ->
  Permutation us vs -> apply_updates us ob = apply_updates vs ob.
Proof.
  intros Q Sz W D X U Sf Pm. apply history_last; auto.
  - now apply (Forall_perm real_price us).
  - now apply (sides_apart_perm ob us).
  - destruct Sf as [H|H]; [left; now apply (Forall_perm nonzero us)|right]. now rewrite <- (zlen_perm us vs Pm).
  - intros p. now apply last_at_perm.
  - intros p. now apply last_at_perm.
Qed.

(** *** A snapshot and its levels sent one by one *)
Definition bare (r : rw) : rw := mkRow (price r) (volume r) (i2f 0).

Lemma distinct_in l : nan_free l -> distinct_prices l -> forall x y, In x l -> In y l ->
  f64_eq (price x) (price y) = true -> x = y.
Proof.
  intros Hn D x y Hx Hy E. destruct (ForallOrdPairs_In D x y Hx Hy) as [H|[H|H]]; [assumption|congruence|].
  unfold nan_free in Hn. rewrite Forall_forall in Hn.
  rewrite (eq_sym_false (price y) (price x)) in E by auto. discriminate.
Qed.
Lemma ordered_strict_asks l : nan_free l -> asks_ordered l -> ForallOrdPairs (fun a b => f64_eq (price a) (price b) = false) l -> asks_sorted l.
Proof.
  intros Hn S. induction S as [|x l S IH Hx]; intros D; [constructor|].
  inversion D as [|? ? Dx D']; subst. inversion Hn; subst.
  constructor; [now apply IH|]. rewrite Forall_forall in *. intros y Hy. specialize (Hx y Hy). specialize (Dx y Hy). simpl in Hx, Dx.
  apply f64_le_true in Hx. rewrite f64_eq_key in Dx by tauto. apply Z.eqb_neq in Dx.
  rewrite f64_lt_key by tauto. apply Z.ltb_lt. lia.
Qed.
Lemma ordered_strict_bids l : nan_free l -> bids_ordered l -> ForallOrdPairs (fun a b => f64_eq (price a) (price b) = false) l -> bids_sorted l.
Proof.
  intros Hn S. induction S as [|x l S IH Hx]; intros D; [constructor|].
  inversion D as [|? ? Dx D']; subst. inversion Hn; subst.
  constructor; [now apply IH|]. rewrite Forall_forall in *. intros y Hy. specialize (Hx y Hy). specialize (Dx y Hy). simpl in Hx, Dx.
  apply f64_le_true in Hx. rewrite f64_eq_key in Dx by tauto. apply Z.eqb_neq in Dx.
  rewrite f64_lt_key by tauto. apply Z.ltb_lt. lia.
Qed.
Lemma distinct_perm l l' : nan_free l -> Permutation l l' -> distinct_prices l -> distinct_prices l'.
Proof.
  intros Hn Pm. induction Pm as [|x l l' Pm IH|x y l|l1 l2 l3 P1 IH1 P2 IH2]; intros D.
  - constructor.
  - inversion D; subst. inversion Hn; subst. constructor; [now apply (Forall_perm _ l)|now apply IH].
  - inversion D as [|? ? D1 D2]; subst. inversion D2 as [|? ? D3 D4]; subst.
    inversion D1; subst. inversion Hn as [|? ? N1 N2]; subst. inversion N2; subst.
    constructor; [constructor; [now apply eq_sym_false|assumption]|]. now constructor.
  - apply IH2; [now apply (Forall_perm _ l1)|]. now apply IH1.
Qed.
Lemma bare_sorted_asks l : asks_sorted l -> asks_sorted (map bare l).
Proof.
  intros S. induction S as [|x l S IH Hx]; cbn [map]; constructor; [assumption|].
  rewrite Forall_forall in *. intros y Hy. apply in_map_iff in Hy. destruct Hy as (z & <- & Hz). exact (Hx z Hz).
Qed.
Lemma bare_sorted_bids l : bids_sorted l -> bids_sorted (map bare l).
Proof.
  intros S. induction S as [|x l S IH Hx]; cbn [map]; constructor; [assumption|].
  rewrite Forall_forall in *. intros y Hy. apply in_map_iff in Hy. destruct Hy as (z & <- & Hz). exact (Hx z Hz).
Qed.

Lemma snapshot_in_ask la lb us r : Permutation us (snapshot_updates la lb) -> nan_free la -> distinct_prices la ->
  Forall nonzero us -> justified "ask" [] us r <-> In r (map bare la).
Proof.
  intros Pm Hn D NZ. assert (forall u, In u us -> u_side u = "ask"%string -> exists x, In x la /\ u = as_update "ask" x) as I.
  { intros u Hu Hs. apply (Permutation_in u Pm) in Hu. unfold snapshot_updates in Hu. apply in_app_iff in Hu.
    destruct Hu as [Hu|Hu]; apply in_map_iff in Hu; destruct Hu as (x & <- & Hx); [eauto|discriminate]. }
  unfold justified. rewrite in_map_iff. split.
  - destruct (last_at "ask" (price r) us) as [u|] eqn:E; [|intros []]. intros [_ ->].
    apply last_at_some in E. destruct E as (H1 & H2 & _). destruct (I u H1 H2) as (x & Hx & ->). exists x. auto.
  - intros (x & <- & Hx).
    assert (In (as_update "ask" x) us) as Hu.
    { apply (Permutation_in _ (Permutation_sym Pm)). unfold snapshot_updates. apply in_app_iff. left. now apply in_map. }
    unfold nan_free in Hn. rewrite Forall_forall in Hn.
    rewrite last_at_unique with (u := as_update "ask" x); [|assumption|reflexivity|exact (f64_eq_refl _ (Hn x Hx))|].
    + split; [|reflexivity]. rewrite Forall_forall in NZ. now apply NZ.
    + intros v Hv Hs Hp. destruct (I v Hv Hs) as (y & Hy & ->). f_equal. cbn [as_update u_price bare price] in Hp.
      symmetry. apply (distinct_in la); auto. unfold nan_free. now rewrite Forall_forall.
Qed.
Lemma snapshot_in_bid la lb us r : Permutation us (snapshot_updates la lb) -> nan_free lb -> distinct_prices lb ->
  Forall nonzero us -> justified "bid" [] us r <-> In r (map bare lb).
Proof.
  intros Pm Hn D NZ. assert (forall u, In u us -> u_side u = "bid"%string -> exists x, In x lb /\ u = as_update "bid" x) as I.
  { intros u Hu Hs. apply (Permutation_in u Pm) in Hu. unfold snapshot_updates in Hu. apply in_app_iff in Hu.
    destruct Hu as [Hu|Hu]; apply in_map_iff in Hu; destruct Hu as (x & <- & Hx); [discriminate|eauto]. }
  unfold justified. rewrite in_map_iff. split.
  - destruct (last_at "bid" (price r) us) as [u|] eqn:E; [|intros []]. intros [_ ->].
    apply last_at_some in E. destruct E as (H1 & H2 & _). destruct (I u H1 H2) as (x & Hx & ->). exists x. auto.
  - intros (x & <- & Hx).
    assert (In (as_update "bid" x) us) as Hu.
    { apply (Permutation_in _ (Permutation_sym Pm)). unfold snapshot_updates. apply in_app_iff. right. now apply in_map. }
    unfold nan_free in Hn. rewrite Forall_forall in Hn.
    rewrite last_at_unique with (u := as_update "bid" x); [|assumption|reflexivity|exact (f64_eq_refl _ (Hn x Hx))|].
    + split; [|reflexivity]. rewrite Forall_forall in NZ. now apply NZ.
    + intros v Hv Hs Hp. destruct (I v Hv Hs) as (y & Hy & ->). f_equal. cbn [as_update u_price bare price] in Hp.
      symmetry. apply (distinct_in lb); auto. unfold nan_free. now rewrite Forall_forall.
Qed.

Lemma take_map {A B} (f : A -> B) d l : take d (map f l) = map f (take d l).
Proof. unfold take. apply firstn_map. Qed.

Lemma snapshot_equals_updates now la lb d us :
  nan_free la -> nan_free lb -> distinct_prices la -> distinct_prices lb ->
  (forall r, In r (la ++ lb) -> f64_eq (volume r) (i2f 0) = false) ->
  (forall a b, In a la -> In b lb -> f64_lt (price b) (price a) = true) ->
  zlen la <= 2 ^ 53 -> zlen lb <= 2 ^ 53 -> 0 <= d < 2 ^ 53 ->
  Permutation us (snapshot_updates la lb) ->
  exists ob0 ob1 ob2, new_order_book now [] [] d = Ret ob0 /\ new_order_book now la lb d = Ret ob1 /\
    apply_updates us ob0 = Ret ob2 /\
    b_time ob2 = b_time ob1 /\ max_depth ob2 = max_depth ob1 /\
    map pv (asks ob2) = map pv (asks ob1) /\ map pv (bids ob2) = map pv (bids ob1).
Proof.
  intros Na Nb Da Db NZ Ap La Lb Hd Pm.
  exists (mkBook now [] [] d). rewrite !new_book_ok by (assumption || rewrite ?zlen_nil; lia).
  assert (forall u, In u us -> (exists a, In a la /\ u = as_update "ask" a) \/ (exists b, In b lb /\ u = as_update "bid" b)) as I.
  { intros u Hu. apply (Permutation_in u Pm) in Hu. unfold snapshot_updates in Hu. apply in_app_iff in Hu.
    destruct Hu as [Hu|Hu]; apply in_map_iff in Hu; destruct Hu as (x & <- & Hx); eauto. }
  assert (Forall nonzero us) as NZu.
  { rewrite Forall_forall. intros u Hu. destruct (I u Hu) as [(a & Ha & ->)|(b & Hb & ->)];
      unfold nonzero; cbn [as_update u_volume]; apply NZ, in_app_iff; auto. }
  unfold nan_free in Na, Nb. rewrite Forall_forall in Na, Nb.
  destruct (history_inserts us (mkBook now [] [] d)) as (ob2 & fa & fb & E & Ea & Eb & Sfa & Sfb & Ma & Mb); auto.
  - rewrite Forall_forall. intros u Hu. destruct (I u Hu) as [(a & Ha & ->)|(b & Hb & ->)]; unfold real_price; cbn [as_update u_price]; auto.
  - split; [|split]; cbn [asks bids max_depth]; rewrite ?zlen_nil; lia.
  - split; [constructor|]. split; [constructor|]. split; constructor.
  - split; cbn [asks bids max_depth]; rewrite ?zlen_nil; lia.
  - split; [intros u b _ _ _ []|]. split; [intros u b _ _ _ []|].
    intros u v Hu Hv Su Sv _ _. destruct (I u Hu) as [(a & Ha & ->)|(b & Hb & ->)]; [|discriminate].
    destruct (I v Hv) as [(a' & Ha' & ->)|(b & Hb & ->)]; [discriminate|]. now apply Ap.
  - cbn [asks bids max_depth] in *. do 2 eexists. split; [unfold take; change (slice_stable _ []) with (@nil (row f64)); now rewrite firstn_nil|].
    split; [reflexivity|]. split; [exact E|].
    assert (b_time ob2 = now /\ max_depth ob2 = d) as [T1 T2].
    { destruct (updates_depth us (mkBook now [] [] d)) as (ob' & E' & _ & G1 & G2).
      - split; [|split]; cbn [asks bids max_depth]; rewrite ?zlen_nil; lia.
      - split; cbn [asks bids max_depth]; rewrite ?zlen_nil; lia.
      - rewrite E in E'. injection E' as <-. auto. }
    cbn [b_time max_depth asks bids]. split; [assumption|]. split; [assumption|].
    assert (nan_free la) as Na' by (unfold nan_free; now rewrite Forall_forall).
    assert (nan_free lb) as Nb' by (unfold nan_free; now rewrite Forall_forall).
    unfold pv. rewrite Ea, Eb, !(accum_pv pair).
    destruct (stable_of_sort_asks la Na' La) as (So & Po & _).
    destruct (stable_of_sort_bids lb Nb' Lb) as (Sp & Pp & _).
    split.
    + set (sa := slice_stable _ la) in *.
      assert (fa = map bare sa) as ->.
      { eapply ss_unique; [|exact Sfa|apply bare_sorted_asks, ordered_strict_asks|].
        - intros x y H1 H2. now apply (lt_asym (price x) (price y)).
        - now apply (Forall_perm _ la).
        - exact So.
        - now apply (distinct_perm la).
        - intros r. rewrite Ma, (snapshot_in_ask la lb) by assumption. rewrite !in_map_iff.
          split; intros (x & H1 & H2); exists x; (split; [assumption|]); [now apply (Permutation_in _ Po)|now apply (Permutation_in _ (Permutation_sym Po))]. }
      rewrite take_map, map_map. reflexivity.
    + set (sb := slice_stable _ lb) in *.
      assert (fb = map bare sb) as ->.
      { eapply ss_unique; [|exact Sfb|apply bare_sorted_bids, ordered_strict_bids|].
        - intros x y H1 H2. now apply (lt_asym (price y) (price x)).
        - now apply (Forall_perm _ lb).
        - exact Sp.
        - now apply (distinct_perm lb).
        - intros r. rewrite Mb, (snapshot_in_bid la lb) by assumption. rewrite !in_map_iff.
          split; intros (x & H1 & H2); exists x; (split; [assumption|]); [now apply (Permutation_in _ Pp)|now apply (Permutation_in _ (Permutation_sym Pp))]. }
      rewrite take_map, map_map. reflexivity.
Qed.
