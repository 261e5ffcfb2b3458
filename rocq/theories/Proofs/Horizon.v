(** What a book of limited depth does not show (C102). *)
From Coq Require Import Sorting.Sorted Sorting.Permutation Classical.
From Flocq Require Import BinarySingleNaN.
From Verif Require Import Go.Outcome Go.Int64 Go.Slice Go.Sort Go.Float64 Go.FloatOrder Go.FloatReal Go.Num
  Model.OrderBook Spec.OrderBookSpec Spec.HistorySpec Spec.DepthSpec Spec.HorizonSpec Proofs.Lists Proofs.OrderBook Proofs.Keyed Proofs.Updates
  Proofs.UpdateThms Proofs.History Proofs.Replay.
Open Scope list_scope.
Open Scope Z_scope.

(** *** One side, by keys *)
Section Side.
Variable kap : rw -> Z.
Variable upd : update f64 -> rows -> rows.
Variable mine : update f64 -> bool.
Definition good (l : rows) : Prop := Forall Pn l /\ StronglySorted (fun a b => kap a < kap b) l.
Hypothesis upd_good : forall u l, real_price u -> good l -> good (upd u l).
Hypothesis upd_in : forall u l r, real_price u -> good l ->
  In r (upd u l) <-> (nonzero u /\ r = row_of u) \/ (In r l /\ kap r <> kap (row_of u)).
Hypothesis upd_set : forall u d l, real_price u -> nonzero u -> good l -> take d (upd u (take d l)) = take d (upd u l).
Hypothesis upd_del : forall u d l, real_price u -> zero u -> good l -> 0 <= d ->
  take (d - 1) (upd u (take d l)) = take (d - 1) (upd u l).

Definition shown_side (d : Z) (us : list (update f64)) (l : rows) : rows :=
  fold_left (fun l u => if mine u then take d (upd u l) else l) us l.
Definition full_side (us : list (update f64)) (l : rows) : rows :=
  fold_left (fun l u => if mine u then upd u l else l) us l.

Lemma good_take d l : good l -> good (take d l).
Proof.
  intros [G1 G2]. split; [now apply Forall_firstn|]. unfold take. clear G1. revert G2. generalize (Z.to_nat d) as n.
  induction l as [|a l IH]; intros [|n] G2; cbn [firstn]; try constructor; inversion G2; subst; auto using Forall_firstn.
Qed.
Lemma take_or d l r : 0 <= d -> good l -> In r l ->
  In r (take d l) \/ (zlen (take d l) = d /\ Forall (fun x => kap x < kap r) (take d l)).
Proof.
  intros Hd [_ G] H. unfold take. rewrite <- (firstn_skipn (Z.to_nat d) l) in H. apply in_app_or in H. destruct H as [H|H]; [auto|].
  right. split.
  - unfold zlen. rewrite firstn_length. assert (Z.to_nat d < List.length l)%nat; [|lia].
    destruct (Nat.lt_ge_cases (Z.to_nat d) (List.length l)) as [L|L]; [exact L|]. rewrite skipn_all2 in H by exact L. destruct H.
  - rewrite <- (firstn_skipn (Z.to_nat d) l) in G. revert G. generalize (firstn (Z.to_nat d) l) as a. intros a. induction a as [|x a IH]; intros G; constructor.
    + inversion G; subst. rewrite Forall_forall in H3. apply H3. apply in_or_app. now right.
    + apply IH. now inversion G.
Qed.

Lemma shown_good d us : forall l, Forall real_price us -> good l -> good (shown_side d us l).
Proof.
  induction us as [|u us IH]; intros l Q G; [exact G|]. inversion Q; subst. cbn [shown_side fold_left]. apply IH; [assumption|].
  destruct (mine u); [|assumption]. apply good_take. auto.
Qed.
Lemma full_good us : forall l, Forall real_price us -> good l -> good (full_side us l).
Proof.
  induction us as [|u us IH]; intros l Q G; [exact G|]. inversion Q; subst. cbn [full_side fold_left]. apply IH; [assumption|].
  destruct (mine u); auto.
Qed.
Lemma shown_snoc d us u l : shown_side d (us ++ [u]) l = if mine u then take d (upd u (shown_side d us l)) else shown_side d us l.
Proof. unfold shown_side. now rewrite fold_left_app. Qed.
Lemma full_snoc us u l : full_side (us ++ [u]) l = if mine u then upd u (full_side us l) else full_side us l.
Proof. unfold full_side. now rewrite fold_left_app. Qed.

Definition lost (d : Z) (us : list (update f64)) (l : rows) (r : rw) : Prop :=
  exists pre post, us = pre ++ post /\ zlen (shown_side d pre l) = d /\
    Forall (fun x => kap x < kap r) (shown_side d pre l) /\
    (forall u, In u post -> mine u = true -> kap r <> kap (row_of u)).

Lemma lost_snoc d us u l r : lost d (us ++ [u]) l r <->
  (zlen (shown_side d (us ++ [u]) l) = d /\ Forall (fun x => kap x < kap r) (shown_side d (us ++ [u]) l)) \/
  (lost d us l r /\ (mine u = true -> kap r <> kap (row_of u))).
Proof.
  split.
  - intros (pre & post & E & H1 & H2 & H3). destruct post as [|x post] using rev_ind.
    + rewrite app_nil_r in E. subst pre. auto.
    + clear IHpost. rewrite app_assoc in E. apply app_inj_tail in E. destruct E as [-> <-]. right. split.
      * exists pre, post. split; [reflexivity|]. split; [exact H1|]. split; [exact H2|]. intros v Hv. apply H3. apply in_or_app. now left.
      * apply H3. apply in_or_app. right. now left.
  - intros [[H1 H2]|[(pre & post & -> & H1 & H2 & H3) Hu]].
    + exists (us ++ [u]), []. rewrite app_nil_r. split; [reflexivity|]. split; [exact H1|]. split; [exact H2|]. intros v [].
    + exists pre, (post ++ [u]). rewrite app_assoc. split; [reflexivity|]. split; [exact H1|]. split; [exact H2|].
      intros v Hv. apply in_app_or in Hv. destruct Hv as [Hv|[<-|[]]]; auto.
Qed.

Lemma all_below r l : In r l -> Forall (fun x => kap x < kap r) l -> False.
Proof. intros H F. rewrite Forall_forall in F. specialize (F r H). simpl in F. lia. Qed.

Theorem shown_exactly d l r : 0 <= d -> zlen l <= d -> good l -> forall us, Forall real_price us ->
  In r (shown_side d us l) <-> In r (full_side us l) /\ ~ lost d us l r.
Proof.
  intros Hd Ld G us. induction us as [|u us IH] using rev_ind; intros Q.
  { cbn. split; [|tauto]. intros H. split; [exact H|]. intros (pre & post & E & H1 & H2 & H3).
    symmetry in E. apply app_eq_nil in E. destruct E as [-> ->]. exact (all_below r l H H2). }
  apply Forall_app in Q. destruct Q as [Q Qu]. inversion Qu; subst. specialize (IH Q).
  pose proof (shown_good d us l Q G) as GL. pose proof (full_good us l Q G) as GF.
  rewrite lost_snoc, shown_snoc, full_snoc. destruct (mine u) eqn:M.
  - set (L := shown_side d us l) in *. set (K := full_side us l) in *. split.
    + intros H. assert (In r (upd u L)) as HU by (now apply take_in in H). apply upd_in in HU; [|assumption|assumption].
      split.
      * apply upd_in; [assumption|assumption|]. destruct HU as [HU|[HU1 HU2]]; [now left|]. right. split; [|exact HU2]. now apply IH.
      * intros [[_ B]|[Lo Nu]]; [exact (all_below r _ H B)|]. destruct HU as [[_ ->]|[HU1 HU2]]; [now apply Nu|]. now apply IH in HU1.
    + intros [H NL]. apply upd_in in H; [|assumption|assumption].
      assert (In r (upd u L)) as HU.
      { apply upd_in; [assumption|assumption|]. destruct H as [H|[Hr Hk]]; [now left|]. right. split; [|exact Hk]. apply IH. split; [exact Hr|].
        intros Lo. apply NL. right. split; [exact Lo|]. intros _. exact Hk. }
      destruct (take_or d (upd u L) r Hd (upd_good u L ltac:(assumption) GL) HU) as [T|T]; [exact T|]. exfalso. apply NL. now left.
  - rewrite IH. split.
    + intros [H NL]. split; [exact H|]. intros [[B1 B2]|[Lo _]]; [|contradiction]. apply NL. exists us, []. rewrite app_nil_r.
      split; [reflexivity|]. split; [exact B1|]. split; [exact B2|]. intros v [].
    + intros [H NL]. split; [exact H|]. intros Lo. apply NL. right. split; [exact Lo|]. discriminate.
Qed.

(** The best rows are right as long as there were fewer deletions than rows. *)
Definition dels (us : list (update f64)) : Z := zlen (filter (fun u => mine u && f64_eq (u_volume u) (i2f 0))%bool us).

Lemma take_less {A} k d (l : list A) : k <= d -> take k (take d l) = take k l.
Proof. intros H. unfold take. rewrite firstn_firstn. f_equal. lia. Qed.

Theorem top_rows d l : 0 <= d -> good l -> forall us, Forall real_price us ->
  take (d - dels us) (shown_side d us l) = take (d - dels us) (full_side us l).
Proof.
  intros Hd G us. induction us as [|u us IH] using rev_ind; intros Q; [reflexivity|].
  apply Forall_app in Q. destruct Q as [Q Qu]. inversion Qu; subst. specialize (IH Q).
  pose proof (shown_good d us l Q G) as GL. pose proof (full_good us l Q G) as GF.
  pose proof (zlen_nonneg (filter (fun u => mine u && f64_eq (u_volume u) (i2f 0))%bool us)) as Pos. fold (dels us) in Pos.
  assert (dels (us ++ [u]) = dels us + (if mine u && f64_eq (u_volume u) (i2f 0) then 1 else 0)%bool) as ->.
  { unfold dels. rewrite filter_app. unfold zlen. rewrite app_length. cbn [filter]. destruct (mine u && f64_eq (u_volume u) (i2f 0))%bool; cbn [List.length]; lia. }
  rewrite shown_snoc, full_snoc. destruct (mine u) eqn:M; cbn [andb].
  - destruct (zero_or u) as [Z|Z].
    + unfold zero in Z. rewrite Z. rewrite take_less by lia.
      destruct (Z.le_gt_cases 0 (d - dels us)) as [K|K].
      * replace (d - (dels us + 1)) with (d - dels us - 1) by lia. rewrite <- (upd_del u (d - dels us) (shown_side d us l)) by assumption. rewrite IH. now apply upd_del.
      * unfold take. replace (Z.to_nat (d - (dels us + 1))) with 0%nat by lia. reflexivity.
    + unfold nonzero in Z. rewrite Z. rewrite Z.add_0_r, take_less by lia. rewrite <- (upd_set u _ (shown_side d us l)) by assumption. rewrite IH. now apply upd_set.
  - rewrite Z.add_0_r. exact IH.
Qed.
(** *** Two depths *)
Definition cnt (k : Z) (l : rows) : Z := zlen (filter (fun x => kap x <? k) l).
Definition cnt_but (p k : Z) (l : rows) : Z := zlen (filter (fun x => (kap x <? k) && negb (kap x =? p))%bool l).

Lemma good_nodup l : good l -> NoDup l.
Proof.
  intros [_ S]. induction S as [|a l S IH F]; constructor; auto. intros H. rewrite Forall_forall in F. specialize (F a H). simpl in F. lia.
Qed.
Lemma good_key l x y : good l -> In x l -> In y l -> kap x = kap y -> x = y.
Proof.
  intros [_ S]. induction S as [|a l S IH F]; [intros []|]. rewrite Forall_forall in F. intros [<-|Hx] [<-|Hy] E; auto.
  - specialize (F y Hy). simpl in F. lia.
  - specialize (F x Hx). simpl in F. lia.
Qed.
Lemma cnt_upd u l k : real_price u -> good l ->
  cnt k (upd u l) = cnt_but (kap (row_of u)) k l + (if is_set u && (kap (row_of u) <? k) then 1 else 0)%bool.
Proof.
  intros Hu G. pose proof (upd_good u l Hu G) as G'. unfold cnt, cnt_but.
  assert (forall r, In r (filter (fun x => kap x <? k) (upd u l)) <->
    In r ((if (is_set u && (kap (row_of u) <? k))%bool then [row_of u] else []) ++
          filter (fun x => (kap x <? k) && negb (kap x =? kap (row_of u)))%bool l)) as M.
  { intros r. rewrite in_app_iff, !filter_In, upd_in by assumption. rewrite Bool.andb_true_iff, Bool.negb_true_iff, Z.eqb_neq. split.
    - intros [[[Z ->]|[H1 H2]] Hk]; [left|right; auto]. rewrite (proj2 (is_set_nonzero u) Z), Hk. now left.
    - intros [H|(H1 & H2 & H3)]; [|split; auto]. destruct (is_set u) eqn:Is; cbn [andb] in H; [|destruct H].
      destruct (kap (row_of u) <? k) eqn:Hk; [|destruct H]. destruct H as [<-|[]]. split; [|exact Hk]. left. split; [|reflexivity]. now apply is_set_nonzero. }
  apply NoDup_Permutation in M.
  - unfold zlen. rewrite (Permutation_length M), app_length. destruct (is_set u && (kap (row_of u) <? k))%bool; cbn [List.length]; lia.
  - apply NoDup_filter. now apply good_nodup.
  - destruct (is_set u && (kap (row_of u) <? k))%bool; cbn [app]; [constructor|]; try (apply NoDup_filter; now apply good_nodup).
    rewrite filter_In, Bool.andb_true_iff, Bool.negb_true_iff, Z.eqb_neq. tauto.
Qed.
Lemma cnt_split p k l : cnt k l = cnt_but p k l + zlen (filter (fun x => (kap x <? k) && (kap x =? p))%bool l).
Proof.
  unfold cnt, cnt_but, zlen. induction l as [|a l IH]; [reflexivity|]. cbn [filter].
  destruct (kap a <? k), (kap a =? p); cbn [andb negb List.length]; lia.
Qed.
Lemma at_most_one p k l : good l -> zlen (filter (fun x => (kap x <? k) && (kap x =? p))%bool l) <= 1.
Proof.
  intros G. destruct (filter (fun x => (kap x <? k) && (kap x =? p))%bool l) as [|x [|y m]] eqn:E; unfold zlen; cbn [List.length]; try lia. exfalso.
  assert (In x l /\ kap x = p /\ In y l /\ kap y = p) as (X1 & X2 & Y1 & Y2).
  { assert (In x (x :: y :: m)) as Hx by now left. assert (In y (x :: y :: m)) as Hy by (right; now left). rewrite <- E in Hx, Hy.
    apply filter_In in Hx. apply filter_In in Hy. rewrite !Bool.andb_true_iff, !Z.eqb_eq in *. tauto. }
  assert (x = y) as -> by (apply (good_key l); auto; congruence).
  pose proof (NoDup_filter (fun x => (kap x <? k) && (kap x =? p))%bool (good_nodup l G)) as N. rewrite E in N. inversion N; subst. apply H1. now left.
Qed.
Lemma cnt_but_le p k l l' e : good l -> (forall r, In r l -> In r l') -> cnt k l' <= cnt k l + e -> cnt_but p k l' <= cnt_but p k l + e.
Proof.
  intros G Sub H. rewrite (cnt_split p k l), (cnt_split p k l') in H. pose proof (at_most_one p k l G) as One.
  enough (zlen (filter (fun x => (kap x <? k) && (kap x =? p))%bool l) <= zlen (filter (fun x => (kap x <? k) && (kap x =? p))%bool l')) by lia.
  destruct (filter (fun x => (kap x <? k) && (kap x =? p))%bool l) as [|x m] eqn:E; [apply zlen_nonneg|].
  assert (In x (filter (fun x => (kap x <? k) && (kap x =? p))%bool l')) as Hx.
  { apply filter_In. assert (In x (x :: m)) as Hx by now left. rewrite <- E in Hx. apply filter_In in Hx. destruct Hx. auto. }
  destruct (filter (fun x => (kap x <? k) && (kap x =? p))%bool l') as [|y m']; [destruct Hx|]. unfold zlen in *. cbn [List.length] in *. lia.
Qed.
Lemma cnt_above k l : Forall (fun x => k <= kap x) l -> cnt k l = 0.
Proof.
  intros H. unfold cnt. replace (filter _ l) with (@nil rw); [reflexivity|]. symmetry. induction H as [|x l H F IH]; [reflexivity|]. cbn [filter].
  destruct (kap x <? k) eqn:E; [apply Z.ltb_lt in E; lia|exact IH].
Qed.
Lemma cnt_take d k l : 0 <= d -> good l -> cnt k (take d l) = Z.min d (cnt k l).
Proof.
  intros Hd [_ S]. unfold take. rewrite <- (Z2Nat.id d Hd) at 2. generalize (Z.to_nat d) as n. clear d Hd. induction S as [|a l S IH F]; intros n.
  - rewrite firstn_nil. unfold cnt, zlen. cbn. lia.
  - destruct n as [|n]; [unfold cnt, zlen; cbn; lia|]. cbn [firstn]. destruct (kap a <? k) eqn:E.
    + unfold cnt, zlen in *. cbn [filter]. rewrite E. cbn [List.length]. specialize (IH n). lia.
    + apply Z.ltb_ge in E. rewrite Forall_forall in F. rewrite !cnt_above; [lia| |].
      * constructor; [exact E|]. rewrite Forall_forall. intros x Hx. specialize (F x Hx). simpl in F. lia.
      * constructor; [exact E|]. rewrite Forall_forall. intros x Hx. apply in_firstn in Hx. specialize (F x Hx). simpl in F. lia.
Qed.
Lemma in_take_cnt d l r : 0 <= d -> good l -> In r l -> In r (take d l) <-> cnt (kap r) l < d.
Proof.
  intros Hd G H. split.
  - intros T. assert (cnt (kap r) (take d l) < zlen (take d l)) as L.
    { clear - T. unfold cnt. induction (take d l) as [|a m IH]; [destruct T|]. destruct T as [->|T].
      - cbn [filter]. rewrite Z.ltb_irrefl. assert (forall m : rows, zlen (filter (fun x => kap x <? kap r) m) <= zlen m) as F; [|specialize (F m); unfold zlen in *; cbn [List.length]; lia].
        clear. induction m as [|b m IH]; [unfold zlen; cbn; lia|]. cbn [filter]. unfold zlen in *. destruct (kap b <? kap r); cbn [List.length]; lia.
      - specialize (IH T). cbn [filter]. unfold zlen in *. destruct (kap a <? kap r); cbn [List.length]; lia. }
    pose proof (zlen_take d l Hd). rewrite cnt_take in L by assumption. lia.
  - intros C. destruct (take_or d l r Hd G H) as [T|[E F]]; [exact T|]. exfalso.
    assert (cnt (kap r) (take d l) = d) as B.
    { rewrite <- E at 2. unfold cnt. f_equal. clear - F. induction F as [|x m Hx F IH]; [reflexivity|]. cbn [filter]. apply Z.ltb_lt in Hx. rewrite Hx. now f_equal. }
    rewrite cnt_take in B by assumption. lia.
Qed.

Theorem deeper d d' l : 0 <= d -> d <= d' -> zlen l <= d -> good l -> forall us, Forall real_price us ->
  forall r, In r (shown_side d us l) -> In r (shown_side d' us l).
Proof.
  intros Hd Hdd Ld G us Q.
  enough ((forall r, In r (shown_side d us l) -> In r (shown_side d' us l)) /\
          (forall k, cnt k (shown_side d' us l) <= cnt k (shown_side d us l) + (d' - d))) by tauto.
  induction us as [|u us IH] using rev_ind; [split; [auto|cbn; intros; lia]|].
  apply Forall_app in Q. destruct Q as [Q Qu]. inversion Qu; subst. destruct (IH Q) as [Sub C].
  pose proof (shown_good d us l Q G) as GL. pose proof (shown_good d' us l Q G) as GL'.
  rewrite !shown_snoc. destruct (mine u); [|auto].
  set (L := shown_side d us l) in *. set (L' := shown_side d' us l) in *.
  assert (forall k, cnt k (upd u L') <= cnt k (upd u L) + (d' - d)) as C'.
  { intros k. rewrite !cnt_upd by assumption. pose proof (cnt_but_le (kap (row_of u)) k L L' (d' - d) GL Sub (C k)). lia. }
  split.
  - intros r Hr. assert (In r (upd u L)) as HU by now apply take_in in Hr.
    apply in_take_cnt in Hr; [|assumption|auto|assumption].
    apply in_take_cnt; [lia|auto| |specialize (C' (kap r)); lia].
    apply upd_in in HU; [|assumption|assumption]. apply upd_in; [assumption|assumption|]. destruct HU as [HU|[H1' H2']]; auto.
  - intros k. rewrite !cnt_take by (lia || auto). specialize (C' k). lia.
Qed.
End Side.

(** *** The two sides *)
Lemma goodA l : nan_free l -> asks_sorted l -> good kA l.
Proof. intros N S. split; [exact N|]. now apply asks_sorted_k. Qed.
Lemma goodA' l : good kA l -> nan_free l /\ asks_sorted l.
Proof. intros [N S]. split; [exact N|]. now apply asks_sorted_k. Qed.
Lemma goodB l : nan_free l -> bids_sorted l -> good kB l.
Proof. intros N S. split; [exact N|]. now apply bids_sorted_k. Qed.
Lemma goodB' l : good kB l -> nan_free l /\ bids_sorted l.
Proof. intros [N S]. split; [exact N|]. now apply bids_sorted_k. Qed.

Lemma del_trunc q d l : take (d - 1) (del_row q (take d l)) = take (d - 1) (del_row q l).
Proof.
  unfold del_row. destruct (own_del_shape (aeq q) l) as [(N & -> & _)|(a & r & b & -> & -> & Hr & Ha & _)].
  - destruct (own_del_shape (aeq q) (take d l)) as [(_ & -> & _)|(a & r & b & E & _ & Hr & _)].
    + now rewrite take_less by lia.
    + exfalso. assert (In r l) as I by (apply (take_in d); rewrite E; apply in_or_app; right; now left).
      rewrite Forall_forall in N. rewrite (N r I) in Hr. discriminate Hr.
  - unfold take. destruct (Nat.le_gt_cases (Z.to_nat d) (List.length a)) as [L|L].
    + rewrite firstn_app. replace (Z.to_nat d - List.length a)%nat with 0%nat by lia. cbn [firstn]. rewrite app_nil_r.
      destruct (own_del_shape (aeq q) (firstn (Z.to_nat d) a)) as [(_ & -> & _)|(a' & r' & b' & E & _ & Hr' & _)].
      * rewrite firstn_firstn, firstn_app. replace (Z.to_nat (d - 1) - List.length a)%nat with 0%nat by lia. cbn [firstn]. rewrite app_nil_r. f_equal. lia.
      * exfalso. assert (In r' a) as I by (apply (take_in d); unfold take; rewrite E; apply in_or_app; right; now left).
        rewrite Forall_forall in Ha. rewrite (Ha r' I) in Hr'. discriminate Hr'.
    + rewrite firstn_app, (firstn_all2 a) by lia. destruct (Z.to_nat d - List.length a)%nat as [|n] eqn:En; [lia|]. cbn [firstn].
      destruct (own_del_shape (aeq q) (a ++ r :: firstn n b)) as [(N & _)|(a' & r' & b' & E & -> & Hr' & Ha' & _)].
      * exfalso. rewrite Forall_forall in N. assert (In r (a ++ r :: firstn n b)) as I by (apply in_or_app; right; now left). rewrite (N r I) in Hr. discriminate Hr.
      * assert (a' = a /\ b' = firstn n b) as [-> ->].
        { clear - E Hr Hr' Ha Ha'. revert a' E Ha'. induction a as [|x a IH]; intros [|y a'] E Ha'; cbn [app] in E.
          - injection E as _ <-. auto.
          - injection E as -> _. inversion Ha'; subst. congruence.
          - injection E as <- _. inversion Ha; subst. congruence.
          - injection E as <- E. inversion Ha; inversion Ha'; subst. destruct (IH ltac:(assumption) a' E ltac:(assumption)) as [-> ->]. auto. }
        rewrite !firstn_app, firstn_firstn. f_equal. f_equal. lia.
Qed.

Definition ask_side (u : update f64) : bool := String.eqb (u_side u) "ask".
Definition bid_side (u : update f64) : bool := String.eqb (u_side u) "bid".

Lemma updA_good u l : real_price u -> good kA l -> good kA (upd_asks u l).
Proof. intros Hu G. apply goodA' in G. destruct G as [N S]. destruct (upd_asks_in u l Hu N S) as (N' & S' & _). now apply goodA. Qed.
Lemma updB_good u l : real_price u -> good kB l -> good kB (upd_bids u l).
Proof. intros Hu G. apply goodB' in G. destruct G as [N S]. destruct (upd_bids_in u l Hu N S) as (N' & S' & _). now apply goodB. Qed.
Lemma updA_in u l r : real_price u -> good kA l ->
  In r (upd_asks u l) <-> (nonzero u /\ r = row_of u) \/ (In r l /\ kA r <> kA (row_of u)).
Proof.
  intros Hu G. apply goodA' in G. destruct G as [N S]. destruct (upd_asks_in u l Hu N S) as (_ & _ & M). rewrite M.
  split; (intros [H|[H1 H2]]; [now left|right; split; [exact H1|]]); unfold nan_free in N; rewrite Forall_forall in N; specialize (N r H1); now apply (eq_kA (u_price u) r Hu N).
Qed.
Lemma updB_in u l r : real_price u -> good kB l ->
  In r (upd_bids u l) <-> (nonzero u /\ r = row_of u) \/ (In r l /\ kB r <> kB (row_of u)).
Proof.
  intros Hu G. apply goodB' in G. destruct G as [N S]. destruct (upd_bids_in u l Hu N S) as (_ & _ & M). rewrite M.
  split; (intros [H|[H1 H2]]; [now left|right; split; [exact H1|]]); unfold nan_free in N; rewrite Forall_forall in N; specialize (N r H1); now apply (eq_kB (u_price u) r Hu N).
Qed.
Lemma updA_set u d l : real_price u -> nonzero u -> good kA l -> take d (upd_asks u (take d l)) = take d (upd_asks u l).
Proof. intros Hu Z [N S]. unfold upd_asks. rewrite (proj2 (is_set_nonzero u) Z). now apply set_asks_trunc. Qed.
Lemma updB_set u d l : real_price u -> nonzero u -> good kB l -> take d (upd_bids u (take d l)) = take d (upd_bids u l).
Proof. intros Hu Z [N S]. unfold upd_bids. rewrite (proj2 (is_set_nonzero u) Z). now apply set_bids_trunc. Qed.
Lemma updA_del u d l : real_price u -> zero u -> good kA l -> 0 <= d -> take (d - 1) (upd_asks u (take d l)) = take (d - 1) (upd_asks u l).
Proof. intros Hu Z _ _. unfold upd_asks. rewrite (proj2 (is_set_zero u) Z). apply del_trunc. Qed.
Lemma updB_del u d l : real_price u -> zero u -> good kB l -> 0 <= d -> take (d - 1) (upd_bids u (take d l)) = take (d - 1) (upd_bids u l).
Proof. intros Hu Z _ _. unfold upd_bids. rewrite (proj2 (is_set_zero u) Z). apply del_trunc. Qed.

(** *** The run of the book, side by side *)
Lemma apart_step u tm d (A B : rows) : real_price u -> nan_free A -> nan_free B -> zlen A <= d -> zlen B <= d -> 0 <= d < 2 ^ 53 ->
  (u_side u = "ask"%string -> nonzero u -> forall b, In b B -> f64_lt (price b) (u_price u) = true) ->
  (u_side u = "bid"%string -> nonzero u -> forall a, In a A -> f64_lt (u_price u) (price a) = true) ->
  exists e, apply_update u (mkBook tm A B d) =
    Ret (mkBook tm (if ask_side u then take d (upd_asks u A) else A) (if bid_side u then take d (upd_bids u B) else B) d, e).
Proof.
  intros Hu Na Nb LA LB Hd X1 X2. unfold ask_side, bid_side.
  destruct (string_dec (u_side u) "ask") as [Ss|Ss].
  { rewrite Ss. change (String.eqb "ask" "ask") with true. change (String.eqb "ask" "bid") with false. cbn beta iota. exists None.
    unfold upd_asks. destruct (zero_or u) as [Z|Z].
    - rewrite (proj2 (is_set_zero u) Z).
      destruct (step_ask_del u (mkBook tm A B d) Ss Z) as [[F ->]|[F ->]]; cbn [max_depth asks bids b_time] in *; [lia| |].
      + rewrite del_row_none by assumption. now rewrite (take_all d A) by lia.
      + now rewrite (take_all d B) by lia.
    - rewrite (proj2 (is_set_nonzero u) Z).
      rewrite step_ask_set; cbn [max_depth asks bids b_time]; try assumption; try lia.
      rewrite cut_bids_free; [now rewrite (take_all d B) by lia|assumption|assumption|]. now apply X1. }
  destruct (string_dec (u_side u) "bid") as [Ss'|Ss'].
  { rewrite Ss'. change (String.eqb "bid" "ask") with false. change (String.eqb "bid" "bid") with true. cbn beta iota. exists None.
    unfold upd_bids. destruct (zero_or u) as [Z|Z].
    - rewrite (proj2 (is_set_zero u) Z).
      destruct (step_bid_del u (mkBook tm A B d) Ss' Z) as [[F ->]|[F ->]]; cbn [max_depth asks bids b_time] in *; [lia| |].
      + rewrite del_row_none by assumption. now rewrite (take_all d B) by lia.
      + now rewrite (take_all d A) by lia.
    - rewrite (proj2 (is_set_nonzero u) Z).
      rewrite step_bid_set; cbn [max_depth asks bids b_time]; try assumption; try lia.
      rewrite cut_asks_free; [now rewrite (take_all d A) by lia|assumption|assumption|]. now apply X2. }
  rewrite apply_bad_side by assumption. apply String.eqb_neq in Ss, Ss'. rewrite Ss, Ss'. now exists (Some bad_side).
Qed.

Lemma apart_run us : forall tm d A B, Forall real_price us -> good kA A -> good kB B -> zlen A <= d -> zlen B <= d -> 0 <= d < 2 ^ 53 ->
  apart_full A B us ->
  apply_updates us (mkBook tm A B d) = Ret (mkBook tm (shown_side upd_asks ask_side d us A) (shown_side upd_bids bid_side d us B) d).
Proof.
  induction us as [|u us IH]; intros tm d A B Q GA GB LA LB Hd (X1 & X2 & X3); [reflexivity|]. inversion Q; subst.
  destruct (apart_step u tm d A B) as (e & E); try assumption; try lia.
  - now apply goodA'.
  - now apply goodB'.
  - intros. apply X1; auto. now left.
  - intros. apply X2; auto. now left.
  - cbn [apply_updates shown_side fold_left]. rewrite E. cbn [bind]. apply IH; try assumption.
    + destruct (ask_side u); [|assumption]. apply good_take, updA_good; assumption.
    + destruct (bid_side u); [|assumption]. apply good_take, updB_good; assumption.
    + destruct (ask_side u); [|assumption]. apply zlen_take. lia.
    + destruct (bid_side u); [|assumption]. apply zlen_take. lia.
    + split; [|split].
      * intros v b Hv Sv Zv Hb. unfold bid_side in Hb. destruct (String.eqb (u_side u) "bid") eqn:Eb; [|apply X1; auto; now right].
        apply take_in in Hb. apply updB_in in Hb; [|assumption|assumption]. apply String.eqb_eq in Eb. destruct Hb as [[Zu ->]|[Hb _]].
        -- cbn [row_of price]. apply X3; auto; [now right|now left].
        -- apply X1; auto. now right.
      * intros v a Hv Sv Zv Ha. unfold ask_side in Ha. destruct (String.eqb (u_side u) "ask") eqn:Ea; [|apply X2; auto; now right].
        apply take_in in Ha. apply updA_in in Ha; [|assumption|assumption]. apply String.eqb_eq in Ea. destruct Ha as [[Zu ->]|[Ha _]].
        -- cbn [row_of price]. apply X3; auto; [now left|now right].
        -- apply X2; auto. now right.
      * intros; apply X3; auto; now right.
Qed.
Lemma apart_book us ob : Forall real_price us -> sizes_ok ob -> well_sorted ob -> within_depth ob -> sides_apart ob us ->
  apply_updates us ob = Ret (mkBook (b_time ob) (shown_side upd_asks ask_side (max_depth ob) us (asks ob))
    (shown_side upd_bids bid_side (max_depth ob) us (bids ob)) (max_depth ob)).
Proof.
  intros Q (La & Lb & Hd) (Na & Nb & Sa & Sb) [Wa Wb] X. destruct ob as [tm A B d]. cbn [asks bids b_time max_depth] in *.
  apply apart_run; try assumption; [now apply goodA|now apply goodB].
Qed.
Lemma apart_pre ob pre post : sides_apart ob (pre ++ post) -> sides_apart ob pre.
Proof.
  intros (X1 & X2 & X3). split; [|split]; intros; (apply X1 || apply X2 || apply X3); auto; apply in_or_app; auto.
Qed.

Lemma ask_lost_k us ob r : Forall real_price us -> sizes_ok ob -> well_sorted ob -> within_depth ob -> sides_apart ob us ->
  f64_is_nan (price r) = false ->
  ask_lost us ob r <-> lost kA upd_asks ask_side (max_depth ob) us (asks ob) r.
Proof.
  intros Q Z W D X Nr. pose proof W as (Na & Nb & Sa & Sb). split.
  - intros (pre & post & b & -> & E & H1 & H2 & H3). apply Forall_app in Q. destruct Q as [Q1 Q2].
    rewrite apart_book in E; try assumption; [|exact (apart_pre _ _ _ X)]. injection E as <-. cbn [asks] in *.
    exists pre, post. split; [reflexivity|]. split; [exact H1|]. split.
    + rewrite Forall_forall. intros x Hx. apply H2 in Hx. apply f64_lt_true in Hx. unfold kA. lia.
    + intros u Hu Mu. apply String.eqb_eq in Mu. specialize (H3 u Hu Mu). rewrite Forall_forall in Q2. now apply (eq_kA (u_price u) r (Q2 u Hu) Nr).
  - intros (pre & post & -> & H1 & H2 & H3). apply Forall_app in Q. destruct Q as [Q1 Q2].
    exists pre, post, (mkBook (b_time ob) (shown_side upd_asks ask_side (max_depth ob) pre (asks ob))
    (shown_side upd_bids bid_side (max_depth ob) pre (bids ob)) (max_depth ob)). split; [reflexivity|].
    split; [apply apart_book; try assumption; exact (apart_pre _ _ _ X)|]. cbn [asks]. split; [exact H1|]. split.
    + intros x Hx. rewrite Forall_forall in H2. specialize (H2 x Hx). simpl in H2.
      pose proof (shown_good kA upd_asks ask_side updA_good (max_depth ob) pre (asks ob) Q1 (goodA _ Na Sa)) as [P _]. rewrite Forall_forall in P.
      rewrite f64_lt_key; [|exact (P x Hx)|exact Nr]. apply Z.ltb_lt. exact H2.
    + intros u Hu Su. rewrite Forall_forall in Q2. apply (eq_kA (u_price u) r (Q2 u Hu) Nr). apply H3; [exact Hu|]. unfold ask_side. now apply String.eqb_eq.
Qed.
Lemma bid_lost_k us ob r : Forall real_price us -> sizes_ok ob -> well_sorted ob -> within_depth ob -> sides_apart ob us ->
  f64_is_nan (price r) = false ->
  bid_lost us ob r <-> lost kB upd_bids bid_side (max_depth ob) us (bids ob) r.
Proof.
  intros Q Z W D X Nr. pose proof W as (Na & Nb & Sa & Sb). split.
  - intros (pre & post & b & -> & E & H1 & H2 & H3). apply Forall_app in Q. destruct Q as [Q1 Q2].
    rewrite apart_book in E; try assumption; [|exact (apart_pre _ _ _ X)]. injection E as <-. cbn [bids] in *.
    exists pre, post. split; [reflexivity|]. split; [exact H1|]. split.
    + rewrite Forall_forall. intros x Hx. apply H2 in Hx. apply f64_lt_true in Hx. unfold kB. lia.
    + intros u Hu Mu. apply String.eqb_eq in Mu. specialize (H3 u Hu Mu). rewrite Forall_forall in Q2. now apply (eq_kB (u_price u) r (Q2 u Hu) Nr).
  - intros (pre & post & -> & H1 & H2 & H3). apply Forall_app in Q. destruct Q as [Q1 Q2].
    exists pre, post, (mkBook (b_time ob) (shown_side upd_asks ask_side (max_depth ob) pre (asks ob))
    (shown_side upd_bids bid_side (max_depth ob) pre (bids ob)) (max_depth ob)). split; [reflexivity|].
    split; [apply apart_book; try assumption; exact (apart_pre _ _ _ X)|]. cbn [bids]. split; [exact H1|]. split.
    + intros x Hx. rewrite Forall_forall in H2. specialize (H2 x Hx). simpl in H2.
      pose proof (shown_good kB upd_bids bid_side updB_good (max_depth ob) pre (bids ob) Q1 (goodB _ Nb Sb)) as [P _]. rewrite Forall_forall in P.
      rewrite f64_lt_key; [|exact Nr|exact (P x Hx)]. apply Z.ltb_lt. unfold kB in H2. lia.
    + intros u Hu Su. rewrite Forall_forall in Q2. apply (eq_kB (u_price u) r (Q2 u Hu) Nr). apply H3; [exact Hu|]. unfold bid_side. now apply String.eqb_eq.
Qed.

Theorem shown_asks us ob ob' : Forall real_price us -> sizes_ok ob -> well_sorted ob -> within_depth ob -> sides_apart ob us ->
  apply_updates us ob = Ret ob' ->
  forall r, In r (asks ob') <-> justified "ask" (asks ob) us r /\ ~ ask_lost us ob r.
Proof.
  intros Q Z W D X E r. pose proof W as (Na & Nb & Sa & Sb). rewrite apart_book in E by assumption. injection E as <-. cbn [asks].
  destruct (fA_in us (asks ob) Q Na Sa) as (Nf & _ & M).
  rewrite (shown_exactly kA upd_asks ask_side updA_good updA_in (max_depth ob) (asks ob) r) by (assumption || (apply Z) || (apply D) || (now apply goodA)).
  change (full_side upd_asks ask_side us (asks ob)) with (fA us (asks ob)).
  split; intros [H1 H2]; (split; [now apply M|]); intros L; apply H2; [assert (In r (fA us (asks ob))) as HF by exact H1|assert (In r (fA us (asks ob))) as HF by now apply M];
    unfold nan_free in Nf; rewrite Forall_forall in Nf; specialize (Nf r HF); now apply ask_lost_k.
Qed.
Theorem shown_bids us ob ob' : Forall real_price us -> sizes_ok ob -> well_sorted ob -> within_depth ob -> sides_apart ob us ->
  apply_updates us ob = Ret ob' ->
  forall r, In r (bids ob') <-> justified "bid" (bids ob) us r /\ ~ bid_lost us ob r.
Proof.
  intros Q Z W D X E r. pose proof W as (Na & Nb & Sa & Sb). rewrite apart_book in E by assumption. injection E as <-. cbn [bids].
  destruct (fB_in us (bids ob) Q Nb Sb) as (Nf & _ & M).
  rewrite (shown_exactly kB upd_bids bid_side updB_good updB_in (max_depth ob) (bids ob) r) by (assumption || (apply Z) || (apply D) || (now apply goodB)).
  change (full_side upd_bids bid_side us (bids ob)) with (fB us (bids ob)).
  split; intros [H1 H2]; (split; [now apply M|]); intros L; apply H2; [assert (In r (fB us (bids ob))) as HF by exact H1|assert (In r (fB us (bids ob))) as HF by now apply M];
    unfold nan_free in Nf; rewrite Forall_forall in Nf; specialize (Nf r HF); now apply bid_lost_k.
Qed.

Theorem reach_asks us ob ob' q : Forall real_price us -> sizes_ok ob -> well_sorted ob -> within_depth ob -> sides_apart ob us ->
  apply_updates us ob = Ret ob' -> asks_reach q us ob ->
  forall r, f64_le (price r) q = true -> In r (asks ob') <-> justified "ask" (asks ob) us r.
Proof.
  intros Q Z W D X E R r Hr. rewrite (shown_asks us ob ob' Q Z W D X E). split; [now intros [H _]|]. intros H. split; [exact H|].
  intros (pre & post & b & -> & Eb & H1 & H2 & _). destruct (R pre post b eq_refl Eb) as [L|(x & Hx & Lx)]; [lia|].
  specialize (H2 x Hx). apply f64_lt_true in H2. apply f64_le_true in Hr, Lx. lia.
Qed.
Theorem reach_bids us ob ob' q : Forall real_price us -> sizes_ok ob -> well_sorted ob -> within_depth ob -> sides_apart ob us ->
  apply_updates us ob = Ret ob' -> bids_reach q us ob ->
  forall r, f64_le q (price r) = true -> In r (bids ob') <-> justified "bid" (bids ob) us r.
Proof.
  intros Q Z W D X E R r Hr. rewrite (shown_bids us ob ob' Q Z W D X E). split; [now intros [H _]|]. intros H. split; [exact H|].
  intros (pre & post & b & -> & Eb & H1 & H2 & _). destruct (R pre post b eq_refl Eb) as [L|(x & Hx & Lx)]; [lia|].
  specialize (H2 x Hx). apply f64_lt_true in H2. apply f64_le_true in Hr, Lx. lia.
Qed.

Theorem best_rows us ob : Forall real_price us -> sizes_ok ob -> well_sorted ob -> within_depth ob -> sides_apart ob us ->
  exists ob' fa fb, apply_updates us ob = Ret ob' /\ asks_sorted fa /\ bids_sorted fb /\
    (forall r, In r fa <-> justified "ask" (asks ob) us r) /\
    (forall r, In r fb <-> justified "bid" (bids ob) us r) /\
    take (max_depth ob - deletions "ask" us) (asks ob') = take (max_depth ob - deletions "ask" us) fa /\
    take (max_depth ob - deletions "bid" us) (bids ob') = take (max_depth ob - deletions "bid" us) fb.
Proof.
  intros Q Z W D X. pose proof W as (Na & Nb & Sa & Sb). do 3 eexists. split; [now apply apart_book|]. cbn [asks bids].
  destruct (fA_in us (asks ob) Q Na Sa) as (_ & SA & MA). destruct (fB_in us (bids ob) Q Nb Sb) as (_ & SB & MB).
  split; [exact SA|]. split; [exact SB|]. split; [exact MA|]. split; [exact MB|]. split.
  - apply (top_rows kA upd_asks ask_side updA_good updA_set updA_del); [apply Z|now apply goodA|exact Q].
  - apply (top_rows kB upd_bids bid_side updB_good updB_set updB_del); [apply Z|now apply goodB|exact Q].
Qed.

Theorem deeper_book us ob d ob' : Forall real_price us -> sizes_ok ob -> well_sorted ob -> within_depth ob -> sides_apart ob us ->
  max_depth ob <= d < 2 ^ 53 -> apply_updates us ob = Ret ob' ->
  exists deep, apply_updates us (with_depth d ob) = Ret deep /\
    (forall r, In r (asks ob') -> In r (asks deep)) /\ (forall r, In r (bids ob') -> In r (bids deep)).
Proof.
  intros Q Z W D X Hd E. pose proof W as (Na & Nb & Sa & Sb). rewrite apart_book in E by assumption. injection E as <-. cbn [asks bids].
  destruct Z as (Z1 & Z2 & Z3). destruct D as [D1 D2].
  eexists. split; [apply apart_book|]; cbn [with_depth asks bids max_depth b_time]; try assumption.
  - unfold sizes_ok. cbn [with_depth asks bids max_depth]. lia.
  - unfold within_depth. cbn [with_depth asks bids max_depth]. lia.
  - split.
    + apply (deeper kA upd_asks ask_side updA_good updA_in); try lia; [now apply goodA|exact Q].
    + apply (deeper kB upd_bids bid_side updB_good updB_in); try lia; [now apply goodB|exact Q].
Qed.
