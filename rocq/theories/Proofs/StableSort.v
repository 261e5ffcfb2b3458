(** sort.SliceStable (Go/Sort.v) permutes its input, never leaves the bounds,
    and computes the unique stable sort when the comparison is given by an
    integer key. *)
From Coq Require Import Arith Sorting.Sorted Sorting.Permutation.
From Verif Require Import Go.Outcome Go.Slice Go.Sort Proofs.Lists.
Open Scope list_scope.
Open Scope nat_scope.
Local Notation length := List.length.

(** ** In-place operations on a segment *)
Section Ops.
Context {A : Type}.
Implicit Types (l u v w x y : list A) (a b : A).

Lemma nth_mid u a w i : i = length u -> nth_error (u ++ a :: w) i = Some a.
Proof. intros ->. rewrite nth_error_app2, Nat.sub_diag by lia. reflexivity. Qed.
Lemma put_mid u a w b i : i = length u -> put (u ++ a :: w) i b = u ++ b :: w.
Proof. intros ->. induction u as [|c u IH]; cbn [put app List.length]; [reflexivity|]. now rewrite IH. Qed.
Lemma swap_spec u a v b w i j : i = length u -> j = length u + 1 + length v ->
  swap (u ++ a :: v ++ b :: w) i j = Some (u ++ b :: v ++ a :: w).
Proof.
  intros Hi Hj. unfold swap. rewrite (nth_mid u a (v ++ b :: w) i Hi).
  assert (j = length (u ++ a :: v)) as Hj' by (rewrite app_length; cbn [List.length]; lia).
  replace (u ++ a :: v ++ b :: w) with ((u ++ a :: v) ++ b :: w) at 1 by (now rewrite <- app_assoc).
  rewrite (nth_mid _ b w j Hj'). rewrite (put_mid u a _ b i Hi).
  replace (u ++ b :: v ++ b :: w) with ((u ++ b :: v) ++ b :: w) by (now rewrite <- app_assoc).
  rewrite put_mid by (rewrite app_length in *; cbn [List.length] in *; lia). now rewrite <- app_assoc.
Qed.
Lemma swap_spec' u a v b w i j : i = length u -> j = length u + 1 + length v ->
  swap (u ++ a :: v ++ b :: w) j i = Some (u ++ b :: v ++ a :: w).
Proof.
  intros Hi Hj. unfold swap. rewrite (nth_mid u a (v ++ b :: w) i Hi).
  assert (j = length (u ++ a :: v)) as Hj' by (rewrite app_length; cbn [List.length]; lia).
  replace (u ++ a :: v ++ b :: w) with ((u ++ a :: v) ++ b :: w) by (now rewrite <- app_assoc).
  rewrite (nth_mid _ b w j Hj'). rewrite (put_mid _ b w a j Hj').
  rewrite <- app_assoc. cbn [app]. rewrite (put_mid u a _ b i Hi). reflexivity.
Qed.

Lemma swap_range_spec x : forall u v y w p q n, length x = n -> length y = n ->
  p = length u -> q = length u + n + length v ->
  swap_range (u ++ x ++ v ++ y ++ w) p q n = Some (u ++ y ++ v ++ x ++ w).
Proof.
  induction x as [|a x IH]; intros u v [|b y] w p q n Hx Hy Hp Hq; subst n; try discriminate; cbn [List.length swap_range app].
  - reflexivity.
  - rewrite (app_comm_cons x (v ++ b :: y ++ w) a). 
    replace ((a :: x) ++ v ++ b :: y ++ w) with (a :: (x ++ v) ++ b :: y ++ w) by (cbn [app]; now rewrite <- app_assoc).
    rewrite swap_spec by (rewrite ?app_length; cbn [List.length] in *; lia). cbn [obind].
    replace (u ++ b :: (x ++ v) ++ a :: y ++ w) with ((u ++ [b]) ++ x ++ (v ++ [a]) ++ y ++ w)
      by (rewrite <- !app_assoc; reflexivity).
    rewrite (IH (u ++ [b]) (v ++ [a]) y w) by (rewrite ?app_length; cbn [List.length] in *; lia).
    rewrite <- !app_assoc. reflexivity.
Qed.

Lemma split_at n l : n <= length l -> exists u v, l = u ++ v /\ length u = n.
Proof.
  intros H. exists (firstn n l), (skipn n l). split; [now rewrite firstn_skipn|]. rewrite firstn_length. lia.
Qed.

Lemma rotate_loop_spec fuel : forall u x y w m i j, i + j <= fuel -> 0 < i -> 0 < j ->
  length x = i -> length y = j -> m = length u + i ->
  rotate_loop fuel (u ++ x ++ y ++ w) m i j = Some (u ++ y ++ x ++ w).
Proof.
  induction fuel as [|f IH]; intros u x y w m i j Hf Hi Hj Hx Hy Hm; [lia|]. cbn [rotate_loop].
  destruct (Nat.eqb_spec i j) as [E|E].
  - subst j. pose proof (swap_range_spec x u [] y w (m - i) m i Hx ltac:(lia) ltac:(lia) ltac:(cbn; lia)) as H. exact H.
  - destruct (Nat.ltb_spec j i) as [L|L].
    + destruct (split_at j x ltac:(lia)) as (x1 & x2 & -> & Lx). rewrite app_length in Hx.
      rewrite <- app_assoc. rewrite (swap_range_spec x1 u x2 y w) by lia. cbn [obind].
      replace (u ++ y ++ x2 ++ x1 ++ w) with ((u ++ y) ++ x2 ++ x1 ++ w) by (now rewrite <- app_assoc).
      rewrite IH by (rewrite ?app_length; lia). now rewrite <- !app_assoc.
    + destruct (split_at (j - i) y ltac:(lia)) as (y1 & y2 & -> & Ly). rewrite app_length in Hy.
      rewrite <- (app_assoc y1). rewrite (swap_range_spec x u y1 y2 w) by lia. cbn [obind].
      rewrite IH by (rewrite ?app_length; lia). now rewrite <- !app_assoc.
Qed.
Lemma rotate_spec u x y w (a m b : nat) : a = length u -> m = a + length x -> b = m + length y -> 0 < length x -> 0 < length y ->
  rotate (u ++ x ++ y ++ w) a m b = Some (u ++ y ++ x ++ w).
Proof. intros. unfold rotate. apply rotate_loop_spec; lia. Qed.

Lemma swap_up_spec v : forall u a w k, k = length u ->
  swap_up (u ++ a :: v ++ w) k (length v) = Some (u ++ v ++ a :: w).
Proof.
  induction v as [|b v IH]; intros u a w k Hk; cbn [List.length swap_up app]; [reflexivity|].
  pose proof (swap_spec u a [] b (v ++ w) k (k + 1) Hk ltac:(cbn; lia)) as Q. cbn [app] in Q. rewrite Q. cbn [obind].
  replace (u ++ b :: a :: v ++ w) with ((u ++ [b]) ++ a :: v ++ w) by (now rewrite <- app_assoc).
  rewrite IH by (rewrite app_length; cbn; lia). now rewrite <- app_assoc.
Qed.
Lemma swap_down_spec v : forall u a w i, i = length u ->
  swap_down (u ++ v ++ a :: w) i (length v) = Some (u ++ a :: v ++ w).
Proof.
  induction v as [|b v IH] using rev_ind; intros u a w i Hi; [reflexivity|].
  rewrite app_length. cbn [List.length]. rewrite Nat.add_1_r. cbn [swap_down]. rewrite <- app_assoc. cbn [app].
  replace (u ++ v ++ b :: a :: w) with ((u ++ v) ++ b :: [] ++ a :: w) by (now rewrite <- app_assoc).
  rewrite swap_spec' by (rewrite app_length; cbn; lia). cbn [obind app].
  replace ((u ++ v) ++ a :: b :: w) with (u ++ v ++ a :: (b :: w)) by (now rewrite <- app_assoc).
  rewrite IH by assumption. now rewrite <- app_assoc.
Qed.
End Ops.

(** Binary search, for any test defined on the range. *)
Lemma bisect_spec (test : nat -> option bool) fuel : forall i j, j - i <= fuel -> i <= j ->
  (forall h, i <= h < j -> exists t, test h = Some t) ->
  exists k, bisect fuel test i j = Some k /\ i <= k <= j /\
    (k = i \/ test (k - 1) = Some true) /\ (k = j \/ test k = Some false).
Proof.
  induction fuel as [|f IH]; intros i j Hf Hij Ht.
  - cbn [bisect]. destruct (Nat.ltb_spec i j); [lia|]. exists i. split; [reflexivity|]. split; [lia|]. split; [now left|left; lia].
  - cbn [bisect]. destruct (Nat.ltb_spec i j) as [L|L].
    + assert (i <= Nat.div2 (i + j) < j) as Hh.
      { rewrite Nat.div2_div. split; [apply Nat.div_le_lower_bound; lia|apply Nat.div_lt_upper_bound; lia]. }
      destruct (Ht _ Hh) as [[|] Et]; rewrite Et; cbn [obind].
      * destruct (IH (Nat.div2 (i + j) + 1) j) as (k & Ek & Hk & H1 & H2); [lia|lia|intros h H; apply Ht; lia|].
        exists k. split; [exact Ek|]. split; [lia|]. split; [|exact H2]. right.
        destruct H1 as [->|H1]; [|exact H1]. now rewrite Nat.add_sub.
      * destruct (IH i (Nat.div2 (i + j))) as (k & Ek & Hk & H1 & H2); [lia|lia|intros h H; apply Ht; lia|].
        exists k. split; [exact Ek|]. split; [lia|]. split; [exact H1|]. right.
        destruct H2 as [->|H2]; assumption.
    + exists i. split; [reflexivity|]. split; [lia|]. split; [now left|left; lia].
Qed.

(** ** Sortedness by an integer key *)
Section Sort.
Context {A : Type} (less : A -> A -> bool) (k : A -> Z) (P : A -> Prop).

Definition asc (l : list A) := StronglySorted (fun a b => (k a <= k b)%Z) l.
Definition keyed (v : Z) (l : list A) := filter (fun a => (k a =? v)%Z) l.
(** [z] is a stable rearrangement of [l]. *)
Definition stable (l z : list A) := forall v, keyed v z = keyed v l.

Lemma keyed_app v l1 l2 : keyed v (l1 ++ l2) = keyed v l1 ++ keyed v l2.
Proof. apply filter_app. Qed.
Lemma keyed_none v l : (forall a, In a l -> k a <> v) -> keyed v l = [].
Proof.
  intros H. induction l as [|a l IH]; [reflexivity|]. cbn [keyed filter].
  destruct (Z.eqb_spec (k a) v) as [E|E]; [contradiction (H a (or_introl eq_refl) E)|]. apply IH. intros b Hb. apply H. now right.
Qed.
(** Exchanging two neighbouring runs without common keys is stable. *)
Lemma keyed_exchange v x y : (forall a b, In a x -> In b y -> k a <> k b) -> keyed v (x ++ y) = keyed v (y ++ x).
Proof.
  intros H. rewrite !keyed_app.
  destruct (existsb (fun a => (k a =? v)%Z) x) eqn:E.
  - apply existsb_exists in E as (a & Ha & Ea). apply Z.eqb_eq in Ea.
    rewrite (keyed_none v y) by (intros b Hb Eb; apply (H a b Ha Hb); congruence). now rewrite app_nil_r.
  - rewrite (keyed_none v x); [now rewrite app_nil_r|]. intros a Ha Ea.
    assert (existsb (fun a => (k a =? v)%Z) x = true) by (apply existsb_exists; exists a; split; [assumption|now apply Z.eqb_eq]). congruence.
Qed.
Lemma asc_app x y : asc (x ++ y) <-> asc x /\ asc y /\ (forall a b, In a x -> In b y -> (k a <= k b)%Z).
Proof. apply ss_app. Qed.
Lemma asc_cons a l : asc (a :: l) <-> asc l /\ (forall b, In b l -> (k a <= k b)%Z).
Proof. apply ss_cons. Qed.
Lemma asc_head a l b : asc (a :: l) -> In b (a :: l) -> (k a <= k b)%Z.
Proof. intros S [<-|H]; [lia|]. apply asc_cons in S as [_ S]. auto. Qed.
Lemma asc_last l a b : asc (l ++ [a]) -> In b (l ++ [a]) -> (k b <= k a)%Z.
Proof.
  intros S H. apply asc_app in S as (_ & _ & S). apply in_app_or in H as [H|[<-|[]]]; [|lia]. apply S; [assumption|now left].
Qed.
Lemma asc_single a : asc [a]. Proof. repeat constructor. Qed.
Lemma asc_nil : asc []. Proof. constructor. Qed.

(** What an operation on a segment [s] guarantees: a permutation, and with the
    hypotheses on [less], stability and order. *)
Definition ok (pre : Prop) (s z : list A) : Prop :=
  Permutation s z /\ ((forall a b, P a -> P b -> less a b = (k a <? k b)%Z) -> Forall P s -> pre -> asc z /\ stable s z).

Lemma perm_forall (s z : list A) : Permutation s z -> Forall P s -> Forall P z.
Proof. intros Hp H. rewrite Forall_forall in *. intros a Ha. apply H. eapply Permutation_in; [|exact Ha]. now apply Permutation_sym. Qed.

(** *** insertionSort *)
Lemma sift_spec x : forall u a w, exists x1 x2, x = x1 ++ x2 /\
  sift less (u ++ x ++ a :: w) (length u) (length x) = Some (u ++ x1 ++ a :: x2 ++ w) /\
  (forall b, In b x2 -> less a b = true) /\ (x1 = [] \/ exists y b, x1 = y ++ [b] /\ less a b = false).
Proof.
  induction x as [|b x IH] using rev_ind; intros u a w.
  - exists [], []. cbn [List.length sift app]. split; [reflexivity|]. split; [reflexivity|]. split; [intros b []|now left].
  - rewrite app_length. cbn [List.length]. rewrite Nat.add_1_r. cbn [sift].
    assert (less_at less (u ++ (x ++ [b]) ++ a :: w) (length u + S (length x)) (length u + length x) = Some (less a b)) as ->.
    { unfold less_at. rewrite <- app_assoc. cbn [app].
      replace (u ++ x ++ b :: a :: w) with ((u ++ x) ++ b :: a :: w) by (now rewrite <- app_assoc).
      rewrite (nth_mid (u ++ x) b (a :: w) (length u + length x)) by (rewrite app_length; lia).
      replace ((u ++ x) ++ b :: a :: w) with ((u ++ x ++ [b]) ++ a :: w) by (rewrite <- !app_assoc; reflexivity).
      rewrite nth_mid by (rewrite !app_length; cbn [List.length]; lia). reflexivity. }
    cbn [obind]. destruct (less a b) eqn:E.
    + replace (u ++ (x ++ [b]) ++ a :: w) with ((u ++ x) ++ b :: [] ++ a :: w) by (rewrite <- !app_assoc; reflexivity).
      rewrite swap_spec' by (rewrite app_length; cbn; lia). cbn [obind app].
      replace ((u ++ x) ++ a :: b :: w) with (u ++ x ++ a :: (b :: w)) by (now rewrite <- app_assoc).
      destruct (IH u a (b :: w)) as (x1 & x2 & Ex & Es & H2 & H1). exists x1, (x2 ++ [b]). split; [now rewrite Ex, app_assoc|].
      split; [rewrite Es; now rewrite <- app_assoc|]. split; [|exact H1].
      intros c Hc. apply in_app_or in Hc as [Hc|[<-|[]]]; auto.
    + exists (x ++ [b]), []. rewrite app_nil_r. split; [reflexivity|]. split; [reflexivity|]. split; [intros c []|]. right. eauto.
Qed.
Lemma sift_ok u x a w : exists z, sift less (u ++ x ++ a :: w) (length u) (length x) = Some (u ++ z ++ w) /\ ok (asc x) (x ++ [a]) z.
Proof.
  destruct (sift_spec x u a w) as (x1 & x2 & Ex & Es & H2 & H1). exists (x1 ++ a :: x2).
  split; [rewrite Es; now rewrite <- app_assoc|]. subst x. split.
  - rewrite <- app_assoc. apply Permutation_app_head. apply Permutation_sym, Permutation_cons_append.
  - intros Hl Hp S. rewrite Forall_forall in Hp.
    assert (forall b, In b x2 -> (k a < k b)%Z) as K2.
    { intros b Hb. specialize (H2 b Hb). rewrite Hl in H2; [now apply Z.ltb_lt|apply Hp; apply in_or_app; right; now left|apply Hp; apply in_or_app; left; apply in_or_app; now right]. }
    assert (forall b, In b x1 -> (k b <= k a)%Z) as K1.
    { destruct H1 as [->|(y & b & -> & Hb)]; [intros b []|]. apply asc_app in S as (S1 & _ & _). intros c Hc.
      pose proof (asc_last y b c S1 Hc). rewrite Hl in Hb.
      - apply Z.ltb_ge in Hb. lia.
      - apply Hp. apply in_or_app. right. now left.
      - apply Hp. apply in_or_app. left. apply in_or_app. left. apply in_or_app. right. now left. }
    apply asc_app in S as (S1 & S2 & S12). split.
    + apply asc_app. split; [exact S1|]. split; [apply asc_cons; split; [exact S2|intros b Hb; specialize (K2 b Hb); lia]|].
      intros c d Hc [<-|Hd]; auto.
    + intros v. rewrite <- app_assoc, !(keyed_app v x1). f_equal. change (a :: x2) with ([a] ++ x2). apply keyed_exchange.
      intros c d [<-|[]] Hd E. specialize (K2 d Hd). lia.
Qed.
Lemma insertion_loop_ok y : forall u x w, x <> [] -> exists z,
  insertion_loop less (u ++ x ++ y ++ w) (length u) (length u + length x) (length y) = Some (u ++ z ++ w) /\ ok (asc x) (x ++ y) z.
Proof.
  induction y as [|a y IH]; intros u x w Hx; cbn [List.length insertion_loop app].
  - exists x. split; [reflexivity|]. rewrite app_nil_r. split; [apply Permutation_refl|]. intros _ _ S. split; [exact S|intros v; reflexivity].
  - replace (length u + length x - length u) with (length x) by lia.
    destruct (sift_ok u x a (y ++ w)) as (z1 & E1 & O1). rewrite E1. cbn [obind].
    destruct O1 as [Pm1 O1]. assert (length z1 = length x + 1) as L1 by (rewrite <- (Permutation_length Pm1), app_length; reflexivity).
    destruct (IH u z1 w) as (z & E2 & Pm2 & O2); [intros ->; cbn in L1; lia|].
    rewrite L1 in E2. replace (length u + (length x + 1)) with (length u + length x + 1) in E2 by lia.
    exists z. split; [exact E2|]. split.
    + replace (x ++ a :: y) with ((x ++ [a]) ++ y) by (now rewrite <- app_assoc).
      eapply Permutation_trans; [|exact Pm2]. now apply Permutation_app_tail.
    + intros Hl Hp S. replace (x ++ a :: y) with ((x ++ [a]) ++ y) in * by (now rewrite <- app_assoc).
      apply Forall_app in Hp as [Hp1 Hp2]. destruct (O1 Hl Hp1 S) as [S1 St1].
      destruct (O2 Hl) as [S2 St2]; [apply Forall_app; split; [now apply (perm_forall (x ++ [a]))|assumption]|exact S1|].
      split; [exact S2|]. intros v. rewrite (St2 v), !keyed_app, (St1 v), keyed_app. reflexivity.
Qed.
Lemma insertion_sort_ok u x w a b : a = length u -> b = a + length x -> exists z,
  insertion_sort less (u ++ x ++ w) a b = Some (u ++ z ++ w) /\ ok True x z.
Proof.
  intros -> ->. unfold insertion_sort. destruct x as [|c y].
  - exists []. cbn [List.length]. replace (length u + 0 - (length u + 1)) with 0 by lia. split; [reflexivity|].
    split; [constructor|]. intros _ _ _. split; [constructor|intros v; reflexivity].
  - cbn [List.length]. replace (length u + S (length y) - (length u + 1)) with (length y) by lia.
    destruct (insertion_loop_ok y u [c] w ltac:(discriminate)) as (z & E & Pm & O). exists z.
    split; [exact E|]. split; [exact Pm|]. intros Hl Hp _. apply O; auto. apply asc_single.
Qed.

(** *** symMerge *)
Lemma less_at_some l i j : i < length l -> j < length l -> exists t, less_at less l i j = Some t.
Proof.
  intros Hi Hj. unfold less_at. destruct (nth_error l i) as [x|] eqn:Ei; [|apply nth_error_None in Ei; lia].
  destruct (nth_error l j) as [y|] eqn:Ej; [|apply nth_error_None in Ej; lia]. eauto.
Qed.
Lemma less_at_mid u a v b w i j : i = length u -> j = length u + 1 + length v ->
  less_at less (u ++ a :: v ++ b :: w) i j = Some (less a b) /\ less_at less (u ++ a :: v ++ b :: w) j i = Some (less b a).
Proof.
  intros Hi Hj. unfold less_at. rewrite (nth_mid u a _ i Hi).
  replace (u ++ a :: v ++ b :: w) with ((u ++ a :: v) ++ b :: w) by (now rewrite <- app_assoc).
  rewrite nth_mid by (rewrite app_length; cbn [List.length]; lia). auto.
Qed.

Definition merged (x y z : list A) : Prop := ok (asc x /\ asc y) (x ++ y) z.

Lemma merge_cross x1 x2 y1 y2 z1 z2 :
  merged x1 y1 z1 -> merged x2 y2 z2 ->
  (x1 = [] \/ y2 = [] \/ exists x' a b y', x1 = x' ++ [a] /\ y2 = b :: y' /\ less b a = false) ->
  (x2 = [] \/ y1 = [] \/ exists y' b a x', y1 = y' ++ [b] /\ x2 = a :: x' /\ less b a = true) ->
  merged (x1 ++ x2) (y1 ++ y2) (z1 ++ z2).
Proof.
  intros [Pm1 O1] [Pm2 O2] C1 C2. split.
  - eapply Permutation_trans; [|apply Permutation_app; [exact Pm1|exact Pm2]]. rewrite <- !app_assoc.
    apply Permutation_app_head. rewrite !app_assoc. apply Permutation_app_tail. apply Permutation_app_comm.
  - intros Hl Hp [Sx Sy]. apply asc_app in Sx as (Sx1 & Sx2 & Sx12). apply asc_app in Sy as (Sy1 & Sy2 & Sy12).
    rewrite !Forall_app in Hp. destruct Hp as [[Px1 Px2] [Py1 Py2]].
    destruct (O1 Hl ltac:(apply Forall_app; auto) ltac:(auto)) as [Sz1 St1].
    destruct (O2 Hl ltac:(apply Forall_app; auto) ltac:(auto)) as [Sz2 St2].
    rewrite Forall_forall in *.
    assert (forall a b, In a x1 -> In b y2 -> (k a <= k b)%Z) as K1.
    { destruct C1 as [->|[->|(x' & a & b & y' & -> & -> & E)]]; [intros a b []|intros a b _ []|].
      intros c d Hc Hd. pose proof (asc_last x' a c Sx1 Hc). pose proof (asc_head b y' d Sy2 Hd).
      rewrite Hl in E; [apply Z.ltb_ge in E; lia| |]; [apply Py2; now left|apply Px1; apply in_or_app; right; now left]. }
    assert (forall a b, In a x2 -> In b y1 -> (k b < k a)%Z) as K2.
    { destruct C2 as [->|[->|(y' & b & a & x' & -> & -> & E)]]; [intros a b []|intros a b _ []|].
      intros c d Hc Hd. pose proof (asc_last y' b d Sy1 Hd). pose proof (asc_head a x' c Sx2 Hc).
      rewrite Hl in E; [apply Z.ltb_lt in E; lia| |]; [apply Py1; apply in_or_app; right; now left|apply Px2; now left]. }
    split.
    + apply asc_app. split; [exact Sz1|]. split; [exact Sz2|]. intros a b Ha Hb.
      apply (Permutation_in _ (Permutation_sym Pm1)) in Ha. apply (Permutation_in _ (Permutation_sym Pm2)) in Hb.
      apply in_app_or in Ha as [Ha|Ha], Hb as [Hb|Hb]; auto. specialize (K2 b a Hb Ha). lia.
    + intros v. rewrite keyed_app, (St1 v), (St2 v), !keyed_app, <- !app_assoc. f_equal. rewrite !app_assoc. f_equal.
      rewrite <- !keyed_app. apply keyed_exchange. intros a b Ha Hb E. specialize (K2 b a Hb Ha). lia.
Qed.
Lemma merged_nil_l y : merged [] y y.
Proof. split; [apply Permutation_refl|]. intros _ _ [_ S]. split; [exact S|intros v; reflexivity]. Qed.
Lemma merged_nil_r x : merged x [] x.
Proof. unfold merged. rewrite app_nil_r. split; [apply Permutation_refl|]. intros _ _ [S _]. split; [exact S|intros v; reflexivity]. Qed.

Lemma last_of {B} (l : list B) : l <> [] -> exists y b, l = y ++ [b].
Proof. intros H. destruct (exists_last H) as (y & b & E). eauto. Qed.
Lemma len0 {B} (l : list B) : length l = 0 -> l = []. Proof. destruct l; [reflexivity|discriminate]. Qed.

Lemma sym_merge_ok fuel : forall u x y w a m b, b - a <= fuel -> a = length u -> m = a + length x -> b = m + length y ->
  x <> [] -> y <> [] -> exists z, sym_merge less fuel (u ++ x ++ y ++ w) a m b = Some (u ++ z ++ w) /\ merged x y z.
Proof.
  induction fuel as [|f IH]; intros u x y w a m b Hf Ha Hm Hb Hx Hy.
  { destruct x; [contradiction|]. cbn [List.length] in *. lia. }
  assert (0 < length x) as Lx by (destruct x; [contradiction|cbn; lia]).
  assert (0 < length y) as Ly by (destruct y; [contradiction|cbn; lia]).
  set (l := u ++ x ++ y ++ w). assert (b <= length l) as Ll by (unfold l; rewrite !app_length; lia).
  cbn [sym_merge]. destruct (Nat.eqb_spec (m - a) 1) as [E1|E1].
  - (* one element on the left *)
    destruct x as [|c [|]]; [contradiction| |cbn [List.length] in *; lia]. cbn [List.length] in *.
    destruct (bisect_spec (fun h => less_at less l h a) (b - m) m b) as (i & Ei & Hi & B1 & B2); [lia|lia| |].
    { intros h Hh. apply less_at_some; lia. }
    rewrite Ei. cbn [obind].
    destruct (split_at (i - m) y ltac:(lia)) as (y1 & y2 & Ey & L1).
    exists (y1 ++ c :: y2). split.
    + unfold l. rewrite Ey. replace (i - 1 - a) with (length y1) by lia.
      replace (u ++ [c] ++ (y1 ++ y2) ++ w) with (u ++ c :: y1 ++ (y2 ++ w)) by (cbn [app]; now rewrite <- !app_assoc).
      rewrite swap_up_spec by assumption. now rewrite <- app_assoc.
    + assert (length y1 + length y2 = length y) as Ly12 by (rewrite Ey, app_length; reflexivity).
      replace (c :: y2) with ([c] ++ y2) by reflexivity. change [c] with ([] ++ [c]) at 1. rewrite Ey.
      replace (y1 ++ [c] ++ y2) with (y1 ++ (c :: y2)) by reflexivity.
      apply (merge_cross [] [c] y1 y2 y1 (c :: y2)).
      * apply merged_nil_l.
      * (* [c] and y2 in order *)
        split; [apply Permutation_refl|]. intros Hl Hp [_ Sy2]. split; [|intros v; reflexivity].
        apply asc_cons. split; [exact Sy2|]. destruct y2 as [|d y2]; [intros e []|].
        intros e He. pose proof (asc_head d y2 e Sy2 He).
        destruct B2 as [B2|B2]; [cbn [List.length] in Ly12; lia|].
        unfold l in B2. rewrite Ey in B2.
        replace (u ++ [c] ++ (y1 ++ d :: y2) ++ w) with (u ++ c :: y1 ++ d :: (y2 ++ w)) in B2 by (cbn [app]; now rewrite <- !app_assoc).
        destruct (less_at_mid u c y1 d (y2 ++ w) a i ltac:(lia) ltac:(lia)) as [_ Q]. rewrite Q in B2. injection B2 as B2.
        inversion Hp as [|? ? Pc Hp']; subst. inversion Hp' as [|? ? Pd Hp'']; subst. rewrite Hl in B2 by assumption. apply Z.ltb_ge in B2. lia.
      * now left.
      * destruct y1 as [|e0 y1'] eqn:Ey1; [right; now left|]. rewrite <- Ey1 in *. right; right.
        destruct (last_of y1) as (y' & e & Ee); [rewrite Ey1; discriminate|]. exists y', e, c, []. split; [exact Ee|]. split; [reflexivity|].
        destruct B1 as [B1|B1]; [rewrite Ey1 in L1; cbn [List.length] in L1; lia|].
        unfold l in B1. rewrite Ey, Ee in B1.
        replace (u ++ [c] ++ ((y' ++ [e]) ++ y2) ++ w) with (u ++ c :: y' ++ e :: (y2 ++ w)) in B1 by (cbn [app]; now rewrite <- !app_assoc).
        rewrite Ee, app_length in L1. cbn [List.length] in L1.
        destruct (less_at_mid u c y' e (y2 ++ w) a (i - 1) ltac:(lia) ltac:(lia)) as [_ Q]. rewrite Q in B1. now injection B1 as B1.
  - destruct (Nat.eqb_spec (b - m) 1) as [E2|E2].
    + (* one element on the right *)
      destruct y as [|c [|]]; [contradiction| |cbn [List.length] in *; lia]. cbn [List.length] in *.
      destruct (bisect_spec (fun h => option_map negb (less_at less l m h)) (m - a) a m) as (i & Ei & Hi & B1 & B2); [lia|lia| |].
      { intros h Hh. destruct (less_at_some l m h) as [t Et]; [lia|lia|]. rewrite Et. cbn. eauto. }
      rewrite Ei. cbn [obind].
      destruct (split_at (i - a) x ltac:(lia)) as (x1 & x2 & Ex & L1).
      assert (length x1 + length x2 = length x) as Lx12 by (rewrite Ex, app_length; reflexivity).
      exists (x1 ++ c :: x2). split.
      * unfold l. rewrite Ex. replace (m - i) with (length x2) by lia.
        replace (u ++ (x1 ++ x2) ++ [c] ++ w) with ((u ++ x1) ++ x2 ++ c :: w) by (cbn [app]; now rewrite <- !app_assoc).
        rewrite swap_down_spec by (rewrite app_length; lia). now rewrite <- !app_assoc.
      * rewrite Ex. replace (x1 ++ c :: x2) with ((x1 ++ [c]) ++ x2) by (now rewrite <- app_assoc).
        change [c] with ([c] ++ []) at 1. apply (merge_cross x1 x2 [c] [] (x1 ++ [c]) x2).
        -- split; [apply Permutation_refl|]. intros Hl Hp [Sx1 _]. split; [|intros v; reflexivity].
           apply asc_app. split; [exact Sx1|]. split; [apply asc_single|]. intros e d He [<-|[]].
           destruct x1 as [|e0 x1'] eqn:Ex1; [destruct He|]. rewrite <- Ex1 in *.
           destruct (last_of x1) as (x' & g & Eg); [rewrite Ex1; discriminate|].
           destruct B1 as [B1|B1]; [rewrite Ex1 in L1; cbn [List.length] in L1; lia|].
           unfold l in B1. rewrite Ex, Eg in B1. pose proof L1 as L'. rewrite Eg, app_length in L'. cbn [List.length] in L'.
           replace (u ++ ((x' ++ [g]) ++ x2) ++ [c] ++ w) with ((u ++ x') ++ g :: x2 ++ c :: w) in B1 by (cbn [app]; now rewrite <- !app_assoc).
           destruct (less_at_mid (u ++ x') g x2 c w (i - 1) m) as [_ Q]; [rewrite app_length; lia|rewrite app_length; lia|].
           rewrite Q in B1. cbn [option_map] in B1. injection B1 as B1. apply negb_true_iff in B1.
           apply Forall_app in Hp as [Hp1 Hp2]. inversion Hp2 as [|? ? Pc _].
           rewrite Eg in Hp1. apply Forall_app in Hp1 as [_ Hp1]. inversion Hp1 as [|? ? Pg _].
           rewrite Hl in B1 by assumption. apply Z.ltb_ge in B1. rewrite Eg in Sx1, He. pose proof (asc_last x' g e Sx1 He). lia.
        -- apply merged_nil_r.
        -- right; now left.
        -- destruct x2 as [|d x2]; [now left|]. right; right. exists [], c, d, x2. split; [reflexivity|]. split; [reflexivity|].
           destruct B2 as [B2|B2]; [cbn [List.length] in Lx12; lia|].
           unfold l in B2. rewrite Ex in B2.
           replace (u ++ (x1 ++ d :: x2) ++ [c] ++ w) with ((u ++ x1) ++ d :: x2 ++ c :: w) in B2 by (cbn [app]; now rewrite <- !app_assoc).
           cbn [List.length] in Lx12.
           destruct (less_at_mid (u ++ x1) d x2 c w i m) as [_ Q]; [rewrite app_length; lia|rewrite app_length; lia|].
           rewrite Q in B2. cbn [option_map] in B2. injection B2 as B2. now apply negb_false_iff in B2.
    + (* the general case *)
      set (mid := Nat.div2 (a + b)).
      assert (2 * mid <= a + b <= 2 * mid + 1) as Hmid.
      { unfold mid. rewrite Nat.div2_div. pose proof (Nat.div_mod (a + b) 2 ltac:(lia)). pose proof (Nat.mod_upper_bound (a + b) 2 ltac:(lia)). lia. }
      clearbody mid. cbv zeta. set (n := mid + m).
      set (start0 := if mid <? m then n - b else a). set (r0 := if mid <? m then mid else m).
      assert (a <= start0 <= r0 /\ r0 <= m /\ r0 <= mid /\ n <= start0 + b /\
              (start0 = a \/ start0 + b = n) /\ (r0 = mid \/ r0 = m)) as (R1 & R2 & R3 & R4 & R5 & R6).
      { unfold start0, r0, n. destruct (Nat.ltb_spec mid m); lia. }
      assert (n = mid + m) as Hn by reflexivity. clearbody start0 r0 n.
      destruct (bisect_spec (fun c => option_map negb (less_at less l (n - 1 - c) c)) (b - a) start0 r0) as (s & Es & Hs & B1 & B2); [lia|lia| |].
      { intros h Hh. destruct (less_at_some l (n - 1 - h) h) as [t Et]; [lia|lia|]. rewrite Et. cbn. eauto. }
      rewrite Es. cbn [obind].
      destruct (split_at (s - a) x ltac:(lia)) as (x1 & x2 & Ex & Lx1).
      destruct (split_at (mid - s) y ltac:(lia)) as (y1 & y2 & Ey & Ly1).
      assert (length x1 + length x2 = length x) as Lx12 by (rewrite Ex, app_length; reflexivity).
      assert (length y1 + length y2 = length y) as Ly12 by (rewrite Ey, app_length; reflexivity).
      (* rotation *)
      assert ((if (s <? m) && (m <? n - s) then rotate l s m (n - s) else Some l) = Some (u ++ x1 ++ y1 ++ x2 ++ y2 ++ w)) as Er.
      { unfold l. rewrite Ex, Ey.
        replace (u ++ (x1 ++ x2) ++ (y1 ++ y2) ++ w) with ((u ++ x1) ++ x2 ++ y1 ++ (y2 ++ w)) by (now rewrite <- !app_assoc).
        destruct (Nat.ltb_spec s m) as [L1|L1]; cbn [andb].
        - destruct (Nat.ltb_spec m (n - s)) as [L2|L2].
          + rewrite rotate_spec by (rewrite ?app_length; lia). now rewrite <- !app_assoc.
          + rewrite (len0 y1) by (lia). cbn [app]. now rewrite <- !app_assoc.
        - rewrite (len0 x2) by lia. cbn [app]. now rewrite <- !app_assoc. }
      rewrite Er. cbn [obind].
      (* left half *)
      assert (exists z1, (if (a <? s) && (s <? mid) then sym_merge less f (u ++ x1 ++ y1 ++ x2 ++ y2 ++ w) a s mid
                          else Some (u ++ x1 ++ y1 ++ x2 ++ y2 ++ w)) = Some (u ++ z1 ++ x2 ++ y2 ++ w) /\ merged x1 y1 z1) as (z1 & Ez1 & M1).
      { destruct (Nat.ltb_spec a s) as [L1|L1]; cbn [andb].
        - destruct (Nat.ltb_spec s mid) as [L2|L2].
          + apply (IH u x1 y1 (x2 ++ y2 ++ w)); try lia; intros ->; cbn [List.length] in *; lia.
          + exists x1. rewrite (len0 y1) by lia. split; [reflexivity|apply merged_nil_r].
        - exists y1. rewrite (len0 x1) by lia. split; [reflexivity|apply merged_nil_l]. }
      rewrite Ez1. cbn [obind].
      assert (length z1 = length x1 + length y1) as Lz1 by (destruct M1 as [Pm _]; rewrite <- (Permutation_length Pm); apply app_length).
      (* right half *)
      assert (exists z2, (if (mid <? n - s) && (n - s <? b) then sym_merge less f (u ++ z1 ++ x2 ++ y2 ++ w) mid (n - s) b
                          else Some (u ++ z1 ++ x2 ++ y2 ++ w)) = Some (u ++ z1 ++ z2 ++ w) /\ merged x2 y2 z2) as (z2 & Ez2 & M2).
      { destruct (Nat.ltb_spec mid (n - s)) as [L1|L1]; cbn [andb].
        - destruct (Nat.ltb_spec (n - s) b) as [L2|L2].
          + replace (u ++ z1 ++ x2 ++ y2 ++ w) with ((u ++ z1) ++ x2 ++ y2 ++ w) by (now rewrite <- app_assoc).
            destruct (IH (u ++ z1) x2 y2 w mid (n - s) b) as (z2 & E & M); try (rewrite ?app_length; lia);
              try (intros ->; cbn [List.length] in *; lia).
            exists z2. rewrite E. split; [now rewrite <- app_assoc|exact M].
          + exists x2. rewrite (len0 y2) by (lia). split; [reflexivity|apply merged_nil_r].
        - exists y2. rewrite (len0 x2) by (lia). split; [reflexivity|apply merged_nil_l]. }
      exists (z1 ++ z2). split; [rewrite Ez2; now rewrite <- app_assoc|].
      rewrite Ex, Ey. apply merge_cross; auto.
      * (* last of x1 against first of y2 *)
        destruct x1 as [|e0 x1'] eqn:Ex1; [now left|]. rewrite <- Ex1 in *. destruct y2 as [|d y2]; [right; now left|]. right; right.
        destruct (last_of x1) as (x' & g & Eg); [rewrite Ex1; discriminate|]. exists x', g, d, y2. split; [exact Eg|]. split; [reflexivity|].
        assert (0 < length x1) as Lp by (rewrite Ex1; cbn; lia). cbn [List.length] in Ly12.
        destruct B1 as [B1|B1]; [lia|].
        pose proof Lx1 as L'. rewrite Eg, app_length in L'. cbn [List.length] in L'.
        unfold l in B1. rewrite Ex, Ey, Eg in B1.
        replace (u ++ ((x' ++ [g]) ++ x2) ++ (y1 ++ d :: y2) ++ w) with ((u ++ x') ++ g :: (x2 ++ y1) ++ d :: (y2 ++ w)) in B1
          by (rewrite <- !app_assoc; reflexivity).
        destruct (less_at_mid (u ++ x') g (x2 ++ y1) d (y2 ++ w) (s - 1) (n - 1 - (s - 1))) as [_ Q];
          [rewrite app_length; lia|rewrite !app_length; lia|].
        rewrite Q in B1. cbn [option_map] in B1. injection B1 as B1. now apply negb_true_iff in B1.
      * (* last of y1 against first of x2 *)
        destruct x2 as [|d x2]; [now left|]. destruct y1 as [|e0 y1'] eqn:Ey1; [right; now left|]. rewrite <- Ey1 in *. right; right.
        destruct (last_of y1) as (y' & g & Eg); [rewrite Ey1; discriminate|]. exists y', g, d, x2. split; [exact Eg|]. split; [reflexivity|].
        assert (0 < length y1) as Lp by (rewrite Ey1; cbn; lia). cbn [List.length] in Lx12.
        destruct B2 as [B2|B2]; [lia|].
        pose proof Ly1 as L'. rewrite Eg, app_length in L'. cbn [List.length] in L'.
        unfold l in B2. rewrite Ex, Ey, Eg in B2.
        replace (u ++ (x1 ++ d :: x2) ++ ((y' ++ [g]) ++ y2) ++ w) with ((u ++ x1) ++ d :: (x2 ++ y') ++ g :: (y2 ++ w)) in B2
          by (rewrite <- !app_assoc; reflexivity).
        destruct (less_at_mid (u ++ x1) d (x2 ++ y') g (y2 ++ w) s (n - 1 - s)) as [_ Q];
          [rewrite app_length; lia|rewrite !app_length; lia|].
        rewrite Q in B2. cbn [option_map] in B2. injection B2 as B2. now apply negb_false_iff in B2.
Qed.

(** *** stable: the loops over blocks *)
(** Consecutive sorted runs of [bs] elements, the last one possibly shorter. *)
Inductive runs (bs : nat) : list A -> Prop :=
| runs_last l : length l <= bs -> asc l -> runs bs l
| runs_cons x l : length x = bs -> asc x -> runs bs l -> runs bs (x ++ l).

Lemma runs_inv bs x l : length x = bs -> runs bs (x ++ l) -> asc x /\ runs bs l.
Proof.
  intros Hx H. remember (x ++ l) as m eqn:E. destruct H as [m H S|y m Hy S R].
  - rewrite E, app_length in H. assert (l = []) as -> by (apply len0; lia). rewrite app_nil_r in E. subst m.
    split; [exact S|]. apply runs_last; [cbn; lia|apply asc_nil].
  - apply app_eq_app in E as (t & [[-> ->]|[-> ->]]); rewrite app_length in *.
    + assert (t = []) as -> by (apply len0; lia). rewrite app_nil_r in S. auto.
    + assert (t = []) as -> by (apply len0; lia). rewrite app_nil_r. auto.
Qed.
Lemma runs_short bs l : 0 < bs -> runs bs l -> length l <= bs -> asc l.
Proof.
  intros Hb [m H S|x m Hx S R] L; [exact S|]. rewrite app_length in L. assert (m = []) as -> by (apply len0; lia). now rewrite app_nil_r.
Qed.

(** As [ok], for runs. *)
Definition okr (bs : nat) (pre : Prop) (s z : list A) : Prop :=
  Permutation s z /\ ((forall a b, P a -> P b -> less a b = (k a <? k b)%Z) -> Forall P s -> pre -> runs bs z /\ stable s z).

Lemma okr_app bs pre x z1 l z2 : length x = bs -> ok pre x z1 -> okr bs pre l z2 -> okr bs pre (x ++ l) (z1 ++ z2).
Proof.
  intros Hx [Pm1 O1] [Pm2 O2]. split; [now apply Permutation_app|]. intros Hl Hp Hpre. apply Forall_app in Hp as [Hp1 Hp2].
  destruct (O1 Hl Hp1 Hpre) as [S1 St1], (O2 Hl Hp2 Hpre) as [R2 St2]. split.
  - apply runs_cons; [rewrite <- (Permutation_length Pm1); exact Hx|exact S1|exact R2].
  - intros v. now rewrite !keyed_app, (St1 v), (St2 v).
Qed.
Lemma okr_last bs pre l z : length l <= bs -> ok pre l z -> okr bs pre l z.
Proof.
  intros Hl [Pm O]. split; [exact Pm|]. intros H1 H2 H3. destruct (O H1 H2 H3) as [S St]. split; [|exact St].
  apply runs_last; [rewrite <- (Permutation_length Pm); exact Hl|exact S].
Qed.
Lemma okr_weaken bs (pre pre' : Prop) l z : (pre' -> pre) -> okr bs pre l z -> okr bs pre' l z.
Proof. intros H [Pm O]. split; [exact Pm|]. auto. Qed.
Lemma ok_weaken (pre pre' : Prop) l z : (pre' -> pre) -> ok pre l z -> ok pre' l z.
Proof. intros H [Pm O]. split; [exact Pm|]. auto. Qed.

Lemma sort_blocks_ok bs : 0 < bs -> forall fuel u x a n, length x <= fuel -> a = length u -> n = a + length x ->
  exists z, sort_blocks less fuel (u ++ x) bs a n = Some (u ++ z) /\ okr bs True x z.
Proof.
  intros Hbs fuel. induction fuel as [|f IH]; intros u x a n Hf Ha Hn; cbn [sort_blocks]; destruct (Nat.leb_spec (a + bs) n) as [L|L]; [lia| | |].
  2: destruct (split_at bs x ltac:(lia)) as (x1 & x2 & -> & L1); rewrite app_length in *;
     destruct (insertion_sort_ok u x1 x2 a (a + bs) Ha ltac:(lia)) as (z1 & E1 & O1); rewrite E1; cbn [obind];
     pose proof (Permutation_length (proj1 O1)) as Lz;
     destruct (IH (u ++ z1) x2 (a + bs) n) as (z2 & E2 & O2); [lia|rewrite app_length; lia|lia|];
     rewrite app_assoc, E2; exists (z1 ++ z2); split; [now rewrite <- app_assoc|now apply okr_app].
  all: destruct (insertion_sort_ok u x [] a n Ha Hn) as (z & E & O); rewrite !app_nil_r in E; exists z; split; [exact E|apply okr_last; [lia|exact O]].
Qed.

Lemma merge_pass_ok bs : 0 < bs -> forall fuel u x a n, length x <= fuel -> a = length u -> n = a + length x ->
  exists z, merge_pass less fuel (u ++ x) bs a n = Some (u ++ z) /\ okr (2 * bs) (runs bs x) x z.
Proof.
  intros Hbs.
  assert (forall u x a n, a = length u -> n = a + length x -> n < a + 2 * bs ->
    exists z, (if a + bs <? n then sym_merge less (n - a) (u ++ x) a (a + bs) n else Some (u ++ x)) = Some (u ++ z) /\ okr (2 * bs) (runs bs x) x z) as Last.
  { intros u x a n Ha Hn L. destruct (Nat.ltb_spec (a + bs) n) as [L1|L1].
    - destruct (split_at bs x ltac:(lia)) as (x1 & x2 & -> & Lx). rewrite app_length in Hn.
      destruct (sym_merge_ok (n - a) u x1 x2 [] a (a + bs) n) as (z & E & M); try lia; try (intros ->; cbn [List.length] in *; lia).
      rewrite !app_nil_r in E. exists z. split; [exact E|]. apply okr_last; [rewrite app_length; lia|].
      eapply ok_weaken; [|exact M]. intros R. apply runs_inv in R as [S1 R]; [|exact Lx]. split; [exact S1|].
      apply (runs_short bs); [exact Hbs|exact R|lia].
    - exists x. split; [reflexivity|]. apply okr_last; [lia|]. split; [apply Permutation_refl|]. intros _ _ R. split; [|intros v; reflexivity].
      apply (runs_short bs); [exact Hbs|exact R|lia]. }
  induction fuel as [|f IH]; intros u x a n Hf Ha Hn; cbn [merge_pass]; (destruct (Nat.leb_spec (a + 2 * bs) n) as [L|L]; [|now apply Last]); [lia|].
  destruct (split_at bs x ltac:(lia)) as (x1 & y & -> & L1). rewrite app_length in *.
  destruct (split_at bs y ltac:(lia)) as (x2 & x3 & -> & L2). rewrite app_length in *.
  destruct (sym_merge_ok (2 * bs) u x1 x2 x3 a (a + bs) (a + 2 * bs)) as (z1 & E1 & M1); try lia; try (intros ->; cbn [List.length] in *; lia).
  rewrite E1. cbn [obind]. pose proof (Permutation_length (proj1 M1)) as Lz. rewrite app_length in Lz.
  destruct (IH (u ++ z1) x3 (a + 2 * bs) n) as (z2 & E2 & O2); [lia|rewrite app_length; lia|lia|].
  rewrite app_assoc, E2. exists (z1 ++ z2). split; [now rewrite <- app_assoc|]. rewrite app_assoc. apply okr_app.
  - rewrite app_length. lia.
  - eapply ok_weaken; [|exact M1]. intros R. rewrite <- app_assoc in R. apply runs_inv in R as [S1 R]; [|exact L1]. apply runs_inv in R as [S2 R]; [|exact L2]. auto.
  - eapply okr_weaken; [|exact O2]. intros R. rewrite <- app_assoc in R. apply runs_inv in R as [S1 R]; [|exact L1]. apply runs_inv in R as [S2 R]; [|exact L2]. auto.
Qed.

Lemma merge_passes_ok fuel : forall bs l n, 0 < bs -> n = length l -> n - bs <= fuel ->
  exists z, merge_passes less fuel l bs n = Some z /\ ok (runs bs l) l z.
Proof.
  assert (forall bs l n, 0 < bs -> n = length l -> n <= bs -> ok (runs bs l) l l) as Done.
  { intros bs l n Hbs Hn L. split; [apply Permutation_refl|]. intros _ _ R. split; [|intros v; reflexivity].
    apply (runs_short bs); [exact Hbs|exact R|lia]. }
  induction fuel as [|f IH]; intros bs l n Hbs Hn Hf; cbn [merge_passes]; (destruct (Nat.ltb_spec bs n) as [L|L]; [|exists l; split; [reflexivity|now apply (Done bs l n)]]); [lia|].
  destruct (merge_pass_ok bs Hbs n [] l 0 n ltac:(lia) eq_refl ltac:(cbn; lia)) as (z1 & E1 & Pm1 & O1).
  cbn [app] in E1. rewrite E1. cbn [obind].
  destruct (IH (2 * bs) z1 n) as (z & E2 & Pm2 & O2); [lia|rewrite <- (Permutation_length Pm1); exact Hn|lia|].
  rewrite E2. exists z. split; [reflexivity|]. split; [eapply Permutation_trans; eassumption|].
  intros Hl Hp R. destruct (O1 Hl Hp R) as [R1 St1]. destruct (O2 Hl ltac:(now apply (perm_forall l)) R1) as [S St2].
  split; [exact S|]. intros v. now rewrite (St2 v), (St1 v).
Qed.

(** No index out of range and no lack of fuel, whatever [less] answers. *)
Lemma stable_func_some l : exists z, stable_func less l (length l) = Some z /\ ok True l z.
Proof.
  unfold stable_func.
  destruct (sort_blocks_ok 20 ltac:(lia) (length l) [] l 0 (length l) ltac:(lia) eq_refl ltac:(cbn; lia)) as (z1 & E1 & Pm1 & O1).
  cbn [app] in E1. rewrite E1. cbn [obind].
  destruct (merge_passes_ok (length l) 20 z1 (length l)) as (z & E2 & Pm2 & O2); [lia|now apply Permutation_length|lia|].
  exists z. split; [exact E2|]. split; [eapply Permutation_trans; eassumption|].
  intros Hl Hp _. destruct (O1 Hl Hp I) as [R1 St1]. destruct (O2 Hl ltac:(now apply (perm_forall l)) R1) as [S St2].
  split; [exact S|]. intros v. now rewrite (St2 v), (St1 v).
Qed.
Lemma slice_stable_ok l : ok True l (slice_stable less l).
Proof. unfold slice_stable. destruct (stable_func_some l) as (z & E & O). now rewrite E. Qed.
End Sort.
Lemma sort_perm {A} (less : A -> A -> bool) l : Permutation l (slice_stable less l).
Proof. apply (slice_stable_ok less (fun _ => 0%Z) (fun _ => True)). Qed.

Open Scope Z_scope.
Section Spec.
Context {A : Type} (less : A -> A -> bool) (k : A -> Z) (P : A -> Prop).
Hypothesis less_k : forall x y, P x -> P y -> less x y = (k x <? k y).
Let asc := StronglySorted (fun a b => k a <= k b).

Lemma slice_stable_spec l : Forall P l ->
  asc (slice_stable less l) /\ Permutation l (slice_stable less l) /\
  (forall v, filter (fun a => k a =? v) (slice_stable less l) = filter (fun a => k a =? v) l).
Proof.
  intros Pl. destruct (slice_stable_ok less k P l) as [Pm O]. destruct (O less_k Pl I) as [S St].
  split; [exact S|]. split; [exact Pm|exact St].
Qed.

Lemma stable_unique l1 l2 :
  asc l1 -> asc l2 ->
  (forall v, filter (fun a => k a =? v) l1 = filter (fun a => k a =? v) l2) -> l1 = l2.
Proof.
  revert l2. induction l1 as [|x l1 IH]; intros l2 S1 S2 E.
  - destruct l2 as [|y l2]; [reflexivity|]. specialize (E (k y)). simpl in E.
    rewrite Z.eqb_refl in E. discriminate.
  - destruct l2 as [|y l2].
    + specialize (E (k x)). simpl in E. rewrite Z.eqb_refl in E. discriminate.
    + apply ss_cons in S1 as [S1 F1]. apply ss_cons in S2 as [S2 F2].
      assert (k x = k y) as K.
      { assert (In x (y :: l2)) as I1.
        { assert (In x (filter (fun a => k a =? k x) (y :: l2))) as I.
          { rewrite <- E. simpl. rewrite Z.eqb_refl. simpl; auto. }
          apply filter_In in I. tauto. }
        assert (In y (x :: l1)) as I2.
        { assert (In y (filter (fun a => k a =? k y) (x :: l1))) as I.
          { rewrite E. simpl. rewrite Z.eqb_refl. simpl; auto. }
          apply filter_In in I. tauto. }
        destruct I1 as [<-|I1]; [reflexivity|]. destruct I2 as [<-|I2]; [reflexivity|].
        specialize (F1 y I2). specialize (F2 x I1). simpl in F1, F2. lia. }
      assert (x = y) as <-.
      { specialize (E (k x)). simpl in E. rewrite Z.eqb_refl, <- K, Z.eqb_refl in E. congruence. }
      f_equal. apply IH; auto. intros v. specialize (E v). simpl in E.
      destruct (k x =? v); congruence.
Qed.
End Spec.
