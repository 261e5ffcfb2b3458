(** Proofs about deals between two books (C119). *)
From Coq Require Import List Reals Lra Lia Sorting.Sorted Arith.
From Verif Require Import Model.OrderBook Spec.OrderBookSpec Spec.ArbitrageSpec.
Import ListNotations.
Open Scope list_scope.
Open Scope R_scope.

(** What sellers and buyers would gain if everything traded at [p]: a bound
    for every deal. *)
Definition over (p : R) (l : list (row R)) : R := fold_right (fun r a => volume r * Rmax 0 (price r - p) + a) 0 l.
Definition under (p : R) (l : list (row R)) : R := fold_right (fun r a => volume r * Rmax 0 (p - price r) + a) 0 l.

Lemma worth_over p xs l : taken xs l -> worth xs l - p * amount xs <= over p l.
Proof.
  intros T. induction T as [|x r xs l H T IH]; cbn; [lra|].
  assert (x * (price r - p) <= volume r * Rmax 0 (price r - p)).
  { pose proof (Rmax_l 0 (price r - p)). pose proof (Rmax_r 0 (price r - p)).
    apply Rle_trans with (x * Rmax 0 (price r - p)); [apply Rmult_le_compat_l; lra|apply Rmult_le_compat_r; lra]. }
  fold (amount xs). fold (over p l). nra.
Qed.
Lemma worth_under p xs l : taken xs l -> p * amount xs - worth xs l <= under p l.
Proof.
  intros T. induction T as [|x r xs l H T IH]; cbn; [lra|].
  assert (x * (p - price r) <= volume r * Rmax 0 (p - price r)).
  { pose proof (Rmax_l 0 (p - price r)). pose proof (Rmax_r 0 (p - price r)).
    apply Rle_trans with (x * Rmax 0 (p - price r)); [apply Rmult_le_compat_l; lra|apply Rmult_le_compat_r; lra]. }
  fold (amount xs). fold (under p l). nra.
Qed.
Lemma gain_bound p la lb xs ys : deal la lb xs ys -> gain la lb xs ys <= under p la + over p lb.
Proof.
  intros (A & B & E). pose proof (worth_over p ys lb B). pose proof (worth_under p xs la A).
  unfold gain. rewrite E in *. lra.
Qed.

Lemma over_none p l : stocked l -> Forall (fun r => price r <= p) l -> over p l = 0.
Proof.
  intros S H. induction H as [|r l H _ IH]; cbn; [reflexivity|]. inversion S; subst. fold (over p l). rewrite IH by assumption.
  rewrite Rmax_left by lra. lra.
Qed.
Lemma under_none p l : stocked l -> Forall (fun r => p <= price r) l -> under p l = 0.
Proof.
  intros S H. induction H as [|r l H _ IH]; cbn; [reflexivity|]. inversion S; subst. fold (under p l). rewrite IH by assumption.
  rewrite Rmax_left by lra. lra.
Qed.

Lemma asc_head a l : ascending (a :: l) -> Forall (fun r => price a <= price r) (a :: l).
Proof. intros S. inversion S; subst. constructor; [lra|assumption]. Qed.
Lemma desc_head a l : descending (a :: l) -> Forall (fun r => price r <= price a) (a :: l).
Proof. intros S. inversion S; subst. constructor; [lra|assumption]. Qed.
Lemma asc_price p v v' c c' l : ascending (mkRow p v c :: l) -> ascending (mkRow p v' c' :: l).
Proof. intros S. inversion S; subst. constructor; assumption. Qed.
Lemma desc_price p v v' c c' l : descending (mkRow p v c :: l) -> descending (mkRow p v' c' :: l).
Proof. intros S. inversion S; subst. constructor; assumption. Qed.

(** A price at which the bound is met. *)
Lemma matched_dual n : forall la lb lo hi, (length la + length lb <= n)%nat -> lo <= hi ->
  ascending la -> descending lb -> stocked la -> stocked lb ->
  Forall (fun r => lo <= price r) la -> Forall (fun r => price r <= hi) lb ->
  exists p, lo <= p <= hi /\ matched n la lb = under p la + over p lb.
Proof.
  induction n as [|n IH]; intros la lb lo hi L LH Sa Sb Va Vb Ha Hb.
  - destruct la, lb; cbn in L; try lia. exists lo. cbn. lra.
  - destruct la as [|a la].
    { exists hi. cbn. fold (over hi lb). rewrite over_none by assumption. lra. }
    destruct lb as [|b lb].
    { exists lo. cbn [matched]. rewrite under_none by assumption. cbn. lra. }
    pose proof (asc_head _ _ Sa) as Ma. pose proof (desc_head _ _ Sb) as Mb.
    inversion Ha as [|? ? Ha1 Ha2]; inversion Hb as [|? ? Hb1 Hb2]; subst.
    cbn [matched]. destruct (Rlt_dec (price a) (price b)) as [Q|Q].
    + assert (price a <= price b) as Q' by lra.
      inversion Sa as [|? ? Sa1 Sa2]; inversion Sb as [|? ? Sb1 Sb2]; inversion Va as [|? ? Va1 Va2];
      inversion Vb as [|? ? Vb1 Vb2]; inversion Ma as [|? ? Ma1 Ma2]; inversion Mb as [|? ? Mb1 Mb2]; subst.
      destruct a as [pa va ca], b as [pb vb cb]. cbn [price volume] in *.
      destruct (Rle_dec va vb) as [R|R].
      * destruct (IH la (mkRow pb (vb - va) 0 :: lb) pa pb) as (p & P1 & P2); auto.
        { cbn in *. lia. } { eapply desc_price; eassumption. } { constructor; cbn; [lra|assumption]. }
        exists p. split; [lra|]. rewrite P2. cbn. fold (over p lb) (under p la).
        rewrite !Rmax_right by lra. lra.
      * destruct (IH (mkRow pa (va - vb) 0 :: la) lb pa pb) as (p & P1 & P2); auto.
        { cbn in *. lia. } { eapply asc_price; eassumption. } { constructor; cbn; [lra|assumption]. }
        exists p. split; [lra|]. rewrite P2. cbn. fold (over p lb) (under p la).
        rewrite !Rmax_right by lra. lra.
    + exists (Rmax lo (price b)). split; [split; [apply Rmax_l|apply Rmax_lub; lra]|].
      rewrite under_none, over_none; auto; [lra| |].
      * eapply Forall_impl; [|exact Mb]. cbn. intros r H. pose proof (Rmax_r lo (price b)). lra.
      * eapply Forall_impl; [|exact Ma]. cbn. intros r H. assert (Rmax lo (price b) <= price a) by (apply Rmax_lub; lra). lra.
Qed.

Lemma taken_nothing l : stocked l -> taken (map (fun _ => 0) l) l /\ amount (map (fun _ => 0) l) = 0 /\ worth (map (fun _ => 0) l) l = 0.
Proof.
  intros S. induction S as [|r l H _ (A & B & C)]; [repeat split; constructor|]. cbn. split; [constructor; [lra|exact A]|].
  fold (amount (map (fun _ => 0) l)). lra.
Qed.

(** The matching is a deal. *)
Lemma matched_deal n : forall la lb, stocked la -> stocked lb ->
  exists xs ys, deal la lb xs ys /\ gain la lb xs ys = matched n la lb.
Proof.
  assert (forall la lb, stocked la -> stocked lb -> exists xs ys, deal la lb xs ys /\ gain la lb xs ys = 0) as Z.
  { intros la lb Va Vb. destruct (taken_nothing la Va) as (A1 & A2 & A3), (taken_nothing lb Vb) as (B1 & B2 & B3).
    do 2 eexists. split; [split; [exact A1|split; [exact B1|congruence]]|]. unfold gain. lra. }
  induction n as [|n IH]; intros la lb Va Vb; [now apply Z|].
  destruct la as [|[pa va ca] la]; [now apply Z|]. destruct lb as [|[pb vb cb] lb]; [now apply Z|].
  cbn [matched price volume]. destruct (Rlt_dec pa pb) as [Q|Q]; [|now apply Z].
  inversion Va as [|? ? Va1 Va2]; inversion Vb as [|? ? Vb1 Vb2]; subst. cbn [volume] in *.
  destruct (Rle_dec va vb) as [R|R].
  - destruct (IH la (mkRow pb (vb - va) 0 :: lb)) as (xs & ys & (D1 & D2 & D3) & G); auto.
    { constructor; cbn; [lra|assumption]. }
    inversion D2 as [|y r ys' l' Hy D2' E1 E2]; subst. cbn [volume] in Hy. clear D2. rename ys' into ys.
    exists (va :: xs), ((y + va) :: ys). cbn in D3, G. unfold gain in *. cbn in *. fold (amount ys) in *.
    split; [|nra]. split; [constructor; cbn; [lra|assumption]|]. split; [constructor; cbn; [lra|assumption]|].
    cbn. fold (amount xs) (amount ys). lra.
  - destruct (IH (mkRow pa (va - vb) 0 :: la) lb) as (xs & ys & (D1 & D2 & D3) & G); auto.
    { constructor; cbn; [lra|assumption]. }
    inversion D1 as [|x r xs' l' Hx D1' E1 E2]; subst. cbn [volume] in Hx. clear D1. rename xs' into xs.
    exists ((x + vb) :: xs), (vb :: ys). cbn in D3, G. unfold gain in *. cbn in *. fold (amount xs) in *.
    split; [|nra]. split; [constructor; cbn; [lra|assumption]|]. split; [constructor; cbn; [lra|assumption]|].
    cbn. fold (amount xs) (amount ys). lra.
Qed.

Lemma bounds la lb : exists lo hi : R, lo <= hi /\ Forall (fun r => lo <= price r) la /\ Forall (fun r => price r <= hi) lb.
Proof.
  assert (forall l, exists m : R, Forall (fun r => - m <= price r <= m) l) as B.
  { induction l as [|r l (m & H)]; [exists 0; constructor|]. exists (Rmax m (Rabs (price r))).
    pose proof (Rmax_l m (Rabs (price r))). pose proof (Rmax_r m (Rabs (price r))). constructor.
    - pose proof (Rle_abs (price r)). pose proof (Rle_abs (- price r)). rewrite Rabs_Ropp in *. lra.
    - eapply Forall_impl; [|exact H]. cbn. intros; lra. }
  destruct (B la) as (m & Hm), (B lb) as (k & Hk). exists (- m), (Rmax (- m) k). split; [apply Rmax_l|]. split.
  - eapply Forall_impl; [|exact Hm]. cbn. intros; lra.
  - eapply Forall_impl; [|exact Hk]. cbn. intros r H. pose proof (Rmax_r (- m) k). lra.
Qed.

Lemma matched_best la lb : ascending la -> descending lb -> stocked la -> stocked lb -> best_gain la lb (matched_gain la lb).
Proof.
  intros Sa Sb Va Vb. split; [apply matched_deal; assumption|]. intros xs ys D.
  destruct (bounds la lb) as (lo & hi & L & H1 & H2).
  destruct (matched_dual (length la + length lb) la lb lo hi (le_n _) L Sa Sb Va Vb H1 H2) as (p & _ & E).
  unfold matched_gain. rewrite E. now apply gain_bound.
Qed.
Lemma best_unique la lb g g' : best_gain la lb g -> best_gain la lb g' -> g = g'.
Proof.
  intros [(xs & ys & D & E) H] [(xs' & ys' & D' & E') H']. specialize (H _ _ D'). specialize (H' _ _ D). lra.
Qed.

(** ** Amounts from some of the rows *)
Lemma taken_filter f l xs : stocked l -> taken xs (filter f l) -> exists xs', taken xs' l /\ amount xs' = amount xs /\ worth xs' l = worth xs (filter f l).
Proof.
  intros S. revert xs. induction S as [|r l H S IH]; intros xs T.
  - inversion T; subst. exists []. repeat split; constructor.
  - cbn in T. cbn [filter]. destruct (f r).
    + inversion T as [|x r' xs0 l' Hx T' E1 E2]; subst. destruct (IH _ T') as (xs' & A & B & C).
      exists (x :: xs'). split; [constructor; assumption|]. cbn. fold (amount xs') (amount xs0). rewrite B, C. auto.
    + destruct (IH _ T) as (xs' & A & B & C). exists (0 :: xs'). split; [constructor; [lra|assumption]|].
      cbn. fold (amount xs'). rewrite B, C. split; lra.
Qed.
Lemma taken_all l : stocked l -> taken (map (fun r => volume r) l) l /\ amount (map (fun r => volume r) l) = total_volume l /\
  worth (map (fun r => volume r) l) l = value l.
Proof.
  intros S. induction S as [|r l H S (A & B & C)]; [repeat split; constructor|]. cbn. split; [constructor; [lra|exact A]|].
  fold (amount (map (fun r => volume r) l)) (total_volume l) (value l). rewrite B, C. split; lra.
Qed.
Lemma amount_app xs ys : amount (xs ++ ys) = amount xs + amount ys.
Proof. unfold amount. induction xs as [|x xs IH]; cbn; [lra|]. rewrite IH. lra. Qed.
Lemma worth_app xs ys l k : length xs = length l -> worth (xs ++ ys) (l ++ k) = worth xs l + worth ys k.
Proof.
  revert l. induction xs as [|x xs IH]; intros [|r l] E; cbn in *; try discriminate; [lra|]. injection E as E. rewrite IH by assumption. lra.
Qed.
Lemma taken_length xs l : taken xs l -> length xs = length l.
Proof. intros T. induction T; cbn; congruence. Qed.
Lemma taken_rev xs l : taken xs l -> taken (rev xs) (rev l) /\ amount (rev xs) = amount xs /\ worth (rev xs) (rev l) = worth xs l.
Proof.
  intros T. induction T as [|x r xs l H T (A & B & C)]; [repeat split; constructor|]. cbn [rev].
  split; [apply Forall2_app; [exact A|constructor; [assumption|constructor]]|].
  rewrite amount_app, worth_app by (rewrite !rev_length; now apply taken_length). rewrite B, C. cbn. fold (amount xs). split; lra.
Qed.
Lemma proceeds_taken l : forall v, stocked l -> 0 <= v <= total_volume l ->
  exists xs, taken xs l /\ amount xs = v /\ worth xs l = proceeds v l.
Proof.
  induction l as [|r l IH]; intros v S H.
  - exists []. cbn in *. split; [constructor|]. split; lra.
  - inversion S; subst. cbn in H. fold (total_volume l) in H. cbn [proceeds]. destruct (Rlt_dec v (volume r)) as [Q|Q].
    + destruct (taken_nothing l) as (A & B & C); [assumption|]. exists (v :: map (fun _ => 0) l).
      split; [constructor; [lra|exact A]|]. cbn. fold (amount (map (fun _ => 0) l)). split; lra.
    + destruct (IH (v - volume r)) as (xs & A & B & C); [assumption|lra|]. exists (volume r :: xs).
      split; [constructor; [lra|exact A]|]. cbn. fold (amount xs). split; lra.
Qed.
Lemma total_rev l : total_volume (rev l) = total_volume l.
Proof.
  assert (forall a b, total_volume (a ++ b) = total_volume a + total_volume b) as A.
  { unfold total_volume. induction a as [|r a IH]; intros b; cbn; [lra|]. rewrite IH. lra. }
  induction l as [|r l IH]; [reflexivity|]. cbn [rev]. rewrite A, IH. cbn. fold (total_volume l). lra.
Qed.
Lemma total_nonneg l : stocked l -> 0 <= total_volume l.
Proof. intros S. induction S as [|r l H S IH]; cbn; [lra|]. fold (total_volume l). lra. Qed.
Lemma stocked_filter f l : stocked l -> stocked (filter f l).
Proof. intros S. induction S as [|r l H S IH]; cbn; [constructor|]. destruct (f r); [constructor|]; assumption. Qed.
Lemma stocked_rev l : stocked l -> stocked (rev l).
Proof. intros S. apply Forall_rev. exact S. Qed.

Lemma total_app a b : total_volume (a ++ b) = total_volume a + total_volume b.
Proof. unfold total_volume. induction a as [|r a IH]; cbn; [lra|]. rewrite IH. lra. Qed.

Lemma under_filter p f l : (forall r, In r l -> f r = true <-> price r <= p) ->
  under p l = total_volume (filter f l) * p - value (filter f l).
Proof.
  induction l as [|r l IH]; intros H; [cbn; lra|]. cbn [filter under fold_right]. fold (under p l).
  rewrite IH by (intros x Hx; apply H; now right). specialize (H r (or_introl eq_refl)). destruct (f r).
  - assert (price r <= p) by (now apply H). rewrite Rmax_right by lra. cbn. fold (total_volume (filter f l)) (value (filter f l)). lra.
  - assert (~ price r <= p) by (rewrite <- H; discriminate). rewrite Rmax_left by lra. lra.
Qed.
