(** Regular series: groups of a fixed number of candles; composition. *)
From Coq Require Import Reals Lra Znumtheory.
From Flocq Require Import Core BinarySingleNaN.
From Verif Require Import Go.Outcome Go.Int64 Go.Slice Go.Float64 Go.FloatOrder Go.FloatReal Go.Text Go.Num
  Model.Candle Spec.CandleSpec Proofs.Lists Proofs.RoundTrip Proofs.Candle Proofs.CandleThms.
Open Scope list_scope.
Open Scope Z_scope.

Section Pieces.
Context {A : Type}.

Fixpoint chunks (k : nat) (cur rest : list A) : list (list A) :=
  match rest with
  | [] => [cur]
  | v :: r => if (List.length cur =? k)%nat then cur :: chunks k [v] r else chunks k (cur ++ [v]) r
  end.
Definition pieces (k : nat) (l : list A) : list (list A) :=
  match l with [] => [] | v :: r => chunks k [v] r end.

Lemma chunks_eq k cur rest : (1 <= List.length cur <= k)%nat ->
  chunks k cur rest = firstn k (cur ++ rest) :: pieces k (skipn k (cur ++ rest)).
Proof.
  revert cur. induction rest as [|v r IH]; intros cur H; simpl.
  - rewrite app_nil_r, firstn_all2, skipn_all2 by lia. reflexivity.
  - destruct (Nat.eqb_spec (List.length cur) k) as [E|E].
    + rewrite <- E, firstn_app_exact, skipn_app_exact. reflexivity.
    + rewrite IH by (rewrite app_length; simpl; lia). rewrite <- app_assoc. reflexivity.
Qed.
Lemma pieces_eq k l : (1 <= k)%nat -> l <> [] -> pieces k l = firstn k l :: pieces k (skipn k l).
Proof. intros Hk Hl. destruct l as [|v r]; [congruence|]. simpl pieces at 1. rewrite chunks_eq by (simpl; lia). reflexivity. Qed.

Lemma skipn_skipn_add (i j : nat) (l : list A) : skipn i (skipn j l) = skipn (j + i) l.
Proof.
  revert l. induction j as [|j IH]; intros l; [reflexivity|].
  destruct l as [|x l]; [now rewrite !skipn_nil|]. simpl. apply IH.
Qed.

Lemma pieces_nth k l i : (1 <= k)%nat ->
  nth_error (pieces k l) i = if (i * k <? List.length l)%nat then Some (firstn k (skipn (i * k) l)) else None.
Proof.
  intros Hk. revert l. induction i as [|i IH]; intros l.
  - destruct l as [|v r]; [reflexivity|]. rewrite pieces_eq by (assumption || discriminate). reflexivity.
  - destruct l as [|v r].
    { simpl. now destruct (k + i * k)%nat. }
    rewrite pieces_eq by (assumption || discriminate). cbn [nth_error]. rewrite IH.
    rewrite skipn_length, skipn_skipn_add. replace (S i * k)%nat with (k + i * k)%nat by lia.
    destruct (Nat.ltb_spec (i * k) (List.length (v :: r) - k)), (Nat.ltb_spec (k + i * k) (List.length (v :: r))); try lia; reflexivity.
Qed.

Lemma pieces_concat k l : (1 <= k)%nat -> List.concat (pieces k l) = l.
Proof.
  intros Hk. remember (List.length l) as m eqn:E. revert l E.
  induction m as [m IH] using lt_wf_ind. intros l ->.
  destruct l as [|v r]; [reflexivity|]. rewrite pieces_eq by (assumption || discriminate). simpl List.concat.
  rewrite (IH (List.length (skipn k (v :: r)))); [apply firstn_skipn| |reflexivity].
  rewrite skipn_length. cbn [List.length]. lia.
Qed.
Lemma pieces_nonempty k l : (1 <= k)%nat -> Forall (fun g => g <> []) (pieces k l).
Proof.
  intros Hk. rewrite Forall_forall. intros g Hg. apply In_nth_error in Hg as [i Hi].
  rewrite pieces_nth in Hi by assumption. destruct (Nat.ltb_spec (i * k) (List.length l)) as [L|L]; [|discriminate].
  injection Hi as <-. intros E. apply (f_equal (@List.length A)) in E. rewrite firstn_length, skipn_length in E. simpl in E. lia.
Qed.
(** The number of pieces is the quotient rounded up. *)
Lemma pieces_length k l : (1 <= k)%nat ->
  (List.length l <= List.length (pieces k l) * k)%nat /\
  (l <> [] -> ((List.length (pieces k l) - 1) * k < List.length l)%nat).
Proof.
  intros Hk. set (m := List.length (pieces k l)).
  assert (nth_error (pieces k l) m = None) as N by (apply nth_error_None; reflexivity).
  rewrite pieces_nth in N by assumption. destruct (Nat.ltb_spec (m * k) (List.length l)); [discriminate|].
  split; [assumption|]. intros Hl.
  assert (m <> 0)%nat as Hm.
  { unfold m. destruct l as [|v r]; [congruence|]. rewrite pieces_eq by (assumption || discriminate). discriminate. }
  assert (nth_error (pieces k l) (m - 1) <> None) as S.
  { apply nth_error_Some. fold m. lia. }
  rewrite pieces_nth in S by assumption. destruct (Nat.ltb_spec ((m - 1) * k) (List.length l)); [assumption|congruence].
Qed.

Lemma pieces_skipn k b l : (1 <= k)%nat -> skipn b (pieces k l) = pieces k (skipn (b * k) l).
Proof.
  intros Hk. revert l. induction b as [|b IH]; intros l; [reflexivity|].
  destruct l as [|v r]; [now rewrite !skipn_nil|].
  rewrite pieces_eq by (assumption || discriminate). cbn [skipn]. rewrite IH, skipn_skipn_add.
  f_equal.
Qed.
Lemma pieces_firstn k b l : (1 <= k)%nat -> List.concat (firstn b (pieces k l)) = firstn (b * k) l.
Proof.
  intros Hk. revert l. induction b as [|b IH]; intros l; [reflexivity|].
  destruct l as [|v r]; [now rewrite !firstn_nil|].
  rewrite pieces_eq by (assumption || discriminate). cbn [firstn List.concat]. rewrite IH.
  rewrite <- (firstn_skipn k (firstn (S b * k) (v :: r))). f_equal.
  - rewrite firstn_firstn. f_equal. lia.
  - rewrite skipn_firstn_comm. f_equal. lia.
Qed.

(** Counting boundaries gives pieces. *)
Lemma grp_chunks bd k cur rest s : (1 <= k)%nat -> (1 <= List.length cur <= k)%nat -> (s mod k = 0)%nat ->
  (forall j v, nth_error rest j = Some v -> bd v = ((s + List.length cur + j) mod k =? 0)%nat) ->
  grp bd cur rest = chunks k cur rest.
Proof.
  intros Hk. revert cur s. induction rest as [|v r IH]; intros cur s Hc Hs Hb; [reflexivity|].
  simpl. pose proof (Hb 0%nat v eq_refl) as H0. rewrite Nat.add_0_r in H0.
  apply Nat.mod_divides in Hs as [q Hq]; [|lia].
  destruct (Nat.eqb_spec (List.length cur) k) as [E|E].
  - assert (((s + List.length cur) mod k =? 0)%nat = true) as T.
    { apply Nat.eqb_eq, Nat.mod_divides; [lia|]. exists (q + 1)%nat. lia. }
    rewrite H0, T. f_equal. apply (IH [v] (s + k)%nat); [simpl; lia| |].
    + apply Nat.mod_divides; [lia|]. exists (q + 1)%nat. lia.
    + intros j w Hj. rewrite (Hb (S j) w) by assumption. do 2 f_equal. simpl. lia.
  - assert (((s + List.length cur) mod k =? 0)%nat = false) as T.
    { apply Nat.eqb_neq. rewrite Hq, Nat.add_comm, Nat.mul_comm, Nat.mod_add by lia. rewrite Nat.mod_small; lia. }
    rewrite H0, T. apply (IH (cur ++ [v]) s); [rewrite app_length; simpl; lia| |].
    + apply Nat.mod_divides; [lia|]. eauto.
    + intros j w Hj. rewrite (Hb (S j) w) by assumption. do 2 f_equal. rewrite app_length. simpl. lia.
Qed.
End Pieces.

Lemma pieces_map {A B} (f : A -> B) k l : (1 <= k)%nat -> pieces k (map f l) = map (map f) (pieces k l).
Proof.
  intros Hk. remember (List.length l) as m eqn:E. revert l E.
  induction m as [m IH] using lt_wf_ind. intros l ->.
  destruct l as [|v r]; [reflexivity|].
  rewrite (pieces_eq k (v :: r)) by (assumption || discriminate).
  rewrite (pieces_eq k (map f (v :: r))) by (assumption || discriminate). simpl map at 4. 
  rewrite firstn_map, skipn_map. cbn [map]. f_equal. apply (IH (List.length (skipn k (v :: r)))); [|reflexivity].
  rewrite skipn_length. cbn [List.length]. lia.
Qed.

Section Reg.
Context {F : Type} {N : GoFloat F}.
Hypothesis R5 : forall x : F, exists y, fround5 x = Some y.
Notation candle := (candle F).

Lemma near_regular_gap (t0 d : Z) (a b : candle) cs : regular t0 d (a :: b :: cs) -> near_times (a :: b :: cs) ->
  first_gap (a :: b :: cs) = d.
Proof.
  intros Hr Hn. rewrite first_gap_eq by (apply Hn; simpl; auto).
  rewrite (Hr 0%nat a eq_refl), (Hr 1%nat b eq_refl).
  replace (t0 + Z.of_nat 1 * (60 * d) - (t0 + Z.of_nat 0 * (60 * d))) with (d * 60) by lia.
  apply Z.quot_mul. lia.
Qed.

(** Resampling a regular series that starts aligned: groups of [k] candles. *)
Lemma modify_interval_regular tz cs t0 d k : 2 <= zlen cs -> 1 <= d -> (1 <= k)%nat ->
  regular t0 d cs -> near_times cs -> starts_interval tz (Z.of_nat k * d) t0 ->
  modify_interval tz cs (Z.of_nat k * d) = Ret (map agg (pieces k cs), None).
Proof.
  intros Hlen Hd Hk Hr Hn Ha.
  destruct cs as [|a [|b cs]]; [unfold zlen in Hlen; simpl in Hlen; lia|unfold zlen in Hlen; simpl in Hlen; lia|].
  assert (c_time a = t0) as Ta by (rewrite (Hr 0%nat a eq_refl); lia).
  assert (first_gap (a :: b :: cs) = d) as G by (eapply near_regular_gap; eauto).
  set (n := Z.of_nat k * d) in *.
  rewrite (mi_main R5 tz (a :: b :: cs) n [] a (b :: cs)); try rewrite G.
  - destruct (Z.eqb_spec n 0) as [E|E]; [unfold n in E; nia|].
    f_equal. f_equal. f_equal.
    unfold pieces. apply grp_chunks with (s := 0%nat); [assumption|simpl; lia|apply Nat.mod_0_l; lia|].
    intros j v Hj. assert (nth_error (a :: b :: cs) (S j) = Some v) as Hj' by exact Hj.
    assert (In v (a :: b :: cs)) as Iv by (eapply nth_error_In; eauto).
    pose proof (Hr (S j) v Hj') as Tv.
    assert (Z.abs (c_time v - c_time a) < 2 ^ 53) as Nv by (apply Hn; simpl; auto).
    apply eq_true_iff_eq. rewrite bdb_iff by assumption. rewrite Nat.eqb_eq.
    unfold on_boundary, minutes_apart. rewrite Tv, Ta.
    replace (t0 + Z.of_nat (S j) * (60 * d) - t0) with (Z.of_nat (S j) * d * 60) by lia.
    rewrite Z.abs_eq by nia. rewrite Z.div_mul by lia. unfold n.
    replace (0 + List.length [a] + j)%nat with (S j) by (simpl; lia).
    rewrite Nat.mod_divides by lia. split.
    + intros [q Hq].
      assert (Z.of_nat (S j) = q * Z.of_nat k) as E2 by nia.
      assert (0 <= q) by nia.
      exists (Z.to_nat q). nia.
    + intros [q Hq]. exists (Z.of_nat q). rewrite Hq. nia.
  - reflexivity.
  - assumption.
  - constructor.
  - apply aligned_iff. now rewrite Ta.
  - lia.
  - destruct (Z.eq_dec d 1); [auto|]. right. unfold n. nia.
  - unfold n. apply Z.rem_mul. lia.
Qed.

Lemma regular_skipn t0 d i (cs : list candle) : regular t0 d cs -> regular (t0 + Z.of_nat i * (60 * d)) d (skipn i cs).
Proof.
  intros H j c Hj. assert (nth_error cs (i + j) = Some c) as Hj'.
  { rewrite <- Hj. clear. revert cs. induction i as [|i IH]; intros cs; [reflexivity|]. destruct cs; simpl; [now destruct j|apply IH]. }
  rewrite (H _ _ Hj'). lia.
Qed.

Lemma agg_time (g : list candle) c r : g = c :: r -> c_time (agg g) = c_time c.
Proof. intros ->. reflexivity. Qed.

Lemma pieces_regular t0 d k (cs : list candle) : (1 <= k)%nat -> regular t0 d cs ->
  regular t0 (Z.of_nat k * d) (map agg (pieces k cs)).
Proof.
  intros Hk Hr i c Hi. rewrite nth_error_map in Hi. rewrite pieces_nth in Hi by assumption.
  destruct (Nat.ltb_spec (i * k) (List.length cs)) as [L|L]; [|discriminate].
  simpl in Hi. injection Hi as <-.
  destruct (skipn (i * k) cs) as [|x l] eqn:E.
  - apply (f_equal (@List.length _)) in E. rewrite skipn_length in E. simpl in E. lia.
  - destruct k as [|k]; [lia|]. cbn [firstn].
    rewrite (agg_time _ x _ eq_refl).
    pose proof (regular_skipn t0 d (i * S k) cs Hr 0%nat x) as H. rewrite E in H. rewrite (H eq_refl). lia.
Qed.

Lemma agg_in_times k (cs : list candle) a : (1 <= k)%nat -> In a (map agg (pieces k cs)) -> exists c, In c cs /\ c_time a = c_time c.
Proof.
  intros Hk H. apply in_map_iff in H as (g & <- & Hg).
  pose proof (pieces_nonempty k cs Hk) as Hne. rewrite Forall_forall in Hne. specialize (Hne g Hg).
  destruct g as [|c r]; [congruence|]. exists c. split; [|reflexivity].
  rewrite <- (pieces_concat k cs Hk). apply in_concat. exists (c :: r). simpl. auto.
Qed.
Lemma near_pieces k (cs : list candle) : (1 <= k)%nat -> near_times cs -> near_times (map agg (pieces k cs)).
Proof.
  intros Hk H a b Ha Hb. apply agg_in_times in Ha as (x & Ix & ->); [|assumption].
  apply agg_in_times in Hb as (y & Iy & ->); [|assumption]. now apply H.
Qed.
End Reg.

(** ** Composition: the price fields of a summary of summaries *)


Lemma fold_hmax_from l h h' : real_list l -> is_nan h = false -> is_nan h' = false -> key h' <= key h ->
  fold_left hmax l h = hmax h (fold_left hmax l h').
Proof.
  revert h h'. induction l as [|v l IH]; intros h h' Hl Nh Nh' Hk; simpl.
  - rewrite hmax_key by assumption. destruct (Z.ltb_spec (key h) (key h')); [lia|reflexivity].
  - inversion Hl as [|? ? Hv Hl']; subst.
    destruct (Z_lt_le_dec (key h) (key v)) as [L|L].
    + assert (hmax h v = v) as -> by (rewrite hmax_key by assumption; destruct (Z.ltb_spec (key h) (key v)); [reflexivity|lia]).
      assert (hmax h' v = v) as -> by (rewrite hmax_key by assumption; destruct (Z.ltb_spec (key h') (key v)); [reflexivity|lia]).
      destruct (fold_hmax_spec l v Hl' Hv) as (I1 & I2 & _).
      rewrite (hmax_key h) by assumption. destruct (Z.ltb_spec (key h) (key (fold_left hmax l v))); [reflexivity|lia].
    + assert (hmax h v = h) as -> by (rewrite hmax_key by assumption; destruct (Z.ltb_spec (key h) (key v)); [lia|reflexivity]).
      apply IH; auto using hmax_nan. rewrite hmax_key by assumption. destruct (Z.ltb_spec (key h') (key v)); lia.
Qed.
Lemma fold_hmin_from l h h' : real_list l -> is_nan h = false -> is_nan h' = false -> key h <= key h' ->
  fold_left hmin l h = hmin h (fold_left hmin l h').
Proof.
  revert h h'. induction l as [|v l IH]; intros h h' Hl Nh Nh' Hk; simpl.
  - rewrite hmin_key by assumption. destruct (Z.ltb_spec (key h') (key h)); [lia|reflexivity].
  - inversion Hl as [|? ? Hv Hl']; subst.
    destruct (Z_lt_le_dec (key v) (key h)) as [L|L].
    + assert (hmin h v = v) as -> by (rewrite hmin_key by assumption; destruct (Z.ltb_spec (key v) (key h)); [reflexivity|lia]).
      assert (hmin h' v = v) as -> by (rewrite hmin_key by assumption; destruct (Z.ltb_spec (key v) (key h')); [reflexivity|lia]).
      destruct (fold_hmin_spec l v Hl' Hv) as (I1 & I2 & _).
      rewrite (hmin_key h) by assumption. destruct (Z.ltb_spec (key (fold_left hmin l v)) (key h)); [reflexivity|lia].
    + assert (hmin h v = h) as -> by (rewrite hmin_key by assumption; destruct (Z.ltb_spec (key v) (key h)); [lia|reflexivity]).
      apply IH; auto using hmin_nan. rewrite hmin_key by assumption. destruct (Z.ltb_spec (key v) (key h')); lia.
Qed.


Lemma high_concat gs : Forall (fun g => g <> []) gs -> Forall sane_candle (List.concat gs) ->
  agg_high (map agg gs) = agg_high (List.concat gs).
Proof.
  intros Hne Hs. rewrite !agg_high_fold.
  assert (forall h, sane h -> fold_left hmax (map c_high (map agg gs)) h = fold_left hmax (map c_high (List.concat gs)) h) as G;
    [|apply G; apply const_sane].
  induction Hne as [|g gs Hg Hne IH]; intros h Hh; [reflexivity|].
  simpl in Hs. apply Forall_app in Hs as [Hs1 Hs2]. simpl map. cbn [fold_left].
  rewrite map_app, fold_left_app.
  assert (Forall sane (map c_high g)) as Sg.
  { rewrite Forall_map. eapply Forall_impl; [|exact Hs1]. intros c [H _]. exact H. }
  assert (map c_high g <> []) as Ng by (destruct g; [congruence|discriminate]).
  assert (c_high (agg g) = fold_left hmax (map c_high g) (f64_const (-1) 308)) as E.
  { destruct g as [|f r]; [congruence|]. cbn [agg c_high]. apply agg_high_fold. }
  pose proof (fold_hmax_maximum _ Ng Sg) as [M _]. rewrite <- E in M.
  destruct (sane_key h Hh) as [Nh [Kh _]].
  assert (fold_left hmax (map c_high g) h = hmax h (c_high (agg g))) as E2.
  { rewrite E. apply fold_hmax_from; auto using sane_real. }
  rewrite E2. apply IH; [assumption|].
  unfold hmax. destruct (f64_lt h (c_high (agg g))); [|assumption].
  rewrite Forall_forall in Sg. now apply Sg.
Qed.
Lemma low_concat gs : Forall (fun g => g <> []) gs -> Forall sane_candle (List.concat gs) ->
  agg_low (map agg gs) = agg_low (List.concat gs).
Proof.
  intros Hne Hs. rewrite !agg_low_fold.
  assert (forall h, sane h -> fold_left hmin (map c_low (map agg gs)) h = fold_left hmin (map c_low (List.concat gs)) h) as G;
    [|apply G; apply const_sane].
  induction Hne as [|g gs Hg Hne IH]; intros h Hh; [reflexivity|].
  simpl in Hs. apply Forall_app in Hs as [Hs1 Hs2]. simpl map. cbn [fold_left].
  rewrite map_app, fold_left_app.
  assert (Forall sane (map c_low g)) as Sg.
  { rewrite Forall_map. eapply Forall_impl; [|exact Hs1]. intros c [_ H]. exact H. }
  assert (map c_low g <> []) as Ng by (destruct g; [congruence|discriminate]).
  assert (c_low (agg g) = fold_left hmin (map c_low g) (f64_const 1 308)) as E.
  { destruct g as [|f r]; [congruence|]. cbn [agg c_low]. apply agg_low_fold. }
  pose proof (fold_hmin_minimum _ Ng Sg) as [M _]. rewrite <- E in M.
  destruct (sane_key h Hh) as [Nh [_ Kh]].
  assert (fold_left hmin (map c_low g) h = hmin h (c_low (agg g))) as E2.
  { rewrite E. apply fold_hmin_from; auto using sane_real. }
  rewrite E2. apply IH; [assumption|].
  unfold hmin. destruct (f64_lt (c_low (agg g)) h); [|assumption].
  rewrite Forall_forall in Sg. now apply Sg.
Qed.

Lemma agg_close {F} {N : GoFloat F} (pre : candles F) l : c_close (agg (pre ++ [l])) = c_close l.
Proof.
  destruct pre as [|f r]; [reflexivity|]. cbn [agg app c_close]. f_equal.
  apply (last_last r l f).
Qed.

Lemma agg_agg gs : gs <> [] -> Forall (fun g => g <> []) gs -> Forall sane_candle (List.concat gs) ->
  ohlc (agg (map agg gs)) = ohlc (agg (List.concat gs)).
Proof.
  intros Hn Hne Hs. pose proof (high_concat gs Hne Hs) as Hh. pose proof (low_concat gs Hne Hs) as Hl.
  assert (c_close (agg (map agg gs)) = c_close (agg (List.concat gs))) as Hc.
  { destruct (exists_last Hn) as (gs' & g & ->). apply Forall_app in Hne as [_ Hg].
    inversion Hg as [|? ? Hg' _]; subst. destruct (exists_last Hg') as (g' & l & ->).
    rewrite map_app. simpl map. rewrite agg_close, concat_app. simpl. rewrite app_nil_r, app_assoc, !agg_close. reflexivity. }
  destruct gs as [|g gs]; [congruence|]. inversion Hne as [|? ? Hg _]; subst.
  destruct g as [|f r]; [congruence|].
  unfold ohlc. rewrite Hc.
  assert (forall l : candles f64, l <> [] -> c_high (agg l) = agg_high l /\ c_low (agg l) = agg_low l) as Hagg.
  { intros [|x l] H; [congruence|]. auto. }
  destruct (Hagg (map agg ((f :: r) :: gs)) ltac:(discriminate)) as [-> ->].
  destruct (Hagg (List.concat ((f :: r) :: gs)) ltac:(discriminate)) as [-> ->].
  rewrite Hh, Hl. reflexivity.
Qed.

Lemma skipn_concat_pieces {A} k b i (l : list A) : (1 <= k)%nat ->
  List.concat (firstn b (skipn (i * b) (pieces k l))) = firstn (b * k) (skipn (i * (b * k)) l).
Proof.
  intros Hk. rewrite pieces_skipn by assumption. rewrite pieces_firstn by assumption. f_equal. f_equal. lia.
Qed.

Lemma compose_pieces k b (l : candles f64) : (1 <= k)%nat -> (1 <= b)%nat -> Forall sane_candle l ->
  map ohlc (map agg (pieces b (map agg (pieces k l)))) = map ohlc (map agg (pieces (b * k) l)).
Proof.
  intros Hk Hb Hs. rewrite pieces_map by assumption.
  assert (forall i, nth_error (map ohlc (map agg (map (map agg) (pieces b (pieces k l))))) i =
                    nth_error (map ohlc (map agg (pieces (b * k) l))) i) as E.
  { intros i. rewrite !nth_error_map.
    rewrite (pieces_nth b) by assumption. rewrite (pieces_nth (b * k)) by nia.
    assert ((i * b < List.length (pieces k l))%nat <-> (i * (b * k) < List.length l)%nat) as Iff.
    { rewrite <- nth_error_Some, pieces_nth by assumption.
      destruct (Nat.ltb_spec (i * b * k) (List.length l)); split; intros; try congruence; nia. }
    destruct (Nat.ltb_spec (i * b) (List.length (pieces k l))) as [L|L],
             (Nat.ltb_spec (i * (b * k)) (List.length l)) as [L2|L2]; try tauto; try lia.
    simpl. f_equal. rewrite agg_agg.
    - now rewrite skipn_concat_pieces by assumption.
    - intros E. apply (f_equal (@List.length _)) in E. rewrite firstn_length, skipn_length in E. simpl in E. lia.
    - apply Forall_forall. intros g Hg. apply in_firstn, in_skipn in Hg.
      pose proof (pieces_nonempty k l Hk) as P. rewrite Forall_forall in P. auto.
    - rewrite skipn_concat_pieces by assumption. rewrite Forall_forall in *. intros x Hx.
      apply Hs. eapply in_skipn, in_firstn; exact Hx. }
  clear -E. revert E. generalize (map ohlc (map agg (pieces (b * k) l))) (map ohlc (map agg (map (map agg) (pieces b (pieces k l))))).
  intros l1 l2. revert l1. induction l2 as [|x l2 IH]; intros [|y l1] E.
  - reflexivity.
  - specialize (E 0%nat). discriminate.
  - specialize (E 0%nat). discriminate.
  - pose proof (E 0%nat) as E0. injection E0 as <-. f_equal. apply IH. intros i. apply (E (S i)).
Qed.
