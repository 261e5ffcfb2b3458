(** Windowed indicators need only the candles of their windows (C106). *)
From Coq Require Import Lia ZArith.
From Verif Require Import Go.Outcome Go.Int64 Go.Slice Go.Float64 Go.Num Model.Candle Model.Indicators
  Spec.IndicatorSpec Proofs.MovingAverage Proofs.RSI Proofs.Fractals.
Open Scope list_scope.
Open Scope Z_scope.
Local Notation length := List.length.

Lemma window_beyond {A} (old new : list A) i n : window (length old + i) n (old ++ new) = window i n new.
Proof. unfold window. rewrite skipn_app, skipn_all2 by lia. cbn [app]. do 2 f_equal. lia. Qed.
Lemma window_within {A} (l more : list A) i n : (i + n <= length l)%nat -> window i n (l ++ more) = window i n l.
Proof.
  intros H. unfold window. rewrite skipn_app, firstn_app, skipn_length. replace (n - (length l - i))%nat with 0%nat by lia.
  cbn [firstn]. apply app_nil_r.
Qed.
Lemma map_seq_shift {B} (f g : nat -> B) k : forall a b, (forall i, (i < k)%nat -> f (a + i)%nat = g (b + i)%nat) -> map f (seq a k) = map g (seq b k).
Proof.
  induction k as [|k IH]; intros a b H; [reflexivity|]. cbn [seq map]. f_equal.
  - specialize (H 0%nat ltac:(lia)). now rewrite !Nat.add_0_r in H.
  - apply IH. intros i Hi. specialize (H (S i) ltac:(lia)). now rewrite !Nat.add_succ_r in H.
Qed.

(** ** MovingAverage *)
Lemma ma_lookback (old new spare spare' : list (candle f64)) n : (0 < n <= length new)%nat ->
  exists xs ys, moving_average (GSlice (old ++ new) spare) (Z.of_nat n) = Ret (xs ++ ys, None) /\
    moving_average (GSlice new spare') (Z.of_nat n) = Ret (ys, None) /\ length xs = length old.
Proof.
  intros H. rewrite !(@moving_average_spec f64 f64_num) by (rewrite ?app_length; lia).
  eexists (map _ (seq 0 (length old))), _. split; [|split; [reflexivity|now rewrite map_length, seq_length]].
  rewrite app_length. replace (length old + length new - n + 1)%nat with (length old + (length new - n + 1))%nat by lia.
  rewrite seq_app, map_app. do 3 f_equal. apply map_seq_shift. intros i Hi. unfold closes. rewrite map_app.
  rewrite <- (map_length c_close old) at 1. cbn [plus]. now rewrite window_beyond.
Qed.
Lemma ma_batches (old keep new s1 s2 s3 : list (candle f64)) n : (0 < n)%nat -> (length keep = n - 1)%nat -> old <> [] -> new <> [] ->
  exists xs ys, moving_average (GSlice (old ++ keep ++ new) s1) (Z.of_nat n) = Ret (xs ++ ys, None) /\
    moving_average (GSlice (old ++ keep) s2) (Z.of_nat n) = Ret (xs, None) /\
    moving_average (GSlice (keep ++ new) s3) (Z.of_nat n) = Ret (ys, None).
Proof.
  intros Hn Hk Ho He. assert (0 < length old)%nat by (destruct old; [congruence|simpl; lia]). assert (0 < length new)%nat by (destruct new; [congruence|simpl; lia]).
  rewrite !(@moving_average_spec f64 f64_num) by (rewrite ?app_length; lia).
  eexists _, _. split; [|split; reflexivity]. rewrite !app_length.
  replace (length old + (length keep + length new) - n + 1)%nat with (length old + length new)%nat by lia.
  replace (length old + length keep - n + 1)%nat with (length old) by lia. replace (length keep + length new - n + 1)%nat with (length new) by lia.
  rewrite seq_app, map_app. do 3 f_equal.
  - apply map_ext_in. intros j Hj. apply in_seq in Hj. f_equal. rewrite app_assoc. unfold closes. rewrite (map_app _ (old ++ keep)).
    apply window_within. rewrite map_length, app_length. lia.
  - apply map_seq_shift. intros i Hi. unfold closes. rewrite map_app.
    rewrite <- (map_length c_close old) at 1. cbn [plus]. now rewrite window_beyond.
Qed.

(** ** RSI *)
Lemma rsi_lookback (old new h : list (candle f64)) period : 14 <= zlen new -> h <> [] -> 0 <= period <= zlen new ->
  exists xs ys, rsi f64_to_f32 (GSlice (old ++ new) h) period = Ret (xs ++ ys, None) /\
    rsi f64_to_f32 (GSlice new h) period = Ret (ys, None) /\ length xs = length old.
Proof.
  intros Hl Hh Hp. assert (zlen (old ++ new) = Z.of_nat (length old) + zlen new) as L by (unfold zlen; rewrite app_length; lia).
  destruct (rsi_cases f64_to_f32 (old ++ new) h period ltac:(lia)) as (_ & R1 & _). destruct (rsi_cases f64_to_f32 new h period Hl) as (_ & R2 & _).
  rewrite R1, R2 by (assumption || lia). eexists (map _ (seq 0 (length old))), _. split; [|split; [reflexivity|now rewrite map_length, seq_length]].
  rewrite L. replace (Z.to_nat (Z.of_nat (length old) + zlen new + 1 - period)) with (length old + Z.to_nat (zlen new + 1 - period))%nat by lia.
  rewrite seq_app, map_app. do 3 f_equal. apply map_seq_shift. intros i Hi. rewrite <- app_assoc. cbn [plus]. now rewrite window_beyond.
Qed.
Lemma rsi_batches (old keep new h : list (candle f64)) period : 14 <= zlen (old ++ keep) -> 14 <= zlen (keep ++ new) -> h <> [] -> new <> [] -> old <> [] ->
  0 < period -> zlen keep = period - 1 ->
  exists xs ys, rsi f64_to_f32 (GSlice (old ++ keep ++ new) h) period = Ret (xs ++ ys, None) /\
    rsi f64_to_f32 (GSlice (old ++ keep) (new ++ h)) period = Ret (xs, None) /\
    rsi f64_to_f32 (GSlice (keep ++ new) h) period = Ret (ys, None).
Proof.
  intros L1 L2 Hh Hn Ho Hp Hk. assert (0 < length old)%nat by (destruct old; [congruence|simpl; lia]). assert (0 < length new)%nat by (destruct new; [congruence|simpl; lia]).
  assert (14 <= zlen (old ++ keep ++ new)) as L3 by (unfold zlen in *; rewrite !app_length in *; lia).
  destruct (rsi_cases f64_to_f32 _ h period L3) as (_ & R1 & _). destruct (rsi_cases f64_to_f32 _ (new ++ h) period L1) as (_ & R2 & _).
  destruct (rsi_cases f64_to_f32 _ h period L2) as (_ & R3 & _).
  rewrite R1, R2, R3 by (first [assumption|destruct new; [congruence|discriminate]|unfold zlen in *; rewrite !app_length in *; lia]).
  eexists _, _. split; [|split; reflexivity].
  replace (Z.to_nat (zlen (old ++ keep ++ new) + 1 - period)) with (length old + length new)%nat by (unfold zlen in *; rewrite !app_length in *; lia).
  replace (Z.to_nat (zlen (old ++ keep) + 1 - period)) with (length old) by (unfold zlen in *; rewrite !app_length in *; lia).
  replace (Z.to_nat (zlen (keep ++ new) + 1 - period)) with (length new) by (unfold zlen in *; rewrite !app_length in *; lia).
  rewrite seq_app, map_app. do 3 f_equal.
  - apply map_ext. intros j. now rewrite <- !app_assoc.
  - apply map_seq_shift. intros i Hi. rewrite <- app_assoc. cbn [plus]. now rewrite window_beyond.
Qed.

(** ** WilliamFractals *)
Lemma found_beyond old new i ft : (2 <= i < length new)%nat -> found (old ++ new) (length old + i) ft = found new i ft.
Proof.
  intros H. destruct (split3 new (i - 2) ltac:(lia)) as (before & a & b & x & right & E & L). unfold found. rewrite E.
  replace (Z.of_nat (length old + i) - 2) with (Z.of_nat (length (old ++ before))) by (rewrite app_length; lia).
  replace (Z.of_nat i - 2) with (Z.of_nat (length before)) by lia. rewrite app_assoc, !find_split. reflexivity.
Qed.
Lemma show_beyond old new i ft : show (old ++ new) ((length old + i)%nat, ft) = show new (i, ft).
Proof. unfold show. cbn [fst snd]. now rewrite nth_mid. Qed.
Lemma shown_at_beyond old new i : (2 <= i < length new)%nat ->
  flat_map (show (old ++ new)) (keys_at (old ++ new) (length old + i)) = flat_map (show new) (keys_at new i).
Proof.
  intros H. unfold keys_at. cbn [filter fst snd]. rewrite !found_beyond by exact H.
  destruct (found new i FractalUp), (found new i FractalDown); cbn [flat_map]; rewrite ?show_beyond; reflexivity.
Qed.
Lemma wf_lookback old new : exists xs ys, william_fractals (old ++ new) = Ret (xs ++ ys) /\ william_fractals new = Ret ys /\
  forall fr, In fr xs -> exists i ft, (i < length old + 2)%nat /\ reports (old ++ new) (i, ft) fr.
Proof.
  rewrite !wf_keys. unfold all_keys. rewrite app_length.
  exists (flat_map (show (old ++ new)) (flat_map (keys_at (old ++ new)) (seq 2 (min (length old) (length old + length new - 4))))).
  eexists. split; [|split; [reflexivity|]].
  - f_equal. destruct (Nat.le_gt_cases 4 (length new)) as [L|L].
    + replace (min (length old) (length old + length new - 4)) with (length old) by lia.
      replace (length old + length new - 4)%nat with (length old + (length new - 4))%nat by lia.
      rewrite seq_app, !flat_map_app. f_equal. clear L.
      assert (forall k a, (2 <= a)%nat -> (a + k <= length new)%nat ->
        flat_map (show (old ++ new)) (flat_map (keys_at (old ++ new)) (seq (length old + a) k)) = flat_map (show new) (flat_map (keys_at new) (seq a k))) as K.
      { induction k as [|k IH]; intros a Ha Hk; [reflexivity|]. cbn [seq flat_map]. rewrite !flat_map_app, shown_at_beyond by lia. f_equal.
        rewrite <- Nat.add_succ_r. apply IH; lia. }
      replace (2 + length old)%nat with (length old + 2)%nat by lia.
      destruct (Nat.le_gt_cases 4 (length new)); [apply K; lia|]. replace (length new - 4)%nat with 0%nat by lia. reflexivity.
    + replace (min (length old) (length old + length new - 4)) with (length old + length new - 4)%nat by lia.
      replace (length new - 4)%nat with 0%nat by lia. cbn [seq flat_map]. now rewrite app_nil_r.
  - intros fr H. apply in_flat_map in H. destruct H as ([i ft] & Hk & Hs). apply in_flat_map in Hk. destruct Hk as (j & Hj & Hk). apply in_seq in Hj.
    unfold keys_at in Hk. apply filter_In in Hk. destruct Hk as [Hk _]. assert (i = j) as -> by (destruct Hk as [Hk|[Hk|[]]]; now injection Hk).
    exists j, ft. split; [lia|]. unfold show in Hs. cbn [fst snd] in Hs. destruct (nth_error (old ++ new) j) as [c|] eqn:E; [|destruct Hs].
    destruct Hs as [<-|[]]. exists c. split; [exact E|reflexivity].
Qed.
