(** Property C103: RSI follows the newest close of its window and opposes the
    oldest.  Model: Model/Indicators.v; vocabulary: Spec/RsiMonotoneSpec.v. *)
From Coq Require Import Reals Lra Lia ZArith.
From Flocq Require Import Core BinarySingleNaN.
From Verif Require Import Go.Outcome Go.Int64 Go.Slice Go.Float64 Go.FloatReal Go.Num
  Model.Candle Model.Indicators Spec.IndicatorSpec Spec.RsiSpec Spec.RsiMonotoneSpec
  Proofs.RSI Proofs.Accuracy Proofs.RsiMonotone Props.IndicatorProps.
Open Scope list_scope.
Open Scope Z_scope.
Local Notation length := List.length.

Lemma ordered (w w' : list (candle f64)) : finite_closes w -> finite_closes w' ->
  (is_nan (f64_to_f32 (rsi_value w)) = false -> is_nan (f64_to_f32 (rsi_value w')) = false ->
    (B2R (f64_to_f32 (rsi_value w)) <= B2R (f64_to_f32 (rsi_value w')))%R) ->
  not_above32 (f64_to_f32 (rsi_value w)) (f64_to_f32 (rsi_value w')).
Proof.
  intros H H' K N N'. destruct (rsi_value_range w H) as [[E _]|(E & _)]; [congruence|]. destruct (rsi_value_range w' H') as [[E' _]|(E' & _)]; [congruence|].
  auto.
Qed.
(** calculateRSI: raising the last close of the window never lowers the
    result ... *)
Theorem C103_last_close : forall w c c', finite_closes (w ++ [c]) -> finite_closes (w ++ [c']) -> f64_le (c_close c) (c_close c') = true ->
  not_above32 (f64_to_f32 (rsi_value (w ++ [c]))) (f64_to_f32 (rsi_value (w ++ [c']))).
Proof.
  intros w c c' H H' L. apply ordered; try assumption. unfold finite_closes in *. apply Forall_app in H, H'. destruct H as [Hw Hc], H' as [_ Hc'].
  apply last_close; try assumption; [now inversion Hc|now inversion Hc'].
Qed.
(** ... and raising the first never raises it. *)
Theorem C103_first_close : forall w c c', finite_closes (c :: w) -> finite_closes (c' :: w) -> f64_le (c_close c) (c_close c') = true ->
  not_above32 (f64_to_f32 (rsi_value (c' :: w))) (f64_to_f32 (rsi_value (c :: w))).
Proof.
  intros w c c' H H' L. apply ordered; try assumption. unfold finite_closes in *. apply Forall_cons_iff in H, H'. destruct H as [Hc Hw], H' as [Hc' _].
  intros N N'. now apply (first_close w c c').
Qed.

Lemma window_mid {A} (pre : list A) c post j n : (j <= List.length pre < j + n)%nat ->
  window j n (pre ++ c :: post) = skipn j pre ++ c :: firstn (j + n - S (List.length pre)) post.
Proof.
  intros H. unfold window. rewrite skipn_app. replace (j - length pre)%nat with 0%nat by lia. cbn [skipn]. rewrite firstn_app, skipn_length.
  rewrite firstn_all2 by (rewrite skipn_length; lia). f_equal. replace (n - (length pre - j))%nat with (S (j + n - S (length pre))) by lia. reflexivity.
Qed.
Lemma window_before {A} (pre post : list A) j n : (j + n <= List.length pre)%nat -> window j n (pre ++ post) = window j n pre.
Proof.
  intros H. unfold window. rewrite skipn_app, firstn_app, skipn_length. replace (n - (length pre - j))%nat with 0%nat by lia. cbn [firstn]. apply app_nil_r.
Qed.
Lemma window_after {A} (pre post : list A) c j n : (List.length pre < j)%nat -> window j n (pre ++ c :: post) = window (j - S (List.length pre)) n post.
Proof.
  intros H. unfold window. rewrite skipn_app. rewrite skipn_all2 by lia. cbn [app]. replace (j - length pre)%nat with (S (j - S (length pre))) by lia. reflexivity.
Qed.
Lemma rsi_entries (v spare : list (candle f64)) period out : 1 <= period <= zlen v -> rsi f64_to_f32 (GSlice v spare) period = Ret (out, None) ->
  out = map (fun j => f64_to_f32 (rsi_value (window j (Z.to_nat (period + 1)) (v ++ spare)))) (seq 0 (Z.to_nat (zlen v + 1 - period))).
Proof.
  intros Hp E. destruct (Z.lt_ge_cases (zlen v) 14) as [S|S].
  { unfold rsi in E. cbn [is_nil vis] in E. rewrite (proj2 (Z.ltb_lt _ _) S) in E. discriminate. }
  destruct (rsi_cases f64_to_f32 v spare period S) as (C1 & C2 & C3).
  assert (spare <> []) as Hs.
  { intros ->. rewrite C3 in E by (right; right; split; [lia|reflexivity]). discriminate. }
  rewrite (C2 ltac:(lia) Hs) in E. now injection E as <-.
Qed.
(** RSI on two backing arrays that differ in the close of one candle, number
    [k], which the second has higher.  The values of the windows without that
    candle are the same, the value of the window that ends with it is not
    lower, that of the window that starts with it not higher. *)
Theorem C103_one_close_raised : forall k (v v' spare spare' : list (candle f64)) period out out',
  finite_closes (v ++ spare) -> finite_closes (v' ++ spare') -> raised_at k (v ++ spare) (v' ++ spare') ->
  zlen v = zlen v' -> 1 <= period <= zlen v ->
  rsi f64_to_f32 (GSlice v spare) period = Ret (out, None) -> rsi f64_to_f32 (GSlice v' spare') period = Ret (out', None) ->
  length out = length out' /\
  forall j x x', nth_error out j = Some x -> nth_error out' j = Some x' ->
    let last := (j + Z.to_nat period)%nat in
    ((k < j \/ last < k)%nat -> x = x') /\
    (k = last -> not_above32 x x') /\
    (k = j -> not_above32 x' x).
Proof.
  intros k v v' spare spare' period out out' F F' (pre & c & c' & post & <- & E1 & E2 & L) Hl Hp R R'.
  rewrite (rsi_entries _ _ _ _ Hp R). rewrite Hl in Hp. rewrite (rsi_entries _ _ _ _ Hp R'). rewrite Hl.
  split; [now rewrite !map_length|]. intros j x x' Hx Hx'. cbv zeta.
  rewrite E1 in *. rewrite E2 in *.
  rewrite nth_error_map in Hx, Hx'.
  assert (nth_error (seq 0 (Z.to_nat (zlen v' + 1 - period))) j = Some j) as Hj.
  { destruct (nth_error (seq 0 _) j) as [i|] eqn:Q; [|discriminate Hx].
    assert (j < Z.to_nat (zlen v' + 1 - period))%nat as B.
    { rewrite <- (seq_length (Z.to_nat (zlen v' + 1 - period)) 0). apply nth_error_Some. congruence. }
    apply nth_error_nth with (d := 0%nat) in Q. rewrite seq_nth in Q by assumption. cbn in Q. now subst i. }
  rewrite Hj in Hx, Hx'. cbn [option_map] in Hx, Hx'. injection Hx as <-. injection Hx' as <-.
  assert (forall i, finite_closes (window j i (pre ++ c :: post))) as W by (intros i; apply Forall_firstn, Forall_skipn, F).
  assert (forall i, finite_closes (window j i (pre ++ c' :: post))) as W' by (intros i; apply Forall_firstn, Forall_skipn, F').
  specialize (W (Z.to_nat (period + 1))). specialize (W' (Z.to_nat (period + 1))).
  split; [|split].
  - intros [K|K].
    + now rewrite !window_after by assumption.
    + rewrite !window_before by lia. reflexivity.
  - intros K. rewrite window_mid in W, W' by lia. rewrite !window_mid by lia.
    replace (j + Z.to_nat (period + 1) - S (List.length pre))%nat with 0%nat in * by lia. cbn [firstn] in *. now apply C103_last_close.
  - intros K. rewrite window_mid in W, W' by lia. rewrite !window_mid by lia. rewrite skipn_all2 in * by lia. cbn [app] in *. now apply C103_first_close.
Qed.

(** The closes between the first and the last of the window have no such
    direction: raising the middle one lowers RSI here and raises it there. *)
Lemma below32 (x y : f32) : is_finite x = true -> is_finite y = true -> Bltb x y = true -> (B2R x < B2R y)%R.
Proof. intros Fx Fy H. rewrite Bltb_correct in H by assumption. destruct (Rlt_bool_spec (B2R x) (B2R y)); [assumption|discriminate H]. Qed.
Theorem C103_inner_close_refuted : exists w1 w1' w2 w2' : list (candle f64),
  finite_closes w1 /\ finite_closes w1' /\ finite_closes w2 /\ finite_closes w2' /\
  length w1 = 3%nat /\ length w2 = 3%nat /\ raised_at 1 w1 w1' /\ raised_at 1 w2 w2' /\
  (B2R (f64_to_f32 (rsi_value w1')) < B2R (f64_to_f32 (rsi_value w1)))%R /\
  (B2R (f64_to_f32 (rsi_value w2)) < B2R (f64_to_f32 (rsi_value w2')))%R.
Proof.
  exists (map at_close [1; 1; 3]), (map at_close [1; 5; 3]), (map at_close [9; 5; 3]), (map at_close [9; 15; 3]).
  assert (forall a b c, f64_le (c_close (at_close b)) (c_close (at_close c)) = true -> forall d, raised_at 1 (map at_close [a; b; d]) (map at_close [a; c; d])) as R.
  { intros a b c H d. exists [at_close a], (at_close b), (at_close c), [at_close d]. auto. }
  assert (forall a b c, forallb (fun z => is_finite (i2f z)) [a; b; c] = true -> finite_closes (map at_close [a; b; c])) as Fin.
  { intros a b c H. cbn [forallb] in H. apply andb_true_iff in H. destruct H as [Ha H]. apply andb_true_iff in H. destruct H as [Hb H].
    apply andb_true_iff in H. destruct H as [Hc _]. repeat (apply Forall_cons; [assumption|]). apply Forall_nil. }
  split; [apply Fin; vm_compute; reflexivity|]. split; [apply Fin; vm_compute; reflexivity|].
  split; [apply Fin; vm_compute; reflexivity|]. split; [apply Fin; vm_compute; reflexivity|].
  split; [reflexivity|]. split; [reflexivity|]. split; [apply R; vm_compute; reflexivity|]. split; [apply R; vm_compute; reflexivity|].
  split; apply below32; vm_compute; reflexivity.
Qed.
(** Fourteen candles and a fifteenth behind them, which is raised: the only
    entry that can change is the last, and it rises. *)
Definition last_rsi (l : list Z) (spare period : Z) : option Z :=
  match rsi f64_to_f32 (GSlice (map at_close l) [at_close spare]) period with
  | Ret (out, None) => match nth_error out (Z.to_nat (zlen l - period)) with Some x => Some (Btrunc x) | None => None end
  | _ => None
  end.
Definition up_and_down : list Z := [3; 1; 4; 1; 5; 9; 2; 6; 5; 3; 5; 8; 9; 7].
Example C103_example : last_rsi up_and_down 5 14 = Some 52 /\ last_rsi up_and_down 8 14 = Some 56 /\
  raised_at 14 (map at_close up_and_down ++ [at_close 5]) (map at_close up_and_down ++ [at_close 8]) /\
  finite_closes (map at_close up_and_down ++ [at_close 5]).
Proof.
  split; [vm_compute; reflexivity|]. split; [vm_compute; reflexivity|]. split.
  - exists (map at_close up_and_down), (at_close 5), (at_close 8), []. repeat split. 
  - apply Forall_forall. intros c Hc. change (map at_close up_and_down ++ [at_close 5]) with (map at_close (up_and_down ++ [5])) in Hc.
    apply in_map_iff in Hc. destruct Hc as (z & <- & Hz). change (is_finite (i2f z) = true).
    assert (forallb (fun z => is_finite (i2f z)) (up_and_down ++ [5]) = true) as A by (vm_compute; reflexivity).
    rewrite forallb_forall in A. exact (A z Hz).
Qed.
