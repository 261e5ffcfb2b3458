(** RSI and its last and first close (C103). *)
From Coq Require Import Reals Lra Lia.
From Flocq Require Import Core BinarySingleNaN.
From Verif Require Import Go.Outcome Go.Int64 Go.Slice Go.Float64 Go.FloatOrder Go.FloatReal Go.Num Model.Candle Model.Indicators
  Spec.IndicatorSpec Spec.RsiSpec Proofs.RSI.
Open Scope list_scope.
Open Scope R_scope.

Lemma nn_inf x : nn x -> is_finite x = false -> x = B754_infinity false.
Proof. intros [N S] F. destruct x as [s|s| |s m e B]; try discriminate. cbn in S. now subst s. Qed.
Lemma xr_inf : xr (B754_infinity false) = big.
Proof. reflexivity. Qed.
Lemma nn_below x y : nn x -> xr x <= xr y -> is_finite y = true -> is_finite x = true.
Proof.
  intros Nx L Fy. destruct (is_finite x) eqn:Fx; [reflexivity|]. exfalso. rewrite (nn_inf x Nx Fx), xr_inf, xr_finite in L by assumption.
  pose proof (B2R_lt_big y Fy) as B. pose proof (Rle_abs (B2R y)). lra.
Qed.
Lemma le_add x x' y y' : nn x -> nn x' -> nn y -> nn y' -> xr x <= xr x' -> xr y <= xr y' -> xr (f64_add x y) <= xr (f64_add x' y').
Proof.
  intros Nx Nx' Ny Ny' Lx Ly. destruct (is_finite x') eqn:Fx'; [destruct (is_finite y') eqn:Fy'|].
  - pose proof (nn_below x x' Nx Lx Fx') as Fx. pose proof (nn_below y y' Ny Ly Fy') as Fy. rewrite !xr_finite in Lx, Ly by assumption.
    destruct (add_xr x y Fx Fy) as [_ ->]. destruct (add_xr x' y' Fx' Fy') as [_ ->]. apply sat_mono, rnd_mono. lra.
  - rewrite (nn_inf y' Ny' Fy'). replace (f64_add x' (B754_infinity false)) with (B754_infinity false : f64); [rewrite xr_inf; apply xr_range|].
    destruct x' as [s|s| |s m e B]; try discriminate; reflexivity.
  - rewrite (nn_inf x' Nx' Fx'). replace (f64_add (B754_infinity false) y') with (B754_infinity false : f64); [rewrite xr_inf; apply xr_range|].
    destruct Ny' as [N S]. destruct y' as [s|s| |s m e B]; try discriminate; cbn in S; subst; reflexivity.
Qed.
Lemma le_sub a a' b b' : is_finite a = true -> is_finite a' = true -> is_finite b = true -> is_finite b' = true ->
  B2R a <= B2R a' -> B2R b' <= B2R b -> xr (f64_sub a b) <= xr (f64_sub a' b').
Proof.
  intros Fa Fa' Fb Fb' La Lb. destruct (sub_xr a b Fa Fb) as [_ ->]. destruct (sub_xr a' b' Fa' Fb') as [_ ->]. apply sat_mono, rnd_mono. lra.
Qed.
Lemma le_div u u' d d' : nn u -> nn u' -> nn d -> nn d' -> xr u <= xr u' -> xr d' <= xr d ->
  is_nan (f64_div u d) = false -> is_nan (f64_div u' d') = false -> xr (f64_div u d) <= xr (f64_div u' d').
Proof.
  intros Nu Nu' Nd Nd' Lu Ld N N'.
  destruct (nn_div u d Nu Nd) as [[K _]|(Q & Z1 & Z2)]; [congruence|]. destruct (nn_div u' d' Nu' Nd') as [[K _]|(Q' & Z1' & Z2')]; [congruence|].
  destruct (is_zero d') eqn:Zd'.
  { assert (f64_div u' d' = B754_infinity false) as ->; [|rewrite xr_inf; apply xr_range].
    destruct Nu' as [A1 A2], Nd' as [B1 B2]. destruct d' as [s|s| |s m e B]; try discriminate. cbn in B2. subst s.
    destruct u' as [s|s| |s m e B]; try discriminate; cbn in A2; subst; try reflexivity. }
  pose proof (nn_pos d' Nd' Zd') as Pd'. destruct (is_finite d) eqn:Fd.
  - pose proof (nn_below d' d Nd' Ld Fd) as Fd'. destruct (is_finite u') eqn:Fu'.
    + pose proof (nn_below u u' Nu Lu Fu') as Fu. pose proof (nn_xr u Nu) as Pu. rewrite !xr_finite in * by assumption.
      destruct (div_xr u d Fu Fd ltac:(lra)) as [_ ->]. destruct (div_xr u' d' Fu' Fd' ltac:(lra)) as [_ ->]. apply sat_mono, rnd_mono.
      unfold Rdiv. apply Rmult_le_compat; try lra.
      * left. apply Rinv_0_lt_compat. lra.
      * apply Rinv_le_contravar; lra.
    + assert (f64_div u' d' = B754_infinity false) as ->; [|rewrite xr_inf; apply xr_range].
      rewrite (nn_inf u' Nu' Fu'). destruct Nd' as [B1 B2]. destruct d' as [s|s| |s m e B]; try discriminate; cbn in B2; subst; reflexivity.
  - assert (xr (f64_div u d) = 0) as ->; [|now apply nn_xr].
    rewrite (nn_inf d Nd Fd) in *. destruct Nu as [A1 A2]. destruct u as [s|s| |s m e B]; try discriminate; reflexivity.
Qed.

Lemma le_of_rs rs rs' : nn rs -> nn rs' -> xr rs <= xr rs' -> B2R (rsi_of_rs rs) <= B2R (rsi_of_rs rs').
Proof.
  intros N N' L. assert (nn (i2f 1)) as N1 by (split; vm_compute; reflexivity). assert (nn (i2f 100)) as N100 by (split; vm_compute; reflexivity).
  assert (exact_int 100) as E100 by (apply exact_i; lia).
  pose proof (nn_add _ _ N1 N) as Nt. pose proof (nn_add _ _ N1 N') as Nt'.
  pose proof (le_add _ _ _ _ N1 N1 N N' (Rle_refl _) L) as Lt.
  assert (forall t, nn t -> nn (f64_div (i2f 100) t)) as D.
  { intros t Ht. destruct (nn_div (i2f 100) t N100 Ht) as [[_ [[K _]|[K _]]]|[Q _]]; [vm_compute in K; discriminate K|vm_compute in K; discriminate K|exact Q]. }
  pose proof (D _ Nt) as Q. pose proof (D _ Nt') as Q'.
  pose proof (le_div _ _ _ _ N100 N100 Nt' Nt (Rle_refl _) Lt (proj1 Q') (proj1 Q)) as Lq.
  destruct (rsi_of_nn rs N) as [F B]. destruct (rsi_of_nn rs' N') as [F' B'].
  assert (forall q, nn q -> is_finite (f64_sub (i2f 100) q) = true -> is_finite q = true) as Fin.
  { intros q Nq Fs. destruct (is_finite q) eqn:E; [reflexivity|]. rewrite (nn_inf q Nq E) in Fs. vm_compute in Fs. discriminate Fs. }
  pose proof (Fin _ Q F) as Fq. pose proof (Fin _ Q' F') as Fq'. rewrite !xr_finite in Lq by assumption.
  rewrite <- (xr_finite _ F), <- (xr_finite _ F'). unfold rsi_of_rs. apply le_sub; try assumption; try (apply i2f_finite; exact E100). apply Rle_refl.
Qed.
Lemma le_to_f32 x y : is_finite x = true -> 0 <= B2R x <= 100 -> is_finite y = true -> 0 <= B2R y <= 100 -> B2R x <= B2R y ->
  B2R (f64_to_f32 x) <= B2R (f64_to_f32 y).
Proof.
  assert (forall x : f64, is_finite x = true -> 0 <= B2R x <= 100 -> B2R (f64_to_f32 x) = rnd32 (B2R x)) as V.
  { intros z Fz Hz. destruct z as [s|s| |s m e B]; try discriminate.
    - cbn [f64_to_f32 B2R]. unfold rnd32. rewrite round_0; [reflexivity|apply valid_rnd_N].
    - unfold f64_to_f32.
      pose proof (binary_normalize_correct 24 128 prec24 emax128 mode_NE (cond_Zopp s (Z.pos m)) e s) as C.
      cbv beta zeta in C. change (round radix2 (SpecFloat.fexp 24 128) (round_mode mode_NE)) with rnd32 in C.
      change (F2R {| Fnum := cond_Zopp s (Z.pos m); Fexp := e |}) with (B2R (B754_finite s m e B : f64)) in C.
      assert (0 <= rnd32 (B2R (B754_finite s m e B : f64)) <= 100) as Hr.
      { assert (forall a b, a <= b -> rnd32 a <= rnd32 b) as M by (intros; apply round_le; [apply (fexp_correct 24 128 prec24)|apply valid_rnd_N|assumption]).
        split.
        - rewrite <- (rnd32_int 0) by lia. apply M. exact (proj1 Hz).
        - rewrite <- (rnd32_int 100) by lia. apply M. exact (proj2 Hz). }
      rewrite Rlt_bool_true in C; [exact (proj1 C)|].
      rewrite Rabs_pos_eq by lra. apply Rle_lt_trans with 100; [lra|]. change (bpow radix2 128) with (IZR (2 ^ 128)). apply IZR_lt. reflexivity. }
  intros Fx Hx Fy Hy L. rewrite !V by assumption. apply round_le; [apply (fexp_correct 24 128 prec24)|apply valid_rnd_N|assumption].
Qed.

(** The window with the larger rises and the smaller falls. *)
Lemma rsi_le (w w' : list (candle f64)) : Forall (fun c => is_finite (c_close c) = true) w -> Forall (fun c => is_finite (c_close c) = true) w' ->
  xr (fst (moves w)) <= xr (fst (moves w')) -> xr (snd (moves w')) <= xr (snd (moves w)) ->
  let r := f64_to_f32 (rsi_value w) in let r' := f64_to_f32 (rsi_value w') in
  is_nan r = false -> is_nan r' = false -> B2R r <= B2R r'.
Proof.
  intros H H' Lu Ld. cbv zeta. rewrite !rsi_value_moves. destruct (moves_nn w H) as [Nu Nd]. destruct (moves_nn w' H') as [Nu' Nd'].
  intros N N'.
  assert (forall u d, nn u -> nn d -> is_nan (f64_to_f32 (rsi_of_rs (f64_div u d))) = false -> nn (f64_div u d)) as K.
  { intros u d A B C. destruct (nn_div u d A B) as [[E _]|[E _]]; [|exact E]. apply rsi_of_nan in E. destruct (rsi_of_rs (f64_div u d)); try discriminate E. discriminate C. }
  pose proof (K _ _ Nu Nd N) as Q. pose proof (K _ _ Nu' Nd' N') as Q'.
  destruct (rsi_of_nn _ Q) as [F B]. destruct (rsi_of_nn _ Q') as [F' B'].
  apply le_to_f32; try assumption. apply le_of_rs; try assumption. apply le_div; try assumption; [apply Q|apply Q'].
Qed.

(** One step of the sums. *)
Definition stp (p c : candle f64) (ud : f64 * f64) : f64 * f64 :=
  if f64_lt (c_close p) (c_close c) then (f64_add (fst ud) (f64_sub (c_close c) (c_close p)), snd ud)
  else if f64_lt (c_close c) (c_close p) then (fst ud, f64_add (snd ud) (f64_sub (c_close p) (c_close c)))
  else ud.
Lemma sums_cons p c cs u d : @rsi_sums f64 f64_num p (c :: cs) u d =
  rsi_sums c cs (fst (stp p c (u, d))) (snd (stp p c (u, d))).
Proof. cbn [rsi_sums flt fadd fsub f64_num]. unfold stp. destruct (f64_lt _ _); [reflexivity|]. destruct (f64_lt _ _); reflexivity. Qed.
Lemma sums_snoc cs : forall p c u d, @rsi_sums f64 f64_num p (cs ++ [c]) u d = stp (last cs p) c (rsi_sums p cs u d).
Proof.
  induction cs as [|a cs IH]; intros p c u d.
  - cbn [app last]. rewrite sums_cons. cbn [rsi_sums]. now rewrite <- surjective_pairing.
  - cbn [app]. rewrite !sums_cons, IH. f_equal. clear IH. destruct cs; [reflexivity|]. cbn [last]. clear. revert c0. induction cs as [|b cs IH]; intros c0; [reflexivity|]. cbn [last] in *. apply IH.
Qed.

Definition nnp (ud : f64 * f64) : Prop := nn (fst ud) /\ nn (snd ud).
Lemma stp_nn (p c : candle f64) ud : is_finite (c_close p) = true -> is_finite (c_close c) = true -> nnp ud -> nnp (stp p c ud).
Proof.
  intros Fp Fc [N1 N2]. unfold stp. destruct (f64_lt (c_close p) (c_close c)) eqn:L1; [|destruct (f64_lt (c_close c) (c_close p)) eqn:L2].
  - split; [|exact N2]. apply nn_add; [exact N1|]. now apply nn_sub.
  - split; [exact N1|]. apply nn_add; [exact N2|]. now apply nn_sub.
  - now split.
Qed.
(** More rise, less fall. *)
Definition better (a b : f64 * f64) : Prop := xr (fst a) <= xr (fst b) /\ xr (snd b) <= xr (snd a).

Lemma fl_lt x y : is_finite x = true -> is_finite y = true -> f64_lt x y = true <-> B2R x < B2R y.
Proof.
  intros Fx Fy. rewrite f64_lt_xr by (now apply finite_not_nan). rewrite !xr_finite by assumption. destruct (Rlt_bool_spec (B2R x) (B2R y)); split; intros; try assumption; try reflexivity; try discriminate; lra.
Qed.
Lemma stp_better (p p' c c' : candle f64) a b : is_finite (c_close p) = true -> is_finite (c_close p') = true -> is_finite (c_close c) = true -> is_finite (c_close c') = true ->
  nnp a -> nnp b -> better a b -> B2R (c_close p') <= B2R (c_close p) -> B2R (c_close c) <= B2R (c_close c') ->
  better (stp p c a) (stp p' c' b).
Proof.
  intros Fp Fp' Fc Fc' [A1 A2] [B1 B2] [H1 H2] Lp Lc. unfold stp, better.
  destruct (f64_lt (c_close p) (c_close c)) eqn:L1.
  - assert (f64_lt (c_close p') (c_close c') = true) as -> by (apply fl_lt in L1; try assumption; apply fl_lt; try assumption; lra).
    cbn [fst snd]. split; [|exact H2]. apply le_add; try assumption; try (apply nn_sub; assumption).
    + apply nn_sub; try assumption. apply fl_lt in L1; try assumption; apply fl_lt; try assumption; lra.
    + apply le_sub; assumption.
  - destruct (f64_lt (c_close p') (c_close c')) eqn:L1'.
    + assert (nn (f64_sub (c_close c') (c_close p'))) as Ns by now apply nn_sub.
      pose proof (add_ge _ _ B1 Ns) as G. destruct (f64_lt (c_close c) (c_close p)) eqn:L2; cbn [fst snd]; (split; [lra|]); [|lra].
      assert (nn (f64_sub (c_close p) (c_close c))) as Ns' by now apply nn_sub. pose proof (add_ge _ _ A2 Ns'). lra.
    + destruct (f64_lt (c_close c') (c_close p')) eqn:L2'.
      * assert (f64_lt (c_close c) (c_close p) = true) as E by (apply fl_lt in L2'; try assumption; apply fl_lt; try assumption; lra).
        rewrite E. cbn [fst snd]. split; [exact H1|]. apply le_add; try assumption; try (apply nn_sub; assumption). apply le_sub; assumption.
      * destruct (f64_lt (c_close c) (c_close p)) eqn:L2; cbn [fst snd]; (split; [lra|]); [|lra].
        assert (nn (f64_sub (c_close p) (c_close c))) as Ns' by now apply nn_sub. pose proof (add_ge _ _ A2 Ns'). lra.
Qed.
Lemma sums_better (cs : list (candle f64)) : forall (p p' : candle f64) a b, is_finite (c_close p) = true -> is_finite (c_close p') = true ->
  Forall (fun c => is_finite (c_close c) = true) cs -> nnp a -> nnp b -> better a b -> B2R (c_close p') <= B2R (c_close p) -> cs <> [] ->
  better (rsi_sums p cs (fst a) (snd a)) (rsi_sums p' cs (fst b) (snd b)).
Proof.
  induction cs as [|c cs IH]; intros p p' a b Fp Fp' H Na Nb AB L Ne; [contradiction|]. apply Forall_cons_iff in H. destruct H as [Fc H].
  rewrite !sums_cons, <- !surjective_pairing.
  assert (better (stp p c a) (stp p' c b)) as S by (apply stp_better; auto; apply Rle_refl).
  destruct cs as [|c1 cs]; [cbn [rsi_sums]; rewrite <- !surjective_pairing; exact S|].
  apply IH; auto; try discriminate; try (apply stp_nn; assumption). apply Rle_refl.
Qed.

Lemma finite_le x y : is_finite x = true -> is_finite y = true -> f64_le x y = true -> B2R x <= B2R y.
Proof.
  intros Fx Fy H. rewrite f64_le_xr in H by (now apply finite_not_nan). rewrite !xr_finite in H by assumption. now destruct (Rle_bool_spec (B2R x) (B2R y)).
Qed.
Lemma zero_nnp : nnp (i2f 0, i2f 0).
Proof. split; split; vm_compute; reflexivity. Qed.

Theorem last_close (w : list (candle f64)) (c c' : candle f64) : Forall (fun c => is_finite (c_close c) = true) w -> is_finite (c_close c) = true -> is_finite (c_close c') = true ->
  f64_le (c_close c) (c_close c') = true ->
  let r := f64_to_f32 (rsi_value (w ++ [c])) in let r' := f64_to_f32 (rsi_value (w ++ [c'])) in
  is_nan r = false -> is_nan r' = false -> B2R r <= B2R r'.
Proof.
  intros H Fc Fc' L. apply finite_le in L; try assumption.
  assert (better (moves (w ++ [c])) (moves (w ++ [c']))) as [B1 B2].
  { destruct w as [|p w]; [split; apply Rle_refl|]. cbn [app moves]. rewrite !sums_snoc. apply Forall_cons_iff in H. destruct H as [Fp H].
    assert (is_finite (c_close (last w p)) = true) as Fl.
    { clear - Fp H. revert p Fp. induction w as [|a w IH]; intros p Fp; [exact Fp|]. apply Forall_cons_iff in H. destruct H as [Fa H]. destruct w; [exact Fa|]. cbn [last] in *. exact (IH H p Fp). }
    destruct (rsi_sums_nn p w (i2f 0) (i2f 0) Fp H (proj1 zero_nnp) (proj2 zero_nnp)) as [N1 N2].
    apply stp_better; try assumption; try (split; assumption); [split|]; apply Rle_refl. }
  apply rsi_le; try assumption; apply Forall_app; split; auto.
Qed.
Theorem first_close (w : list (candle f64)) (c c' : candle f64) : Forall (fun c => is_finite (c_close c) = true) w -> is_finite (c_close c) = true -> is_finite (c_close c') = true ->
  f64_le (c_close c) (c_close c') = true ->
  let r := f64_to_f32 (rsi_value (c :: w)) in let r' := f64_to_f32 (rsi_value (c' :: w)) in
  is_nan r = false -> is_nan r' = false -> B2R r' <= B2R r.
Proof.
  intros H Fc Fc' L. apply finite_le in L; try assumption.
  assert (better (moves (c' :: w)) (moves (c :: w))) as [B1 B2].
  { destruct w as [|p w]; [split; apply Rle_refl|]. cbn [moves].
    apply (sums_better (p :: w) c' c (i2f 0, i2f 0) (i2f 0, i2f 0)); try assumption; try apply zero_nnp; [split; apply Rle_refl|discriminate]. }
  intros r r' N N'. apply (rsi_le (c' :: w) (c :: w)); try assumption; constructor; assumption.
Qed.
