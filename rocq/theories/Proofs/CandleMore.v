(** Volume, decision table, first candle, GetMinInterval. *)
From Coq Require Import Reals Lra Znumtheory.
From Flocq Require Import Core BinarySingleNaN Relative.
From Verif Require Import Go.Outcome Go.Int64 Go.Slice Go.Float64 Go.FloatOrder Go.FloatReal Go.Text Go.Num
  Model.Candle Spec.CandleSpec Proofs.Lists Proofs.NewBook Proofs.DecNum Proofs.RoundTrip Proofs.Candle Proofs.CandleThms Proofs.CandleRegular.
Open Scope list_scope.
Open Scope Z_scope.

(** ** Volume in exact arithmetic *)


Lemma R_R5 : forall x : R, exists y, @fround5 R R_num x = Some y.
Proof. intros x. eexists. reflexivity. Qed.

Lemma fold_Rplus l a : (fold_left Rplus l a = a + fold_right Rplus 0 l)%R.
Proof. revert a. induction l as [|x l IH]; intros a; simpl; [lra|]. rewrite IH. lra. Qed.
Lemma agg_vol_R (g : list (candle R)) : agg_vol g = vol_sum g.
Proof.
  unfold agg_vol. change (@fadd R R_num) with Rplus. rewrite fold_Rplus. change (@fofZ R R_num 0) with 0%R.
  rewrite Rplus_0_l. unfold vol_sum. induction g as [|c g IH]; simpl; [reflexivity|]. now rewrite IH.
Qed.
Lemma vol_sum_app a b : (vol_sum (a ++ b) = vol_sum a + vol_sum b)%R.
Proof. induction a as [|c a IH]; simpl; [lra|]. rewrite IH. lra. Qed.

Lemma agg_volumes gs : Forall (fun g => g <> []) gs ->
  (Rabs (vol_sum (map agg gs) - vol_sum (List.concat gs)) <= INR (List.length gs) * / 200000)%R.
Proof.
  induction 1 as [|g gs Hg H IH]; simpl map; simpl List.concat.
  - simpl. rewrite Rminus_0_r, Rabs_R0. lra.
  - rewrite vol_sum_app. cbn [List.length]. rewrite S_INR.
    assert (c_volume (agg g) = to5 (vol_sum g)) as E.
    { destruct g as [|f r]; [congruence|]. cbn [agg c_volume]. rewrite agg_vol_R. reflexivity. }
    simpl vol_sum at 1. rewrite E.
    pose proof (round5R_err (vol_sum g)) as Er. change (round5R (vol_sum g)) with (to5 (vol_sum g)) in Er.
    fold (vol_sum (map agg gs)).
    apply Rabs_le_inv in Er, IH. apply Rabs_le. lra.
Qed.

(** ** Volume at float64 level *)

Lemma rounded5_error x y : rounded5 x y -> is_finite x = true ->
  (Rabs (B2R y - B2R x) <= / 200000 + bpow radix2 (-53) * (Rabs (B2R x) + / 200000))%R.
Proof.
  intros [H _] F. destruct (H F) as [Fy Ey]. rewrite Ey.
  pose proof (round5R_err (B2R x)) as Er. change (round5R (B2R x)) with (to5 (B2R x)) in Er.
  set (z := to5 (B2R x)) in *.
  assert (Rabs (rnd z - z) <= bpow radix2 (-53) * Rabs z)%R as E2.
  { destruct (Req_dec z 0) as [->|Hz].
    - rewrite rnd_0, Rminus_0_r, Rabs_R0. lra.
    - unfold rnd. pose proof (relative_error_N_FLT radix2 (3 - 1024 - 53) 53 ltac:(reflexivity) (fun x => negb (Z.even x)) z) as Q.
      unfold fexp64. eapply Rle_trans; [apply Q|].
      + apply Rle_trans with (bpow radix10 (-5)).
        * apply Rle_trans with (bpow radix2 (-17)); [apply bpow_le; lia|]. simpl. lra.
        * assert (z = IZR (ZnearestE (B2R x * 100000)) * bpow radix10 (-5))%R as Ez0 by apply round5R_eq.
          set (k := ZnearestE (B2R x * 100000)) in *.
          assert (k <> 0)%Z as Nz by (intros E0; rewrite E0 in Ez0; apply Hz; lra).
          rewrite Ez0, Rabs_mult, (Rabs_pos_eq (bpow radix10 (-5))) by apply bpow_ge_0.
          rewrite <- (Rmult_1_l (bpow radix10 (-5))) at 1. apply Rmult_le_compat_r; [apply bpow_ge_0|].
          rewrite <- abs_IZR. apply (IZR_le 1). lia.
      + apply Req_le. change (/ 2)%R with (bpow radix2 (-1)). rewrite <- bpow_plus. reflexivity. }
  pose proof (bpow_ge_0 radix2 (-53)) as P.
  assert (Rabs z <= Rabs (B2R x) + / 200000)%R as Ez.
  { replace z with (B2R x + (z - B2R x))%R by ring. eapply Rle_trans; [apply Rabs_triang|]. lra. }
  replace (rnd z - B2R x)%R with ((z - B2R x) + (rnd z - z))%R by ring.
  eapply Rle_trans; [apply Rabs_triang|]. apply Rplus_le_compat; [assumption|].
  eapply Rle_trans; [exact E2|]. now apply Rmult_le_compat_l.
Qed.

Lemma zero_xr : is_nan (i2f 0) = false /\ xr (i2f 0) = 0%R.
Proof. split; [apply i2f_xr|]. rewrite i2f_exact_xr by (unfold exact_int; lia). reflexivity. Qed.
Lemma f64_nonneg_iff x : f64_le (i2f 0) x = true <-> is_nan x = false /\ (0 <= xr x)%R.
Proof.
  destruct zero_xr as [N0 X0]. split.
  - intros H. apply f64_le_true in H as (_ & N & K). split; [assumption|]. rewrite <- X0. apply key_le_xr; auto.
  - intros [N X]. rewrite f64_le_xr by assumption. apply Rle_bool_true. lra.
Qed.

Lemma fsum_nonneg l : Forall (fun v => f64_le (i2f 0) v = true) l -> f64_le (i2f 0) (fsum l) = true.
Proof.
  intros H. unfold fsum.
  assert (forall a, f64_le (i2f 0) a = true -> f64_le (i2f 0) (fold_left f64_add l a) = true) as G.
  { induction H as [|v l Hv H IH]; intros a Ha; simpl; [assumption|]. apply IH. now apply (add_nonneg a v). }
  apply G. reflexivity.
Qed.

Lemma rounded5_nonneg x y : rounded5 x y -> f64_le (i2f 0) x = true -> f64_le (i2f 0) y = true.
Proof.
  intros [H1 H2] H. destruct (is_finite x) eqn:F.
  - destruct (H1 eq_refl) as [Fy Ey]. apply f64_nonneg_iff in H as [N X]. apply f64_nonneg_iff.
    split; [now apply finite_not_nan|]. rewrite xr_finite by assumption. rewrite Ey. apply rnd_nonneg.
    rewrite xr_finite in X by assumption. rewrite <- round5R_0. now apply round5R_mono.
  - now rewrite (H2 eq_refl).
Qed.

(** ** Decision table *)

Section Table.
Context {F : Type} {N : GoFloat F}.
Hypothesis R5 : forall x : F, exists y, fround5 x = Some y.

Lemma mi_empty tz n : modify_interval tz (@nil (candle F)) n = Panic PIndex.
Proof. reflexivity. Qed.
Lemma mi_one tz n (c : candle F) : modify_interval tz [c] n = Ret ([c], None).
Proof. reflexivity. Qed.

Lemma mi_table tz (cs : candles F) n : 2 <= zlen cs ->
  let delta := first_gap cs in
  (delta <> 1 -> n = 1 -> modify_interval tz cs n = Ret ([], Some mi_no1)) /\
  (delta = 0 -> n <> 1 -> modify_interval tz cs n = Panic PDivZero) /\
  (delta <> 0 -> delta = 1 \/ n <> 1 -> Z.rem n delta <> 0 ->
     modify_interval tz cs n = Ret ([], Some (mi_conflict n delta))) /\
  (delta <> 0 -> delta = 1 \/ n <> 1 -> Z.rem n delta = 0 ->
     (Forall (fun c => ~ starts_interval tz n (c_time c)) cs ->
        modify_interval tz cs n = Ret ([], Some (EWrap mi_op no_first))) /\
     (forall sk p rest, cs = sk ++ p :: rest ->
        Forall (fun c => ~ starts_interval tz n (c_time c)) sk -> starts_interval tz n (c_time p) ->
        (n = 0 -> rest <> [] -> modify_interval tz cs n = Panic PDivZero) /\
        (n <> 0 \/ rest = [] -> exists out, modify_interval tz cs n = Ret (out, None)))).
Proof.
  intros Hlen. cbv zeta.
  destruct cs as [|a [|b cs]]; [unfold zlen in Hlen; simpl in Hlen; lia|unfold zlen in Hlen; simpl in Hlen; lia|].
  set (cs' := a :: b :: cs) in *.
  assert (forall k, modify_interval tz cs' k = _) as E by (intros k; exact (modify_interval_two tz a b cs k)).
  cbv zeta in E. fold cs' in E. set (delta := first_gap cs') in *.
  split; [|split; [|split]].
  - intros D ->. rewrite E. destruct (Z.eqb_spec delta 1); [contradiction|]. reflexivity.
  - intros D Hn. rewrite E. unfold imod. destruct (Z.eqb_spec n 1); [contradiction|]. rewrite andb_false_r.
    rewrite D. reflexivity.
  - intros D H1 Hr. rewrite E. 
    assert (negb (delta =? 1) && (n =? 1) = false) as ->.
    { destruct (Z.eqb_spec delta 1), (Z.eqb_spec n 1); simpl; auto. tauto. }
    unfold imod. destruct (Z.eqb_spec delta 0); [contradiction|]. rewrite bind_ret.
    destruct (Z.eqb_spec (Z.rem n delta) 0); [contradiction|]. reflexivity.
  - intros D H1 Hr. split.
    + intros Hno. rewrite E.
      assert (negb (delta =? 1) && (n =? 1) = false) as ->.
      { destruct (Z.eqb_spec delta 1), (Z.eqb_spec n 1); simpl; auto. tauto. }
      unfold imod. destruct (Z.eqb_spec delta 0); [contradiction|]. rewrite bind_ret.
      rewrite Hr. simpl (negb (0 =? 0)). cbv iota. unfold find_first_index.
      rewrite first_index_none; [reflexivity|]. eapply Forall_impl; [|exact Hno]. intros c. apply aligned_false_iff.
    + intros sk p rest Hcs Hsk Hp.
      assert (Forall (fun c => aligned tz n (c_time c) = false) sk) as Hsk'.
      { eapply Forall_impl; [|exact Hsk]. intros c. apply aligned_false_iff. }
      apply aligned_iff in Hp.
      pose proof (mi_main R5 tz cs' n sk p rest Hcs Hlen Hsk' Hp D H1 Hr) as M.
      split.
      * intros -> Hne. destruct rest; [congruence|]. exact M.
      * intros Hn. destruct rest as [|v r]; [eauto|]. destruct Hn as [Hn|Hn]; [|discriminate].
        destruct (Z.eqb_spec n 0); [contradiction|]. eauto.
Qed.
End Table.

(** ** GetMinInterval *)

Lemma f64_lt_i2f a b : exact_int a -> exact_int b -> f64_lt (i2f a) (i2f b) = (a <? b).
Proof.
  intros Ha Hb. rewrite f64_lt_xr by apply i2f_xr. rewrite !i2f_exact_xr by assumption.
  destruct (Z.ltb_spec a b).
  - apply Rlt_bool_true. now apply IZR_lt.
  - apply Rlt_bool_false. now apply IZR_le.
Qed.
Lemma f64_abs_i2f a : exact_int a -> f64_abs (i2f a) = i2f (Z.abs a).
Proof.
  intros Ha. assert (exact_int (Z.abs a)) as Ha' by (unfold exact_int in *; lia).
  apply B2R_Bsign_inj.
  - unfold f64_abs. rewrite is_finite_Babs. now apply i2f_finite.
  - now apply i2f_finite.
  - unfold f64_abs. rewrite B2R_Babs, !i2f_B2R by assumption. now rewrite abs_IZR.
  - unfold f64_abs. rewrite Bsign_Babs by apply i2f_xr.
    unfold i2f. pose proof (binary_normalize_correct 53 1024 prec53 emax1024 mode_NE (Z.abs a) 0 false) as C.
    cbv beta zeta in C. rewrite rnd_fexp in C.
    replace (F2R {| Fnum := Z.abs a; Fexp := 0 |}) with (IZR (Z.abs a)) in C by (unfold F2R; cbn [Fnum Fexp bpow]; lra).
    rewrite rnd_int in C by assumption. rewrite Rlt_bool_true in C by (now apply exact_lt_big).
    destruct C as (_ & _ & C). rewrite C.
    destruct (Rcompare_spec (IZR (Z.abs a)) 0) as [L|L|L]; try reflexivity.
    apply (lt_IZR _ 0) in L. lia.
Qed.
Lemma f64_lt_max a : exact_int a -> f64_lt (i2f a) f64_maxfloat = true.
Proof.
  intros Ha. rewrite f64_lt_xr; [|apply i2f_xr|reflexivity]. rewrite i2f_exact_xr by assumption. apply Rlt_bool_true.
  apply Rle_lt_trans with (IZR (2 ^ 53)); [apply IZR_le; unfold exact_int in Ha; lia|].
  change (xr f64_maxfloat) with (B2R f64_maxfloat).
  unfold f64_maxfloat. unfold Bmax_float, B2R, F2R. cbn [Fnum Fexp]. simpl cond_Zopp.
  change (IZR (2 ^ 53)) with (bpow radix2 53).
  apply Rlt_le_trans with (1 * bpow radix2 (1024 - 53))%R; [rewrite Rmult_1_l; apply bpow_lt; lia|].
  apply Rmult_le_compat_r; [apply bpow_ge_0|]. apply (IZR_le 1). simpl. lia.
Qed.

Lemma exact_abs_diff t p : Z.abs (t - p) < 2 ^ 53 -> exact_int (t - p) /\ wrap64 (t - p) = t - p.
Proof. intros H. split; [unfold exact_int; lia|]. apply wrap64_id. unfold in_int64, int64_min, int64_max. lia. Qed.

Lemma min_diff_spec {F} (cs : candles F) prev m (a : candle F) : c_time a = prev -> near_times (a :: cs) ->
  0 <= m -> exact_int m ->
  exists m', min_diff prev cs (i2f m) = i2f m' /\ exact_int m' /\ 0 <= m' /\
    m' <= m /\ (forall g, In g (gaps (a :: cs)) -> m' <= g) /\ (m' = m \/ In m' (gaps (a :: cs))).
Proof.
  revert prev m a. induction cs as [|c cs IH]; intros prev m a Ha Hn Hm He.
  - exists m. simpl. repeat split; auto; try lia; try apply He.
  - cbn [min_diff]. assert (Z.abs (c_time c - prev) < 2 ^ 53) as Hd.
    { rewrite <- Ha. apply Hn; simpl; auto. }
    destruct (exact_abs_diff _ _ Hd) as [E1 E2]. rewrite E2, f64_abs_i2f by assumption.
    set (d := Z.abs (c_time c - prev)) in *. assert (exact_int d) as Ed by (unfold exact_int; lia).
    rewrite f64_lt_i2f by assumption.
    assert (near_times (c :: cs)) as Hn'.
    { intros x y Hx Hy. apply Hn; simpl in *; tauto. }
    assert (gaps (a :: c :: cs) = d :: gaps (c :: cs)) as Eg by (unfold d; rewrite <- Ha; reflexivity).
    rewrite Eg.
    destruct (Z.ltb_spec d m) as [L|L].
    + destruct (IH (c_time c) d c eq_refl Hn' ltac:(lia) Ed) as (m' & H1 & H2 & H3 & H4 & H5 & H6).
      exists m'. split; [assumption|]. split; [assumption|]. split; [assumption|]. split; [lia|].
      split; [intros g [<-|Hg]; auto|]. right. destruct H6 as [ -> |H6]; [left; reflexivity|right; assumption].
    + destruct (IH (c_time c) m c eq_refl Hn' ltac:(lia) He) as (m' & H1 & H2 & H3 & H4 & H5 & H6).
      exists m'. split; [assumption|]. split; [assumption|]. split; [assumption|]. split; [lia|].
      split; [intros g [<-|Hg]; auto; lia|]. destruct H6 as [H6|H6]; [left; assumption|right; right; assumption].
Qed.

Lemma get_min_interval_spec {F} (cs : candles F) : 2 <= zlen cs -> near_times cs ->
  exists m, In m (gaps cs) /\ (forall g, In g (gaps cs) -> m <= g) /\ get_min_interval cs = m / 60.
Proof.
  intros Hlen Hn.
  destruct cs as [|a [|b cs]]; [unfold zlen in Hlen; simpl in Hlen; lia|unfold zlen in Hlen; simpl in Hlen; lia|].
  assert (Z.abs (c_time b - c_time a) < 2 ^ 53) as Hd by (apply Hn; simpl; auto).
  unfold get_min_interval. cbn [min_diff].
  destruct (exact_abs_diff _ _ Hd) as [E1 E2]. rewrite E2, f64_abs_i2f by assumption.
  set (d := Z.abs (c_time b - c_time a)) in *. assert (exact_int d) as Ed by (unfold exact_int; lia).
  rewrite f64_lt_max by assumption.
  assert (near_times (b :: cs)) as Hn' by (intros x y Hx Hy; apply Hn; simpl in *; tauto).
  destruct (min_diff_spec cs (c_time b) d b eq_refl Hn' ltac:(lia) Ed) as (m & H1 & H2 & H3 & H4 & H5 & H6).
  exists m. change (gaps (a :: b :: cs)) with (d :: gaps (b :: cs)).
  split; [destruct H6 as [ -> |H6]; simpl; auto|]. split; [intros g [<-|Hg]; auto|].
  rewrite H1, f2i_i2f by assumption. apply Z.quot_div_nonneg; lia.
Qed.

(** ** The native interval *)

Lemma pieces_one {A} (l : list A) : pieces 1 l = map (fun x => [x]) l.
Proof.
  induction l as [|v r IH]; [reflexivity|].
  rewrite pieces_eq by (lia || discriminate). cbn [firstn skipn map]. now rewrite IH.
Qed.

Lemma add_zero_B2R v : is_finite v = true ->
  is_finite (f64_add (i2f 0) v) = true /\ B2R (f64_add (i2f 0) v) = B2R v.
Proof.
  intros F. destruct (add_xr (i2f 0) v (i2f_finite 0 ltac:(unfold exact_int; lia)) F) as [A X].
  rewrite i2f_B2R in X by (unfold exact_int; lia). rewrite Rplus_0_l, rnd_B2R in X.
  pose proof (B2R_lt_big v F) as L. rewrite sat_id in X by lra.
  assert (is_finite (f64_add (i2f 0) v) = true) as Fa by (apply xr_lt_finite; [assumption|now rewrite X]).
  split; [assumption|]. now rewrite <- xr_finite.
Qed.
Lemma add_zero_special v : is_finite v = false -> f64_add (i2f 0) v = v.
Proof. destruct v as [s|s| |s m e B]; try discriminate; reflexivity. Qed.

Lemma agg_single (c : candle f64) : sane_candle c ->
  ohlc (agg [c]) = ohlc c /\ rounded5 (c_volume c) (c_volume (agg [c])).
Proof.
  intros [Hh Hl]. destruct (agg_summary [c] ltac:(discriminate)) as (_ & _ & Sh & Sl & Sv). split.
  - destruct (Sh (ltac:(auto))) as [[E1|[]] _].
    destruct (Sl (ltac:(auto))) as [[E2|[]] _].
    unfold ohlc. rewrite <- E1, <- E2. reflexivity.
  - change (fsum (map c_volume [c])) with (f64_add (i2f 0) (c_volume c)) in Sv. destruct Sv as [S1 S2].
    destruct (is_finite (c_volume c)) eqn:F.
    + destruct (add_zero_B2R _ F) as [F' B']. split; [|congruence]. intros _.
      destruct (S1 F') as [? ?]. split; [assumption|]. now rewrite <- B'.
    + rewrite add_zero_special in S2 by assumption. split; [congruence|]. intros _. now apply S2.
Qed.

(** ** First output candle *)

Lemma modify_interval_first tz cs n out : 2 <= zlen cs -> modify_interval tz cs n = Ret (out, None) ->
  exists sk p rest c r, cs = sk ++ p :: rest /\ out = c :: r /\
    Forall (fun v => ~ starts_interval tz n (c_time v)) sk /\ starts_interval tz n (c_time p) /\
    c_time c = c_time p /\ c_open c = @c_open f64 p.
Proof.
  intros Hlen H. destruct (mi_success f64_R5 tz cs n out Hlen H) as (sk & p & rest & Hcs & Hsk & Hp & _ & _ & _ & _ & Ho).
  destruct (grp_hd (bdb (c_time p) n) p [] rest) as (r & gs & Hg). rewrite Hg in Ho. simpl in Ho.
  exists sk, p, rest. eexists. eexists. split; [assumption|]. split; [exact Ho|].
  split; [eapply Forall_impl; [|exact Hsk]; intros c; apply aligned_false_iff|].
  split; [now apply aligned_iff|]. split; reflexivity.
Qed.

Lemma starts_interval_hours tz n t : 1 <= n -> (n | 60) -> (forall u, (3600 | tz u)) ->
  starts_interval tz n t -> (n | t / 60).
Proof.
  intros Hn Hd Hz H. assert (n <= 60) as Hle by (apply Z.divide_pos_le; [lia|assumption]).
  assert ((n | local_minute tz t)) as D.
  { destruct H as [->|[[_ H]|[H _]]]; [apply Z.divide_0_r|assumption|lia]. }
  unfold local_minute in D. destruct (Hz t) as [h Hh]. rewrite Hh in D.
  replace (t + h * 3600) with (t + (h * 60) * 60) in D by lia. rewrite Z.div_add in D by lia.
  rewrite Z.mod_eq in D by lia.
  set (q := (t / 60 + h * 60) / 60) in D.
  replace (t / 60) with ((t / 60 + h * 60 - 60 * q) + 60 * (q - h)) by lia.
  apply Z.divide_add_r; [assumption|]. now apply Z.divide_mul_l.
Qed.
