(** Consequences of the grouping: alignment, boundaries, extremes, regular
    series, composition. *)
From Coq Require Import Reals Lra Znumtheory.
From Flocq Require Import Core BinarySingleNaN.
From Verif Require Import Go.Outcome Go.Int64 Go.Slice Go.Float64 Go.FloatOrder Go.FloatReal Go.Text Go.Num
  Model.Candle Spec.CandleSpec Proofs.Lists Proofs.RoundTrip Proofs.Candle.
Open Scope list_scope.
Open Scope Z_scope.

(** ** Alignment *)

Lemma minute_of_eq tz t : minute_of tz t = local_minute tz t.
Proof.
  unfold minute_of, local_minute. set (x := t + tz t).
  change 3600 with (60 * 60). rewrite Z.rem_mul_r by lia.
  rewrite Z.mul_comm, Z.div_add by lia. rewrite (Z.div_small (x mod 60)); [lia|].
  apply Z.mod_pos_bound. lia.
Qed.

Lemma rem_zero_divide m k : k <> 0 -> (Z.rem m k =? 0) = true <-> (k | m).
Proof. intros H. rewrite Z.eqb_eq. now apply Z.rem_divide. Qed.

Lemma aligned_iff tz n t : aligned tz n t = true <-> starts_interval tz n t.
Proof.
  unfold aligned, starts_interval. rewrite minute_of_eq.
  set (m := local_minute tz t).
  assert (0 <= m < 60) as Hm by (apply Z.mod_pos_bound; lia).
  rewrite orb_true_iff. unfold mod_minutes.
  assert ((60 | m) <-> m = 0) as D60.
  { split; [|intros ->; apply Z.divide_0_r]. intros [q Hq]. lia. }
  assert ((0 | m) <-> m = 0) as D0.
  { split; [|intros ->; apply Z.divide_0_r]. intros [q Hq]. lia. }
  destruct (Z.ltb_spec 60 n) as [L|L].
  - rewrite (Z.rem_mod_nonneg n 60) by lia.
    destruct (Z.eqb_spec (n mod 60) 0) as [E|E].
    + rewrite rem_zero_divide by lia. rewrite Z.eqb_eq, E, D60, D0. split; [tauto|]. intros [?|[[? ?]|[? ?]]]; tauto || lia.
    + rewrite rem_zero_divide by assumption. rewrite Z.eqb_eq. split; [tauto|]. intros [?|[[? ?]|[? ?]]]; tauto || lia.
  - destruct (Z.eqb_spec n 0) as [E|E].
    + subst n. rewrite rem_zero_divide by lia. rewrite Z.eqb_eq, D60, D0. split; [tauto|]. intros [?|[[? ?]|[? ?]]]; tauto || lia.
    + rewrite rem_zero_divide by assumption. rewrite Z.eqb_eq. split; [tauto|]. intros [?|[[? ?]|[? ?]]]; tauto || lia.
Qed.
Lemma aligned_false_iff tz n t : aligned tz n t = false <-> ~ starts_interval tz n t.
Proof. rewrite <- aligned_iff. destruct (aligned tz n t); split; congruence. Qed.

(** ** Boundaries *)

Lemma near_minutes p t : Z.abs (t - p) < 2 ^ 53 ->
  f2i (f64_abs (i2f (Z.quot (wrap64 (t - p)) 60))) = minutes_apart p t.
Proof.
  intros H. rewrite wrap64_id by (unfold in_int64, int64_min, int64_max; lia).
  assert (Z.abs (Z.quot (t - p) 60) = minutes_apart p t) as E.
  { unfold minutes_apart. rewrite <- Z.quot_abs by lia. change (Z.abs 60) with 60. apply Z.quot_div_nonneg; lia. }
  rewrite f2i_abs; [exact E|]. unfold exact_int.
  assert (0 <= minutes_apart p t <= 2 ^ 53).
  { unfold minutes_apart. split; [apply Z.div_pos; lia|]. apply Z.le_trans with (Z.abs (t - p)); [|lia].
    apply Z.div_le_upper_bound; lia. }
  lia.
Qed.

Lemma bdb_iff {F} p n (c : candle F) : n <> 0 -> Z.abs (c_time c - p) < 2 ^ 53 ->
  bdb p n c = true <-> on_boundary p n (c_time c).
Proof. intros Hn H. unfold bdb, on_boundary. rewrite near_minutes by assumption. now apply rem_zero_divide. Qed.

Lemma near_in {F} (cs : candles F) a b : near_times cs -> In a cs -> In b cs -> Z.abs (c_time b - c_time a) < 2 ^ 53.
Proof. intros H. apply H. Qed.

Lemma first_gap_eq {F} (a b : candle F) cs : Z.abs (c_time b - c_time a) < 2 ^ 53 ->
  first_gap (a :: b :: cs) = Z.quot (c_time b - c_time a) 60.
Proof. intros H. unfold first_gap. rewrite wrap64_id; [reflexivity|]. unfold in_int64, int64_min, int64_max. lia. Qed.

(** ** Extremes *)

Definition hmax (h x : f64) : f64 := if f64_lt h x then x else h.
Definition hmin (l x : f64) : f64 := if f64_lt x l then x else l.

Lemma sane_key x : sane x -> is_nan x = false /\ key (f64_const (-1) 308) <= key x <= key (f64_const 1 308).
Proof.
  intros [H1 H2]. apply f64_le_true in H1 as (_ & N & K1). apply f64_le_true in H2 as (_ & _ & K2). auto.
Qed.
Lemma const_sane : sane (f64_const (-1) 308) /\ sane (f64_const 1 308).
Proof. repeat split; vm_compute; reflexivity. Qed.

Lemma hmax_key h x : is_nan h = false -> is_nan x = false -> hmax h x = if key h <? key x then x else h.
Proof. intros A B. unfold hmax. now rewrite f64_lt_key. Qed.
Lemma hmin_key h x : is_nan h = false -> is_nan x = false -> hmin h x = if key x <? key h then x else h.
Proof. intros A B. unfold hmin. now rewrite f64_lt_key. Qed.
Lemma hmax_nan h x : is_nan h = false -> is_nan x = false -> is_nan (hmax h x) = false.
Proof. intros. unfold hmax. now destruct (f64_lt h x). Qed.
Lemma hmin_nan h x : is_nan h = false -> is_nan x = false -> is_nan (hmin h x) = false.
Proof. intros. unfold hmin. now destruct (f64_lt x h). Qed.

Definition real_list (l : list f64) : Prop := Forall (fun x => is_nan x = false) l.

Lemma fold_hmax_spec l h : real_list l -> is_nan h = false ->
  is_nan (fold_left hmax l h) = false /\ key h <= key (fold_left hmax l h) /\
  (forall x, In x l -> key x <= key (fold_left hmax l h)) /\
  (fold_left hmax l h = h \/ In (fold_left hmax l h) l).
Proof.
  revert h. induction l as [|v l IH]; intros h Hl Hh; simpl.
  - split; [assumption|]. split; [lia|]. split; [intros x []|auto].
  - inversion Hl as [|? ? Hv Hl']; subst.
    destruct (IH (hmax h v) Hl' (hmax_nan h v Hh Hv)) as (I1 & I2 & I3 & I4).
    assert (key h <= key (hmax h v) /\ key v <= key (hmax h v)) as [M1 M2].
    { rewrite hmax_key by assumption. destruct (Z.ltb_spec (key h) (key v)); lia. }
    split; [assumption|]. split; [lia|]. split.
    + intros x [<-|Hx]; [lia|auto].
    + destruct I4 as [I4|I4]; [|auto]. rewrite I4. rewrite hmax_key by assumption.
      destruct (Z.ltb_spec (key h) (key v)); auto.
Qed.
Lemma fold_hmin_spec l h : real_list l -> is_nan h = false ->
  is_nan (fold_left hmin l h) = false /\ key (fold_left hmin l h) <= key h /\
  (forall x, In x l -> key (fold_left hmin l h) <= key x) /\
  (fold_left hmin l h = h \/ In (fold_left hmin l h) l).
Proof.
  revert h. induction l as [|v l IH]; intros h Hl Hh; simpl.
  - split; [assumption|]. split; [lia|]. split; [intros x []|auto].
  - inversion Hl as [|? ? Hv Hl']; subst.
    destruct (IH (hmin h v) Hl' (hmin_nan h v Hh Hv)) as (I1 & I2 & I3 & I4).
    assert (key (hmin h v) <= key h /\ key (hmin h v) <= key v) as [M1 M2].
    { rewrite hmin_key by assumption. destruct (Z.ltb_spec (key v) (key h)); lia. }
    split; [assumption|]. split; [lia|]. split.
    + intros x [<-|Hx]; [lia|auto].
    + destruct I4 as [I4|I4]; [|auto]. rewrite I4. rewrite hmin_key by assumption.
      destruct (Z.ltb_spec (key v) (key h)); auto.
Qed.

Lemma agg_high_fold (g : candles f64) : agg_high g = fold_left hmax (map c_high g) (f64_const (-1) 308).
Proof.
  unfold agg_high. change (@fconst f64 f64_num (-1) 308) with (f64_const (-1) 308).
  generalize (f64_const (-1) 308). induction g as [|v g IH]; intros h; simpl; [reflexivity|]. apply IH.
Qed.
Lemma agg_low_fold (g : candles f64) : agg_low g = fold_left hmin (map c_low g) (f64_const 1 308).
Proof.
  unfold agg_low. change (@fconst f64 f64_num 1 308) with (f64_const 1 308).
  generalize (f64_const 1 308). induction g as [|v g IH]; intros h; simpl; [reflexivity|]. apply IH.
Qed.

Lemma sane_real l : Forall sane l -> real_list l.
Proof. intros H. eapply Forall_impl; [|exact H]. intros x Hx. now apply sane_key. Qed.

Lemma const_nonzero x : (x = f64_const (-1) 308 \/ x = f64_const 1 308) -> forall s, x <> B754_zero s.
Proof. intros [ -> | -> ] s H; apply (f_equal is_finite_strict) in H; vm_compute in H; discriminate. Qed.

Lemma fold_hmax_maximum l : l <> [] -> Forall sane l -> maximum l (fold_left hmax l (f64_const (-1) 308)).
Proof.
  intros Hn Hs. pose proof (sane_real l Hs) as Hr. pose proof (proj1 const_sane) as Hc.
  destruct (fold_hmax_spec l (f64_const (-1) 308) Hr (proj1 (sane_key _ Hc))) as (I1 & I2 & I3 & I4).
  rewrite Forall_forall in Hs. unfold real_list in Hr. rewrite Forall_forall in Hr.
  split.
  - destruct I4 as [I4|I4]; [|assumption].
    destruct l as [|x l]; [congruence|].
    pose proof (I3 x (or_introl eq_refl)) as K. rewrite I4 in K.
    destruct (sane_key x (Hs x (or_introl eq_refl))) as [Nx [Kx _]].
    assert (key x = key (f64_const (-1) 308)) as E by lia.
    apply key_inj in E; [|assumption|apply sane_key; assumption].
    destruct E as [E|(sx & sy & E1 & E2)]; [rewrite I4, <- E; left; reflexivity|].
    exfalso. eapply const_nonzero; [left; reflexivity|exact E2].
  - intros x Hx. rewrite f64_le_key by auto. apply Z.leb_le. auto.
Qed.
Lemma fold_hmin_minimum l : l <> [] -> Forall sane l -> minimum l (fold_left hmin l (f64_const 1 308)).
Proof.
  intros Hn Hs. pose proof (sane_real l Hs) as Hr. pose proof (proj2 const_sane) as Hc.
  destruct (fold_hmin_spec l (f64_const 1 308) Hr (proj1 (sane_key _ Hc))) as (I1 & I2 & I3 & I4).
  rewrite Forall_forall in Hs. unfold real_list in Hr. rewrite Forall_forall in Hr.
  split.
  - destruct I4 as [I4|I4]; [|assumption].
    destruct l as [|x l]; [congruence|].
    pose proof (I3 x (or_introl eq_refl)) as K. rewrite I4 in K.
    destruct (sane_key x (Hs x (or_introl eq_refl))) as [Nx [_ Kx]].
    assert (key x = key (f64_const 1 308)) as E by lia.
    apply key_inj in E; [|assumption|apply sane_key; assumption].
    destruct E as [E|(sx & sy & E1 & E2)]; [rewrite I4, <- E; left; reflexivity|].
    exfalso. eapply const_nonzero; [right; reflexivity|exact E2].
  - intros x Hx. rewrite f64_le_key by auto. apply Z.leb_le. auto.
Qed.

(** ** Volume *)

Lemma f64_R5 : forall x : f64, exists y, @fround5 f64 f64_num x = Some y.
Proof. exact round5_total. Qed.

Lemma get5_rounded (x : f64) : rounded5 x (get5 x).
Proof.
  unfold get5. change (@fround5 f64 f64_num x) with (f64_round5 x). split.
  - intros F. destruct (round5_finite x F) as (y & -> & H1 & _ & H2). auto.
  - intros F. destruct x as [s|s| |s m e B]; try discriminate.
    + rewrite round5_inf. reflexivity.
    + rewrite round5_nan. reflexivity.
Qed.

Lemma agg_summary (g : candles f64) : g <> [] -> summary g (agg g).
Proof.
  intros Hg. destruct g as [|f r]; [congruence|]. unfold summary. cbn [agg c_time c_open c_high c_low c_close c_volume].
  split; [|split; [|split; [|split]]].
  - exists f. split; [now exists r|auto].
  - exists (last r f). split; [|reflexivity]. exists (removelast (f :: r)).
    rewrite (app_removelast_last f (l := f :: r)) at 1 by discriminate.
    do 2 f_equal. simpl. now destruct r.
  - intros H. rewrite agg_high_fold. apply fold_hmax_maximum; [discriminate|]. now rewrite Forall_map.
  - intros H. rewrite agg_low_fold. apply fold_hmin_minimum; [discriminate|]. now rewrite Forall_map.
  - apply get5_rounded.
Qed.

(** ** The structure theorem *)

Lemma modify_interval_groups tz cs n out : 2 <= zlen cs ->
  modify_interval tz cs n = Ret (out, None) ->
  exists skipped gs, grouped tz n cs skipped gs /\ Forall2 summary gs out /\
    (near_times cs -> forall p, first_is (List.concat gs) p -> cut_at_boundaries (c_time p) n gs).
Proof.
  intros Hlen H. destruct (mi_success f64_R5 tz cs n out Hlen H) as (sk & p & rest & Hcs & Hsk & Hp & _ & _ & _ & Hn & Ho).
  set (gs := grp (bdb (c_time p) n) [p] rest) in *.
  assert (List.concat gs = p :: rest) as Hc by exact (grp_concat _ [p] rest).
  assert (Forall (fun g => g <> []) gs) as Hne by (apply grp_nonempty; discriminate).
  exists sk, gs. split; [|split].
  - unfold grouped. rewrite Hc. split; [assumption|]. split.
    { eapply Forall_impl; [|exact Hsk]. intros c. apply aligned_false_iff. }
    split; [|assumption]. exists p. split; [now exists rest|now apply aligned_iff].
  - subst out. clear -Hne. induction Hne as [|g gs Hg Hne IH]; simpl; constructor; [now apply agg_summary|assumption].
  - intros Hnear p' [r' Hp']. rewrite Hc in Hp'. injection Hp' as <- <-.
    assert (In p cs) as Ip by (rewrite Hcs; apply in_or_app; simpl; auto).
    assert (forall c g, In g gs -> In c g -> In c cs) as Iall.
    { intros c g Hg Hcg. rewrite Hcs. apply in_or_app. right. rewrite <- Hc. apply in_concat. eauto. }
    assert (forall v, In v rest -> n <> 0) as Hn0.
    { intros v Hv. destruct Hn as [->|Hn]; [destruct Hv|assumption]. }
    split.
    + intros g h r Hg E. pose proof (grp_inner (bdb (c_time p) n) p [] rest (Forall_nil _) g Hg) as I.
      rewrite E in I. simpl in I. rewrite Forall_forall in *. intros c Hcr Hb.
      assert (In c cs) as Icc by (eapply Iall; [exact Hg|rewrite E; right; assumption]).
      assert (n <> 0) as Hnz.
      { destruct Hn as [->|Hn]; [|assumption]. exfalso. unfold gs in Hg. simpl in Hg. destruct Hg as [<-|[]].
        injection E as <- <-. destruct Hcr. }
      apply (bdb_iff (c_time p) n c Hnz) in Hb; [|now apply Hnear]. rewrite I in Hb by assumption. discriminate.
    + intros g0 rest0 g h r Egs Hg E.
      pose proof (grp_heads (bdb (c_time p) n) [p] rest g h r) as I. fold gs in I. rewrite Egs in I. specialize (I Hg E).
      assert (In g gs) as Ig by (rewrite Egs; right; assumption).
      assert (In h cs) as Ih by (eapply Iall; [exact Ig|rewrite E; left; reflexivity]).
      assert (n <> 0) as Hnz.
      { destruct Hn as [->|Hn]; [|assumption]. exfalso. unfold gs in Egs. simpl in Egs. injection Egs as <- <-. destruct Hg. }
      apply (bdb_iff (c_time p) n h Hnz); [now apply Hnear|assumption].
Qed.

(** ** Appending candles *)

Lemma modify_interval_append tz cs more n out1 out2 : 
  modify_interval tz cs n = Ret (out1, None) ->
  modify_interval tz (cs ++ more) n = Ret (out2, None) ->
  exists done last rest, out1 = done ++ [last] /\ out2 = done ++ rest.
Proof.
  intros H1 H2. destruct cs as [|a [|b cs]].
  - discriminate.
  - injection H1 as <-. exists [], a, out2. auto.
  - set (c1 := a :: b :: cs) in *.
    assert (2 <= zlen c1) as L1 by (unfold zlen, c1; simpl List.length; lia).
    assert (2 <= zlen (c1 ++ more)) as L2 by (rewrite zlen_app; pose proof (zlen_nonneg more); lia).
    destruct (mi_success f64_R5 tz c1 n out1 L1 H1) as (sk & p & rest & Hcs & Hsk & Hp & _ & _ & _ & _ & Ho1).
    destruct (mi_success f64_R5 tz (c1 ++ more) n out2 L2 H2) as (sk' & p' & rest' & Hcs' & Hsk' & Hp' & _ & _ & _ & _ & Ho2).
    assert (sk' = sk /\ p' = p /\ rest' = rest ++ more) as (-> & -> & ->).
    { rewrite Hcs, <- app_assoc in Hcs'. simpl in Hcs'.
      clear -Hcs' Hsk Hsk' Hp Hp'. revert sk' Hcs' Hsk'. induction sk as [|x sk IH]; intros sk' E Hsk'.
      - destruct sk' as [|y sk']; simpl in E.
        + injection E as <- <-. auto.
        + injection E as <- E. inversion Hsk'; subst. congruence.
      - inversion Hsk; subst. destruct sk' as [|y sk']; simpl in E.
        + injection E as <- E. congruence.
        + injection E as <- E. inversion Hsk'; subst. destruct (IH ltac:(assumption) sk' E ltac:(assumption)) as (-> & -> & ->). auto. }
    destruct (grp_app (bdb (c_time p) n) [p] rest more) as (d & l & m & G1 & G2 & _).
    rewrite G1 in Ho1. rewrite G2 in Ho2. rewrite map_app in Ho1, Ho2. simpl in Ho1.
    exists (map agg d), (agg l), (map agg m). auto.
Qed.
