(** ModifyInterval under changes of time, orientation and unit, and in batches. *)
From Flocq Require Import Core BinarySingleNaN.
From Verif Require Import Go.Outcome Go.Int64 Go.Slice Go.Float64 Go.FloatOrder Go.FloatReal Go.Num
  Model.Candle Spec.CandleSpec Spec.ResampleSpec Proofs.Lists Proofs.Candle Proofs.CandleThms Proofs.CandleMore Proofs.Symmetry.
Open Scope list_scope.
Open Scope Z_scope.

Lemma grp_map {A B} (f : A -> B) bd bd' (rest : list A) : (forall x, In x rest -> bd' (f x) = bd x) ->
  forall cur, grp bd' (map f cur) (map f rest) = map (map f) (grp bd cur rest).
Proof.
  induction rest as [|v r IH]; intros H cur; cbn [grp map]; [reflexivity|].
  rewrite H by (left; reflexivity). assert (forall x, In x r -> bd' (f x) = bd x) as H' by (intros; apply H; now right).
  destruct (bd v); cbn [map].
  - f_equal. exact (IH H' [v]).
  - rewrite <- (IH H' (cur ++ [v])), map_app. reflexivity.
Qed.

Section Change.
Variables (f : candle f64 -> candle f64) (s : Z) (tz tz' : Z -> Z) (n : Z) (cs : list (candle f64)).
Hypothesis T : forall c, c_time (f c) = c_time c + s.
Hypothesis A : forall c, In c cs -> aligned tz' n (c_time (f c)) = aligned tz n (c_time c).
Hypothesis G : forall g, g <> [] -> incl g cs -> agg (map f g) = f (agg g).

Lemma gap_change : first_gap (map f cs) = first_gap cs.
Proof.
  destruct cs as [|a [|b r]]; try reflexivity. cbn [map first_gap]. rewrite !T.
  do 2 f_equal. lia.
Qed.
Lemma bdb_change p c : bdb (c_time (f p)) n (f c) = bdb (c_time p) n c.
Proof. unfold bdb. rewrite !T. replace (c_time c + s - (c_time p + s)) with (c_time c - c_time p) by lia. reflexivity. Qed.
Lemma groups_change gs : Forall (fun g => g <> []) gs -> incl (List.concat gs) cs ->
  map agg (map (map f) gs) = map f (map agg gs).
Proof.
  intros Ne I. induction Ne as [|g gs Hg Ne IH]; cbn [map]; [reflexivity|]. cbn [List.concat] in I.
  apply incl_app_inv in I as [I1 I2]. rewrite G by assumption. now rewrite IH.
Qed.

Lemma modify_change : modify_interval tz' (map f cs) n = changed f (modify_interval tz cs n).
Proof.
  destruct (Z_lt_le_dec (zlen cs) 2) as [L|L].
  { destruct cs as [|a [|b r]]; [reflexivity|reflexivity|]. unfold zlen in L. cbn [List.length] in L. lia. }
  assert (2 <= zlen (map f cs)) as L' by (unfold zlen in *; now rewrite map_length).
  destruct (mi_table f64_R5 tz cs n L) as (M1 & M2 & M3 & M4).
  destruct (mi_table f64_R5 tz' (map f cs) n L') as (M1' & M2' & M3' & M4'). rewrite gap_change in *.
  set (delta := first_gap cs) in *.
  assert ((delta <> 1 /\ n = 1) \/ (delta = 1 \/ n <> 1)) as [[H1 H2]|HD] by lia;
    [rewrite M1, M1' by assumption; reflexivity|].
  destruct (Z.eq_dec delta 0) as [D0|D0]; [rewrite M2, M2' by lia; reflexivity|].
  destruct (Z.eq_dec (Z.rem n delta) 0) as [R0|R0]; [|rewrite M3, M3' by auto; reflexivity].
  destruct (split_aligned tz n cs) as [Hno|(sk & p & rest & Hcs & Hsk & Hp)].
  - destruct (M4 D0 HD R0) as [M5 _]. destruct (M4' D0 HD R0) as [M5' _]. rewrite M5, M5'; [reflexivity| |].
    + rewrite Forall_map. rewrite Forall_forall in *. intros c Hc. apply aligned_false_iff. rewrite A by assumption. now apply Hno.
    + eapply Forall_impl; [|exact Hno]. intros c. apply aligned_false_iff.
  - rewrite (mi_main f64_R5 tz cs n sk p rest Hcs L Hsk Hp D0 HD R0).
    rewrite (mi_main f64_R5 tz' (map f cs) n (map f sk) (f p) (map f rest)).
    + destruct rest as [|v r]; [cbn [map changed]; now rewrite <- (G [p]) by (discriminate || (rewrite Hcs; intros x [<-|[]]; apply in_or_app; right; now left))|].
      cbn [map]. change (f v :: map f r) with (map f (v :: r)). change [f p] with (map f [p]).
      destruct (n =? 0); [reflexivity|]. cbn [changed]. rewrite (grp_map f (bdb (c_time p) n)) by (intros; apply bdb_change).
      rewrite groups_change; [reflexivity|apply grp_nonempty; discriminate|].
      rewrite grp_concat. rewrite Hcs. intros x Hx. apply in_or_app. right. exact Hx.
    + rewrite Hcs, map_app. reflexivity.
    + assumption.
    + rewrite Forall_map. rewrite Forall_forall in *. intros c Hc. rewrite A by (rewrite Hcs; apply in_or_app; now left). now apply Hsk.
    + rewrite A by (rewrite Hcs; apply in_or_app; right; now left). assumption.
    + now rewrite gap_change.
    + now rewrite gap_change.
    + now rewrite gap_change.
Qed.
End Change.

(** ** Time *)
Lemma last_map {A B} (f : A -> B) r : forall h, last (map f r) (f h) = f (last r h).
Proof.
  induction r as [|x r IH]; intros h; [reflexivity|]. destruct r as [|y r]; [reflexivity|]. exact (IH h).
Qed.
Lemma agg_char (h : candle f64) r : agg (h :: r) = mkCandle (c_time h) (c_open h)
  (fold_left hmax (map c_high (h :: r)) (f64_const (-1) 308)) (fold_left hmin (map c_low (h :: r)) (f64_const 1 308))
  (c_close (last r h)) (get5 (fold_left f64_add (map c_volume (h :: r)) (i2f 0))).
Proof. rewrite <- agg_high_fold, <- agg_low_fold. reflexivity. Qed.
Lemma agg_map_char (f : candle f64 -> candle f64) (h : candle f64) r : agg (map f (h :: r)) = mkCandle (c_time (f h)) (c_open (f h))
  (fold_left hmax (map (fun c => c_high (f c)) (h :: r)) (f64_const (-1) 308))
  (fold_left hmin (map (fun c => c_low (f c)) (h :: r)) (f64_const 1 308))
  (c_close (f (last r h))) (get5 (fold_left f64_add (map (fun c => c_volume (f c)) (h :: r)) (i2f 0))).
Proof.
  rewrite map_cons, agg_char, <- map_cons, !map_map, last_map. reflexivity.
Qed.

Lemma agg_later s g : g <> [] -> agg (map (later s) g) = later s (agg g).
Proof.
  intros Hg. destruct g as [|h r]; [congruence|]. rewrite agg_map_char, agg_char.
  unfold later. cbn [c_time c_open c_high c_low c_close c_volume]. f_equal.
Qed.
Lemma modify_later tz tz' s cs n :
  (forall c, In c cs -> local_minute tz' (c_time c + s) = local_minute tz (c_time c)) ->
  modify_interval tz' (map (later s) cs) n = changed (later s) (modify_interval tz cs n).
Proof.
  intros H. apply modify_change with (s := s); [reflexivity| |intros g Hg _; now apply agg_later].
  intros c Hc. unfold aligned. rewrite !minute_of_eq. cbn [later c_time]. now rewrite H.
Qed.
Lemma whole_hours z s t : (3600 | s) -> local_minute (fun _ => z) (t + s) = local_minute (fun _ => z) t.
Proof.
  intros [k ->]. unfold local_minute. replace (t + k * 3600 + z) with (t + z + (k * 60) * 60) by lia.
  rewrite Z.div_add by lia. rewrite Z.mod_add by lia. reflexivity.
Qed.

(** ** Upside down *)
Lemma fold_flip l : forall h, fold_left hmax (map f64_neg l) (f64_neg h) = f64_neg (fold_left hmin l h).
Proof.
  induction l as [|x l IH]; intros h; cbn [map fold_left]; [reflexivity|].
  assert (hmax (f64_neg h) (f64_neg x) = f64_neg (hmin h x)) as ->.
  { unfold hmax, hmin. rewrite neg_lt. now destruct (f64_lt x h). }
  apply IH.
Qed.
Lemma fold_flip' l : forall h, fold_left hmin (map f64_neg l) (f64_neg h) = f64_neg (fold_left hmax l h).
Proof.
  induction l as [|x l IH]; intros h; cbn [map fold_left]; [reflexivity|].
  assert (hmin (f64_neg h) (f64_neg x) = f64_neg (hmax h x)) as ->.
  { unfold hmax, hmin. rewrite neg_lt. now destruct (f64_lt h x). }
  apply IH.
Qed.
Lemma sentinels : f64_const (-1) 308 = f64_neg (f64_const 1 308).
Proof.
  assert (key (f64_const (-1) 308) = key (f64_neg (f64_const 1 308))) as E by (vm_compute; reflexivity).
  apply key_inj in E; [|vm_compute; reflexivity|vm_compute; reflexivity].
  destruct E as [E|(sx & sy & E1 & _)]; [assumption|]. exfalso. eapply const_nonzero; [left; reflexivity|exact E1].
Qed.
Lemma agg_flipped g : g <> [] -> agg (map flipped g) = flipped (agg g).
Proof.
  intros Hg. destruct g as [|h r]; [congruence|]. rewrite agg_map_char, agg_char.
  assert (map (fun c => c_high (flipped c)) (h :: r) = map f64_neg (map c_low (h :: r))) as -> by now rewrite map_map.
  assert (map (fun c => c_low (flipped c)) (h :: r) = map f64_neg (map c_high (h :: r))) as -> by now rewrite map_map.
  assert (f64_const 1 308 = f64_neg (f64_const (-1) 308)) as E by (rewrite sentinels; symmetry; apply neg_neg).
  rewrite E at 1. rewrite fold_flip'. rewrite sentinels at 1. rewrite fold_flip.
  unfold flipped. cbn [c_time c_open c_high c_low c_close c_volume]. f_equal.
Qed.
Lemma modify_flipped tz cs n : modify_interval tz (map flipped cs) n = changed flipped (modify_interval tz cs n).
Proof.
  apply modify_change with (s := 0); [intros c; cbn [flipped c_time]; lia|reflexivity|intros g Hg _; now apply agg_flipped].
Qed.

(** ** Another unit *)
Lemma hmax_sentinel x : sane x -> hmax (f64_const (-1) 308) x = x.
Proof.
  intros S. destruct (sane_key x S) as [Nx [Kx _]]. pose proof (proj1 const_sane) as Sc. destruct (sane_key _ Sc) as [Nc _].
  rewrite hmax_key by assumption. destruct (Z.ltb_spec (key (f64_const (-1) 308)) (key x)) as [_|L]; [reflexivity|].
  assert (key x = key (f64_const (-1) 308)) as E by lia. apply key_inj in E; [|assumption|assumption].
  destruct E as [E|(sx & sy & E1 & E2)]; [now symmetry|]. exfalso. eapply const_nonzero; [left; reflexivity|exact E2].
Qed.
Lemma hmin_sentinel x : sane x -> hmin (f64_const 1 308) x = x.
Proof.
  intros S. destruct (sane_key x S) as [Nx [_ Kx]]. pose proof (proj2 const_sane) as Sc. destruct (sane_key _ Sc) as [Nc _].
  rewrite hmin_key by assumption. destruct (Z.ltb_spec (key x) (key (f64_const 1 308))) as [_|L]; [reflexivity|].
  assert (key x = key (f64_const 1 308)) as E by lia. apply key_inj in E; [|assumption|assumption].
  destruct E as [E|(sx & sy & E1 & E2)]; [now symmetry|]. exfalso. eapply const_nonzero; [right; reflexivity|exact E2].
Qed.
Lemma hmax_in h x : hmax h x = h \/ hmax h x = x.
Proof. unfold hmax. destruct (f64_lt h x); auto. Qed.
Lemma hmin_in h x : hmin h x = h \/ hmin h x = x.
Proof. unfold hmin. destruct (f64_lt x h); auto. Qed.
Lemma fold_unit_max f all l : (forall x y, In x all -> In y all -> f64_lt (f x) (f y) = f64_lt x y) -> incl l all ->
  forall h, In h all -> fold_left hmax (map f l) (f h) = f (fold_left hmax l h).
Proof.
  intros K. induction l as [|x l IH]; intros I h Hh; cbn [map fold_left]; [reflexivity|].
  apply incl_cons_inv in I as [I1 I2].
  assert (hmax (f h) (f x) = f (hmax h x)) as ->.
  { unfold hmax. rewrite K by assumption. now destruct (f64_lt h x). }
  apply IH; [assumption|]. now destruct (hmax_in h x) as [-> | ->].
Qed.
Lemma fold_unit_min f all l : (forall x y, In x all -> In y all -> f64_lt (f x) (f y) = f64_lt x y) -> incl l all ->
  forall h, In h all -> fold_left hmin (map f l) (f h) = f (fold_left hmin l h).
Proof.
  intros K. induction l as [|x l IH]; intros I h Hh; cbn [map fold_left]; [reflexivity|].
  apply incl_cons_inv in I as [I1 I2].
  assert (hmin (f h) (f x) = f (hmin h x)) as ->.
  { unfold hmin. rewrite K by assumption. now destruct (f64_lt x h). }
  apply IH; [assumption|]. now destruct (hmin_in h x) as [-> | ->].
Qed.
Lemma agg_repriced f cs g : keeps_order f (map c_high cs) -> keeps_order f (map c_low cs) ->
  g <> [] -> incl g cs -> agg (map (repriced f) g) = repriced f (agg g).
Proof.
  intros (H1 & H2 & H3) (L1 & L2 & L3) Hg I. destruct g as [|h r]; [congruence|]. rewrite agg_map_char, agg_char.
  assert (map (fun c => c_high (repriced f c)) (h :: r) = map f (map c_high (h :: r))) as -> by now rewrite map_map.
  assert (map (fun c => c_low (repriced f c)) (h :: r) = map f (map c_low (h :: r))) as -> by now rewrite map_map.
  rewrite !(map_cons c_high), !(map_cons c_low), !map_cons. cbn [fold_left].
  assert (In h cs) as Ih by (apply I; now left). assert (incl r cs) as Ir by (intros x Hx; apply I; now right).
  rewrite Forall_forall in H1, H2, L1, L2.
  rewrite (hmax_sentinel (c_high h)) by (apply H1; now apply in_map).
  rewrite (hmin_sentinel (c_low h)) by (apply L1; now apply in_map).
  rewrite (hmax_sentinel (f (c_high h))) by (apply H2; apply in_map; now apply in_map).
  rewrite (hmin_sentinel (f (c_low h))) by (apply L2; apply in_map; now apply in_map).
  rewrite (fold_unit_max f (map c_high cs)) by auto using in_map, incl_map.
  rewrite (fold_unit_min f (map c_low cs)) by auto using in_map, incl_map.
  unfold repriced. cbn [c_time c_open c_high c_low c_close c_volume]. f_equal.
Qed.
Lemma modify_repriced tz f cs n : keeps_order f (map c_high cs) -> keeps_order f (map c_low cs) ->
  modify_interval tz (map (repriced f) cs) n = changed (repriced f) (modify_interval tz cs n).
Proof.
  intros H L. apply modify_change with (s := 0); [intros c; cbn [repriced c_time]; lia|reflexivity|].
  intros g Hg I. now apply (agg_repriced f cs).
Qed.

(** ** Batches *)
Lemma grp_split {A} (bd bd' : A -> bool) cur r1 q r2 : bd q = true -> (forall x, In x r2 -> bd x = bd' x) ->
  grp bd cur (r1 ++ q :: r2) = grp bd cur r1 ++ grp bd' [q] r2.
Proof.
  intros Hq E. revert cur. induction r1 as [|v r IH]; intros cur; cbn [app grp].
  - rewrite Hq. f_equal. clear Hq. generalize [q]. induction r2 as [|x r IH]; intros c; cbn [grp]; [reflexivity|].
    rewrite (E x) by now left. destruct (bd' x); rewrite IH by (intros y Hy; apply E; now right); reflexivity.
  - destruct (bd v); [|apply IH]. cbn [app]. now rewrite IH.
Qed.

Lemma starts_unique tz n (cs : list (candle f64)) p : first_start tz n cs p ->
  forall sk p' rest, cs = sk ++ p' :: rest -> Forall (fun c => ~ starts_interval tz n (c_time c)) sk ->
  starts_interval tz n (c_time p') -> p' = p.
Proof.
  intros (s & r & -> & Hs & Hp) sk p' rest. revert sk. induction s as [|x s IH]; intros sk E Hsk Hp'.
  - destruct sk as [|y sk]; cbn [app] in E; injection E as -> E; [reflexivity|]. inversion Hsk; subst. contradiction.
  - inversion Hs as [|? ? Hx Hs']; subst. destruct sk as [|y sk]; cbn [app] in E; injection E as -> E; [contradiction|].
    inversion Hsk; subst. exact (IH Hs' sk E ltac:(assumption) Hp').
Qed.

Lemma same_steps n p q t : n <> 0 -> (60 | q - p) -> (60 | t - p) -> on_boundary p n q ->
  on_boundary q n t <-> on_boundary p n t.
Proof.
  intros Hn [a Ha] [b Hb] Hq. unfold on_boundary, minutes_apart in *.
  replace (t - q) with ((b - a) * 60) by lia. rewrite Ha in Hq. rewrite Hb.
  rewrite !Z.abs_mul in *. change (Z.abs 60) with 60 in *. rewrite !Z.div_mul in * by lia.
  rewrite !Z.divide_abs_r in *. split; intros H.
  - replace b with ((b - a) + a) by lia. now apply Z.divide_add_r.
  - now apply Z.divide_sub_r.
Qed.

Lemma modify_batches tz n a q b outa outb p : 2 <= zlen a -> b <> [] -> near_times (a ++ q :: b) ->
  (forall c, In c (a ++ q :: b) -> (60 | c_time c - c_time p)) ->
  first_start tz n a p -> starts_interval tz n (c_time q) -> on_boundary (c_time p) n (c_time q) ->
  modify_interval tz a n = Ret (outa, None) -> modify_interval tz (q :: b) n = Ret (outb, None) ->
  modify_interval tz (a ++ q :: b) n = Ret (outa ++ outb, None).
Proof.
  intros La Lb Near M60 Fs Sq Bq Ha Hb.
  assert (2 <= zlen (q :: b)) as Lb' by (destruct b; [congruence|]; rewrite !zlen_cons; pose proof (zlen_nonneg b); lia).
  destruct (mi_success f64_R5 tz a n outa La Ha) as (sk & p0 & rest & Ea & Hsk & Hp & D0 & D1 & D2 & Hn & Eo).
  destruct (mi_success f64_R5 tz (q :: b) n outb Lb' Hb) as (sk' & q0 & rest' & Eb & Hsk' & Hq & _ & _ & _ & Hn' & Eo').
  assert (p0 = p) as ->.
  { eapply starts_unique; [exact Fs|exact Ea| |now apply aligned_iff].
    eapply Forall_impl; [|exact Hsk]. intros c. apply aligned_false_iff. }
  destruct sk' as [|x sk']; cbn [app] in Eb.
  2:{ injection Eb as <- _. inversion Hsk'; subst. apply aligned_iff in Sq. congruence. }
  injection Eb as <- <-. assert (n <> 0) as Hn0 by tauto.
  assert (first_gap (a ++ q :: b) = first_gap a) as Eg.
  { destruct a as [|x [|y a]]; try reflexivity; unfold zlen in La; cbn [List.length] in La; lia. }
  rewrite (mi_main f64_R5 tz (a ++ q :: b) n sk p (rest ++ q :: b)).
  - assert (In p (a ++ q :: b)) as Ip by (rewrite Ea, <- app_assoc; apply in_or_app; right; now left).
    assert (In q (a ++ q :: b)) as Iq by (apply in_or_app; right; now left).
    assert (rest ++ q :: b <> []) as Ne by (destruct rest; discriminate).
    destruct (rest ++ q :: b) as [|v r] eqn:Er; [congruence|]. rewrite <- Er.
    destruct (Z.eqb_spec n 0); [contradiction|].
    rewrite (grp_split (bdb (c_time p) n) (bdb (c_time q) n)).
    + rewrite map_app, Eo, Eo'. reflexivity.
    + apply bdb_iff; auto.
    + intros c Hc. assert (In c (a ++ q :: b)) as Ic by (apply in_or_app; right; now right).
      pose proof (same_steps n (c_time p) (c_time q) (c_time c) Hn0 (M60 q Iq) (M60 c Ic) Bq) as S.
      rewrite <- (bdb_iff (c_time p) n c), <- (bdb_iff (c_time q) n c) in S by auto.
      destruct (bdb (c_time p) n c), (bdb (c_time q) n c); intuition congruence.
  - rewrite Ea, <- app_assoc. reflexivity.
  - rewrite zlen_app. pose proof (zlen_nonneg (q :: b)). lia.
  - assumption.
  - assumption.
  - now rewrite Eg.
  - now rewrite Eg.
  - now rewrite Eg.
Qed.

Lemma modify_batches_hours tz n a q b outa outb : 2 <= zlen a -> b <> [] -> near_times (a ++ q :: b) ->
  1 <= n -> (n | 60) -> (forall u, (3600 | tz u)) -> (forall c, In c (a ++ q :: b) -> (60 | c_time c)) ->
  starts_interval tz n (c_time q) ->
  modify_interval tz a n = Ret (outa, None) -> modify_interval tz (q :: b) n = Ret (outb, None) ->
  modify_interval tz (a ++ q :: b) n = Ret (outa ++ outb, None).
Proof.
  intros La Lb Near Hn D60 Hz M60 Sq Ha Hb.
  destruct (mi_success f64_R5 tz a n outa La Ha) as (sk & p & rest & Ea & Hsk & Hp & _).
  apply aligned_iff in Hp.
  assert (In p (a ++ q :: b)) as Ip by (rewrite Ea, <- app_assoc; apply in_or_app; right; now left).
  assert (In q (a ++ q :: b)) as Iq by (apply in_or_app; right; now left).
  apply (modify_batches tz n a q b outa outb p); auto.
  - intros c Hc. apply Z.divide_sub_r; auto.
  - exists sk, rest. split; [assumption|]. split; [|assumption].
    eapply Forall_impl; [|exact Hsk]. intros c. apply aligned_false_iff.
  - pose proof (starts_interval_hours tz n (c_time p) Hn D60 Hz Hp) as Dp.
    pose proof (starts_interval_hours tz n (c_time q) Hn D60 Hz Sq) as Dq.
    destruct (M60 p Ip) as [u Hu]. destruct (M60 q Iq) as [v Hv]. rewrite Hu, Z.div_mul in Dp by lia. rewrite Hv, Z.div_mul in Dq by lia.
    unfold on_boundary, minutes_apart. replace (c_time q - c_time p) with ((v - u) * 60) by lia.
    rewrite Z.abs_mul. change (Z.abs 60) with 60. rewrite Z.div_mul by lia. rewrite Z.divide_abs_r. now apply Z.divide_sub_r.
Qed.
