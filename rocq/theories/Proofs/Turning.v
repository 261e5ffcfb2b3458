(** Supports C120: fractals of groups and of their members. *)
From Coq Require Import List Reals Lra Lia.
From Flocq Require Import Core BinarySingleNaN.
From Verif Require Import Go.Outcome Go.Float64 Go.FloatReal Go.FloatOrder Go.Num Model.Candle Model.Indicators
  Spec.CandleSpec Spec.IndicatorSpec Spec.TurningSpec Proofs.WholeOverlap.
Import ListNotations.
Open Scope list_scope.
Local Notation length := List.length.
Local Notation concat := List.concat.

(** Prices as numbers, larger = further out. *)
Definition out_of (ft : ftype) (x : f64) : R := match ft with FractalUp => B2R x | FractalDown => (- B2R x)%R end.
Lemma below_iff ft x y : is_finite x = true -> is_finite y = true -> below ft x y = true <-> (out_of ft x < out_of ft y)%R.
Proof.
  intros X Y. destruct ft; cbn [below out_of]; unfold gt64; rewrite fin_lt by assumption.
  - destruct (Rlt_bool_spec (B2R x) (B2R y)); split; try discriminate; try reflexivity; try lra.
  - destruct (Rlt_bool_spec (B2R y) (B2R x)); split; try discriminate; try reflexivity; try lra.
Qed.
Lemma below_false_iff ft x y : is_finite x = true -> is_finite y = true -> below ft x y = false <-> (out_of ft y <= out_of ft x)%R.
Proof.
  intros X Y. pose proof (below_iff ft x y X Y). destruct (below ft x y).
  - split; [discriminate|]. intros. assert (out_of ft x < out_of ft y)%R by tauto. lra.
  - split; [|reflexivity]. intros _. apply Rnot_lt_le. intros K. apply H in K. discriminate.
Qed.

Lemma first_outermost ft (g : list (candle f64)) x : In x g -> Forall (fun c => is_finite (price_of ft c) = true) g ->
  (forall c, In c g -> out_of ft (price_of ft c) <= out_of ft (price_of ft x))%R ->
  exists pre y post, g = pre ++ y :: post /\ out_of ft (price_of ft y) = out_of ft (price_of ft x) /\
    Forall (fun c => out_of ft (price_of ft c) < out_of ft (price_of ft x))%R pre.
Proof.
  intros I _ M. induction g as [|c g IH]; [destruct I|].
  destruct (Rlt_le_dec (out_of ft (price_of ft c)) (out_of ft (price_of ft x))) as [L|L].
  - destruct I as [<-|I]; [lra|]. destruct IH as (pre & y & post & -> & E & P); auto.
    { intros c' J. apply M. now right. }
    exists (c :: pre), y, post. split; [reflexivity|]. split; [assumption|]. now constructor.
  - exists [], c, g. split; [reflexivity|]. split; [|constructor]. pose proof (M c (or_introl eq_refl)). lra.
Qed.
Lemma last_two {A} (l : list A) : (2 <= length l)%nat -> exists k u w, l = k ++ [u; w].
Proof.
  intros L. destruct (exists_last (l := l)) as (l1 & w & ->). { intros ->. cbn in L. lia. }
  rewrite app_length in L. cbn in L. destruct (exists_last (l := l1)) as (l2 & u & ->). { intros ->. cbn in L. lia. }
  exists l2, u, w. now rewrite <- app_assoc.
Qed.
Lemma concat_at {A} (gs : list (list A)) pre d post : concat gs = pre ++ d :: post ->
  exists u h v h1 h2, gs = u ++ h :: v /\ h = h1 ++ d :: h2 /\ pre = concat u ++ h1 /\ post = h2 ++ concat v.
Proof.
  revert pre. induction gs as [|g gs IH]; intros pre E; cbn [concat] in E; [destruct pre; discriminate|].
  destruct (Nat.lt_ge_cases (length pre) (length g)) as [L|L].
  - assert (exists h1, pre = h1 /\ firstn (length pre) g = pre) as (h1 & <- & F).
    { exists pre. split; [reflexivity|]. apply (f_equal (firstn (length pre))) in E.
      rewrite firstn_app, firstn_app, firstn_all, Nat.sub_diag in E.
      replace (length pre - length g)%nat with 0%nat in E by lia. cbn in E. now rewrite !app_nil_r in E. }
    rewrite <- (firstn_skipn (length pre) g), F, <- app_assoc in E. apply app_inv_head in E.
    destruct (skipn (length pre) g) as [|d' h2] eqn:Es.
    { apply (f_equal (@List.length A)) in Es. rewrite skipn_length in Es. cbn in Es. lia. }
    cbn in E. injection E as <- <-. exists [], g, gs, pre, h2. split; [reflexivity|]. split; [|now split].
    rewrite <- (firstn_skipn (length pre) g) at 1. now rewrite F, Es.
  - assert (exists q, pre = g ++ q) as (q & ->).
    { exists (skipn (length g) pre). rewrite <- (firstn_skipn (length g) pre) at 1. f_equal.
      apply (f_equal (firstn (length g))) in E. rewrite !firstn_app, firstn_all, Nat.sub_diag in E.
      replace (length g - length pre)%nat with 0%nat in E by lia. cbn in E. now rewrite !app_nil_r in E. }
    rewrite <- app_assoc in E. apply app_inv_head in E. destruct (IH _ E) as (u & h & v & h1 & h2 & -> & E1 & -> & E2).
    exists (g :: u), h, v, h1, h2. repeat split; auto. cbn. now rewrite app_assoc.
Qed.
Lemma filter_all {A} (f : A -> bool) l : Forall (fun x => f x = true) l -> filter f l = l.
Proof. induction 1 as [|x l H _ IH]; [reflexivity|]. cbn. now rewrite H, IH. Qed.
Lemma filter_map_len {A B} (p : B -> bool) (f : A -> B) l : length (filter p (map f l)) = length (filter (fun x => p (f x)) l).
Proof. induction l as [|x l IH]; [reflexivity|]. cbn. destruct (p (f x)); cbn; now rewrite IH. Qed.

Definition finite_prices (ft : ftype) (cs : list (candle f64)) : Prop := Forall (fun c => is_finite (price_of ft c) = true) cs.
Lemma fin_in ft cs c : finite_prices ft cs -> In c cs -> is_finite (price_of ft c) = true.
Proof. intros H I. unfold finite_prices in H. rewrite Forall_forall in H. auto. Qed.

(** Two inside groups hold two candles inside. *)
Lemma two_inside_filter ft p gs : Forall (fun g => g <> []) gs -> two_inside ft p gs ->
  (2 <= length (filter (fun c => below ft (price_of ft c) p) (concat gs)))%nat.
Proof.
  intros N (u & g & v & h & w & -> & G & H).
  rewrite concat_app. cbn [concat]. rewrite concat_app. cbn [concat]. rewrite !filter_app, !app_length.
  rewrite (filter_all _ g) by exact G. rewrite (filter_all _ h) by exact H.
  apply Forall_app in N. destruct N as [_ N]. inversion N as [|? ? N1 N2]; subst. apply Forall_app in N2. destruct N2 as [_ N2].
  inversion N2 as [|? ? N3 _]; subst. destruct g; [congruence|]. destruct h; [congruence|]. cbn [length]. lia.
Qed.

(** Where a group turns, one of its candles does. *)
Lemma turns_fine ft p skipped gs j : finite_prices ft (skipped ++ concat gs) -> is_finite p = true -> Forall (fun g => g <> []) gs ->
  (j + 2 < length gs)%nat -> turns ft p gs j ->
  exists i c g, nth_error gs j = Some g /\ In c g /\ nth_error (skipped ++ concat gs) i = Some c /\ out_of ft (price_of ft c) = out_of ft p /\
    (2 <= i /\ i + 2 < length (skipped ++ concat gs))%nat /\ pattern (below ft) (map (price_of ft) (skipped ++ concat gs)) i.
Proof.
  intros F Fp N L (before & a & b & x & right & -> & Ej & Ia & Ib & [(c & Ic & Ec) Nb] & R).
  rewrite concat_app in *. cbn [concat] in *.
  assert (forall d, In d (skipped ++ concat before ++ a ++ b ++ x ++ concat right) -> is_finite (price_of ft d) = true) as Fi by (intros d; apply fin_in; assumption).
  destruct (first_outermost ft x c Ic) as (pre & y & post & -> & Ey & Pre).
  { apply Forall_forall. intros d I. apply Fi. rewrite !in_app_iff. tauto. }
  { intros d I. rewrite Ec. apply below_false_iff; [assumption|apply Fi; rewrite !in_app_iff; tauto|].
    destruct (below ft p (price_of ft d)) eqn:Q; [|reflexivity]. exfalso. apply Nb. exists d. auto. }
  rewrite Ec in Ey, Pre. clear Ec.
  apply Forall_app in N. destruct N as [_ N]. inversion N as [|? ? N1 N2]; subst. inversion N2 as [|? ? N3 N4]; subst.
  inversion N4 as [|? ? _ Nr]; subst.
  destruct (last_two (a ++ b ++ pre)) as (k & u & w & Ek).
  { rewrite !app_length. destruct a; [congruence|]. destruct b; [congruence|]. cbn. lia. }
  assert (skipped ++ concat before ++ a ++ b ++ (pre ++ y :: post) ++ concat right =
    (skipped ++ concat before ++ k) ++ u :: w :: y :: (post ++ concat right)) as El.
  { transitivity (skipped ++ concat before ++ (a ++ b ++ pre) ++ y :: (post ++ concat right)).
    - now rewrite <- !app_assoc.
    - rewrite Ek. now rewrite <- !app_assoc. }
  assert (forall d, In d (a ++ b ++ pre) -> out_of ft (price_of ft d) < out_of ft p)%R as Lo.
  { intros d I. rewrite !in_app_iff in I. destruct I as [I|[I|I]].
    - unfold inside in Ia. rewrite Forall_forall in Ia. apply below_iff; [apply Fi; rewrite !in_app_iff; tauto|assumption|]. auto.
    - unfold inside in Ib. rewrite Forall_forall in Ib. apply below_iff; [apply Fi; rewrite !in_app_iff; tauto|assumption|]. auto.
    - rewrite Forall_forall in Pre. auto. }
  assert (is_finite (price_of ft y) = true) as Fy by (apply Fi; rewrite !in_app_iff; cbn; tauto).
  assert (length (concat right) >= 2)%nat as L2.
  { rewrite app_length in L. cbn in L. destruct right as [|r1 [|r2 right]]; cbn in L; try lia.
    inversion Nr as [|? ? M1 M2]; subst. inversion M2; subst. cbn. rewrite !app_length. destruct r1; [congruence|]. destruct r2; [congruence|]. cbn. lia. }
  exists (length (skipped ++ concat before ++ k) + 2)%nat, y, (pre ++ y :: post).
  split. { rewrite nth_error_app2 by lia. replace (length before + 2 - length before)%nat with 2%nat by lia. reflexivity. }
  split. { rewrite in_app_iff; cbn; tauto. }
  rewrite El. split. { rewrite nth_error_app2 by lia. replace (length (skipped ++ concat before ++ k) + 2 - length (skipped ++ concat before ++ k))%nat with 2%nat by lia. reflexivity. }
  split; [assumption|]. split. { rewrite (app_length (skipped ++ concat before ++ k)). cbn [length]. rewrite (app_length post). lia. }
  rewrite map_app. cbn [map]. exists (map (price_of ft) (skipped ++ concat before ++ k)), (price_of ft u), (price_of ft w), (price_of ft y), (map (price_of ft) (post ++ concat right)).
  split; [reflexivity|]. split; [now rewrite map_length|].
  assert (forall d, In d (u :: w :: y :: post ++ concat right) -> is_finite (price_of ft d) = true) as Fl.
  { intros d I. apply Fi. rewrite El, in_app_iff. now right. }
  split.
  - assert (In u (a ++ b ++ pre) /\ In w (a ++ b ++ pre)) as [Iu Iw] by (rewrite Ek, !in_app_iff; cbn; tauto).
    split; apply below_iff; try assumption; try (apply Fl; cbn; tauto); rewrite Ey; auto.
  - intros pr d po Em Bd. apply map_eq_app in Em. destruct Em as (pr' & rest & Em & <- & Er).
    destruct rest as [|dc po']; [discriminate|]. cbn [map] in Er. injection Er as Ed Epo.
    assert (In dc (post ++ concat right)) as Idc by (rewrite Em, in_app_iff; cbn; tauto).
    assert (is_finite (price_of ft dc) = true) as Fd by (apply Fl; cbn; tauto). rewrite <- Ed in Bd.
    apply below_iff in Bd; [|assumption|assumption]. rewrite Ey in Bd.
    rewrite filter_map_len.
    assert (exists q, pr' = post ++ q /\ concat right = q ++ dc :: po') as (q & -> & Eq).
    { clear - Em Bd Nb Fi Fp Fd. revert pr' Em. assert (forall e, In e post -> out_of ft (price_of ft e) <= out_of ft p)%R as Hp.
      { intros e I. apply below_false_iff; [assumption|apply Fi; rewrite !in_app_iff; cbn; tauto|].
        destruct (below ft p (price_of ft e)) eqn:Q; [|reflexivity]. exfalso. apply Nb. exists e. split; [rewrite in_app_iff; cbn; tauto|assumption]. }
      clear Nb Fi. induction post as [|e post IH]; intros pr' Em.
      - exists pr'. auto.
      - destruct pr' as [|e' pr']; cbn in Em; injection Em as Ee Em; subst e.
        + pose proof (Hp dc (or_introl eq_refl)). lra.
        + destruct (IH (fun e I => Hp e (or_intror I)) pr' Em) as (q & -> & Eq). exists q. auto. }
    destruct (concat_at right q dc po' Eq) as (gu & h & gv & h1 & h2 & -> & -> & -> & _).
    rewrite filter_app, filter_app, !app_length.
    assert (2 <= length (filter (fun c => below ft (price_of ft c) p) (concat gu)))%nat as T.
    { apply two_inside_filter; [apply Forall_app in Nr; tauto|]. eapply R; [reflexivity|]. exists dc. split; [rewrite in_app_iff; cbn; tauto|].
      apply below_iff; assumption. }
    rewrite (filter_ext_in (fun x => below ft (price_of ft x) (price_of ft y)) (fun c => below ft (price_of ft c) p) (concat gu)); [lia|].
    intros e I. assert (is_finite (price_of ft e) = true) as Fe.
    { apply Fi. rewrite concat_app, !in_app_iff. tauto. }
    pose proof (below_iff ft (price_of ft e) (price_of ft y) Fe Fy) as B1. pose proof (below_iff ft (price_of ft e) p Fe Fp) as B2.
    rewrite Ey in B1. destruct (below ft (price_of ft e) (price_of ft y)), (below ft (price_of ft e) p); try reflexivity.
    + symmetry. apply B2, B1. reflexivity.
    + apply B1, B2. reflexivity.
Qed.

(** ** Groups and their summaries *)
Lemma sane_finite x : sane x -> is_finite x = true.
Proof.
  intros [A B]. destruct x as [s|s| |s m e E]; try reflexivity.
  - destruct s; [|clear A; exfalso; revert B; vm_compute; discriminate]. exfalso. revert A. vm_compute. discriminate.
  - exfalso. revert A. vm_compute. discriminate.
Qed.
Lemma sane_prices ft cs : Forall sane_candle cs -> finite_prices ft cs.
Proof. intros H. eapply Forall_impl; [|exact H]. intros c [A B]. destruct ft; now apply sane_finite. Qed.
Lemma le_not_lt x y : f64_le x y = true -> f64_lt y x = false.
Proof.
  unfold f64_le, f64_lt, Bleb, Bltb, SpecFloat.SFleb, SpecFloat.SFltb. fold (Bcompare x y). fold (Bcompare y x).
  change (SpecFloat.SFcompare (B2SF x) (B2SF y)) with (Bcompare x y). change (SpecFloat.SFcompare (B2SF y) (B2SF x)) with (Bcompare y x).
  rewrite (Bcompare_swap _ _ x y). destruct (Bcompare x y) as [[]|]; cbn; congruence.
Qed.
Lemma summary_outermost ft g c : Forall sane_candle g -> summary g c -> outermost ft (price_of ft c) g.
Proof.
  intros H (_ & _ & Hi & Lo & _).
  assert (Forall (fun v => sane (c_high v)) g) as Sh by (eapply Forall_impl; [|exact H]; intros v [? ?]; assumption).
  assert (Forall (fun v => sane (c_low v)) g) as Sl by (eapply Forall_impl; [|exact H]; intros v [? ?]; assumption).
  destruct (Hi Sh) as [I1 M1], (Lo Sl) as [I2 M2]. split.
  - destruct ft; cbn [price_of]; [apply in_map_iff in I1; destruct I1 as (v & E & I)|apply in_map_iff in I2; destruct I2 as (v & E & I)]; exists v; split; assumption.
  - intros (v & I & B). destruct ft; cbn [price_of below] in B; unfold gt64 in B.
    + rewrite (le_not_lt _ _ (M1 _ (in_map c_high _ _ I))) in B. discriminate.
    + rewrite (le_not_lt _ _ (M2 _ (in_map c_low _ _ I))) in B. discriminate.
Qed.

Section one_kind.
Variable ft : ftype.
Definition stands (g : list (candle f64)) (c : candle f64) : Prop := finite_prices ft g /\ outermost ft (price_of ft c) g.
Lemma stands_finite g c : stands g c -> is_finite (price_of ft c) = true.
Proof. intros [F [(d & I & <-) _]]. now apply (fin_in ft g). Qed.
Lemma inside_iff g c p : stands g c -> is_finite p = true -> inside ft p g <-> below ft (price_of ft c) p = true.
Proof.
  intros St Fp. pose proof (stands_finite _ _ St) as Fc. destruct St as [F [(d & I & E) N]]. split.
  - intros H. unfold inside in H. rewrite Forall_forall in H. rewrite <- E. auto.
  - intros B. apply Forall_forall. intros e J. pose proof (fin_in ft g e F J) as Fe. apply below_iff; try assumption.
    apply below_iff in B; try assumption.
    assert (out_of ft (price_of ft e) <= out_of ft (price_of ft c))%R; [|lra].
    apply below_false_iff; try assumption. destruct (below ft (price_of ft c) (price_of ft e)) eqn:Q; [|reflexivity].
    exfalso. apply N. exists e. auto.
Qed.
Lemma beyond_iff g c p : stands g c -> is_finite p = true -> beyond ft p g <-> below ft p (price_of ft c) = true.
Proof.
  intros St Fp. pose proof (stands_finite _ _ St) as Fc. destruct St as [F [(d & I & E) N]]. split.
  - intros (e & J & B). pose proof (fin_in ft g e F J) as Fe. apply below_iff; try assumption. apply below_iff in B; try assumption.
    assert (out_of ft (price_of ft e) <= out_of ft (price_of ft c))%R; [|lra].
    apply below_false_iff; try assumption. destruct (below ft (price_of ft c) (price_of ft e)) eqn:Q; [|reflexivity].
    exfalso. apply N. exists e. auto.
  - intros B. exists d. rewrite E. auto.
Qed.
Lemma filter_two {A} (f : A -> bool) l : (2 <= length (filter f l))%nat ->
  exists u x v y w, l = u ++ x :: v ++ y :: w /\ f x = true /\ f y = true.
Proof.
  intros H. assert (forall m, (1 <= length (filter f m))%nat -> exists v y w, m = v ++ y :: w /\ f y = true) as K.
  { clear. induction m as [|a m IH]; intros H; [cbn in H; lia|]. cbn in H. destruct (f a) eqn:E.
    - exists [], a, m. auto.
    - destruct (IH H) as (v & y & w & -> & Y). exists (a :: v), y, w. auto. }
  induction l as [|a l IH]; [cbn in H; lia|]. cbn in H. destruct (f a) eqn:E.
  - cbn in H. destruct (K l) as (v & y & w & -> & Y); [lia|]. exists [], a, v, y, w. auto.
  - destruct (IH H) as (u & x & v & y & w & -> & X & Y). exists (a :: u), x, v, y, w. auto.
Qed.
Lemma two_iff gs cs p : Forall2 stands gs cs -> is_finite p = true ->
  two_inside ft p gs <-> (2 <= length (filter (fun d => below ft d p) (map (price_of ft) cs)))%nat.
Proof.
  intros H Fp. rewrite filter_map_len. split.
  - intros (u & g & v & h & w & -> & G1 & G2). apply Forall2_app_inv_l in H. destruct H as (cu & c1 & _ & H & ->).
    inversion H as [|? c ? c2 S1 H2]; subst. apply Forall2_app_inv_l in H2. destruct H2 as (cv & c3 & _ & H2 & ->).
    inversion H2 as [|? d ? c4 S2 _]; subst. rewrite (inside_iff _ c) in G1 by assumption. rewrite (inside_iff _ d) in G2 by assumption.
    rewrite filter_app. cbn [filter]. rewrite G1, filter_app. cbn [filter]. rewrite G2, !app_length. cbn [length]. rewrite app_length. cbn [length]. lia.
  - intros L. destruct (filter_two _ _ L) as (u & x & v & y & w & -> & X & Y).
    apply Forall2_app_inv_r in H. destruct H as (gu & g1 & _ & H & ->).
    inversion H as [|g ? g2 ? S1 H2]; subst. apply Forall2_app_inv_r in H2. destruct H2 as (gv & g3 & _ & H2 & ->).
    inversion H2 as [|h ? g4 ? S2 _]; subst. exists gu, g, gv, h, g4. split; [reflexivity|].
    split; [now apply (inside_iff _ x)|now apply (inside_iff _ y)].
Qed.
Lemma pattern_turns gs cs j c : Forall2 stands gs cs -> nth_error cs j = Some c ->
  pattern (below ft) (map (price_of ft) cs) j <-> turns ft (price_of ft c) gs j.
Proof.
  intros H Ec. split.
  - intros (before & a & b & x & right & E & Ej & [Pa Pb] & R).
    apply map_eq_app in E. destruct E as (cb & rest & -> & <- & E).
    destruct rest as [|ca [|cb' [|cx cr]]]; try discriminate. cbn [map] in E. injection E as <- <- <- <-.
    rewrite map_length in Ej. subst j. rewrite nth_error_app2 in Ec by lia. replace (length cb + 2 - length cb)%nat with 2%nat in Ec by lia.
    cbn in Ec. injection Ec as ->.
    apply Forall2_app_inv_r in H. destruct H as (gb & g1 & Hb & H & ->). inversion H as [|ga ? g2 ? Sa H2]; subst.
    inversion H2 as [|gb' ? g3 ? Sb H3]; subst. inversion H3 as [|gx ? gr ? Sx H4]; subst.
    pose proof (stands_finite _ _ Sx) as Fp.
    exists gb, ga, gb', gx, gr. split; [reflexivity|]. split. { f_equal. clear - Hb. induction Hb; cbn; congruence. }
    split; [now apply (inside_iff _ ca)|]. split; [now apply (inside_iff _ cb')|]. split; [apply Sx|].
    intros pre g post E B. subst gr. apply Forall2_app_inv_l in H4. destruct H4 as (cp & c1 & Hp & H4 & ->).
    inversion H4 as [|? d ? cpost Sd _]; subst. apply (two_iff pre cp); [assumption|assumption|].
    apply (R (map (price_of ft) cp) (price_of ft d) (map (price_of ft) cpost)).
    + now rewrite map_app.
    + now apply (beyond_iff g d).
  - intros (gb & ga & gb' & gx & gr & -> & Ej & Ia & Ib & _ & R).
    apply Forall2_app_inv_l in H. destruct H as (cb & c1 & Hb & H & ->). inversion H as [|? ca ? c2 Sa H2]; subst.
    inversion H2 as [|? cb' ? c3 Sb H3]; subst. inversion H3 as [|? cx ? cr Sx H4]; subst.
    assert (length gb = length cb) as El by (clear - Hb; induction Hb; cbn; congruence). rewrite El in Ec.
    rewrite nth_error_app2 in Ec by lia. replace (length cb + 2 - length cb)%nat with 2%nat in Ec by lia.
    cbn in Ec. injection Ec as ->. pose proof (stands_finite _ _ Sx) as Fp.
    exists (map (price_of ft) cb), (price_of ft ca), (price_of ft cb'), (price_of ft c), (map (price_of ft) cr).
    split; [now rewrite map_app|]. split; [rewrite map_length; lia|].
    split. { split; [now apply (inside_iff ga ca)|now apply (inside_iff gb' cb')]. }
    intros pre d post E B. apply map_eq_app in E. destruct E as (cp & rest & -> & <- & E).
    destruct rest as [|cd cpost]; [discriminate|]. cbn [map] in E. injection E as <- _.
    apply Forall2_app_inv_r in H4. destruct H4 as (gp & g1 & Hp & H4 & ->). inversion H4 as [|g ? gpost ? Sd _]; subst.
    apply (two_iff gp cp); [assumption|assumption|]. apply (R gp g gpost); [reflexivity|]. now apply (beyond_iff g cd).
Qed.
End one_kind.
