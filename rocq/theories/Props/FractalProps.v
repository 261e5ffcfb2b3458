(** Properties C61-C63: indicators/williams_fractals.go.
    Model: Model/Indicators.v; vocabulary: Spec/IndicatorSpec.v. *)
From Coq Require Import Sorted Lia.
From Flocq Require Import BinarySingleNaN.
From Verif Require Import Go.Outcome Go.Int64 Go.Slice Go.Float64 Go.FloatOrder Go.Num
  Model.Candle Model.Indicators Spec.IndicatorSpec Proofs.Fractals.
Open Scope list_scope.
Open Scope Z_scope.
Local Notation length := List.length.

(** Candles at times 0, 60, ... with the given (low, high). *)
Definition bars (l : list (Z * Z)) : list (candle f64) :=
  map (fun '(t, (lo, hi)) => mkCandle (60 * Z.of_nat t) (i2f lo) (i2f hi) (i2f lo) (i2f hi) (i2f 1))
    (combine (seq 0 (length l)) l).
Definition seen_fractals (o : go (list (fractal f64))) : option (list (Z * Z * ftype)) :=
  match o with Ret l => Some (map (fun f => (fr_time f / 60, f2i (fr_price f), fr_type f)) l) | Panic _ => None end.

Lemma prices_ok_of ft cs : prices_ok cs -> Forall (fun c => is_nan (price_of ft c) = false) cs.
Proof. intros H. eapply Forall_impl; [|exact H]. intros c [H1 H2]. destruct ft; assumption. Qed.
Lemma show_reports cs keys : (forall i ft, In (i, ft) keys -> (i < length cs)%nat) ->
  Forall2 (reports cs) keys (flat_map (show cs) keys).
Proof.
  induction keys as [|[i ft] keys IH]; intros H; [constructor|]. cbn [flat_map]. unfold show at 1. cbn [fst snd].
  destruct (nth_error cs i) as [c|] eqn:E.
  - cbn [app]. constructor; [exists c; auto|]. apply IH. intros i' ft' K. apply (H i' ft'). now right.
  - exfalso. apply nth_error_None in E. specialize (H i ft (or_introl eq_refl)). lia.
Qed.

(** ** C61 *)
(** The reports are, in order, one for each index and kind with the pattern
    (and two candles to the right, so that index len-1 and len-2 never count). *)
Theorem C61_exactly_the_patterns : forall cs, prices_ok cs ->
  exists keys out, william_fractals cs = Ret out /\ Forall2 (reports cs) keys out /\
    StronglySorted key_lt keys /\
    forall i ft, In (i, ft) keys <->
      (2 <= i /\ i + 2 < length cs)%nat /\ pattern (below ft) (map (price_of ft) cs) i.
Proof.
  intros cs H. exists (all_keys cs), (flat_map (show cs) (all_keys cs)). split; [apply wf_keys|]. split; [|split].
  - apply show_reports. intros i ft K. apply in_all_keys in K. lia.
  - apply keys_sorted.
  - intros i ft. rewrite in_all_keys. split; intros [Hi K]; (split; [assumption|]).
    + apply found_pattern; [now apply prices_ok_of|lia|assumption].
    + apply found_pattern; [now apply prices_ok_of|lia|assumption].
Qed.
(** The same, for membership of a single report. *)
Theorem C61_reported_iff : forall cs out fr, prices_ok cs -> william_fractals cs = Ret out ->
  (In fr out <-> exists i ft, (2 <= i /\ i + 2 < length cs)%nat /\ reports cs (i, ft) fr /\
                   pattern (below ft) (map (price_of ft) cs) i).
Proof.
  intros cs out fr H E. destruct (C61_exactly_the_patterns cs H) as (keys & out' & E' & F & _ & K).
  rewrite E in E'. injection E' as <-. clear E. split.
  - intros Hin. assert (exists k, In k keys /\ reports cs k fr) as ([i ft] & Hk & R).
    { clear K. induction F as [|k x keys out R F IH]; [destruct Hin|]. destruct Hin as [->|Hin]; [exists k; split; [now left|assumption]|].
      destruct (IH Hin) as (k' & A & B). exists k'. split; [now right|assumption]. }
    apply K in Hk. exists i, ft. tauto.
  - intros (i & ft & Hi & R & P). assert (In (i, ft) keys) as Hk by (apply K; auto). clear K P.
    induction F as [|k x keys out R' F IH]; [destruct Hk|]. destruct Hk as [->|Hk]; [|right; auto].
    left. destruct R as (c & E1 & ->), R' as (c' & E2 & ->). rewrite E1 in E2. injection E2 as <-. reflexivity.
Qed.
Example C61_example :
  let cs := bars [(1, 5); (2, 6); (3, 9); (0, 8); (1, 9); (2, 7); (3, 9)] in
  prices_ok cs /\ seen_fractals (william_fractals cs) = Some [(2, 9, FractalUp); (3, 0, FractalDown)].
Proof.
  cbv zeta. split; [|vm_compute; reflexivity]. unfold prices_ok, bars. cbn [length seq combine map].
  repeat (apply Forall_cons; [split; vm_compute; reflexivity|]). apply Forall_nil.
Qed.
(** The documentation asks for two lower candles on the right.  Refuted: a
    candle followed only by equal highs is reported. *)
Theorem C61_two_lower_on_the_right_refuted : exists cs out fr i c,
  prices_ok cs /\ william_fractals cs = Ret out /\ In fr out /\ fr_type fr = FractalUp /\
  nth_error cs i = Some c /\ fr_time fr = c_time c /\ (forall j c', nth_error cs j = Some c' -> c_time c' = c_time c -> j = i) /\
  filter (fun d => f64_lt (c_high d) (c_high c)) (skipn (S i) cs) = [].
Proof.
  set (cs := bars [(1, 1); (1, 1); (1, 5); (1, 5); (1, 5)]).
  exists cs, (flat_map (show cs) (all_keys cs)), (report FractalUp (nth 2 cs (mkCandle 0 (i2f 0) (i2f 0) (i2f 0) (i2f 0) (i2f 0)))), 2%nat,
    (nth 2 cs (mkCandle 0 (i2f 0) (i2f 0) (i2f 0) (i2f 0) (i2f 0))).
  split. { unfold cs, prices_ok, bars. cbn [length seq combine map]. repeat (apply Forall_cons; [split; vm_compute; reflexivity|]). apply Forall_nil. }
  split; [apply wf_keys|]. split.
  { assert (In (2%nat, FractalUp) (all_keys cs)) as K by (apply in_all_keys; split; [cbn; lia|vm_compute; reflexivity]).
    apply in_flat_map. exists (2%nat, FractalUp). split; [exact K|]. left. reflexivity. }
  split; [reflexivity|]. split; [reflexivity|]. split; [reflexivity|]. split.
  - intros j c' E T. do 5 (destruct j as [|j]; [injection E as <-; cbn in T; try discriminate; reflexivity|]). destruct j; discriminate.
  - unfold cs. cbn [bars length seq combine map skipn nth c_high filter].
    assert (f64_lt (i2f 5) (i2f 5) = false) as -> by (vm_compute; reflexivity). reflexivity.
Qed.
(** NaN prices are outside the pattern (nothing is below or above NaN) yet a
    NaN candle is reported. *)
Theorem C61_nan_refuted : exists cs out fr, william_fractals cs = Ret out /\ In fr out /\
  is_nan (fr_price fr) = true.
Proof.
  set (flat := mkCandle 0 (i2f 1) (i2f 1) (i2f 1) (i2f 1) (i2f 1)).
  set (bad := mkCandle 0 (i2f 1) (f64_sub (f64_div (i2f 1) (i2f 0)) (f64_div (i2f 1) (i2f 0))) (i2f 1) (i2f 1) (i2f 1)).
  set (cs := [flat; flat; bad; flat; flat]).
  exists cs, (flat_map (show cs) (all_keys cs)), (report FractalUp bad). split; [apply wf_keys|]. split; [|vm_compute; reflexivity].
  assert (In (2%nat, FractalUp) (all_keys cs)) as K by (apply in_all_keys; split; [cbn; lia|vm_compute; reflexivity]).
  apply in_flat_map. exists (2%nat, FractalUp). split; [exact K|]. left. reflexivity.
Qed.

(** ** C62 *)
(** For every input, NaN included: no panic, reports in input order, at most
    one of each kind per candle, up before down. *)
Theorem C62_input_order : forall cs, exists keys out,
  william_fractals cs = Ret out /\ Forall2 (reports cs) keys out /\ StronglySorted key_lt keys /\
  forall i ft, In (i, ft) keys -> (2 <= i /\ i + 2 < length cs)%nat.
Proof.
  intros cs. exists (all_keys cs), (flat_map (show cs) (all_keys cs)). split; [apply wf_keys|]. split; [|split].
  - apply show_reports. intros i ft K. apply in_all_keys in K. lia.
  - apply keys_sorted.
  - intros i ft K. apply in_all_keys in K. lia.
Qed.
Theorem C62_sorted_by_time : forall cs out, StronglySorted (fun a b => c_time a <= c_time b) cs ->
  william_fractals cs = Ret out -> StronglySorted (fun f g => fr_time f <= fr_time g) out.
Proof.
  intros cs out S E. destruct (C62_input_order cs) as (keys & out' & E' & F & K & _). rewrite E in E'. injection E' as <-. clear E.
  assert (forall i j a b, (i <= j)%nat -> nth_error cs i = Some a -> nth_error cs j = Some b -> c_time a <= c_time b) as M.
  { clear -S. induction S as [|x l S IH Hx]; intros i j a b Hij Ha Hb; [destruct i; discriminate|].
    destruct i as [|i], j as [|j]; cbn in Ha, Hb.
    - injection Ha as <-. injection Hb as <-. lia.
    - injection Ha as <-. rewrite Forall_forall in Hx. apply Hx. now apply nth_error_In in Hb.
    - lia.
    - apply (IH i j); auto. lia. }
  clear S. induction F as [|k fr keys out (c & Hc & ->) F IH]; [constructor|]. inversion K as [|? ? K1 K2]; subst. constructor; [now apply IH|].
  clear IH K K1. induction F as [|k' fr' keys out (c' & Hc' & ->) F IH]; [constructor|]. apply List.Forall_cons_iff in K2. destruct K2 as [K2 K3].
  constructor; [|now apply IH]. cbn [fr_time]. apply (M (fst k) (fst k')); auto. destruct K2 as [K2|[K2 _]]; lia.
Qed.
Theorem C62_short_series : forall cs, (length cs < 5)%nat -> william_fractals cs = Ret [].
Proof. intros cs H. unfold william_fractals. destruct (Z.ltb_spec (zlen cs) 5); [reflexivity|unfold zlen in *; lia]. Qed.
Example C62_example :
  let cs := bars [(5, 5); (4, 6); (1, 9); (2, 8); (3, 7)] in
  seen_fractals (william_fractals cs) = Some [(2, 9, FractalUp); (2, 1, FractalDown)].
Proof. vm_compute. reflexivity. Qed.

(** ** C63 *)
Theorem C63_confirmed_never_repaint : forall cs more ft i c, prices_ok (cs ++ more) ->
  confirmed ft cs i -> nth_error cs i = Some c ->
  forall grown out, grown = cs ++ more -> william_fractals grown = Ret out ->
    In (mkFractal (c_time c) (price_of ft c) ft) out.
Proof.
  intros cs more ft i c H (before & a & b & x & right & E & Hi & P & C) Hc grown out -> W.
  apply (C61_reported_iff _ _ _ H W). exists i, ft.
  assert (2 <= length right)%nat as Lr.
  { destruct C as (pre & post & -> & H2 & _). rewrite app_length.
    assert (forall (f : f64 -> bool) l, length (filter f l) <= length l)%nat as Lf.
    { intros f. induction l as [|y l IHl]; [cbn; lia|]. cbn [filter]. destruct (f y); cbn [List.length]; lia. }
    specialize (Lf (fun d => below ft d x) pre). lia. }
  assert (length cs = length before + 3 + length right)%nat as Lc.
  { rewrite <- (map_length (price_of ft) cs), E, app_length. cbn [List.length]. lia. }
  split; [rewrite app_length; lia|]. split.
  - exists c. cbn [fst snd]. rewrite nth_error_app1 by (apply nth_error_Some; congruence). auto.
  - exists before, a, b, x, (right ++ map (price_of ft) more). rewrite map_app, E, <- app_assoc. split; [reflexivity|].
    split; [assumption|]. split; [assumption|]. now apply confirmed_clear.
Qed.
(** Growing the series never adds a report for a candle that already had two
    candles to its right: reports only disappear. *)
Theorem C63_no_late_reports : forall cs more ft i, (i < length cs)%nat ->
  pattern (below ft) (map (price_of ft) (cs ++ more)) i -> pattern (below ft) (map (price_of ft) cs) i.
Proof.
  intros cs more ft i Hi P. rewrite map_app in P. apply pattern_shrinks in P; [assumption|]. now rewrite map_length.
Qed.
(** Unconfirmed reports can disappear. *)
Theorem C63_unconfirmed_repaint_refuted : exists cs more out out' fr,
  prices_ok (cs ++ more) /\ william_fractals cs = Ret out /\ william_fractals (cs ++ more) = Ret out' /\
  In fr out /\ ~ In fr out'.
Proof.
  set (cs := bars [(1, 1); (1, 1); (1, 5); (1, 4); (1, 5)]). set (more := [mkCandle 300 (i2f 6) (i2f 6) (i2f 1) (i2f 6) (i2f 1)]).
  assert (prices_ok (cs ++ more)) as H.
  { unfold cs, more, prices_ok, bars. cbn [length seq combine map app]. repeat (apply Forall_cons; [split; vm_compute; reflexivity|]). apply Forall_nil. }
  exists cs, more, (flat_map (show cs) (all_keys cs)), (flat_map (show (cs ++ more)) (all_keys (cs ++ more))).
  exists (report FractalUp (nth 2 cs (mkCandle 0 (i2f 0) (i2f 0) (i2f 0) (i2f 0) (i2f 0)))).
  split; [exact H|]. split; [apply wf_keys|]. split; [apply wf_keys|]. split.
  - assert (In (2%nat, FractalUp) (all_keys cs)) as K by (apply in_all_keys; split; [cbn; lia|vm_compute; reflexivity]).
    apply in_flat_map. exists (2%nat, FractalUp). split; [exact K|]. left. reflexivity.
  - assert (all_keys (cs ++ more) = []) as -> by (vm_compute; reflexivity). intros [].
Qed.
Example C63_example :
  let cs := bars [(1, 5); (2, 6); (3, 9); (3, 8); (3, 9); (3, 7)] in
  seen_fractals (william_fractals cs) = Some [(2, 9, FractalUp)] /\
  seen_fractals (william_fractals (cs ++ [mkCandle 360 (i2f 20) (i2f 20) (i2f 3) (i2f 20) (i2f 1)])) = Some [(2, 9, FractalUp)] /\
  confirmed FractalUp cs 2.
Proof.
  cbv zeta. split; [vm_compute; reflexivity|]. split; [vm_compute; reflexivity|].
  exists [], (i2f 5), (i2f 6), (i2f 9), [i2f 8; i2f 9; i2f 7]. split; [reflexivity|]. split; [reflexivity|].
  split; [split; vm_compute; reflexivity|]. exists [i2f 8; i2f 9; i2f 7], []. split; [reflexivity|]. split.
  - assert (length (filter (fun d => below FractalUp d (i2f 9)) [i2f 8; i2f 9; i2f 7]) = 2%nat) as -> by (vm_compute; reflexivity). lia.
  - repeat (apply Forall_cons; [vm_compute; reflexivity|]). apply Forall_nil.
Qed.
