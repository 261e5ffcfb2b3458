(** Property C128: order books in whole ticks and whole lots
    (market/orderbook.go:19-73, 136-255, 288-341).  Vocabulary: Spec/GridBookSpec.v. *)
From Coq Require Import List String ZArith Reals Lra Lia.
From Flocq Require Import Core BinarySingleNaN.
From Verif Require Import Go.Outcome Go.Int64 Go.Slice Go.Float64 Go.FloatReal Go.Num Model.OrderBook
  Spec.OrderBookSpec Spec.WholeSpec Spec.AccuracySpec Spec.TickSpec Spec.GridBookSpec
  Proofs.OrderBook Proofs.Updates Proofs.WholeOverlap Proofs.Ticks Proofs.GridOverlap Props.OrderBookProps Props.AccuracyProps.
Import ListNotations.
Open Scope list_scope.
Open Scope Z_scope.

(** The accumulated volumes of a new book are exact: the number of lots at
    index [i] is the sum of the numbers of lots up to there. *)
Lemma running_ticks f l zs : tick f -> Forall2 (ticks f) l zs -> forall a z, ticks f a z -> Z.abs z + weight zs <= 2 ^ 53 ->
  forall i x, nth_error (running f64_add a l) i = Some x -> ticks f x (z + TickSpec.total (firstn (S i) zs)).
Proof.
  intros Hf H. induction H as [|v w l zs Hv H IH]; intros a z Ha Hb i x Hi; [destruct i; discriminate|].
  cbn [running] in Hi. rewrite weight_cons in Hb. pose proof (weight_pos zs) as P.
  pose proof (ticks_add f v a w z Hf Hv Ha ltac:(lia)) as T.
  destruct i as [|i]; cbn [nth_error] in Hi.
  - injection Hi as <-. cbn [firstn TickSpec.total fold_right]. replace (z + (w + 0)) with (w + z) by ring. exact T.
  - change (TickSpec.total (firstn (S (S i)) (w :: zs))) with (w + TickSpec.total (firstn (S i) zs)).
    rewrite Z.add_assoc, (Z.add_comm z w). apply (IH (f64_add v a) (w + z) T ltac:(lia) i x Hi).
Qed.
Theorem C128_accumulated : forall f now (la lb : rows) d ob side zs, tick f ->
  zlen la <= 2 ^ 53 -> zlen lb <= 2 ^ 53 -> 0 <= d ->
  new_order_book now la lb d = Ret ob -> side = asks ob \/ side = bids ob ->
  Forall2 (fun r z => ticks f (volume r) z) side zs -> weight zs <= 2 ^ 53 ->
  forall i r, nth_error side i = Some r -> ticks f (accum r) (TickSpec.total (firstn (S i) zs)).
Proof.
  intros f now la lb d ob side zs Hf La Lb Hd H Hs Hz Hb i r Hi.
  pose proof (accums now la lb d ob side La Lb Hd H Hs) as E.
  assert (nth_error (running_totals f64_add (volumes side)) i = Some (accum r)) as Ht by (rewrite <- E; now apply map_nth_error).
  assert (Forall2 (ticks f) (volumes side) zs) as Hv by (clear -Hz; unfold volumes; induction Hz; constructor; assumption).
  destruct Hv as [|v w l zs Hv Hl]; [destruct i; discriminate|]. cbn [running_totals] in Ht. rewrite weight_cons in Hb.
  destruct i as [|i]; cbn [nth_error] in Ht.
  - injection Ht as <-. cbn [firstn TickSpec.total fold_right]. rewrite Z.add_0_r. exact Hv.
  - apply (running_ticks f l zs Hf Hl v w Hv ltac:(lia) i _ Ht).
Qed.

(** Updates on the grid keep the book on it. *)
Theorem C128_history : forall e f us ob, sizes_ok ob -> grid_rows e f ob ->
  Forall (fun u => units e (u_price u) /\ units f (u_volume u)) us ->
  exists ob', apply_updates us ob = Ret ob' /\ grid_rows e f ob'.
Proof.
  intros e f us. induction us as [|u us IH]; intros ob Sz G Hu; [exists ob; split; [reflexivity|exact G]|].
  inversion Hu as [|? ? H1 H2]; subst. destruct (step u ob Sz) as (ob1 & er & E & Sh).
  destruct (IH ob1) as (ob' & E' & G'); [eapply shape_sizes; eauto| |exact H2|].
  - destruct (string_dec (u_side u) "ask") as [Sa|Sa]; [|destruct (string_dec (u_side u) "bid") as [Sb|Sb]].
    3:{ destruct (C09_unknown_side_rejected u ob Sa Sb) as (er' & E2 & _). rewrite E in E2. injection E2 as -> _. exact G. }
    all: pose proof (C09_known_side_no_error u ob ob1 er ltac:(auto) E) as ->;
      destruct (rows_after_update u ob ob1 Sz E) as (Ra & Rb); intros r Hr; apply in_app_or in Hr;
      destruct Hr as [Hr|Hr]; [destruct (Ra r Hr) as [Ho|(_ & _ & ->)]|destruct (Rb r Hr) as [Ho|(_ & _ & ->)]];
      try exact H1; apply G, in_or_app; auto.
  - exists ob'. cbn [apply_updates]. rewrite E. cbn [bind]. auto.
Qed.

(** CalculateOverlap of two books on one grid, each side within 2^53 lots and
    worth at most 2^53 units 2^(e+f), computes in float64 exactly what it
    computes in exact arithmetic, panics and errors included. *)
Theorem C128_overlap_exact : forall e f (A B : book f64), grid e f -> grid_book e f A -> grid_book e f B ->
  match calculate_overlap A B, calculate_overlap (exact_book A) (exact_book B) with
  | Ret (v, er), Ret (v', er') => is_finite v = true /\ B2R v = v' /\ er = er'
  | Panic p, Panic p' => p = p'
  | _, _ => False
  end.
Proof. intros e f A B G. exact (GridOverlap.overlap_whole e f G A B). Qed.
(** For sorted books that overlap, the formula of C15. *)
Theorem C128_overlap_value : forall e f (A B : book f64) a0 la b0 lb, grid e f -> grid_book e f A -> grid_book e f B ->
  asks A = a0 :: la -> bids B = b0 :: lb -> ascending (map exact_row (asks A)) -> descending (map exact_row (bids B)) ->
  (B2R (price a0) < B2R (price b0))%R ->
  exists v, calculate_overlap A B = Ret (v, None) /\ is_finite v = true /\
    B2R v = overlap_value (map exact_row (asks A)) (map exact_row (bids B)) (B2R (price a0)) (B2R (price b0)).
Proof.
  intros e f A B a0 la b0 lb G GA GB Ea Eb Asc Desc Lt. pose proof (C128_overlap_exact e f A B G GA GB) as K.
  rewrite (C15_overlap_value_complete (exact_book A) (exact_book B) (exact_row a0) (map exact_row la) (exact_row b0) (map exact_row lb)) in K.
  - destruct (calculate_overlap A B) as [[v er]|p]; [|contradiction]. destruct K as (K1 & K2 & ->). exists v. auto.
  - cbn [exact_book asks]. rewrite Ea. reflexivity.
  - cbn [exact_book bids]. rewrite Eb. reflexivity.
  - exact Asc.
  - exact Desc.
  - exact Lt.
Qed.

(** On a decimal grid that is false.  Prices in steps of 0.05: buying 3 at 0.10
    and 3 at 0.20 costs 0.90, selling 6 at 0.15 brings 0.90.  The same books with
    prices counted in steps give 0, in float64 something else. *)
Definition steps_A (s : f64 -> f64) : book f64 := mkBook 0 [mkRow (s (i2f 2)) (i2f 3) (i2f 0); mkRow (s (i2f 4)) (i2f 3) (i2f 0); mkRow (s (i2f 9)) (i2f 1) (i2f 0)] [] 5.
Definition steps_B (s : f64 -> f64) : book f64 := mkBook 0 [] [mkRow (s (i2f 4)) (i2f 1) (i2f 0); mkRow (s (i2f 3)) (i2f 6) (i2f 0); mkRow (s (i2f 1)) (i2f 1) (i2f 0)] 5.
Theorem C128_decimal_refuted : exists s : f64 -> f64, (forall x, s x = f64_div x (i2f 20)) /\
  match calculate_overlap (steps_A (fun x => x)) (steps_B (fun x => x)), calculate_overlap (steps_A s) (steps_B s) with
  | Ret (v, None), Ret (w, None) => f64_eq v (i2f 0) = true /\ f64_lt (i2f 0) w = true
  | _, _ => False
  end.
Proof. exists (fun x => f64_div x (i2f 20)). split; [reflexivity|]. vm_compute. split; reflexivity. Qed.

(** Prices in quarters, volumes in eighths. *)
Definition q (p v : Z) : row f64 := mkRow (f64_div (i2f p) (i2f 4)) (f64_div (i2f v) (i2f 8)) (i2f 0).
Lemma part g n z : n = 2 ^ g -> 0 <= g <= 10 -> Z.abs z <= 1000 -> ticks (- g) (f64_div (i2f z) (i2f n)) z.
Proof.
  intros -> Hg Hz. assert (0 < 2 ^ g <= 2 ^ 10) as Hp by (split; [apply Z.pow_pos_nonneg; lia|apply Z.pow_le_mono_r; lia]).
  apply ticks_part; [unfold tick; lia| |lia|rewrite Z.abs_mul; nia].
  apply (ticks_finer 0 g (i2f z) z ltac:(lia)). apply ticks_int. unfold exact_int. lia.
Qed.
Definition grid_A : book f64 := mkBook 0 [q 9 2; q 10 5; q 40 1] [q 2 1] 5.
Definition grid_B : book f64 := mkBook 0 [q 50 1] [q 13 5; q 12 1; q 3 7] 5.
Example C128_example : grid (-2) (-3) /\ grid_book (-2) (-3) grid_A /\ grid_book (-2) (-3) grid_B /\
  match calculate_overlap grid_A grid_B with Ret (v, None) => f64_eq v (f64_div (i2f 9) (i2f 32)) = true | _ => False end.
Proof.
  assert (forall z, 0 <= z <= 1000 -> B2R (f64_div (i2f z) (i2f 4)) = (IZR z * / 4)%R) as B4.
  { intros z Hz. destruct (part 2 4 z eq_refl ltac:(lia) ltac:(lia)) as (_ & ->). simpl. lra. }
  assert (forall z, 0 <= z <= 1000 -> B2R (f64_div (i2f z) (i2f 8)) = (IZR z * / 8)%R) as B8.
  { intros z Hz. destruct (part 3 8 z eq_refl ltac:(lia) ltac:(lia)) as (_ & ->). simpl. lra. }
  split; [unfold grid, tick; lia|]. split; [|split; [|vm_compute; reflexivity]].
  all: split; (split; [repeat (apply Forall_cons || apply Forall_nil); cbn [price volume q]; split; eexists;
    (split; [|first [apply (part 2 4); [reflexivity|lia|] | apply (part 3 8); [reflexivity|lia|]]]); lia|]).
  all: unfold at_most; cbn [asks bids grid_A grid_B map exact_row price volume accum q value total_volume fold_right].
  all: rewrite ?B4, ?B8 by lia; simpl; lra.
Qed.

Print Assumptions C128_accumulated.
Print Assumptions C128_history.
Print Assumptions C128_overlap_exact.
Print Assumptions C128_overlap_value.
Print Assumptions C128_decimal_refuted.
