(** Fused multiply-add (C97): fees and positions. *)
From Coq Require Import Reals Lra Lia String List.
From Flocq Require Import Core BinarySingleNaN Relative.
From Verif Require Import Go.Outcome Go.Float64 Go.FloatReal Go.FloatError Go.Num Model.Asset Model.Pair Model.Entities Model.Fused
  Spec.AccuracySpec Spec.EntitySpec Spec.MoneySpec Spec.LedgerSpec Spec.FusedSpec Proofs.Entities Proofs.Fma Proofs.Ledger.
Import ListNotations.
Open Scope list_scope.
Open Scope R_scope.

(** *** One rounding instead of two *)
Lemma rnd_rel_one r : exists d h, Rabs d <= uro /\ Rabs h <= eta /\ d * h = 0 /\ rnd r = r * (1 + d) + h.
Proof.
  destruct (relative_error_N_FLT'_ex radix2 (3 - 1024 - 53) 53 ltac:(lia) (fun x => negb (Z.even x)) r)
    as (e & h & He & Hh & Z & E).
  exists e, h. rewrite u_ro_uro in He. pose proof uro_quot. split; [lra|]. split; [|split; [exact Z|exact E]].
  unfold eta. replace (bpow radix2 (-1075)) with (/ 2 * bpow radix2 (-1074)); [exact Hh|].
  change (-1074)%Z with (1 + -1075)%Z. rewrite bpow_plus. change (bpow radix2 1) with 2. field.
Qed.
Lemma sub_product_rel b z x y : is_finite z = true -> is_finite x = true -> is_finite y = true ->
  bd (B2R z) 674 -> bd (B2R x * B2R y) 654 ->
  is_finite (sub_product b z x y) = true /\
  exists d2 h2 d3, Rabs d2 <= uro /\ Rabs h2 <= eta /\ Rabs d3 <= uro /\
    B2R (sub_product b z x y) = (B2R z - (B2R x * B2R y * (1 + d2) + h2)) * (1 + d3).
Proof.
  intros Fz Fx Fy Bz Bm. pose proof uro_pos as U. pose proof eta_pos as Et. destruct b; cbn [sub_product].
  - assert (is_finite (f64_neg x) = true) as Fn by (unfold f64_neg; now rewrite is_finite_Bopp).
    pose proof (fma_xr (f64_neg x) y z Fn Fy Fz) as X. unfold f64_neg in X at 3. rewrite B2R_Bopp in X.
    replace (- B2R x * B2R y + B2R z) with (B2R z - B2R x * B2R y) in X by ring.
    destruct (of_xr _ _ X) as [F E]. { apply (bd_huge _ 675); [|lia]. apply (bd_sub _ _ 674); [exact Bz|]. apply (bd_le _ 654); [exact Bm|lia]. }
    split; [exact F|]. rewrite E. destruct (rnd_rel_one (B2R z - B2R x * B2R y)) as (d & h & D & H & Z & ->).
    apply Rmult_integral in Z. destruct Z as [-> | ->].
    + exists 0, (- h), 0. rewrite Rabs_R0, Rabs_Ropp. split; [lra|]. split; [exact H|]. split; [lra|ring].
    + exists 0, 0, d. rewrite Rabs_R0. split; [lra|]. split; [lra|]. split; [exact D|ring].
  - destruct (mul_rel x y Fx Fy (bd_huge _ _ Bm ltac:(lia))) as (F2 & d2 & h2 & D2 & H2 & E2).
    assert (bd (B2R (f64_mul x y)) 674) as B2'.
    { rewrite E2. apply (bd_le _ 655); [|lia]. apply (bd_rel _ _ _ 654); [exact Bm|lia|exact D2|exact H2]. }
    destruct (sub_rel z _ Fz F2 (bd_huge _ _ (bd_sub _ _ _ Bz B2') ltac:(lia))) as (F3 & _ & d3 & D3 & E3).
    split; [exact F3|]. exists d2, h2, d3. rewrite E3, E2. split; [exact D2|]. split; [exact H2|]. split; [exact D3|reflexivity].
Qed.

(** *** Modify, fused or not *)
Definition with_open_price (p : position f64) (op : f64) : position f64 :=
  mkPosition (ps_id p) (ps_type p) (ps_pair p) (ps_open p) (ps_take_profit p) (ps_stop_loss p)
    op (ps_close_price p) (ps_quantity p) (ps_profit p) (ps_open_time p) (ps_close_time p)
    (ps_trades p) (ps_execution_id p) (ps_data p).
Lemma with_open_same p : with_open_price p (ps_open_price p) = p.
Proof. destruct p; reflexivity. Qed.
Lemma substract_fused_shape b p t : exists op, pos_substract_fused b p t = (with_open_price (fst (pos_substract p t)) op, snd (pos_substract p t)).
Proof.
  unfold pos_substract_fused, pos_substract. cbv zeta. cbn [flt fle fsub fmul fdiv fconst f64_num].
  destruct (_ && _). { exists (ps_open_price p). cbn [fst snd]. now rewrite with_open_same. }
  destruct (f64_le _ _); eexists; reflexivity.
Qed.
Lemma modify_fused_shape b p t : exists op, modify_fused b p t = (with_open_price (fst (modify p t)) op, snd (modify p t)).
Proof.
  unfold modify_fused, modify. destruct (substract_fused_shape b p t) as (op & ->). cbn [fst snd].
  destruct (negb _). { exists (ps_open_price p). cbn [fst snd]. now rewrite with_open_same. }
  destruct (_ && _). { exists (ps_open_price (pos_add p t)). cbn [fst snd]. now rewrite with_open_same. }
  destruct (_ && _). { exists op. reflexivity. }
  destruct (_ && _). { exists op. reflexivity. }
  destruct (_ && _). { exists (ps_open_price (pos_add p t)). cbn [fst snd]. now rewrite with_open_same. }
  exists (ps_open_price p). cbn [fst snd]. now rewrite with_open_same.
Qed.
Lemma modify_fused_other b p t : ~ reduces (ps_type p) (t_action t) -> modify_fused b p t = modify p t.
Proof.
  intros N. unfold modify_fused, modify. destruct (negb _); [reflexivity|].
  destruct (_ && _); [reflexivity|].
  destruct (String.eqb (ps_type p) LongPosition && String.eqb (t_action t) SellAction) eqn:E1.
  { exfalso. apply N. apply andb_true_iff in E1. destruct E1 as [E1 E2]. left. split; now apply String.eqb_eq. }
  destruct (String.eqb (ps_type p) ShortPosition && String.eqb (t_action t) BuyAction) eqn:E2.
  { exfalso. apply N. apply andb_true_iff in E2. destruct E2 as [E3 E4]. right. split; now apply String.eqb_eq. }
  reflexivity.
Qed.
Lemma modify_fused_pair b p t : ps_pair p <> t_pair t -> modify_fused b p t = (p, Some pair_err).
Proof. intros H. unfold modify_fused. apply pair_eqb_false in H. now rewrite H. Qed.
Lemma modify_fused_reduce b p t : ps_pair p = t_pair t -> reduces (ps_type p) (t_action t) ->
  modify_fused b p t = (fst (pos_substract_fused b p t), None).
Proof.
  intros H. unfold modify_fused. apply pair_eqb_spec in H. rewrite H. simpl negb. cbv iota.
  intros [[-> ->]|[-> ->]]; reflexivity.
Qed.
Lemma modify_all_fused_closed ts : forall p, ps_open p = false -> ps_open (modify_all_fused p ts) = false.
Proof.
  induction ts as [|[b t] ts IH]; intros p H; [exact H|]. cbn [modify_all_fused]. apply IH.
  destruct (modify_fused_shape b p t) as (op & ->). cbn [fst with_open_price ps_open]. now apply modify_closed.
Qed.
Lemma led_sub_fused b k S Gq V G (p : position f64) t : few_trades (Datatypes.S k) -> led k S Gq V G p -> moderate_trade t ->
  f64_lt (f64_sub (ps_quantity p) (t_quantity t)) (f64_const (-1) (-4)) = false ->
  f64_le (f64_sub (ps_quantity p) (t_quantity t)) (i2f 0) = false ->
  led (Datatypes.S k) (S - real (t_quantity t)) (Gq + real (t_quantity t))
    (V - real (t_price t) * real (t_quantity t)) (G + real (t_price t) * real (t_quantity t)) (fst (pos_substract_fused b p t)).
Proof.
  intros Fk L [Mp Mq] C1 C2. assert (few_trades k) as Fk0. { unfold few_trades in *. rewrite S_INR in Fk. lra. }
  destruct (led_bounds k S Gq V G p Fk0 L) as (BQ & LQ & BPQ & BP & _ & _). pose proof L as (FQ & FP & HQ & GQ & _).
  destruct (moderate_facts _ Mp) as (Fp & Lp & Up & Pp). destruct (moderate_facts _ Mq) as (Fq & Lq & Uq & Pq).
  pose proof (product_low _ _ Mp Mq) as [Lm Um]. pose proof (grid_moderate _ Mq) as Gq1. unfold real.
  assert (fst (pos_substract_fused b p t) = mkPosition (ps_id p) (ps_type p) (ps_pair p) (ps_open p) (ps_take_profit p) (ps_stop_loss p)
    (f64_div (f64_mul (sub_product b (ps_open_price p) (t_price t) (f64_div (t_quantity t) (ps_quantity p))) (ps_quantity p))
      (f64_sub (ps_quantity p) (t_quantity t))) (ps_close_price p) (f64_sub (ps_quantity p) (t_quantity t)) (ps_profit p) (ps_open_time p)
    (ps_close_time p) (ps_trades p ++ [t_id t]) (ps_execution_id p) (ps_data p)) as Es.
  { unfold pos_substract_fused. cbv zeta. cbn [flt fle fsub fmul fdiv fconst f64_num].
    match goal with |- context [if ?b0 && ?c then _ else _] => replace c with false by (symmetry; exact C1) end. rewrite andb_false_r.
    match goal with |- context [if ?b0 then _ else _] => replace b0 with false by (symmetry; exact C2) end. reflexivity. }
  rewrite Es. clear Es C1.
  set (q := t_quantity t) in *. set (pr := t_price t) in *. set (Q := ps_quantity p) in *. set (P := ps_open_price p) in *.
  pose proof (bpow_gt_0 radix2 (-400)).
  pose proof (bd_le _ _ 221 Uq ltac:(lia)) as Uq'.
  destruct (sub_rel Q q FQ Fq (bd_huge _ _ (bd_sub _ _ _ BQ Uq') ltac:(lia))) as (FT & RT & d0 & D0 & ET).
  set (T := f64_sub Q q) in *.
  assert (grid (B2R T)) as GT by (rewrite RT; apply grid_rnd; now apply grid_sub).
  assert (0 < B2R T) as PT.
  { rewrite f64_le_xr in C2; [|destruct T; try discriminate FT; reflexivity|reflexivity]. rewrite i2f_exact_xr in C2 by (unfold exact_int; lia).
    rewrite xr_finite in C2 by exact FT. destruct (Rle_bool_spec (B2R T) 0) as [L1|L1]; [discriminate|exact L1]. }
  pose proof (grid_pos _ GT PT) as LT.
  assert (bd (B2R T) 223) as BT by (rewrite ET; change 223%Z with (221 + 1 + 1)%Z; apply bd_one; [now apply bd_sub|exact D0]).
  assert (bd (B2R q / B2R Q) 453) as B1 by (apply (bd_div _ _ 200 253); [exact Uq|exact LQ]).
  destruct (div_rel q Q Fq FQ ltac:(lra) (bd_huge _ _ B1 ltac:(lia))) as (F1 & d1 & h1 & D1 & H1 & E1).
  assert (bd (B2R (f64_div q Q)) 454) as B1' by (rewrite E1; apply (bd_rel _ _ _ 453); [exact B1|lia|exact D1|exact H1]).
  pose proof (bd_mul _ _ _ _ Up B1') as B2. change (200 + 454)%Z with 654%Z in B2.
  destruct (sub_product_rel b P pr (f64_div q Q) FP Fp F1 BP B2) as (F3 & d2 & h2 & d3 & D2 & H2 & D3 & E3).
  set (w := sub_product b P pr (f64_div q Q)) in *. set (s := B2R pr * B2R (f64_div q Q) * (1 + d2) + h2) in *.
  assert (bd s 674) as B2' by (apply (bd_le _ 655); [|lia]; apply (bd_rel _ _ _ 654); [exact B2|lia|exact D2|exact H2]).
  assert (bd (B2R w) 676) as B3 by (rewrite E3; change 676%Z with (674 + 1 + 1)%Z; apply bd_one; [now apply bd_sub|exact D3]).
  assert (bd (B2R w * B2R Q) 423) as B4.
  { rewrite E3. unfold s. rewrite E1. clear s B2' E3. set (r := B2R q / B2R Q * (1 + d1) + h1). set (s := B2R pr * r * (1 + d2) + h2).
    assert (bd (h1 * B2R Q) 201) as X1.
    { apply (bd_le _ (-1075 + 221)); [|lia]. apply bd_mul; [exact H1|exact BQ]. }
    assert (bd (h2 * B2R Q) 403) as X2.
    { apply (bd_le _ (-1075 + 221)); [|lia]. apply bd_mul; [exact H2|exact BQ]. }
    assert (bd (r * B2R Q) 202) as X3.
    { replace (r * B2R Q) with (B2R q * (1 + d1) + h1 * B2R Q) by (unfold r; field; lra).
      apply (bd_add _ _ 201); [apply (bd_one _ _ 200); assumption|exact X1]. }
    assert (bd (s * B2R Q) 404) as X4.
    { replace (s * B2R Q) with (B2R pr * (r * B2R Q) * (1 + d2) + h2 * B2R Q) by (unfold s; ring).
      apply (bd_add _ _ 403); [|exact X2]. apply (bd_one _ _ 402); [|exact D2]. apply (bd_mul _ _ 200 202); assumption. }
    replace ((B2R P - s) * (1 + d3) * B2R Q) with ((B2R P * B2R Q - s * B2R Q) * (1 + d3)) by ring.
    apply (bd_one _ _ 422); [|exact D3]. apply (bd_sub _ _ 421); [exact BPQ|]. apply (bd_le _ 404); [exact X4|lia]. }
  destruct (mul_rel w Q F3 FQ (bd_huge _ _ B4 ltac:(lia))) as (F4 & d4 & h4 & D4 & H4 & E4).
  assert (bd (B2R (f64_mul w Q)) 424) as B4' by (rewrite E4; apply (bd_rel _ _ _ 423); [exact B4|lia|exact D4|exact H4]).
  assert (bd (B2R (f64_mul w Q) / B2R T) 677) as B5 by (apply (bd_div _ _ 424 253); [exact B4'|exact LT]).
  destruct (div_rel (f64_mul w Q) T F4 FT ltac:(lra) (bd_huge _ _ B5 ltac:(lia))) as (F5 & d5 & h5 & D5 & H5 & E5).
  replace (S - B2R q) with (S + -1 * B2R q) by ring. replace (V - B2R pr * B2R q) with (V + -1 * (B2R pr * B2R q)) by ring.
  apply (led_next k S Gq V G p); cbn [ps_quantity ps_open_price]; [exact Fk|exact L|now right| | |exact FT|exact F5|exact PT|exact GT| |].
  - split; [exact Pq|]. unfold bd in Uq. rewrite Rabs_pos_eq in Uq by lra. exact Uq.
  - split; [lra|exact Um].
  - exists d0. split; [exact D0|]. fold Q. rewrite ET. ring.
  - fold P Q. rewrite E5, E4, E3. unfold s. rewrite E1. replace (B2R P * B2R Q + -1 * (B2R pr * B2R q)) with (B2R P * B2R Q - B2R pr * B2R q) by ring.
    apply sub_value; try assumption. apply eta_small; [|exact Lm].
    assert (0 < B2R pr * B2R Q) by now apply Rmult_lt_0_compat. split; [lra|].
    pose proof (bd_mul _ _ _ _ Up BQ) as Y1. unfold bd in Y1, BQ, BT. rewrite Rabs_pos_eq in Y1, BQ, BT by lra.
    assert (bpow radix2 (200 + 221) <= bpow radix2 428) by (apply bpow_le; lia).
    assert (bpow radix2 221 <= bpow radix2 428) by (apply bpow_le; lia).
    assert (bpow radix2 223 <= bpow radix2 428) by (apply bpow_le; lia).
    assert (1 <= bpow radix2 428) by (change 1 with (bpow radix2 0); apply bpow_le; lia).
    replace (bpow radix2 430) with (4 * bpow radix2 428); [lra|]. change 4 with (bpow radix2 2). rewrite <- bpow_plus. reflexivity.
Qed.
Lemma led_history_fused a ts : forall k S Gq V G (p : position f64), opens_with (ps_type p) a -> few_trades (k + List.length ts) ->
  led k S Gq V G p -> Forall (fun bt => moderate_trade (snd bt)) ts -> ps_open (modify_all_fused p ts) = true ->
  exists kept, recorded (ps_pair p) (ps_type p) (ps_quantity p) (map snd ts) kept /\
    ps_trades (modify_all_fused p ts) = ps_trades p ++ map t_id kept /\
    Forall (fun t => increases (ps_type p) (t_action t) \/ reduces (ps_type p) (t_action t)) kept /\
    ps_type (modify_all_fused p ts) = ps_type p /\ ps_pair (modify_all_fused p ts) = ps_pair p /\
    led (k + List.length kept) (S + held a kept) (Gq + bought kept) (V + spent a kept) (G + worth kept) (modify_all_fused p ts) /\
    (List.length kept <= List.length ts)%nat /\ Forall moderate_trade kept.
Proof.
  induction ts as [|[b t] ts IH]; intros k S Gq V G p Ow Fk L M Op.
  - exists []. cbn [modify_all_fused map List.length held bought spent worth fold_right]. rewrite app_nil_r, !Rplus_0_r.
    rewrite Nat.add_0_r. split; [constructor|]. split; [reflexivity|]. split; [constructor|]. split; [reflexivity|]. split; [reflexivity|].
    split; [exact L|]. split; [lia|constructor].
  - cbn [modify_all_fused map snd] in Op |- *. inversion M as [|? ? Mt Mts]; subst. cbn [snd] in Mt. destruct (modify_fixed p t) as (Fp & Fty & _). cbv zeta in Fp, Fty.
    assert (fst (modify_fused b p t) = p -> no_effect (ps_pair p) (ps_type p) (ps_quantity p) t ->
      exists kept, recorded (ps_pair p) (ps_type p) (ps_quantity p) (t :: map snd ts) kept /\
        ps_trades (modify_all_fused (fst (modify_fused b p t)) ts) = ps_trades p ++ map t_id kept /\
        Forall (fun t => increases (ps_type p) (t_action t) \/ reduces (ps_type p) (t_action t)) kept /\
        ps_type (modify_all_fused (fst (modify_fused b p t)) ts) = ps_type p /\ ps_pair (modify_all_fused (fst (modify_fused b p t)) ts) = ps_pair p /\
        led (k + List.length kept) (S + held a kept) (Gq + bought kept) (V + spent a kept) (G + worth kept) (modify_all_fused (fst (modify_fused b p t)) ts) /\
        (List.length kept <= List.length ((b, t) :: ts))%nat /\ Forall moderate_trade kept) as Skip.
    { intros E Ne. rewrite E in *. destruct (IH k S Gq V G p Ow) as (kept & K1 & K2 & K3 & K4 & K5 & K6 & K7 & K8); try assumption.
      { eapply few_less; [|exact Fk]. cbn [List.length]. lia. }
      exists kept. split; [now apply rec_skip|]. cbn [List.length]. repeat (split; [assumption|]). split; [lia|assumption]. }
    destruct (pair_dec (ps_pair p) (t_pair t)) as [E|E].
    2:{ apply Skip; [now rewrite modify_fused_pair by assumption|]. left. congruence. }
    destruct (inc_or_red (ps_type p) (t_action t)) as [H|[H|[H1 H2]]].
    + assert (~ reduces (ps_type p) (t_action t)) as Nr by (intros Hr; exact (inc_not_red _ _ H Hr)).
      rewrite modify_fused_other, modify_increase in Op |- * by assumption. cbn [fst] in *.
      destruct (IH (Datatypes.S k) (S + real (t_quantity t)) (Gq + real (t_quantity t))
        (V + real (t_price t) * real (t_quantity t)) (G + real (t_price t) * real (t_quantity t)) (pos_add p t) Ow) as (kept & K1 & K2 & K3 & K4 & K5 & K6 & K7 & K8).
      { eapply few_less; [|exact Fk]. cbn [List.length]. lia. }
      { apply led_add; [|exact L|exact Mt]. eapply few_less; [|exact Fk]. cbn [List.length]. lia. }
      { exact Mts. }
      { exact Op. }
      exists (t :: kept). split.
      { eapply rec_keep; [apply te_grow; [congruence|exact H]|]. exact K1. }
      split. { rewrite K2. cbn [pos_add ps_trades map]. now rewrite <- app_assoc. }
      split. { constructor; [now left|exact K3]. }
      split; [exact K4|]. split; [exact K5|]. split; [|split; [cbn [List.length]; lia|now constructor]].
      cbn [held bought spent worth fold_right List.length]. rewrite (grow_action _ a _ Ow H).
      fold (held a kept) (bought kept) (spent a kept) (worth kept). rewrite <- !Rplus_assoc.
      replace (k + Datatypes.S (List.length kept))%nat with (Datatypes.S k + List.length kept)%nat by lia. exact K6.
    + rewrite modify_fused_reduce in Op |- * by assumption. destruct (substract_fused_shape b p t) as (op & Eop). cbn [fst] in *.
      destruct (substract_f64 p t) as (C1 & C2 & C3). cbv zeta in C1, C2, C3.
      destruct (f64_lt (f64_sub (ps_quantity p) (t_quantity t)) (f64_const (-1) (-4))) eqn:T1.
      { specialize (C1 eq_refl). rewrite modify_fused_reduce in Skip by assumption. cbn [fst] in Skip. apply Skip.
        { unfold pos_substract_fused. change (@flt f64 f64_num) with f64_lt in C1. cbv zeta. change f0 with (i2f 0). rewrite T1, (below_tiny _ T1). reflexivity. }
        right. right. split; assumption. }
      destruct (f64_le (f64_sub (ps_quantity p) (t_quantity t)) (i2f 0)) eqn:T2.
      { destruct (C2 eq_refl eq_refl) as (C & _). rewrite modify_all_fused_closed in Op; [discriminate|]. rewrite Eop. exact C. }
      pose proof (led_sub_fused b k S Gq V G p t) as L1.
      assert (ps_type (fst (pos_substract_fused b p t)) = ps_type p /\ ps_pair (fst (pos_substract_fused b p t)) = ps_pair p /\
        ps_quantity (fst (pos_substract_fused b p t)) = f64_sub (ps_quantity p) (t_quantity t) /\
        ps_trades (fst (pos_substract_fused b p t)) = ps_trades p ++ [t_id t]) as (X1 & X2 & X3 & X4).
      { rewrite Eop. cbn [fst with_open_price ps_type ps_pair ps_quantity ps_trades].
        destruct (modify_fixed p t) as (Y1 & Y2 & _). rewrite modify_reduce in Y1, Y2 by assumption. cbn [fst] in Y1, Y2.
        split; [exact Y2|]. split; [exact Y1|]. destruct (C3 eq_refl eq_refl) as (Z1 & Z2 & Z3 & _). split; assumption. }
      destruct (IH (Datatypes.S k) (S - real (t_quantity t)) (Gq + real (t_quantity t))
        (V - real (t_price t) * real (t_quantity t)) (G + real (t_price t) * real (t_quantity t)) (fst (pos_substract_fused b p t)))
        as (kept & K1 & K2 & K3 & K4 & K5 & K6 & K7 & K8).
      { now rewrite X1. }
      { eapply few_less; [|exact Fk]. cbn [List.length]. lia. }
      { apply L1; [|exact L|exact Mt|exact T1|exact T2]. eapply few_less; [|exact Fk]. cbn [List.length]. lia. }
      { exact Mts. }
      { exact Op. }
      rewrite X1, X2, X3 in *. exists (t :: kept). split.
      { eapply rec_keep; [apply te_shrink; [congruence|exact H|exact T1|exact T2]|]. exact K1. }
      split. { rewrite K2, X4. cbn [map]. now rewrite <- app_assoc. }
      split. { constructor; [now right|exact K3]. }
      split; [exact K4|]. split; [exact K5|]. split; [|split; [cbn [List.length]; lia|now constructor]].
      cbn [held bought spent worth fold_right List.length]. rewrite (shrink_action _ a _ Ow H).
      fold (held a kept) (bought kept) (spent a kept) (worth kept).
      replace (k + Datatypes.S (List.length kept))%nat with (Datatypes.S k + List.length kept)%nat by lia.
      replace (S + (- real (t_quantity t) + held a kept)) with (S - real (t_quantity t) + held a kept) by ring.
      replace (V + (- (real (t_price t) * real (t_quantity t)) + spent a kept)) with (V - real (t_price t) * real (t_quantity t) + spent a kept) by ring.
      rewrite <- !Rplus_assoc. exact K6.
    + apply Skip; [now rewrite modify_fused_other, modify_unknown by assumption|]. right. left. split; assumption.
Qed.
Lemma balance_fused id t0 (ts : list (bool * trade f64)) : t_action t0 = "buy"%string \/ t_action t0 = "sell"%string -> Forall moderate_trade (t0 :: map snd ts) ->
  INR (List.length (t0 :: map snd ts)) <= bpow radix2 20 -> ps_open (modify_all_fused (new_position id t0) ts) = true ->
  let p := modify_all_fused (new_position id t0) ts in
  exists kept, recorded (t_pair t0) (ps_type p) (t_quantity t0) (map snd ts) kept /\ ps_trades p = map t_id (t0 :: kept) /\
    opens_with (ps_type p) (t_action t0) /\ ps_pair p = t_pair t0 /\ Forall moderate_trade (t0 :: kept) /\
    (List.length kept <= List.length ts)%nat /\ few_trades (List.length kept) /\
    led (List.length kept) (held (t_action t0) (t0 :: kept)) (bought (t0 :: kept))
      (if String.eqb (t_action t0) "buy" then - received (t0 :: kept) else received (t0 :: kept)) (worth (t0 :: kept)) p.
Proof.
  intros A M K Op p. inversion M as [|? ? M0 Ms]; subst. pose proof (opening id t0 A) as Ow.
  assert (Forall (fun bt => moderate_trade (snd bt)) ts) as Ms' by now apply Forall_map.
  assert (few_trades (0 + List.length ts)) as Fk.
  { unfold few_trades. cbn [Nat.add]. cbn [List.length] in K. rewrite map_length in K. rewrite S_INR in K. lra. }
  destruct (led_history_fused (t_action t0) ts 0 _ _ _ _ (new_position id t0) Ow Fk (led_new id t0 M0) Ms' Op)
    as (kept & K1 & K2 & K3 & K4 & K5 & K6 & K7 & K8).
  fold p in K2, K4, K5, K6. exists kept. rewrite K4. split; [exact K1|]. split; [exact K2|]. split; [exact Ow|]. split; [exact K5|].
  split; [now constructor|]. split; [exact K7|]. split; [eapply few_less; [|exact Fk]; exact K7|].
  assert (Forall (fun t => increases (ps_type (new_position id t0)) (t_action t) \/ reduces (ps_type (new_position id t0)) (t_action t)) (t0 :: kept)) as K9.
  { constructor; [|exact K3]. left. destruct Ow as [[E1 E2]|[E1 E2]]; rewrite E1, E2; [left|right]; split; reflexivity. }
  rewrite <- (spent_received _ _ _ Ow K9). cbn [held bought spent worth fold_right]. rewrite String.eqb_refl. exact K6.
Qed.

(** Against the positions of a platform that does not fuse. *)
Lemma same_refl p : same_but_money p p.
Proof. unfold same_but_money. tauto. Qed.
Lemma same_trans p q r : same_but_money p q -> same_but_money q r -> same_but_money p r.
Proof. unfold same_but_money. intros (?&?&?&?&?&?&?&?&?&?&?&?&?) (?&?&?&?&?&?&?&?&?&?&?&?&?). repeat split; etransitivity; eassumption. Qed.
Lemma same_with p op : same_but_money (with_open_price p op) p.
Proof. unfold same_but_money, with_open_price. cbn. tauto. Qed.
Lemma same_modify p q t : same_but_money p q ->
  same_but_money (fst (modify p t)) (fst (modify q t)) /\ snd (modify p t) = snd (modify q t).
Proof.
  destruct p as [a1 a2 a3 a4 a5 a6 a7 a8 a9 a10 a11 a12 a13 a14 a15], q as [b1 b2 b3 b4 b5 b6 b7 b8 b9 b10 b11 b12 b13 b14 b15]. unfold same_but_money at 1. cbn [ps_id ps_type ps_pair ps_open ps_take_profit ps_stop_loss ps_close_price ps_quantity ps_open_time ps_close_time ps_trades ps_execution_id ps_data].
  intros (-> & -> & -> & -> & -> & -> & -> & -> & -> & -> & -> & -> & ->).
  unfold modify. cbn [ps_pair ps_type].
  destruct (negb _); [split; [|reflexivity]; unfold same_but_money; cbn; tauto|].
  destruct (_ && _); [split; [|reflexivity]; unfold same_but_money; cbn; tauto|].
  destruct (_ && _).
  { split; [|reflexivity]. unfold pos_substract. cbv zeta. cbn [ps_quantity ps_type]. destruct (_ && _); [unfold same_but_money; cbn; tauto|].
    destruct (fle _ _); unfold same_but_money; cbn; tauto. }
  destruct (_ && _).
  { split; [|reflexivity]. unfold pos_substract. cbv zeta. cbn [ps_quantity ps_type]. destruct (_ && _); [unfold same_but_money; cbn; tauto|].
    destruct (fle _ _); unfold same_but_money; cbn; tauto. }
  destruct (_ && _); (split; [|reflexivity]); unfold same_but_money; cbn; tauto.
Qed.
Lemma same_all ts : forall p q, same_but_money p q -> same_but_money (modify_all_fused p ts) (modify_all q (map snd ts)).
Proof.
  induction ts as [|[b t] ts IH]; intros p q H; [exact H|]. cbn [modify_all_fused modify_all map snd]. apply IH.
  destruct (modify_fused_shape b p t) as (op & ->). cbn [fst]. eapply same_trans; [apply same_with|]. now apply same_modify.
Qed.
Lemma modify_apart p t : modify_fused false p t = modify p t.
Proof. reflexivity. Qed.
Lemma modify_all_apart ts : forall p, modify_all_fused p (map (fun t => (false, t)) ts) = modify_all p ts.
Proof. induction ts as [|t ts IH]; intros p; cbn [map modify_all_fused modify_all]; [reflexivity|]. apply IH. Qed.
