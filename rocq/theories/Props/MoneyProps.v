(** C82: positions, profits, fees and order requests in float64, against exact
    arithmetic.  Vocabulary: Spec/MoneySpec.v. *)
From Coq Require Import Reals Lra Lia String.
From Flocq Require Import Core BinarySingleNaN.
From Verif Require Import Go.Outcome Go.Float64 Go.FloatReal Go.FloatError Go.Num Model.Asset Model.Pair Model.Entities
  Spec.AccuracySpec Spec.EntitySpec Spec.MoneySpec Proofs.Accuracy Proofs.Entities Proofs.MoneyError
  Props.AccuracyProps Props.EntityProps.
Open Scope string_scope.
Open Scope list_scope.
Open Scope R_scope.
Local Notation length := List.length.

Lemma same_increases id t0 t : t_action t0 = "buy" \/ t_action t0 = "sell" -> same_way t0 t ->
  ps_pair (@new_position f64 f64_num id t0) = t_pair t /\ increases (ps_type (@new_position f64 f64_num id t0)) (t_action t).
Proof.
  intros A [P B]. split; [now symmetry|]. rewrite B. unfold increases, new_position. cbn [ps_type].
  destruct A as [-> | ->]; [left|right]; split; reflexivity.
Qed.
Lemma grown id t0 ts : t_action t0 = "buy" \/ t_action t0 = "sell" -> Forall (same_way t0) ts ->
  Forall ordinary_trade (t0 :: ts) -> INR (length ts) <= bpow radix2 20 ->
  let p := @new_position f64 f64_num id t0 in let p' := modify_all p ts in
  holds (length ts) (bought (t0 :: ts)) (worth (t0 :: ts)) p' /\ ps_type p' = ps_type p /\ ps_pair p' = ps_pair p /\ ps_open p' = true.
Proof.
  intros A W O L. cbv zeta. inversion O as [|? ? O1 O2]; subst.
  destruct (grow_holds ts 0 _ _ _ L (new_holds id t0 O1) O2) as (H1 & H2 & H3 & H4).
  - eapply Forall_impl; [|exact W]. intros t. exact (same_increases id t0 t A).
  - auto.
Qed.

(** Opening and adding: [k] further trades. *)
Theorem C82_position : forall id t0 ts,
  t_action t0 = "buy" \/ t_action t0 = "sell" -> Forall (same_way t0) ts -> Forall ordinary_trade (t0 :: ts) ->
  let k := INR (length ts) in k <= 2 ^ 20 ->
  let p := modify_all (new_position id t0) ts in let S := bought (t0 :: ts) in let W := worth (t0 :: ts) in
  ps_open p = true /\
  approx (k * eps * S) (ps_quantity p) S /\
  approx (k * (k + 3) * eps * (W / S)) (ps_open_price p) (W / S).
Proof.
  intros id t0 ts A Hw O k Hk p S W. assert (k <= bpow radix2 20) as Hk' by (replace (bpow radix2 20) with (2 ^ 20) by (cbn; lra); exact Hk).
  destruct (grown id t0 ts A Hw O Hk') as ((HQ & HP & _) & _ & _ & Op). fold p in HQ, HP, Op. fold S in HQ, HP. fold W in HP. split; [exact Op|].
  pose proof (count_bound _ Hk') as C. pose proof (Nat.le_0_l (length ts * (length ts + 3))).
  rewrite eps_uro. unfold k. split; [apply about_near in HQ|apply about_near in HP].
  - exact HQ.
  - eapply countable_le; [|exact C]; lia.
  - rewrite mult_INR, plus_INR in HP. replace (INR 3) with 3 in HP by (cbn; lra). exact HP.
  - eapply countable_le; [|exact C]; lia.
Qed.

(** The profit reported at an ordinary price [c]. *)
Definition exact_gain (t0 : trade f64) (c S W : R) : R :=
  if string_dec (t_action t0) "buy" then c * S - W else W - c * S.
Theorem C82_profit : forall id t0 ts c,
  t_action t0 = "buy" \/ t_action t0 = "sell" -> Forall (same_way t0) ts -> Forall ordinary_trade (t0 :: ts) -> ordinary c ->
  let k := INR (length ts) in k <= 2 ^ 20 ->
  let p := modify_all (new_position id t0) ts in let S := bought (t0 :: ts) in let W := worth (t0 :: ts) in
  approx (2 * (k + 2) * (k + 2) * eps * (real c * S + W)) (unrealized_profit p c) (exact_gain t0 (real c) S W).
Proof.
  intros id t0 ts c A Hw O Oc k Hk p S W. assert (k <= bpow radix2 20) as Hk' by (replace (bpow radix2 20) with (2 ^ 20) by (cbn; lra); exact Hk).
  destruct (grown id t0 ts A Hw O Hk') as (H & Ty & _ & _). fold p in H, Ty. fold S W in H.
  destruct (gain_near _ S W p c Hk' H Oc) as [G1 G2]. rewrite eps_uro. unfold unrealized_profit, exact_gain. rewrite Ty.
  unfold new_position. cbn [ps_type]. destruct A as [-> | ->]; [exact G1|exact G2].
Qed.

(** The profit recorded by the trade that closes the position. *)
Theorem C82_close : forall id t0 ts t,
  t_action t0 = "buy" \/ t_action t0 = "sell" -> Forall (same_way t0) ts -> Forall ordinary_trade (t0 :: ts) -> ordinary (t_price t) ->
  let k := INR (length ts) in k <= 2 ^ 20 ->
  let p := modify_all (new_position id t0) ts in let S := bought (t0 :: ts) in let W := worth (t0 :: ts) in
  ps_open (fst (modify p t)) = false ->
  approx (2 * (k + 2) * (k + 2) * eps * (real (t_price t) * S + W)) (ps_profit (fst (modify p t)))
    (exact_gain t0 (real (t_price t)) S W).
Proof.
  intros id t0 ts t A Hw O Oc k Hk p S W Cl.
  assert (k <= bpow radix2 20) as Hk' by (replace (bpow radix2 20) with (2 ^ 20) by (cbn; lra); exact Hk).
  destruct (grown id t0 ts A Hw O Hk') as (_ & _ & _ & Op). fold p in Op.
  destruct (C45_realised_equals_unrealised p t Op Cl) as [-> _].
  exact (C82_profit id t0 ts (t_price t) A Hw O Oc Hk).
Qed.

(** The fee of a trade. *)
Theorem C82_fee : forall id tm action otype pr price quantity cost,
  ordinary price -> ordinary quantity -> is_finite cost = true -> Rabs (real cost) <= bpow radix2 900 ->
  let m := real price * real quantity in
  approx (2 * eps * (Rabs (real cost) + m)) (t_fee (new_trade id tm action otype pr price quantity cost))
    (if string_dec action "buy" then real cost - m else m - real cost).
Proof.
  intros id tm action otype pr price quantity cost Op Oq Fc Bc m.
  destruct (fee_near price quantity cost Op Oq Fc Bc) as [H1 H2]. rewrite eps_uro. unfold new_trade. cbn [t_fee].
  destruct (string_dec action "buy") as [-> |N]; [exact H1|]. apply String.eqb_neq in N. unfold BuyAction. rewrite N. exact H2.
Qed.

(** A completed order request, and its refusal by a second call. *)
Theorem C82_request : forall (o : order_request f64) current, ordinary (used_price o current) ->
  (ordinary (r_quantity o) /\ f64_eq (r_total o) (i2f 0) = true \/
   ordinary (r_total o) /\ f64_eq (r_quantity o) (i2f 0) = true) ->
  exists o', calculate_fields o current = (Some o', None) /\
    let q := real (r_quantity o') in let t := real (r_total o') in let price := real (used_price o current) in
    is_finite (r_quantity o') = true /\ is_finite (r_total o') = true /\ Rabs (t - q * price) <= eps * t /\
    forall current', exists e, calculate_fields o' current' = (None, Some e) /\ err_code e = Some EINVALID.
Proof.
  intros o c Op H. destruct (C47_calculate_fields o c) as (_ & C2 & C3). pose proof uro_pos as U. pose proof uro_small as Us.
  assert (forall o', f64_eq (r_quantity o') (i2f 0) = false -> f64_eq (r_total o') (i2f 0) = false ->
    forall current', exists e, calculate_fields o' current' = (None, Some e) /\ err_code e = Some EINVALID) as Again.
  { intros o' E1 E2 c'. destruct (C47_calculate_fields o' c') as (C1 & _). apply C1. congruence. }
  destruct H as [[Oq Et]|[Ot Eq]].
  - destruct (ordinary_about _ Oq) as [Aq _]. pose proof (about_nonzero _ _ _ Aq) as Nq.
    pose proof (product_about _ _ Oq Op) as Am. pose proof (about_nonzero _ _ _ Am) as Nm.
    eexists. split; [exact (C2 Nq Et)|]. cbn [r_quantity r_total]. destruct Am as [Fm (P & R1 & R2)].
    destruct Aq as [Fq _]. split; [exact Fq|]. split; [exact Fm|]. split; [|apply Again; assumption].
    rewrite eps_uro. unfold real in *. cbn [pow] in R1, R2. rewrite Rmult_1_r in R1, R2. apply Rabs_le.
    set (x := B2R (f64_mul _ _)) in *. set (m := B2R _ * B2R _) in *. split; nra.
  - destruct (ordinary_about _ Ot) as [At _]. pose proof (about_nonzero _ _ _ At) as Nt.
    pose proof (quotient_about _ _ Ot Op) as Ad. pose proof (about_nonzero _ _ _ Ad) as Nd.
    eexists. split; [exact (C3 Eq Nt)|]. cbn [r_quantity r_total]. destruct Ad as [Fd (P & R1 & R2)].
    destruct At as [Ft (Pt & _)]. split; [exact Fd|]. split; [exact Ft|]. split; [|apply Again; assumption].
    destruct (ordinary_about _ Op) as [[_ (Pp & _)] _].
    rewrite eps_uro. unfold real in *. cbn [pow] in R1, R2. rewrite Rmult_1_r in R1, R2.
    set (x := B2R (f64_div _ _)) in *. set (pr := B2R (used_price o c)) in *. set (t := B2R (r_total o)) in *.
    assert (t / pr * pr = t) as E by (field; lra).
    apply (Rmult_le_compat_r pr) in R1; [|lra]. apply (Rmult_le_compat_r pr) in R2; [|lra]. rewrite E in R1.
    replace (t / pr * (1 + uro) * pr) with (t / pr * pr * (1 + uro)) in R2 by ring. rewrite E in R2.
    apply Rabs_le. split; nra.
Qed.

(** *** Concrete cases *)
Lemma int_value z : (1 <= z <= 2 ^ 20)%Z -> is_finite (i2f z) = true /\ real (i2f z) = IZR z.
Proof.
  intros H. assert (exact_int z) as X by (unfold exact_int; lia). pose proof (i2f_finite z X) as F. split; [exact F|].
  unfold real. rewrite <- xr_finite by exact F. now apply i2f_exact_xr.
Qed.
Lemma ordinary_int z : (1 <= z <= 2 ^ 20)%Z -> ordinary (i2f z).
Proof.
  intros H. destruct (int_value z H) as [F E]. split; [exact F|]. rewrite E. split.
  - apply Rle_trans with 1; [change 1 with (bpow radix2 0); apply bpow_le; lia|]. apply IZR_le. lia.
  - apply Rle_trans with (bpow radix2 20); [change (bpow radix2 20) with (IZR (2 ^ 20)); apply IZR_le; lia|]. apply bpow_le. lia.
Qed.
Example C82_example :
  let t0 := tr "a" "buy" 100 3 in let ts := [tr "b" "buy" 107 4; tr "c" "buy" 96 7] in
  Forall (same_way t0) ts /\ Forall ordinary_trade (t0 :: ts) /\ INR (length ts) <= 2 ^ 20 /\
  bought (t0 :: ts) = 14 /\ worth (t0 :: ts) = 1400 /\
  ps_open (fst (modify (modify_all (new_position "p" t0) ts) (tr "d" "sell" 120 14))) = false /\
  f2i (ps_profit (fst (modify (modify_all (new_position "p" t0) ts) (tr "d" "sell" 120 14)))) = 280%Z.
Proof.
  cbv zeta. split; [repeat constructor|]. split.
  - repeat (apply Forall_cons; [split; cbn [tr t_price t_quantity]; apply ordinary_int; lia|]). apply Forall_nil.
  - split; [cbn; lra|]. assert (forall z, (1 <= z <= 2 ^ 20)%Z -> real (i2f z) = IZR z) as E.
    { intros z Hz. apply (int_value z Hz). }
    split; [unfold bought; cbn [fold_right tr t_quantity]; rewrite !E by lia; lra|].
    split; [unfold worth; cbn [fold_right tr t_quantity t_price]; rewrite !E by lia; lra|].
    split; vm_compute; reflexivity.
Qed.
(** A hundred dollars at a price of three: the completed quantity does not
    multiply back exactly in general, but is within the bound. *)
Example C82_request_example :
  let o := mkRequest "buy" "market" btcusd (i2f 0) (i2f 0) (i2f 0) (i2f 0) (i2f 100) in
  ordinary (used_price o (i2f 3)) /\ ordinary (r_total o) /\ f64_eq (r_quantity o) (i2f 0) = true.
Proof.
  cbv zeta. split; [cbn [used_price r_type]; apply ordinary_int; lia|]. split; [cbn [r_total]; apply ordinary_int; lia|]. vm_compute. reflexivity.
Qed.

Print Assumptions C82_position.
Print Assumptions C82_profit.
Print Assumptions C82_close.
Print Assumptions C82_fee.
Print Assumptions C82_request.
