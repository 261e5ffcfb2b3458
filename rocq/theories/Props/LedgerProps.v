(** C96: a position under any history of trades, partial closes included, in
    float64 against exact books.  Vocabulary: Spec/LedgerSpec.v. *)
From Coq Require Import Reals Lra Lia String.
From Flocq Require Import Core BinarySingleNaN.
From Verif Require Import Go.Outcome Go.Float64 Go.FloatReal Go.FloatError Go.Num Model.Asset Model.Pair Model.Entities
  Spec.AccuracySpec Spec.EntitySpec Spec.MoneySpec Spec.LedgerSpec Proofs.Entities Proofs.Ledger
  Props.AccuracyProps Props.EntityProps.
Open Scope string_scope.
Open Scope list_scope.
Open Scope R_scope.
Local Notation length := List.length.

Lemma kept_worth t0 kept : Forall moderate_trade (t0 :: kept) -> bpow radix2 (-400) <= worth (t0 :: kept).
Proof.
  intros H. inversion H as [|? ? [M1 M2] Hk]; subst. destruct (product_low _ _ M1 M2) as [L _]. cbn [worth fold_right].
  assert (0 <= worth kept) as W.
  { clear - Hk. induction Hk as [|t ts [M1 M2] Ht IH]; cbn [worth fold_right]; [lra|]. fold (worth ts).
    destruct (product_low _ _ M1 M2) as [L _]. pose proof (bpow_gt_0 radix2 (-400)). unfold real. lra. }
  fold (worth kept). unfold real. lra.
Qed.

(** While the position is open: its quantity, and the money it says is in it. *)
Theorem C96_open_position : forall id t0 ts,
  t_action t0 = "buy" \/ t_action t0 = "sell" -> Forall moderate_trade (t0 :: ts) -> INR (length (t0 :: ts)) <= bpow radix2 20 ->
  let p := modify_all (new_position id t0) ts in ps_open p = true ->
  exists kept, recorded (t_pair t0) (ps_type p) (t_quantity t0) ts kept /\ ps_trades p = map t_id (t0 :: kept) /\
    let k := INR (length kept) in
    approx (k * eps * bought (t0 :: kept)) (ps_quantity p) (held (t_action t0) (t0 :: kept)) /\
    is_finite (ps_open_price p) = true /\
    Rabs (real (ps_open_price p) * real (ps_quantity p) -
      (if String.eqb (t_action t0) "buy" then - received (t0 :: kept) else received (t0 :: kept))) <=
      4 * k * eps * worth (t0 :: kept).
Proof.
  intros id t0 ts A M K p Op. destruct (balance id t0 ts A M K Op) as (kept & K1 & K2 & _ & _ & _ & _ & _ & L). fold p in K1, K2, L.
  exists kept. split; [exact K1|]. split; [exact K2|]. destruct L as (FQ & FP & _ & _ & EQ & _ & _ & EV & _). cbv zeta. rewrite eps_uro.
  split; [split; [exact FQ|exact EQ]|]. split; [exact FP|]. unfold real. eapply Rle_trans; [exact EV|]. lra.
Qed.
(** The profit it reports at any price [c], and the profit recorded when it is
    closed. *)
Theorem C96_profit : forall id t0 ts,
  t_action t0 = "buy" \/ t_action t0 = "sell" -> Forall moderate_trade (t0 :: ts) -> INR (length (t0 :: ts)) <= bpow radix2 20 ->
  let p := modify_all (new_position id t0) ts in ps_open p = true ->
  exists kept, recorded (t_pair t0) (ps_type p) (t_quantity t0) ts kept /\
    let k := INR (length kept) in
    (forall c, moderate c ->
      approx (4 * (k + 1) * eps * (real c * bought (t0 :: kept) + worth (t0 :: kept)))
        (unrealized_profit p c) (gain_at (t_action t0) (real c) (t0 :: kept))) /\
    (forall t, moderate (t_price t) -> ps_open (fst (modify p t)) = false ->
      approx (4 * (k + 1) * eps * (real (t_price t) * bought (t0 :: kept) + worth (t0 :: kept)))
        (ps_profit (fst (modify p t))) (gain_at (t_action t0) (real (t_price t)) (t0 :: kept))).
Proof.
  intros id t0 ts A M K p Op. destruct (balance id t0 ts A M K Op) as (kept & K1 & K2 & Ow & _ & Mk & _ & Fk & L). fold p in K1, K2, L, Ow.
  exists kept. split; [exact K1|]. cbv zeta.
  assert (forall c, moderate c ->
      approx (4 * (INR (length kept) + 1) * eps * (real c * bought (t0 :: kept) + worth (t0 :: kept)))
        (unrealized_profit p c) (gain_at (t_action t0) (real c) (t0 :: kept))) as U.
  { intros c Mc. destruct (unrealized_near p (t_action t0) _ _ _ _ _ c Ow Fk L (kept_worth t0 kept Mk) Mc) as [F E].
    split; [exact F|]. rewrite eps_uro. unfold gain_at. destruct (String.eqb (t_action t0) "buy").
    - replace (received (t0 :: kept) + real c * held (t_action t0) (t0 :: kept)) with
        (real c * held (t_action t0) (t0 :: kept) - - received (t0 :: kept)) by ring. eapply Rle_trans; [exact E|]. lra.
    - eapply Rle_trans; [exact E|]. lra. }
  split; [exact U|]. intros t Mt Cl. destruct (C45_realised_equals_unrealised p t Op Cl) as [-> _]. now apply U.
Qed.
(** If the closing trade is for exactly the quantity held, the recorded profit
    is the cash received for all trades, up to rounding. *)
Theorem C96_net_cash : forall id t0 ts t,
  t_action t0 = "buy" \/ t_action t0 = "sell" -> Forall moderate_trade (t0 :: ts ++ [t]) -> INR (length (t0 :: ts)) <= bpow radix2 20 ->
  let p := modify_all (new_position id t0) ts in ps_open p = true -> ps_open (fst (modify p t)) = false ->
  exists kept, recorded (t_pair t0) (ps_type p) (t_quantity t0) ts kept /\
    (real (t_quantity t) = held (t_action t0) (t0 :: kept) ->
      approx (4 * (INR (length kept) + 1) * eps * (real (t_price t) * bought (t0 :: kept) + worth (t0 :: kept)))
        (ps_profit (fst (modify p t))) (received (t0 :: kept ++ [t]))).
Proof.
  intros id t0 ts t A M K p Op Cl.
  assert (Forall moderate_trade (t0 :: ts) /\ moderate_trade t) as [M1 [Mt _]].
  { change (t0 :: ts ++ [t]) with ((t0 :: ts) ++ [t]) in M. apply Forall_app in M. destruct M as [M1 M2]. split; [exact M1|]. now inversion M2. }
  destruct (balance id t0 ts A M1 K Op) as (_ & _ & _ & Ow & _). fold p in Ow.
  destruct (C96_profit id t0 ts A M1 K Op) as (kept & K1 & _ & K2). fold p in K1, K2. exists kept. split; [exact K1|].
  intros E. specialize (K2 t Mt Cl). replace (received (t0 :: kept ++ [t])) with (gain_at (t_action t0) (real (t_price t)) (t0 :: kept)); [exact K2|].
  unfold gain_at. rewrite <- E. change (t0 :: kept ++ [t]) with ((t0 :: kept) ++ [t]).
  assert (forall l, received (l ++ [t]) = received l +
    (if String.eqb (t_action t) "buy" then - (real (t_price t) * real (t_quantity t)) else real (t_price t) * real (t_quantity t))) as Ra.
  { induction l as [|x l IH]; cbn [app received fold_right]; [ring|]. fold (received (l ++ [t])) (received l). rewrite IH. ring. }
  rewrite Ra. f_equal. 
  assert (reduces (ps_type p) (t_action t)) as R.
  { destruct (pair_dec (ps_pair p) (t_pair t)) as [Ep|Ep]; [|rewrite modify_other_pair in Cl by assumption; cbn [fst] in Cl; congruence].
    destruct (inc_or_red (ps_type p) (t_action t)) as [H|[H|[H1 H2]]]; [|exact H|].
    - rewrite modify_increase in Cl by assumption. cbn [fst pos_add ps_open] in Cl. congruence.
    - rewrite modify_unknown in Cl by assumption. cbn [fst] in Cl. congruence. }
  destruct Ow as [[T ->]|[T ->]]; destruct R as [[T' ->]|[T' ->]]; rewrite T in T'; try discriminate T'; reflexivity.
Qed.
(** Whole quantities: no rounding in the quantity, and selling exactly what is
    held closes the position. *)
Theorem C96_whole_quantities : forall id t0 ts,
  t_action t0 = "buy" \/ t_action t0 = "sell" -> Forall (fun t => whole (t_quantity t)) (t0 :: ts) ->
  bought (t0 :: ts) <= 2 ^ 53 ->
  let p := modify_all (new_position id t0) ts in ps_open p = true ->
  exists kept, recorded (t_pair t0) (ps_type p) (t_quantity t0) ts kept /\
    real (ps_quantity p) = held (t_action t0) (t0 :: kept) /\
    forall t, t_pair t = t_pair t0 -> reduces (ps_type p) (t_action t) -> whole (t_quantity t) ->
      real (t_quantity t) = held (t_action t0) (t0 :: kept) -> ps_open (fst (modify p t)) = false.
Proof.
  intros id t0 ts A W B p Op. inversion W as [|? ? (n & Pn & In) Ws]; subst. pose proof (opening id t0 A) as Ow.
  assert (ps_type p = ps_type (new_position id t0) /\ ps_pair p = t_pair t0) as [Ty Pr].
  { unfold p. clear. assert (forall ts (q : position f64), ps_type (modify_all q ts) = ps_type q /\ ps_pair (modify_all q ts) = ps_pair q) as H.
    { induction ts0 as [|x l IH]; intros q; [auto|]. cbn [modify_all]. destruct (IH (fst (modify q x))) as [-> ->].
      destruct (modify_fixed q x) as (E1 & E2 & _). auto. }
    apply (H ts (new_position id t0)). }
  destruct (history_recorded (new_position id t0) ts) as (kept & K1 & _). exists kept.
  assert (IZR n + bought ts <= IZR (2 ^ 53)) as B'.
  { cbn [bought fold_right] in B. fold (bought ts) in B. destruct In as [_ E]. rewrite E in B.
    replace (IZR (2 ^ 53)) with (2 ^ 53) by (rewrite pow_IZR; reflexivity). exact B. }
  assert (0 <= bought ts) as Pb.
  { clear - Ws. induction Ws as [|u us (m & Pm & _ & Em) H IH]; cbn [bought fold_right]; [lra|]. fold (bought us). rewrite Em.
    assert (0 <= IZR m) by (apply IZR_le; lia). lra. }
  destruct (whole_history (t_action t0) ts (new_position id t0) n n Ow In ltac:(lia) Ws B' Op kept K1) as (z & Iz & Ez).
  fold p in Iz. rewrite Ty. split; [exact K1|].
  assert (held (t_action t0) (t0 :: kept) = IZR z) as Hz.
  { cbn [held fold_right]. rewrite String.eqb_refl. fold (held (t_action t0) kept). destruct In as [_ E]. now rewrite E, Ez. }
  split; [rewrite Hz; apply Iz|]. intros t Ep R (m & Pm & Im) Eh.
  assert (m = z) as ->. { apply eq_IZR. rewrite <- Hz, <- Eh. symmetry. apply Im. }
  apply (exact_close p t z); [exact Iz|exact Im| |congruence|now rewrite Ty].
  assert (held (t_action t0) kept <= bought ts) as Hb.
  { clear - K1 Ws. revert K1. generalize (t_pair t0), (ps_type (new_position id t0)), (ps_quantity (new_position id t0)).
    intros pr ty q R. cbn [ps_pair new_position] in R. induction R as [q|q u us kept' _ _ IH|q q' u us kept' _ _ IH]; [cbn; lra| |].
    - inversion Ws as [|? ? (m & Pm & _ & Em) W2]; subst. cbn [bought fold_right]. fold (bought us). rewrite Em.
      assert (0 <= IZR m) by (apply IZR_le; lia). specialize (IH W2). lra.
    - inversion Ws as [|? ? (m & Pm & _ & Em) W2]; subst. cbn [bought held fold_right]. fold (bought us) (held (t_action t0) kept'). rewrite Em.
      assert (0 <= IZR m) by (apply IZR_le; lia). specialize (IH W2). destruct (String.eqb (t_action u) (t_action t0)); lra. }
  unfold exact_int. split; [lia|]. apply le_IZR. rewrite Ez. lra.
Qed.

Definition deal (id a : string) (price qty : f64) : trade f64 :=
  mkTrade id 1000%Z a "market" btcusd price qty (i2f 0) (i2f 0) "".
Lemma int_moderate z : (1 <= z <= 2 ^ 53)%Z -> moderate (i2f z) /\ real (i2f z) = IZR z.
Proof.
  intros H. assert (exact_int z) as X by (unfold exact_int; lia). split; [|exact (i2f_B2R z X)].
  split; [now apply i2f_finite|]. unfold real. rewrite (i2f_B2R z X). split.
  - apply Rle_trans with 1; [change 1 with (bpow radix2 0); apply bpow_le; lia|apply IZR_le; lia].
  - apply Rle_trans with (bpow radix2 53); [rewrite <- (IZR_Zpower radix2 53) by lia; apply IZR_le; cbn; lia|apply bpow_le; lia].
Qed.
Lemma int_whole z : (1 <= z <= 2 ^ 53)%Z -> whole (i2f z).
Proof. intros H. exists z. destruct (int_moderate z H) as [[F _] E]. split; [lia|]. split; assumption. Qed.
Ltac deals := repeat (apply Forall_cons; [split; apply int_moderate; lia|]); apply Forall_nil.

(** Bought 3 at 100 and 4 at 107, sold 5 at 110 (partly closing), then sold the
    remaining 2 at 90: cash 5*110 + 2*90 - 3*100 - 4*107 = 2. *)
Example C96_example :
  let t0 := deal "a" "buy" (i2f 100) (i2f 3) in
  let ts := [deal "b" "buy" (i2f 107) (i2f 4); deal "c" "sell" (i2f 110) (i2f 5)] in
  let p := modify_all (new_position "p" t0) ts in let t := deal "d" "sell" (i2f 90) (i2f 2) in
  Forall moderate_trade (t0 :: ts ++ [t]) /\ Forall (fun t => whole (t_quantity t)) (t0 :: ts) /\
  INR (length (t0 :: ts)) <= bpow radix2 20 /\ bought (t0 :: ts) <= 2 ^ 53 /\
  ps_open p = true /\ f2i (ps_quantity p) = 2%Z /\ ps_open (fst (modify p t)) = false /\
  held "buy" (t0 :: ts) = real (t_quantity t) /\ received (t0 :: ts ++ [t]) = 2 /\
  f64_le (f64_abs (f64_sub (ps_profit (fst (modify p t))) (i2f 2))) (f64_const 1 (-9)) = true.
Proof.
  cbv zeta. split; [cbn [app]; deals|]. split; [repeat (apply Forall_cons; [apply int_whole; lia|]); apply Forall_nil|].
  assert (forall z, (1 <= z <= 2 ^ 53)%Z -> real (i2f z) = IZR z) as E by (intros z H; now apply int_moderate).
  split; [cbn; lra|]. split; [unfold bought; cbn [fold_right deal t_quantity]; rewrite !E by lia; lra|].
  do 3 (split; [vm_compute; reflexivity|]).
  split; [unfold held; cbn [fold_right deal t_quantity t_action String.eqb Ascii.eqb Bool.eqb]; rewrite !E by lia; lra|].
  split; [unfold received; cbn [app fold_right deal t_quantity t_price t_action String.eqb Ascii.eqb Bool.eqb]; rewrite !E by lia; lra|].
  vm_compute; reflexivity.
Qed.

(** Without the bound 2^53 on the quantities, selling exactly what was bought
    does not always close the position, and selling less than what was bought
    may close it. *)
Theorem C96_dust_refuted : exists t0 ts,
  Forall moderate_trade (t0 :: ts) /\ t_action t0 = "buy" /\ held "buy" (t0 :: ts) = 0 /\
  let p := modify_all (new_position "p" t0) ts in
  ps_trades p = map t_id (t0 :: ts) /\ ps_open p = true /\ f2i (ps_quantity p) = 1%Z.
Proof.
  exists (deal "a" "buy" (i2f 1) (i2f (2 ^ 53))),
    [deal "b" "buy" (i2f 1) (i2f 3); deal "c" "sell" (i2f 1) (i2f (2 ^ 53)); deal "d" "sell" (i2f 1) (i2f 3)].
  assert (forall z, (1 <= z <= 2 ^ 53)%Z -> real (i2f z) = IZR z) as E by (intros z H; now apply int_moderate).
  split; [deals|]. split; [reflexivity|].
  split; [unfold held; cbn [fold_right deal t_quantity t_action String.eqb Ascii.eqb Bool.eqb]; rewrite !E by lia; lra|].
  cbv zeta. split; [vm_compute; reflexivity|]. split; vm_compute; reflexivity.
Qed.
Theorem C96_early_close_refuted : exists t0 ts,
  Forall moderate_trade (t0 :: ts) /\ t_action t0 = "buy" /\ held "buy" (t0 :: ts) = 1 /\
  ps_open (modify_all (new_position "p" t0) ts) = false.
Proof.
  exists (deal "a" "buy" (i2f 1) (i2f (2 ^ 53))), [deal "b" "buy" (i2f 1) (i2f 1); deal "c" "sell" (i2f 1) (i2f (2 ^ 53))].
  assert (forall z, (1 <= z <= 2 ^ 53)%Z -> real (i2f z) = IZR z) as E by (intros z H; now apply int_moderate).
  split; [deals|]. split; [reflexivity|].
  split; [unfold held; cbn [fold_right deal t_quantity t_action String.eqb Ascii.eqb Bool.eqb]; rewrite !E by lia; lra|].
  vm_compute. reflexivity.
Qed.
(** Everyday decimals: after buying 0.1 and 0.2 at 10 and selling 0.3 at 12 the
    position is still open, with a tiny quantity and an open price below
    minus 10^15. *)
Example C96_decimal_dust :
  let p := modify_all (new_position "p" (deal "a" "buy" (i2f 10) (f64_const 1 (-1))))
    [deal "b" "buy" (i2f 10) (f64_const 2 (-1)); deal "c" "sell" (i2f 12) (f64_const 3 (-1))] in
  ps_open p = true /\ f64_lt (i2f 0) (ps_quantity p) = true /\ f64_lt (ps_quantity p) (f64_const 1 (-16)) = true /\
  f64_lt (ps_open_price p) (f64_const (-1) 15) = true.
Proof. cbv zeta. repeat split; vm_compute; reflexivity. Qed.

Print Assumptions C96_open_position.
Print Assumptions C96_profit.
Print Assumptions C96_net_cash.
Print Assumptions C96_whole_quantities.
Print Assumptions C96_dust_refuted.
Print Assumptions C96_early_close_refuted.
