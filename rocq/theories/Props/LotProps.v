(** Property C126: positions whose quantities are whole multiples of a power
    of two.  Model: Model/Entities.v; vocabulary: Spec/LotSpec.v, Spec/TickSpec.v. *)
From Coq Require Import Reals Lra Lia ZArith List.
From Flocq Require Import Core BinarySingleNaN.
From Verif Require Import Go.Outcome Go.Float64 Go.FloatReal Go.Num Model.Asset Model.Pair Model.Entities
  Spec.EntitySpec Spec.FrameSpec Spec.TickSpec Spec.LotSpec Proofs.Entities Proofs.Frame Proofs.Ticks Proofs.Lots.
Import ListNotations.
Open Scope string_scope.
Open Scope list_scope.
Open Scope Z_scope.
Local Notation length := List.length.

(** Size, Open and Trades of a position are, after every history of trades of
    whole lots, exactly what counting the lots gives: float64 adds nothing and
    loses nothing. *)
Theorem C126_books : forall e m (p : position f64) q ts ks, tick e -> 0 <= m -> tolerance e m ->
  ticks e (ps_quantity p) q -> Forall2 (fun t k => ticks e (t_quantity t) k) ts ks -> Z.abs q + weight ks <= 2 ^ 53 ->
  exists b, (forall b', dealt_all (ps_pair p) (ps_type p) m (Books q (ps_open p) (ps_trades p)) ts ks b' <-> b' = b) /\
    let p' := modify_all p ts in
    ticks e (ps_quantity p') (size b) /\ ps_open p' = is_open b /\ ps_trades p' = listed b.
Proof.
  intros e m p q ts ks He Hm Tol Q H B.
  destruct (lot_history e m He Hm Tol ts ks p (Books q (ps_open p) (ps_trades p)) ltac:(repeat split; apply Q) H B) as (b & D & K).
  exists b. split; [|exact K]. intros b'. split; [intros D'; now apply (dealt_all_once _ _ _ Hm _ _ _ _ _ D')|now intros ->].
Qed.
(** The 0.0001 is some number of lots, for lots of 2^-13 or more none. *)
Theorem C126_tolerance : (forall e, exists m, 0 <= m /\ tolerance e m) /\ (forall e, -13 <= e -> tolerance e 0) /\
  forall e m m', tolerance e m -> tolerance e m' -> m = m'.
Proof.
  split; [|split; [exact large_lots|]].
  - intros e. pose proof literal_range as (A & _). pose proof (bpow_gt_0 radix2 e) as P. set (c := (- B2R (f64_const (-1) (-4)))%R) in *.
    exists (Zfloor (c / bpow radix2 e)). pose proof (Zfloor_lb (c / bpow radix2 e)) as L. pose proof (Zfloor_ub (c / bpow radix2 e)) as U.
    assert (0 <= c / bpow radix2 e)%R as Nn by (apply Rmult_le_pos; [exact A|left; now apply Rinv_0_lt_compat]).
    split; [now apply Zfloor_lub|]. unfold tolerance. fold c. rewrite plus_IZR.
    assert (c = c / bpow radix2 e * bpow radix2 e)%R as Ec by (field; lra). rewrite Ec at 2 3. split; [apply Rmult_le_compat_r; lra|apply Rmult_lt_compat_r; lra].
  - assert (forall e m m', tolerance e m -> tolerance e m' -> m <= m') as K.
    { intros e m m' (A & _) (_ & B). pose proof (bpow_gt_0 radix2 e). assert (m < m' + 1) by (apply lt_IZR; nra). lia. }
    intros e m m' A B. apply Z.le_antisymm; eauto.
Qed.
(** In lots of 2^-13 or more: a position bought in any number of parts and sold
    in any number of parts is closed by exactly the trade that makes the sums
    meet; every trade is listed, and until then Quantity is the difference. *)
Theorem C126_sold_out : forall e id (t0 : trade f64) k0 ts ks, -13 <= e <= 970 -> t_action t0 = "buy" \/ t_action t0 = "sell" ->
  ticks e (t_quantity t0) k0 -> Forall2 (fun t k => ticks e (t_quantity t) k) ts ks -> 0 < k0 -> Forall (fun k => 0 < k) ks -> k0 + weight ks <= 2 ^ 53 ->
  Forall (fun t => t_pair t = t_pair t0 /\ (t_action t = "buy" \/ t_action t = "sell")) ts ->
  let ty := if String.eqb (t_action t0) "buy" then "long" else "short" in
  (forall n, (n < length ts)%nat -> 0 < k0 + net ty (firstn n ts) (firstn n ks)) -> 0 <= k0 + net ty ts ks ->
  let p := modify_all (new_position id t0) ts in
  ps_trades p = map t_id (t0 :: ts) /\ (ps_open p = true <-> 0 < k0 + net ty ts ks) /\
  (ps_open p = true -> ticks e (ps_quantity p) (k0 + net ty ts ks)).
Proof.
  intros e id t0 k0 ts ks He A Q H P0 Kp B F ty Pre N p.
  assert (ps_type (new_position id t0) = ty) as Ty by (unfold new_position, ty; destruct A as [-> | ->]; reflexivity).
  assert (tick e) as Te by (unfold tick; lia).
  destruct (lot_history e 0 Te ltac:(lia) (large_lots e ltac:(lia)) ts ks (new_position id t0) (Books k0 true [t_id t0])
    ltac:(repeat split; apply Q) H ltac:(cbn; lia)) as (b & D & K1 & K2 & K3).
  rewrite Ty in D. cbn [ps_pair new_position] in D.
  destruct (books_net _ _ _ _ _ _ D) as (I1 & I2 & I3); auto.
  { eapply Forall_impl; [|exact F]. cbv beta. intros t (E & At). split; [exact E|]. unfold increases, reduces, ty.
    destruct A as [-> | ->], At as [-> | ->]; cbn; auto. }
  cbn [size listed app] in I1, I2, I3. fold p in K1, K2, K3. rewrite K3, I1. split; [reflexivity|].
  rewrite K2, I2. split; [apply Z.ltb_lt|]. intros O. rewrite <- I3; [exact K1|]. now rewrite I2.
Qed.
(** In smaller lots a sale of more than there is can close the position: one
    lot of 2^-20, fifty sold. *)
Theorem C126_oversold_refuted : exists e id (t0 t : trade f64) k0 k, tick e /\ ticks e (t_quantity t0) k0 /\ ticks e (t_quantity t) k /\
  0 < k0 < k /\ t_action t0 = "buy" /\ t_action t = "sell" /\ t_pair t = t_pair t0 /\
  let p := modify_all (new_position id t0) [t] in ps_open p = false /\ ps_trades p = [t_id t0; t_id t].
Proof.
  set (pr := mkPair (mkAsset "Ether" "ETH" "") (mkAsset "Dollar" "USD" "")).
  set (d := fun id action z => mkTrade id 0 action "market" pr (i2f 1) (f64_div (i2f z) (i2f 1048576)) (i2f 0) (i2f 0) "").
  exists (-20), "p", (d "a" "buy" 1), (d "b" "sell" 50), 1, 50. split; [unfold tick; lia|].
  assert (forall z, Z.abs z <= 2 ^ 53 -> ticks (-20) (f64_div (i2f z) (i2f 1048576)) z) as K.
  { intros z Hz. assert (exact_int z) as X by (unfold exact_int; lia). assert (exact_int 1048576) as X4 by (unfold exact_int; lia).
    apply (tick_op _ _ (-20) z (div_xr _ _ (i2f_finite z X) (i2f_finite _ X4) ltac:(rewrite i2f_B2R by exact X4; lra)) ltac:(unfold tick; lia) Hz).
    rewrite !i2f_B2R by assumption. change (bpow radix2 (-20)) with (/ 1048576)%R. reflexivity. }
  split; [apply K; lia|]. split; [apply K; lia|]. split; [lia|]. repeat split; vm_compute; reflexivity.
Qed.

(** Profit: prices in ticks of 2^e', quantity in lots of 2^e.  UnrealizedProfit,
    and the Profit of the trade that closes the position, are exact. *)
Theorem C126_profit : forall e e' (p : position f64) q op c, tick e' -> tick (e' + e) -> ticks e (ps_quantity p) q -> ticks e' (ps_open_price p) op ->
  Z.abs (c - op) <= 2 ^ 53 -> Z.abs ((c - op) * q) <= 2 ^ 53 ->
  let gain := if String.eqb (ps_type p) "long" then (c - op) * q else (op - c) * q in
  (forall x, ticks e' x c -> ticks (e' + e) (unrealized_profit p x) gain) /\
  forall t, ticks e' (t_price t) c -> closes p t -> ticks (e' + e) (ps_profit (fst (modify p t))) gain.
Proof.
  intros e e' p q op c Te' Te Q O B1 B2 gain.
  assert (forall x, ticks e' x c -> ticks (e' + e) (f64_mul (f64_sub x (ps_open_price p)) (ps_quantity p)) ((c - op) * q)) as K1.
  { intros x Hx. apply ticks_mul; auto. now apply ticks_sub. }
  assert (forall x, ticks e' x c -> ticks (e' + e) (f64_mul (f64_sub (ps_open_price p) x) (ps_quantity p)) ((op - c) * q)) as K2.
  { intros x Hx. apply ticks_mul; auto; [|lia]. apply ticks_sub; auto. lia. }
  split.
  - intros x Hx. unfold unrealized_profit, gain. change LongPosition with "long". destruct (String.eqb (ps_type p) "long"); [now apply K1|now apply K2].
  - intros t Hx C. destruct (step_closes p t C) as (_ & _ & _ & _ & _ & _ & ->). unfold gain.
    destruct (String.eqb (ps_type p) "long"); [now apply K1|now apply K2].
Qed.

(** Eighths: bought 0.375, 0.125 and 0.5, sold 0.25, 0.625 and 0.125. *)
Definition ether : pair := mkPair (mkAsset "Ether" "ETH" "") (mkAsset "Dollar" "USD" "").
Definition eighths (id action : string) (z : Z) : trade f64 :=
  mkTrade id 0 action "market" ether (i2f 100) (f64_div (i2f z) (i2f 8)) (i2f 0) (i2f 0) "".
Lemma eighths_ticks id action z : Z.abs z <= 2 ^ 53 -> ticks (-3) (t_quantity (eighths id action z)) z.
Proof.
  intros Hz. assert (exact_int z) as X by (unfold exact_int; lia). assert (exact_int 8) as X4 by (unfold exact_int; lia).
  apply (tick_op _ _ (-3) z (div_xr _ _ (i2f_finite z X) (i2f_finite 8 X4) ltac:(rewrite i2f_B2R by exact X4; lra)) ltac:(unfold tick; lia) Hz).
  rewrite !i2f_B2R by assumption. change (bpow radix2 (-3)) with (/ 8)%R. reflexivity.
Qed.
Example C126_example :
  let t0 := eighths "a" "buy" 3 in let ks := [1; 2; 4; 5; 1] in
  let ts := [eighths "b" "buy" 1; eighths "c" "sell" 2; eighths "d" "buy" 4; eighths "e" "sell" 5; eighths "f" "sell" 1] in
  ticks (-3) (t_quantity t0) 3 /\ Forall2 (fun t k => ticks (-3) (t_quantity t) k) ts ks /\ 3 + weight ks <= 2 ^ 53 /\
  (forall n, (n < length ts)%nat -> 0 < 3 + net "long" (firstn n ts) (firstn n ks)) /\ 3 + net "long" ts ks = 0 /\
  ps_open (modify_all (new_position "p" t0) ts) = false /\ ps_open (modify_all (new_position "p" t0) (firstn 4 ts)) = true /\
  f64_eq (ps_quantity (modify_all (new_position "p" t0) (firstn 4 ts))) (f64_const 125 (-3)) = true.
Proof.
  cbv zeta. split; [apply eighths_ticks; lia|]. split; [repeat constructor; apply eighths_ticks; lia|]. split; [vm_compute; discriminate|].
  split; [intros n Hn; do 5 (destruct n as [|n]; [vm_compute; reflexivity|]); cbn in Hn; lia|].
  repeat split; vm_compute; reflexivity.
Qed.

Print Assumptions C126_books.
Print Assumptions C126_tolerance.
Print Assumptions C126_sold_out.
Print Assumptions C126_oversold_refuted.
Print Assumptions C126_profit.
