(** Long and short are mirror images, bit for bit. *)
From Coq Require Import Reals Lra String List.
From Flocq Require Import Core BinarySingleNaN.
From Verif Require Import Go.Outcome Go.Float64 Go.FloatOrder Go.FloatReal Go.Num Model.Asset Model.Pair Model.Entities
  Spec.MirrorSpec Proofs.Entities.
Open Scope string_scope.

Lemma key_opposite x y : is_nan x = false -> is_nan y = false -> xr y = (- xr x)%R -> opposite x y.
Proof.
  intros Nx Ny E. rewrite <- neg_xr in E.
  assert (is_nan (f64_neg x) = false) as Nn by (destruct x; [reflexivity|reflexivity|discriminate Nx|reflexivity]).
  apply key_eq_xr in E; [|assumption|assumption]. destruct (key_inj _ _ Ny Nn E) as [H|(s & s' & H & H')]; [now left|right].
  destruct x as [sx|sx| |sx m e B]; try discriminate H'. now exists sx, s.
Qed.
Lemma opposite_sub x y : opposite (f64_sub x y) (f64_sub y x).
Proof.
  destruct (is_finite x) eqn:Fx; [destruct (is_finite y) eqn:Fy|].
  - apply key_opposite; [now apply sub_xr|now apply sub_xr|]. now apply sub_opp.
  - left. destruct x as [s|s| |s m e B]; try discriminate Fx; destruct y as [s'|s'| |s' m' e' B']; try discriminate Fy; try reflexivity; destruct s'; reflexivity.
  - left. destruct x as [s|s| |s m e B]; try discriminate Fx; destruct y as [s'|s'| |s' m' e' B']; try reflexivity; destruct s; try reflexivity; destruct s'; reflexivity.
Qed.
Lemma opposite_mul x y q : opposite x y -> opposite (f64_mul x q) (f64_mul y q).
Proof.
  intros [->|(s & s' & -> & ->)].
  - destruct (is_finite x) eqn:Fx; [destruct (is_finite q) eqn:Fq|].
    + assert (is_finite (f64_neg x) = true) as Fn by (destruct x; try discriminate Fx; reflexivity).
      destruct (mul_xr x q Fx Fq) as [N1 E1]. destruct (mul_xr (f64_neg x) q Fn Fq) as [N2 E2].
      apply key_opposite; [exact N1|exact N2|]. rewrite E1, E2, <- sat_opp, <- rnd_opp. do 2 f_equal.
      rewrite <- (xr_finite _ Fn), neg_xr, xr_finite by assumption. lra.
    + left. destruct x as [s|s| |s m e B]; try discriminate Fx; destruct q as [s'|s'| |s' m' e' B']; try discriminate Fq; try reflexivity; destruct s, s'; reflexivity.
    + left. destruct x as [s|s| |s m e B]; try discriminate Fx; destruct q as [s'|s'| |s' m' e' B']; try reflexivity; destruct s, s'; reflexivity.
  - destruct q as [t|t| |t m e B]; [right; eexists; eexists; split; reflexivity|left; reflexivity|left; reflexivity|right; eexists; eexists; split; reflexivity].
Qed.
Lemma opposite_sym x y : opposite x y -> opposite y x.
Proof.
  intros [->|(s & s' & -> & ->)]; [left|right; now exists s', s]. destruct x as [[|]|[|]| |[|] m e B]; reflexivity.
Qed.

Lemma new_counter id t : t_action t = "buy" \/ t_action t = "sell" ->
  counter_position (new_position id t) (new_position id (counter_trade t)).
Proof.
  intros H. unfold counter_position, new_position, counter_trade.
  cbn [ps_type ps_profit ps_id ps_pair ps_open ps_take_profit ps_stop_loss ps_open_price ps_close_price ps_quantity ps_open_time ps_close_time ps_trades ps_execution_id ps_data
    t_id t_time t_action t_pair t_price t_quantity].
  split; [destruct H as [-> | ->]; [left|right]; split; reflexivity|].
  split; [right; exists false, false; split; reflexivity|]. repeat (split; [reflexivity|]). reflexivity.
Qed.
Lemma unrealized_counter p q c : counter_position p q -> opposite (unrealized_profit p c) (unrealized_profit q c).
Proof.
  intros (T & _ & _ & _ & _ & _ & _ & E1 & _ & E2 & _). unfold unrealized_profit. rewrite E1, E2. cbn [fmul fsub f64_num].
  destruct T as [[-> ->]|[-> ->]]; [change (String.eqb "long" LongPosition) with true; change (String.eqb "short" LongPosition) with false|
    change (String.eqb "long" LongPosition) with true; change (String.eqb "short" LongPosition) with false]; cbv iota; apply opposite_mul, opposite_sub.
Qed.
Lemma other_action_cases a : (a = "buy" /\ other_action a = "sell") \/ (a = "sell" /\ other_action a = "buy") \/
  (String.eqb a "buy" = false /\ String.eqb a "sell" = false /\ other_action a = a).
Proof.
  unfold other_action. destruct (String.eqb_spec a "buy"); [now left|]. destruct (String.eqb_spec a "sell"); [right; now left|]. right; right. auto.
Qed.

Lemma add_counter p q t : counter_position p q -> counter_position (pos_add p t) (pos_add q (counter_trade t)).
Proof.
  intros (T & P & E1 & E2 & E3 & E4 & E5 & E6 & E7 & E8 & E9 & E10 & E11 & E12 & E13). unfold counter_position, pos_add, counter_trade.
  cbn [ps_type ps_profit ps_id ps_pair ps_open ps_take_profit ps_stop_loss ps_open_price ps_close_price ps_quantity ps_open_time ps_close_time ps_trades ps_execution_id ps_data
    t_id t_time t_action t_pair t_price t_quantity].
  rewrite E1, E2, E3, E4, E5, E6, E7, E8, E9, E10, E11, E12, E13. repeat (split; [assumption || reflexivity|]). reflexivity.
Qed.
Lemma substract_counter p q t : counter_position p q ->
  counter_position (fst (pos_substract p t)) (fst (pos_substract q (counter_trade t))).
Proof.
  intros C. pose proof C as (T & P & E1 & E2 & E3 & E4 & E5 & E6 & E7 & E8 & E9 & E10 & E11 & E12 & E13). unfold pos_substract, counter_trade.
  cbn [t_id t_time t_action t_pair t_price t_quantity]. rewrite E1, E2, E3, E4, E5, E6, E7, E8, E9, E10, E11, E12, E13. cbv zeta.
  destruct (flt _ _ && flt _ _)%bool; [exact C|]. destruct (fle _ _); unfold counter_position; cbn [fst];
  cbn [ps_type ps_profit ps_id ps_pair ps_open ps_take_profit ps_stop_loss ps_open_price ps_close_price ps_quantity ps_open_time ps_close_time ps_trades ps_execution_id ps_data].
  - split; [assumption|]. split; [|repeat (split; [reflexivity|]); reflexivity]. cbn [fmul fsub f64_num].
    destruct T as [[-> ->]|[-> ->]]; change (String.eqb "long" LongPosition) with true; change (String.eqb "short" LongPosition) with false;
      cbv iota; apply opposite_mul, opposite_sub.
  - repeat (split; [assumption || reflexivity|]). reflexivity.
Qed.
Lemma modify_counter p q t : counter_position p q ->
  counter_position (fst (modify p t)) (fst (modify q (counter_trade t))) /\ snd (modify q (counter_trade t)) = snd (modify p t).
Proof.
  intros C. pose proof C as (T & _ & _ & E2 & _). pose proof (add_counter p q t C) as A. pose proof (substract_counter p q t C) as S.
  unfold modify. rewrite E2. change (t_pair (counter_trade t)) with (t_pair t).
  change (t_action (counter_trade t)) with (other_action (t_action t)).
  destruct (negb _); [split; [exact C|reflexivity]|].
  destruct (other_action_cases (t_action t)) as [[B1 B2]|[[B1 B2]|(B1 & B2 & B3)]].
  - rewrite B2, B1. destruct T as [[-> ->]|[-> ->]]; cbn [String.eqb Ascii.eqb Bool.eqb andb fst snd]; (split; [assumption|reflexivity]).
  - rewrite B2, B1. destruct T as [[-> ->]|[-> ->]]; cbn [String.eqb Ascii.eqb Bool.eqb andb fst snd]; (split; [assumption|reflexivity]).
  - rewrite B3. change BuyAction with "buy". change SellAction with "sell". rewrite B1, B2, !Bool.andb_false_r. split; [exact C|reflexivity].
Qed.
Lemma history_counter ts : forall p q, counter_position p q ->
  counter_position (modify_all p ts) (modify_all q (map counter_trade ts)).
Proof.
  induction ts as [|t ts IH]; intros p q C; cbn [modify_all map]; [exact C|]. apply IH. exact (proj1 (modify_counter p q t C)).
Qed.
Lemma fee_counter id tm action otype pr (x y cost : f64) : action = "buy" \/ action = "sell" ->
  let t := new_trade id tm action otype pr x y cost in
  let t' := new_trade id tm (other_action action) otype pr x y cost in
  opposite (t_fee t) (t_fee t').
Proof.
  intros [-> | ->]; cbv zeta; unfold new_trade; cbn [t_fee fsub fmul f64_num]; change (other_action "buy") with "sell"; change (other_action "sell") with "buy";
  change (String.eqb "buy" BuyAction) with true; change (String.eqb "sell" BuyAction) with false; cbv iota; apply opposite_sub.
Qed.
