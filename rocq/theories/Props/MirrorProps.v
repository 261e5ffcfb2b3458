(** Property C90: the counterparty's books mirror ours.  Model:
    Model/Entities.v; vocabulary: Spec/MirrorSpec.v. *)
From Coq Require Import String List ZArith.
From Flocq Require Import BinarySingleNaN.
From Verif Require Import Go.Outcome Go.Float64 Go.Num Model.Asset Model.Pair Model.Entities
  Spec.MirrorSpec Proofs.Mirror Props.EntityProps.
Import ListNotations.
Open Scope string_scope.
Open Scope list_scope.

(** NewPosition *)
Theorem C90_opened : forall id t, t_action t = "buy" \/ t_action t = "sell" ->
  counter_position (new_position id t) (new_position id (counter_trade t)).
Proof. exact new_counter. Qed.
(** One call of Modify: the same error, and still mirror images. *)
Theorem C90_modify : forall p q t, counter_position p q ->
  counter_position (fst (modify p t)) (fst (modify q (counter_trade t))) /\ snd (modify q (counter_trade t)) = snd (modify p t).
Proof. exact modify_counter. Qed.
(** Whole histories. *)
Theorem C90_history : forall ts p q, counter_position p q ->
  counter_position (modify_all p ts) (modify_all q (map counter_trade ts)).
Proof. exact history_counter. Qed.
(** UnrealizedProfit, for every price. *)
Theorem C90_unrealized : forall p q c, counter_position p q -> opposite (unrealized_profit p c) (unrealized_profit q c).
Proof. exact unrealized_counter. Qed.
(** The fee of NewTrade. *)
Theorem C90_fee : forall id tm action otype pr (price quantity cost : f64), action = "buy" \/ action = "sell" ->
  opposite (t_fee (new_trade id tm action otype pr price quantity cost))
           (t_fee (new_trade id tm (other_action action) otype pr price quantity cost)).
Proof. exact fee_counter. Qed.
(** Exact negation fails at zero: a position opened and closed at one price has
    profit +0 on both sides. *)
Theorem C90_exact_negation_refuted : exists id t t',
  let p := fst (modify (new_position id t) t') in
  let q := fst (modify (new_position id (counter_trade t)) (counter_trade t')) in
  ps_open p = false /\ ps_profit q <> f64_neg (ps_profit p).
Proof.
  exists "p", (tr "a" "buy" 10 3), (tr "b" "sell" 10 3). cbv zeta. split; [vm_compute; reflexivity|].
  assert (Bsign (ps_profit (fst (modify (new_position "p" (counter_trade (tr "a" "buy" 10 3))) (counter_trade (tr "b" "sell" 10 3))))) = false) as S by (vm_compute; reflexivity).
  assert (Bsign (f64_neg (ps_profit (fst (modify (new_position "p" (tr "a" "buy" 10 3)) (tr "b" "sell" 10 3))))) = true) as S' by (vm_compute; reflexivity).
  intros E. rewrite <- E in S'. rewrite S in S'. discriminate S'.
Qed.
(** Buy 3 at 10, sell 1 at 12, sell 2 at 13, and the same from the other side. *)
Example C90_example :
  let ts := [tr "b" "sell" 12 1; tr "c" "sell" 13 2] in
  let p := modify_all (new_position "p" (tr "a" "buy" 10 3)) ts in
  let q := modify_all (new_position "p" (counter_trade (tr "a" "buy" 10 3))) (map counter_trade ts) in
  (ps_type p, ps_open p, f2i (ps_profit p), ps_trades p) = ("long", false, 8%Z, ["a"; "b"; "c"]) /\
  (ps_type q, ps_open q, f2i (ps_profit q), ps_trades q) = ("short", false, (-8)%Z, ["a"; "b"; "c"]).
Proof. vm_compute. split; reflexivity. Qed.

Print Assumptions C90_opened.
Print Assumptions C90_modify.
Print Assumptions C90_history.
Print Assumptions C90_unrealized.
Print Assumptions C90_fee.
Print Assumptions C90_exact_negation_refuted.
