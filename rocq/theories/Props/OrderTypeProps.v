(** More of C46 and C47: the named order types. *)
From Coq Require Import Reals Lia ZArith List String.
From Flocq Require Import Core BinarySingleNaN.
From Verif Require Import Go.Outcome Go.Float64 Go.Num Model.Asset Model.Pair Model.Entities Spec.EntitySpec Props.EntityProps.
Import ListNotations.
Open Scope string_scope.
Open Scope list_scope.
Open Scope Z_scope.

(** The five names of market/order.go; of these only limit orders need a
    price. *)
Theorem C46_order_types : [MarketOrder; ClosePosition; LimitOrder; TakeProfit; StopLoss] = ["market"; "close_position"; "limit"; "take_profit"; "stop_loss"] /\
  forall pr action otype (quantity price total : f64), a_symbol (p_base pr) <> "" -> action <> "" ->
    f64_eq quantity (i2f 0) = false \/ f64_eq total (i2f 0) = false -> In otype [MarketOrder; ClosePosition; LimitOrder; TakeProfit; StopLoss] ->
    ((exists r, new_order_request pr action otype quantity price total = (Some r, None)) <-> otype <> "limit" \/ f64_eq price (i2f 0) = false).
Proof.
  split; [reflexivity|]. intros pr action otype quantity price total Hp Ha Hq Hi.
  destruct (C46_new_order_request pr action otype quantity price total) as (V & I).
  assert (otype <> "") as Ho by (intros ->; cbn in Hi; repeat (destruct Hi as [Hi|Hi]; [discriminate|]); exact Hi).
  split.
  - intros (r & E). destruct (string_dec otype "limit") as [->|N]; [right|now left].
    destruct (f64_eq price (i2f 0)) eqn:Ep; [exfalso|reflexivity].
    destruct I as (e & I & _); [|rewrite I in E; discriminate]. intros (_ & _ & _ & H & _). specialize (H eq_refl). congruence.
  - intros H. eexists. apply V. do 3 (split; [assumption|]). split; [|exact Hq]. intros ->. destruct H; [contradiction|assumption].
Qed.
(** Only market orders are completed with the current price ... *)
Theorem C47_market_only : forall (o : order_request f64) current current', r_type o <> "market" ->
  calculate_fields o current = calculate_fields o current'.
Proof.
  intros o c c' H. unfold calculate_fields. change MarketOrder with "market". apply String.eqb_neq in H. now rewrite H.
Qed.
(** ... although market/order.go says of close_position that it "will buy or
    sell at whatever the current price".  Without a price, which NewOrderRequest
    accepts, 2 units at 7 are worth 0, and for 14 one gets infinitely many. *)
Theorem C47_close_position_refuted : exists pr, forall current,
  match new_order_request pr "sell" ClosePosition (i2f 2) (i2f 0) (i2f 0), new_order_request pr "sell" ClosePosition (i2f 0) (i2f 0) (i2f 14) with
  | (Some o, None), (Some o', None) =>
      match calculate_fields o current, calculate_fields o' current with
      | (Some r, None), (Some r', None) => f64_eq (r_total r) (i2f 0) = true /\ is_finite (r_quantity r') = false
      | _, _ => False
      end
  | _, _ => False
  end.
Proof.
  exists (mkPair (mkAsset "Ether" "ETH" "") (mkAsset "Dollar" "USD" "")). intros current.
  assert (forall q t, match calculate_fields (mkRequest "sell" "close_position" (mkPair (mkAsset "Ether" "ETH" "") (mkAsset "Dollar" "USD" "")) (i2f 0) (i2f 0) (i2f 0) q t) current with
    x => x = calculate_fields (mkRequest "sell" "close_position" (mkPair (mkAsset "Ether" "ETH" "") (mkAsset "Dollar" "USD" "")) (i2f 0) (i2f 0) (i2f 0) q t) (i2f 7) end) as E.
  { intros q t. apply C47_market_only. discriminate. }
  change (new_order_request (mkPair (mkAsset "Ether" "ETH" "") (mkAsset "Dollar" "USD" "")) "sell" ClosePosition (i2f 2) (i2f 0) (i2f 0))
    with (Some (mkRequest "sell" "close_position" (mkPair (mkAsset "Ether" "ETH" "") (mkAsset "Dollar" "USD" "")) (i2f 0) (i2f 0) (i2f 0) (i2f 2) (i2f 0)), @None err).
  change (new_order_request (mkPair (mkAsset "Ether" "ETH" "") (mkAsset "Dollar" "USD" "")) "sell" ClosePosition (i2f 0) (i2f 0) (i2f 14))
    with (Some (mkRequest "sell" "close_position" (mkPair (mkAsset "Ether" "ETH" "") (mkAsset "Dollar" "USD" "")) (i2f 0) (i2f 0) (i2f 0) (i2f 0) (i2f 14)), @None err).
  cbv beta iota. rewrite !E. vm_compute. split; reflexivity.
Qed.
Example C47_example_types : f64_eq (i2f 7) (i2f 0) = false /\ ClosePosition <> "market" /\ In ClosePosition [MarketOrder; ClosePosition; LimitOrder; TakeProfit; StopLoss].
Proof. split; [vm_compute; reflexivity|]. split; [discriminate|]. right. now left. Qed.

Print Assumptions C46_order_types.
Print Assumptions C47_market_only.
Print Assumptions C47_close_position_refuted.
