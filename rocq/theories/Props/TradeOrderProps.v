(** Property C107: order and partition of the trades of a position
    (market/position.go, Modify, add, substract). Vocabulary: Spec/TradeOrderSpec.v. *)
From Coq Require Import Reals Lra Permutation.
From Flocq Require Import BinarySingleNaN.
From Verif Require Import Go.Outcome Go.Int64 Go.Float64 Go.Num Model.Asset Model.Pair Model.Entities
  Spec.EntitySpec Spec.TradeOrderSpec Proofs.Entities Proofs.TradeOrder Props.EntityProps.
Open Scope string_scope.
Open Scope list_scope.

(** In exact arithmetic the position after any such history is a function of two sums. *)
Theorem C107_closed_form : forall ts (p : position R), (0 < ps_quantity p)%R ->
  stays_open (ps_pair p) (ps_type p) (ps_quantity p) ts ->
  (0 < ps_quantity p + net_quantity (ps_type p) ts)%R /\
  modify_all p ts = mkPosition (ps_id p) (ps_type p) (ps_pair p) (ps_open p) (ps_take_profit p) (ps_stop_loss p)
    ((ps_open_price p * ps_quantity p + net_value (ps_type p) ts) / (ps_quantity p + net_quantity (ps_type p) ts))%R
    (ps_close_price p) (ps_quantity p + net_quantity (ps_type p) ts)%R (ps_profit p) (ps_open_time p) (ps_close_time p)
    (ps_trades p ++ map t_id ts) (ps_execution_id p) (ps_data p).
Proof. exact closed_form. Qed.
Theorem C107_any_order : forall (p : position R) ts ts', (0 < ps_quantity p)%R -> Permutation ts ts' ->
  stays_open (ps_pair p) (ps_type p) (ps_quantity p) ts -> stays_open (ps_pair p) (ps_type p) (ps_quantity p) ts' ->
  modify_all p ts' = with_trades (ps_trades p ++ map t_id ts') (modify_all p ts).
Proof. exact reorder. Qed.
(** Increases stay open in every order; any history can be sorted so that they come first. *)
Theorem C107_increases_in_any_order : forall (p : position R) ts ts', (0 < ps_quantity p)%R -> Permutation ts ts' ->
  (forall t, In t ts -> t_pair t = ps_pair p /\ (0 < t_quantity t)%R /\ increases (ps_type p) (t_action t)) ->
  modify_all p ts' = with_trades (ps_trades p ++ map t_id ts') (modify_all p ts).
Proof.
  intros p ts ts' Q P H. apply reorder; auto; apply increases_stay; auto.
  intros t Ht. apply H. apply (Permutation_in _ (Permutation_sym P) Ht).
Qed.
Theorem C107_increases_first : forall (p : position R) ts, (0 < ps_quantity p)%R ->
  stays_open (ps_pair p) (ps_type p) (ps_quantity p) ts ->
  exists ts', Permutation ts ts' /\ stays_open (ps_pair p) (ps_type p) (ps_quantity p) ts' /\
    (exists a b, ts' = a ++ b /\ (forall t, In t a -> increases (ps_type p) (t_action t)) /\
       (forall t, In t b -> reduces (ps_type p) (t_action t))) /\
    modify_all p ts' = with_trades (ps_trades p ++ map t_id ts') (modify_all p ts).
Proof. exact buys_first. Qed.
(** A trade executed in two parts at one price. *)
Theorem C107_parts : forall (p : position R) a t t1 t2 b, (0 < ps_quantity p)%R -> parts_of t t1 t2 ->
  stays_open (ps_pair p) (ps_type p) (ps_quantity p) (a ++ t :: b) ->
  same_but_trades (modify_all p (a ++ t1 :: t2 :: b)) (modify_all p (a ++ t :: b)).
Proof. exact split_trade. Qed.
Theorem C107_closing_in_parts : forall (p : position R) t t1 t2, (0 < ps_quantity p)%R -> parts_of t t1 t2 ->
  t_pair t = ps_pair p -> reduces (ps_type p) (t_action t) -> t_quantity t = ps_quantity p ->
  let whole := fst (modify p t) in let parts := modify_all p [t1; t2] in
  ps_open whole = false /\ ps_open parts = false /\ ps_profit parts = ps_profit whole /\
  ps_close_price parts = ps_close_price whole.
Proof. exact close_in_parts. Qed.
(** Positions that differ in the list of trades only stay so: all later prices,
    sizes, profits and errors are the same.  In float64. *)
Theorem C107_trade_list_unread : forall ts (p p' : position f64), same_but_trades p p' ->
  same_but_trades (modify_all p ts) (modify_all p' ts).
Proof. exact (@same_later f64 f64_num). Qed.
Theorem C107_trade_list_unread_errors : forall (p p' : position f64) t, same_but_trades p p' ->
  snd (modify p t) = snd (modify p' t).
Proof. intros p p' t H. exact (proj2 (same_step p p' t H)). Qed.

(** In float64 the order matters. *)
Theorem C107_float_order_refuted : exists (p : position f64) t u,
  gt_zero (ps_quantity p) /\ gt_zero (t_quantity t) /\ gt_zero (t_quantity u) /\
  t_pair t = ps_pair p /\ t_pair u = ps_pair p /\
  increases (ps_type p) (t_action t) /\ increases (ps_type p) (t_action u) /\
  f64_lt (ps_open_price (modify_all p [t; u])) (ps_open_price (modify_all p [u; t])) = true.
Proof.
  exists (new_position "p" (tr "a" "buy" 1 1)), (tr "b" "buy" 3 1), (tr "c" "buy" 5 3).
  split; [vm_compute; reflexivity|]. split; [vm_compute; reflexivity|]. split; [vm_compute; reflexivity|].
  split; [reflexivity|]. split; [reflexivity|]. split; [left; split; reflexivity|]. split; [left; split; reflexivity|].
  vm_compute. reflexivity.
Qed.

Definition seen_position (p : position f64) : Z * Z * bool * list string :=
  (f2i (ps_open_price p), f2i (ps_quantity p), ps_open p, ps_trades p).
Definition orders : list (list (trade f64)) :=
  let b := tr "b" "buy" 40 1 in let c := tr "c" "sell" 30 1 in let d := tr "d" "buy" 80 2 in
  [[b; c; d]; [c; b; d]; [d; c; b]; [b; d; c]].
(** Bought 2 for 10 each; then 1 for 40, 2 for 80 each, and 1 sold for 30, in
    four orders: (20 + 40 + 160 - 30) / 4 in truncated integers. *)
Example C107_example :
  map (fun ts => seen_position (modify_all (new_position "p" (tr "a" "buy" 10 2)) ts)) orders =
  [(47, 4, true, ["a"; "b"; "c"; "d"]); (47, 4, true, ["a"; "c"; "b"; "d"]);
   (47, 4, true, ["a"; "d"; "c"; "b"]); (47, 4, true, ["a"; "b"; "d"; "c"])]%Z /\
  let p := new_position "p" (rtr "a" "buy" 10 2) in
  (0 < ps_quantity p)%R /\ stays_open (ps_pair p) (ps_type p) (ps_quantity p) [rtr "c" "sell" 30 1; rtr "b" "buy" 40 1] /\
  stays_open (ps_pair p) (ps_type p) (ps_quantity p) [rtr "b" "buy" 40 1; rtr "c" "sell" 30 1] /\
  parts_of (rtr "d" "sell" 30 2) (rtr "e" "sell" 30 1) (rtr "f" "sell" 30 1) /\
  t_quantity (rtr "d" "sell" 30 2) = ps_quantity p /\ reduces (ps_type p) (t_action (rtr "d" "sell" 30 2)).
Proof.
  split; [vm_compute; reflexivity|]. cbv zeta. cbn. split; [lra|].
  assert (increases "long" "buy") as I by (left; auto). assert (reduces "long" "sell") as J by (left; auto).
  split; [split; [reflexivity|split; [lra|right; split; [exact J|split; [lra|split; [reflexivity|split; [lra|left; auto]]]]]]|].
  split; [split; [reflexivity|split; [lra|left; split; [exact I|split; [reflexivity|split; [lra|right; split; [exact J|split; [lra|exact Logic.I]]]]]]]|].
  split; [repeat split; cbn; lra|]. split; [reflexivity|exact J].
Qed.

Print Assumptions C107_closed_form.
Print Assumptions C107_any_order.
Print Assumptions C107_increases_in_any_order.
Print Assumptions C107_increases_first.
Print Assumptions C107_parts.
Print Assumptions C107_closing_in_parts.
Print Assumptions C107_trade_list_unread.
Print Assumptions C107_trade_list_unread_errors.
Print Assumptions C107_float_order_refuted.
