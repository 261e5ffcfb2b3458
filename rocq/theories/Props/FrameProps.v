(** Property C111: which fields of a position Modify may change, and when.
    Everything is at float64 level. *)
From Coq Require Import Reals Lia.
From Verif Require Import Go.Outcome Go.Float64 Go.Num Model.Asset Model.Pair Model.Entities Spec.EntitySpec Spec.FrameSpec
  Proofs.Entities Proofs.Frame.
Open Scope string_scope.
Open Scope list_scope.
Open Scope Z_scope.

(** Every trade is in exactly one of four cases for a given position. *)
Theorem C111_one_case : forall p t,
  (idle p t \/ grows p t \/ shrinks p t \/ closes p t) /\
  (idle p t -> ~ grows p t /\ ~ shrinks p t /\ ~ closes p t) /\
  (grows p t -> ~ shrinks p t /\ ~ closes p t) /\ (shrinks p t -> ~ closes p t).
Proof. intros p t. split; [apply cases|apply cases_exclusive]. Qed.

(** The four cases, all fields named. *)
Theorem C111_idle : forall (p : position f64) t, idle p t -> fst (modify p t) = p.
Proof. exact step_idle. Qed.

Theorem C111_grows : forall (p : position f64) t, grows p t -> let p' := fst (modify p t) in
  same_identity p p' /\ same_closing p p' /\ records p t p' /\
  ps_quantity p' = f64_add (ps_quantity p) (t_quantity t) /\
  ps_open_price p' =
    f64_add (f64_div (f64_mul (ps_open_price p) (ps_quantity p)) (ps_quantity p'))
            (f64_div (f64_mul (t_price t) (t_quantity t)) (ps_quantity p')).
Proof. intros p t H. cbv zeta. rewrite (step_grows p t H). repeat split. Qed.

Theorem C111_shrinks : forall (p : position f64) t, shrinks p t -> let p' := fst (modify p t) in
  same_identity p p' /\ same_closing p p' /\ records p t p' /\ ps_quantity p' = rest p t /\
  ps_open_price p' = f64_div (f64_mul (f64_sub (ps_open_price p)
    (f64_mul (t_price t) (f64_div (t_quantity t) (ps_quantity p)))) (ps_quantity p)) (rest p t).
Proof. exact step_shrinks. Qed.

Theorem C111_closes : forall (p : position f64) t, closes p t -> let p' := fst (modify p t) in
  same_identity p p' /\ same_holding p p' /\ records p t p' /\
  ps_open p' = false /\ ps_close_price p' = t_price t /\ ps_close_time p' = t_time t /\
  ps_profit p' = (if String.eqb (ps_type p) "long" then f64_mul (f64_sub (t_price t) (ps_open_price p)) (ps_quantity p)
                  else f64_mul (f64_sub (ps_open_price p) (t_price t)) (ps_quantity p)).
Proof. exact step_closes. Qed.

(** Over any history: ID, Type, Pair, TakeProfit, StopLoss, OpenTime,
    ExecutionID and Data are never written. *)
Theorem C111_identity : forall ts (p : position f64), same_identity p (modify_all p ts).
Proof. exact history_identity. Qed.

(** Open, ClosePrice, CloseTime and Profit are those at the start, or those
    written by the last closing trade. *)
Theorem C111_last_close : forall ts (p : position f64),
  (same_closing p (modify_all p ts) /\ forall ts1 t ts2, ts = ts1 ++ t :: ts2 -> ~ closes (modify_all p ts1) t) \/
  exists ts1 t ts2, ts = ts1 ++ t :: ts2 /\ closes (modify_all p ts1) t /\
    (forall a u b, ts2 = a ++ u :: b -> ~ closes (modify_all p (ts1 ++ t :: a)) u) /\
    let q := modify_all p ts in let p1 := modify_all p ts1 in
    ps_open q = false /\ ps_close_price q = t_price t /\ ps_close_time q = t_time t /\
    ps_profit q = (if String.eqb (ps_type p) "long" then f64_mul (f64_sub (t_price t) (ps_open_price p1)) (ps_quantity p1)
                   else f64_mul (f64_sub (ps_open_price p1) (t_price t)) (ps_quantity p1)).
Proof.
  intros ts p. destruct (history_closing ts p) as [H|(ts1 & t & ts2 & E & C & N & S)]; [left; exact H|right].
  exists ts1, t, ts2. split; [exact E|]. split; [exact C|]. split; [exact N|]. cbv zeta.
  rewrite modify_all_snoc in S. destruct (step_closes _ _ C) as (_ & _ & _ & A1 & A2 & A3 & A4).
  destruct S as (S1 & S2 & S3 & S4). rewrite S1, S2, S3, S4. repeat split; auto.
  rewrite A4. destruct (C111_identity ts1 p) as (_ & I & _). rewrite I. reflexivity.
Qed.

(** While it is open, a position made by NewPosition has no close price, no
    profit and the zero close time. *)
Theorem C111_open_position : forall id (t0 : trade f64) ts, let p := modify_all (new_position id t0) ts in
  ps_open p = true -> ps_close_price p = i2f 0 /\ ps_profit p = i2f 0 /\ ps_close_time p = year_one.
Proof. intros id t0 ts p H. destruct (history_open _ _ H) as (_ & A & B & C). unfold p. rewrite A, B, C. repeat split. Qed.

(** Of a trade, only ID, ExecutionTime, Action, Pair, Price and Quantity are
    read: order type, fee, cost and ExecutionID influence nothing. *)
Theorem C111_reads : forall id (t0 u0 : trade f64) ts us, same_for_position t0 u0 -> List.Forall2 same_for_position ts us ->
  modify_all (new_position id u0) us = modify_all (new_position id t0) ts.
Proof. intros id t0 u0 ts us H0 H. rewrite (new_position_reads id t0 u0 H0). now apply history_reads. Qed.

(** A position of all four cases. *)
Definition eth : pair := mkPair (mkAsset "Ether" "ETH" "") (mkAsset "Dollar" "USD" "").
Definition deal (id : string) (time : Z) (action : string) (price quantity : Z) : trade f64 :=
  mkTrade id time action "market" eth (i2f price) (i2f quantity) (i2f 1) (i2f 7) "x".
Definition seen (p : position f64) : bool * list Z * list string :=
  (ps_open p, [f2i (ps_quantity p); f2i (ps_open_price p); f2i (ps_close_price p); f2i (ps_profit p); ps_close_time p], ps_trades p).
Example C111_example : let p := new_position "p" (deal "a" 5 "buy" 10 4) in
  grows p (deal "b" 6 "buy" 20 4) /\ shrinks p (deal "c" 7 "sell" 20 1) /\ closes p (deal "d" 8 "sell" 30 4) /\
  idle p (deal "e" 9 "sell" 30 5) /\
  seen (modify_all p [deal "b" 6 "buy" 20 4; deal "c" 7 "sell" 15 4]) = (true, [4; 15; 0; 0; year_one], ["a"; "b"; "c"]) /\
  seen (modify_all p [deal "b" 6 "buy" 20 4; deal "c" 7 "sell" 15 4; deal "d" 8 "sell" 30 4; deal "e" 9 "sell" 30 5])
    = (false, [4; 15; 30; 60; 8], ["a"; "b"; "c"; "d"]).
Proof.
  cbv zeta. unfold grows, shrinks, closes, idle, too_large, increases, reduces.
  repeat split; try (left; split; reflexivity); try (right; left; split; [left; split; reflexivity|]); vm_compute; reflexivity.
Qed.
