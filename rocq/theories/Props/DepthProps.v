(** Properties C04 and C10 for depths beyond 2^53 (MaxDepth = MaxInt64 is the
    usual way to say "no limit"). *)
From Verif Require Import Go.Outcome Go.Int64 Go.Slice Go.Float64 Go.Num
  Model.OrderBook Spec.OrderBookSpec Spec.DepthSpec Proofs.DepthFree Props.OrderBookProps.
Open Scope list_scope.
Open Scope Z_scope.

(** ** C04 *)
Theorem C04_unreached_depth_irrelevant : forall us ob,
  zlen (asks ob) + zlen us <= 2 ^ 53 -> zlen (bids ob) + zlen us <= 2 ^ 53 ->
  exists ob',
    zlen (asks ob') <= zlen (asks ob) + zlen us /\ zlen (bids ob') <= zlen (bids ob) + zlen us /\
    forall d, zlen (asks ob) + zlen us <= d -> zlen (bids ob) + zlen us <= d ->
      apply_updates us (with_depth d ob) = Ret (with_depth d ob').
Proof. exact unreached_depth. Qed.
(** So what is proved of books with [sizes_ok] carries over to every larger depth. *)
Theorem C04_huge_depth : forall us ob d, 2 ^ 53 <= d ->
  zlen (asks ob) + zlen us < 2 ^ 53 -> zlen (bids ob) + zlen us < 2 ^ 53 ->
  exists ob', apply_updates us (with_depth (2 ^ 53 - 1) ob) = Ret (with_depth (2 ^ 53 - 1) ob') /\
    apply_updates us (with_depth d ob) = Ret (with_depth d ob') /\
    sizes_ok (with_depth (2 ^ 53 - 1) ob) /\ within_depth (with_depth (2 ^ 53 - 1) ob).
Proof. exact huge_depth. Qed.
(** [max_int] is 2^63 - 1; its rows come out as those of a depth of 4. *)
Definition max_int : Z := 2 ^ 63 - 1.
Example C04_unreached_example :
  shown (apply_updates [upd 8 1 "ask"; upd 4 1 "ask"] (mkBook 0 [mk 5 1; mk 6 1] [] max_int)) =
  Some ([(4,1,0); (5,1,0); (6,1,0); (8,1,0)], []) /\
  shown (apply_updates [upd 8 1 "ask"; upd 4 1 "ask"] (mkBook 0 [mk 5 1; mk 6 1] [] 3)) =
  Some ([(4,1,0); (5,1,0); (6,1,0)], []).
Proof.
  split; [|vm_compute; reflexivity].
  destruct (C04_unreached_depth_irrelevant [upd 8 1 "ask"; upd 4 1 "ask"] (mkBook 0 [mk 5 1; mk 6 1] [] 4))
    as (ob' & _ & _ & E); [vm_compute; discriminate|vm_compute; discriminate|].
  pose proof (E 4 ltac:(vm_compute; discriminate) ltac:(vm_compute; discriminate)) as E4.
  pose proof (E max_int ltac:(vm_compute; discriminate) ltac:(vm_compute; discriminate)) as Em.
  cbv [with_depth b_time asks bids] in E4, Em. rewrite Em. apply (f_equal shown) in E4.
  cbn [shown asks bids] in *. rewrite <- E4. vm_compute. reflexivity.
Qed.

(** ** C10 *)
Theorem C10_any_depth_never_panics : forall us ob, 0 <= max_depth ob ->
  zlen (asks ob) + zlen us < 2 ^ 53 -> zlen (bids ob) + zlen us < 2 ^ 53 ->
  exists ob', apply_updates us ob = Ret ob'.
Proof. exact any_depth_total. Qed.
Example C10_any_depth_example :
  exists ob', apply_updates [upd 5 7 "bid"; upd 6 0 "ask"] (mkBook 0 [mk 5 1; mk 6 1] [mk 4 1] max_int) = Ret ob'.
Proof. apply C10_any_depth_never_panics; [vm_compute; discriminate|vm_compute; reflexivity|vm_compute; reflexivity]. Qed.

Print Assumptions C04_unreached_depth_irrelevant.
Print Assumptions C04_huge_depth.
Print Assumptions C10_any_depth_never_panics.
