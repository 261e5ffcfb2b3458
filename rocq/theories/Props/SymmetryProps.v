(** Properties C77-C79: symmetries of market/orderbook.go and
    indicators/williams_fractals.go.
    Models: Model/OrderBook.v, Model/Indicators.v; vocabulary: Spec/SymmetrySpec.v. *)
From Coq Require Import Lia Reals.
From Flocq Require Import Core BinarySingleNaN.
From Verif Require Import Go.Outcome Go.Int64 Go.Slice Go.Float64 Go.Num Model.OrderBook Model.Candle Model.Indicators
  Spec.SymmetrySpec Proofs.Symmetry Proofs.FractalSymmetry Proofs.DepthRelabel Props.OrderBookProps Props.FractalProps.
Open Scope list_scope.
Open Scope Z_scope.

(** ** C77: asks and bids are treated alike *)
(** Exchanging the sides and negating the prices commutes with an update, for
    any prices (NaN and infinities too): same errors, same panics. *)
Theorem C77_mirror_update : forall u ob,
  apply_update (mirror_update u) (mirror_book ob) = go_map (fun r => (mirror_book (fst r), snd r)) (apply_update u ob).
Proof. exact mirror_apply. Qed.
Theorem C77_mirror_history : forall us ob,
  apply_updates (map mirror_update us) (mirror_book ob) = go_map mirror_book (apply_updates us ob).
Proof. exact mirror_history. Qed.
Theorem C77_mirror_new : forall now la lb d,
  new_order_book now (map negate_row lb) (map negate_row la) d = go_map mirror_book (new_order_book now la lb d).
Proof. exact mirror_new. Qed.
(** Nothing is lost in the mirror. *)
Theorem C77_mirror_involutive : forall ob, mirror_book (mirror_book ob) = ob.
Proof. exact mirror_mirror. Qed.
Example C77_example :
  shown (apply_updates ex_history ex_book) = Some ([(6,7,0); (7,3,0); (8,4,0)], [(5,1,0); (4,1,0); (2,1,0); (1,5,0)]) /\
  shown (apply_updates (map mirror_update ex_history) (mirror_book ex_book)) =
    Some ([(-5,1,0); (-4,1,0); (-2,1,0); (-1,5,0)], [(-6,7,0); (-7,3,0); (-8,4,0)]).
Proof. split; vm_compute; reflexivity. Qed.

(** ** C78: only the order of the prices matters *)
Theorem C78_relabel_update : forall g u ob,
  keeps_order (fun x => book_price ob x \/ x = u_price u) g ->
  apply_update (relabel_update g (fun v => v) u) (relabel_book g (fun v => v) ob) =
  go_map (fun r => (relabel_book g (fun v => v) (fst r), snd r)) (apply_update u ob).
Proof. exact relabel_apply. Qed.
Theorem C78_relabel_history : forall g us ob,
  keeps_order (fun x => book_price ob x \/ In x (map u_price us)) g ->
  apply_updates (map (relabel_update g (fun v => v)) us) (relabel_book g (fun v => v) ob) =
  go_map (relabel_book g (fun v => v)) (apply_updates us ob).
Proof. exact relabel_history. Qed.
Theorem C78_relabel_new : forall g now la lb d,
  keeps_order (fun x => In x (map price (la ++ lb))) g ->
  new_order_book now (map (relabel_row g (fun v => v)) la) (map (relabel_row g (fun v => v)) lb) d =
  go_map (relabel_book g (fun v => v)) (new_order_book now la lb d).
Proof. exact relabel_new. Qed.
(** GetDepth: [g] must also keep which prices count as positive. *)
Theorem C78_relabel_depth : forall g ob p,
  keeps_order (fun x => book_price ob x \/ x = p) g -> f64_le (g p) (i2f 0) = f64_le p (i2f 0) ->
  get_depth (relabel_book g (fun v => v) ob) (g p) = go_map (relabel_answer g) (get_depth ob p).
Proof. exact relabel_depth. Qed.
(** On finite prices and volumes, a history of updates does what the same code
    does with exact numbers: there is no rounding at all. *)
Theorem C78_exact_history : forall us ob, finite_book ob -> Forall finite_update us ->
  apply_updates (map real_update us) (real_book ob) = go_map real_book (apply_updates us ob).
Proof. exact real_history. Qed.

(** Prices in cents instead of units. *)
Definition cents (x : f64) : f64 := f64_mul (i2f 100) x.
Definition small_prices : list f64 := map i2f [1; 2; 3; 4; 5; 6; 7; 8].
Lemma cents_order : keeps_order (fun x => In x small_prices) cents.
Proof.
  assert (forallb (fun x => forallb (fun y =>
    Bool.eqb (f64_lt (cents x) (cents y)) (f64_lt x y) && Bool.eqb (f64_eq (cents x) (cents y)) (f64_eq x y))%bool small_prices) small_prices = true) as H
    by (vm_compute; reflexivity).
  intros x y Hx Hy. rewrite forallb_forall in H. specialize (H x Hx). rewrite forallb_forall in H. specialize (H y Hy).
  apply andb_prop in H as [H1 H2]. split; now apply Bool.eqb_prop.
Qed.
Lemma small_covers (l : list Z) : Forall (fun z => In z [1; 2; 3; 4; 5; 6; 7; 8]) l -> forall x, In x (map i2f l) -> In x small_prices.
Proof. intros H x Hx. apply in_map_iff in Hx as (z & <- & Hz). apply in_map. rewrite Forall_forall in H. now apply H. Qed.
Example C78_example :
  keeps_order (fun x => book_price ex_book x \/ In x (map u_price ex_history)) cents /\
  finite_book ex_book /\ Forall finite_update ex_history /\
  shown (apply_updates (map (relabel_update cents (fun v => v)) ex_history) (relabel_book cents (fun v => v) ex_book)) =
    Some ([(600,7,0); (700,3,0); (800,4,0)], [(500,1,0); (400,1,0); (200,1,0); (100,5,0)]).
Proof.
  split; [|split; [|split]].
  - intros x y Hx Hy. apply cents_order.
    + destruct Hx as [Hx|Hx]; [apply (small_covers [5; 6; 7; 4; 3; 2])|apply (small_covers [8; 6; 3; 5; 1; 1])]; try exact Hx;
        repeat (apply Forall_cons; [cbn [In]; lia|]); apply Forall_nil.
    + destruct Hy as [Hy|Hy]; [apply (small_covers [5; 6; 7; 4; 3; 2])|apply (small_covers [8; 6; 3; 5; 1; 1])]; try exact Hy;
        repeat (apply Forall_cons; [cbn [In]; lia|]); apply Forall_nil.
  - split; repeat (apply Forall_cons; [split; vm_compute; reflexivity|]); apply Forall_nil.
  - repeat (apply Forall_cons; [split; vm_compute; reflexivity|]); apply Forall_nil.
  - vm_compute. reflexivity.
Qed.

(** Asked for 6.5 the book answers 6; in cents, 600. *)
Example C78_depth_example :
  (exists x, get_depth ex_book (f64_const 65 (-1)) = Ret (x, None) /\ f64_eq x (i2f 6) = true) /\
  keeps_order (fun x => book_price ex_book x \/ x = f64_const 65 (-1)) cents /\
  f64_le (cents (f64_const 65 (-1))) (i2f 0) = f64_le (f64_const 65 (-1)) (i2f 0) /\
  (exists x, get_depth (relabel_book cents (fun v => v) ex_book) (cents (f64_const 65 (-1))) = Ret (x, None) /\ f64_eq x (i2f 600) = true).
Proof.
  assert (keeps_order (fun x => book_price ex_book x \/ x = f64_const 65 (-1)) cents) as K.
  { set (l := f64_const 65 (-1) :: small_prices).
    assert (forallb (fun x => forallb (fun y =>
      Bool.eqb (f64_lt (cents x) (cents y)) (f64_lt x y) && Bool.eqb (f64_eq (cents x) (cents y)) (f64_eq x y))%bool l) l = true) as H
      by (vm_compute; reflexivity).
    assert (forall x, book_price ex_book x \/ x = f64_const 65 (-1) -> In x l) as C.
    { intros x [Hx| ->]; [right; apply (small_covers [5; 6; 7; 4; 3; 2]); [|exact Hx];
        repeat (apply Forall_cons; [cbn [In]; lia|]); apply Forall_nil|now left]. }
    intros x y Hx Hy. rewrite forallb_forall in H. specialize (H x (C x Hx)). rewrite forallb_forall in H. specialize (H y (C y Hy)).
    apply andb_prop in H as [H1 H2]. split; now apply Bool.eqb_prop. }
  assert (f64_le (cents (f64_const 65 (-1))) (i2f 0) = f64_le (f64_const 65 (-1)) (i2f 0)) as Z0 by (vm_compute; reflexivity).
  assert (match get_depth ex_book (f64_const 65 (-1)) with
          | Ret (x, None) => f64_eq x (i2f 6) && f64_eq (cents x) (i2f 600) | _ => false end = true)%bool as W by (vm_compute; reflexivity).
  rewrite (relabel_depth _ _ _ K Z0). destruct (get_depth ex_book (f64_const 65 (-1))) as [[x [e|]]|n]; [discriminate W| |discriminate W].
  apply andb_prop in W as [Q Q'].
  split; [exists x; split; [reflexivity|exact Q]|]. split; [exact K|]. split; [exact Z0|].
  exists (cents x). split; [reflexivity|exact Q'].
Qed.

(** ** C79: fractals *)
(** Only the order among the highs and the order among the lows matter; times
    are passed through, opens, closes and volumes are not looked at. *)
Theorem C79_only_order_matters : forall (f : candle f64 -> candle f64) h gh gl cs,
  (forall c, In c cs -> c_time (f c) = h (c_time c) /\ c_high (f c) = gh (c_high c) /\ c_low (f c) = gl (c_low c)) ->
  keeps_order (fun x => In x (map c_high cs)) gh -> keeps_order (fun x => In x (map c_low cs)) gl ->
  william_fractals (map f cs) = go_map (map (refractal h gh gl)) (william_fractals cs).
Proof. exact relabel_fractals. Qed.
(** Upside down, the up fractals are the former down fractals, in order, and
    conversely. *)
Theorem C79_upside_down : forall cs, exists out out',
  william_fractals cs = Ret out /\ william_fractals (map flip_candle cs) = Ret out' /\
  forall ft, filter (is_kind ft) out' = map flip_fractal (filter (is_kind (flip_kind ft)) out).
Proof. exact flip_fractals. Qed.
Definition zigzag : list (candle f64) := bars [(1, 5); (2, 6); (3, 8); (0, 7); (1, 4); (2, 7); (3, 8)].
(** Times one hour later, highs times 100, lows kept, the rest wiped. *)
Definition redraw (c : candle f64) : candle f64 :=
  mkCandle (c_time c + 3600) (i2f 0) (cents (c_high c)) (c_low c) (i2f 0) (i2f 0).
Example C79_example :
  (forall c, In c zigzag -> c_time (redraw c) = c_time c + 3600 /\ c_high (redraw c) = cents (c_high c) /\ c_low (redraw c) = c_low c) /\
  keeps_order (fun x => In x (map c_high zigzag)) cents /\ keeps_order (fun x => In x (map c_low zigzag)) (fun x => x) /\
  seen_fractals (william_fractals zigzag) = Some [(2, 8, FractalUp); (3, 0, FractalDown)] /\
  seen_fractals (william_fractals (map redraw zigzag)) = Some [(62, 800, FractalUp); (63, 0, FractalDown)] /\
  seen_fractals (william_fractals (map flip_candle zigzag)) = Some [(2, -8, FractalDown); (3, 0, FractalUp)].
Proof.
  split; [|split; [|split; [|split; [|split]]]].
  - intros c _. repeat split.
  - intros x y Hx Hy. apply cents_order; (apply (small_covers [5; 6; 8; 7; 4; 7; 8]); [|assumption]);
      repeat (apply Forall_cons; [cbn [In]; lia|]); apply Forall_nil.
  - intros x y _ _. split; reflexivity.
  - vm_compute. reflexivity.
  - vm_compute. reflexivity.
  - vm_compute. reflexivity.
Qed.

Print Assumptions C77_mirror_update.
Print Assumptions C77_mirror_history.
Print Assumptions C77_mirror_new.
Print Assumptions C77_mirror_involutive.
Print Assumptions C78_relabel_update.
Print Assumptions C78_relabel_history.
Print Assumptions C78_relabel_new.
Print Assumptions C78_relabel_depth.
Print Assumptions C78_exact_history.
Print Assumptions C79_only_order_matters.
Print Assumptions C79_upside_down.
