(** Vocabulary for the symmetries of the order book: other price labels, and
    the two sides exchanged. *)
From Coq Require Import Reals.
From Flocq Require Import Core BinarySingleNaN.
From Verif Require Import Go.Outcome Go.Float64 Model.OrderBook Model.Candle Model.Indicators.
Open Scope string_scope.

Section Relabel.
Context {F G : Type} (p v : F -> G).
(** Every price replaced by [p] of it, every volume by [v] of it. *)
Definition relabel_row (r : row F) : row G := mkRow (p (price r)) (v (volume r)) (v (accum r)).
Definition relabel_book (ob : book F) : book G :=
  mkBook (b_time ob) (map relabel_row (asks ob)) (map relabel_row (bids ob)) (max_depth ob).
Definition relabel_update (u : update F) : update G := mkUpdate (p (u_price u)) (v (u_volume u)) (u_side u).
End Relabel.

(** The price occurs in the book. *)
Definition book_price {F} (ob : book F) (x : F) : Prop := In x (map price (asks ob ++ bids ob)).

(** [g] keeps all comparisons among the prices satisfying [P]. *)
Definition keeps_order (P : f64 -> Prop) (g : f64 -> f64) : Prop :=
  forall x y, P x -> P y -> f64_lt (g x) (g y) = f64_lt x y /\ f64_eq (g x) (g y) = f64_eq x y.

(** Exchange of the sides: asks become bids at the negated prices and vice
    versa. *)
Definition negate_row (r : row f64) : row f64 := mkRow (f64_neg (price r)) (volume r) (accum r).
Definition mirror_book (ob : book f64) : book f64 :=
  mkBook (b_time ob) (map negate_row (bids ob)) (map negate_row (asks ob)) (max_depth ob).
Definition mirror_side (s : string) : string :=
  if String.eqb s "ask" then "bid" else if String.eqb s "bid" then "ask" else s.
Definition mirror_update (u : update f64) : update f64 :=
  mkUpdate (f64_neg (u_price u)) (u_volume u) (mirror_side (u_side u)).

(** The result of a call, with a function applied to it. *)
Definition go_map {A B} (f : A -> B) (r : go A) : go B :=
  match r with Ret a => Ret (f a) | Panic e => Panic e end.

(** The exact value of a book of finite floats. *)
Definition finite_row (r : row f64) : Prop := is_finite (price r) = true /\ is_finite (volume r) = true.
Definition finite_book (ob : book f64) : Prop := Forall finite_row (asks ob) /\ Forall finite_row (bids ob).
Definition finite_update (u : update f64) : Prop := is_finite (u_price u) = true /\ is_finite (u_volume u) = true.
Definition real_book : book f64 -> book R := relabel_book B2R B2R.
Definition real_update : update f64 -> update R := relabel_update B2R B2R.

(** The answered price relabelled; the zero that comes with an error is kept. *)
Definition relabel_answer (g : f64 -> f64) (r : f64 * option err) : f64 * option err :=
  match snd r with None => (g (fst r), None) | Some e => (fst r, Some e) end.

(** Fractals: other labels for highs, lows and times; the series upside down. *)
Definition refractal (h : Z -> Z) (gh gl : f64 -> f64) (fr : fractal f64) : fractal f64 :=
  mkFractal (h (fr_time fr)) ((match fr_type fr with FractalUp => gh | FractalDown => gl end) (fr_price fr)) (fr_type fr).
Definition flip_kind (ft : ftype) : ftype := match ft with FractalUp => FractalDown | FractalDown => FractalUp end.
Definition flip_candle (c : candle f64) : candle f64 :=
  mkCandle (c_time c) (f64_neg (c_open c)) (f64_neg (c_low c)) (f64_neg (c_high c)) (f64_neg (c_close c)) (c_volume c).
Definition flip_fractal (fr : fractal f64) : fractal f64 :=
  mkFractal (fr_time fr) (f64_neg (fr_price fr)) (flip_kind (fr_type fr)).
Definition is_kind (ft : ftype) (fr : fractal f64) : bool :=
  match ft, fr_type fr with FractalUp, FractalUp | FractalDown, FractalDown => true | _, _ => false end.
