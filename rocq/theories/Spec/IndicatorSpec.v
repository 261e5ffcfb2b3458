(** Vocabulary of the indicator properties (C53-C63). *)
From Coq Require Import Reals.
From Flocq Require Import BinarySingleNaN.
From Verif Require Import Go.Outcome Go.Float64 Go.Num Model.Candle Model.Indicators.
Open Scope list_scope.
Local Notation length := List.length.

Definition closes {F} (cs : list (candle F)) : list F := map c_close cs.

(** [n] consecutive elements from position [i]. *)
Definition window {A} (i n : nat) (l : list A) : list A := firstn n (skipn i l).

Section Series.
Context {F : Type} {N : GoFloat F}.

(** Left-to-right sum, and the sum divided by the number of terms. *)
Definition sum_of (l : list F) : F := fold_left fadd l (fofZ 0).
Definition mean_of (l : list F) : F := fdiv (sum_of l) (fofZ (Z.of_nat (length l))).

(** The values of a recurrence x_{k+1} = step x_k c_k, without the start. *)
Fixpoint iterates {A} (step : F -> A -> F) (x : F) (l : list A) : list F :=
  match l with
  | [] => []
  | c :: r => step x c :: iterates step (step x c) r
  end.
End Series.

(** ** Exact arithmetic *)
Definition rsum (l : list R) : R := fold_right Rplus 0%R l.
Definition within (lo hi : R) (l : list R) : Prop := Forall (fun x => lo <= x <= hi)%R l.
(** [sum of b^(n-1-i) * r_i] over a list of [n] numbers. *)
Fixpoint discounted (b : R) (l : list R) : R :=
  match l with
  | [] => 0%R
  | r :: rest => (b ^ length rest * r + discounted b rest)%R
  end.

(** ** Fractals *)
(** An upper (lower) fractal candidate [third]: both candles before it are
    strictly lower (higher) ... *)
Definition peak (lt : f64 -> f64 -> bool) (a b x : f64) : Prop := lt a x = true /\ lt b x = true.
(** ... and, to the right, a candle beyond [x] only comes after two candles
    strictly on the other side. *)
Definition clear_right (lt : f64 -> f64 -> bool) (x : f64) (right : list f64) : Prop :=
  forall pre c post, right = pre ++ c :: post -> lt x c = true ->
    (2 <= length (filter (fun d => lt d x) pre))%nat.
(** Two candles strictly on the other side follow before any beyond [x]. *)
Definition confirmed_right (lt : f64 -> f64 -> bool) (x : f64) (right : list f64) : Prop :=
  exists pre post, right = pre ++ post /\
    (2 <= length (filter (fun d => lt d x) pre))%nat /\ Forall (fun d => lt x d = false) pre.
Definition gt64 (x y : f64) : bool := f64_lt y x.

(** The pattern at index [i] of a price series. *)
Definition pattern (lt : f64 -> f64 -> bool) (l : list f64) (i : nat) : Prop :=
  exists before a b x right, l = before ++ a :: b :: x :: right /\ (length before + 2 = i)%nat /\
    peak lt a b x /\ clear_right lt x right.

(** The price a fractal of each kind looks at, and "on the inner side of it". *)
Definition price_of (ft : ftype) (c : candle f64) : f64 :=
  match ft with FractalUp => c_high c | FractalDown => c_low c end.
Definition below (ft : ftype) : f64 -> f64 -> bool :=
  match ft with FractalUp => f64_lt | FractalDown => gt64 end.

(** Input order; up before down on the same candle. *)
Definition key_lt (k k' : nat * ftype) : Prop :=
  (fst k < fst k')%nat \/ (fst k = fst k' /\ snd k = FractalUp /\ snd k' = FractalDown).

(** The report [fr] for index and kind [k]. *)
Definition reports (cs : list (candle f64)) (k : nat * ftype) (fr : fractal f64) : Prop :=
  exists c, nth_error cs (fst k) = Some c /\ fr = mkFractal (c_time c) (price_of (snd k) c) (snd k).

(** No NaN among highs and lows. *)
Definition prices_ok (cs : list (candle f64)) : Prop :=
  Forall (fun c => is_nan (c_high c) = false /\ is_nan (c_low c) = false) cs.

(** The fractal at [i] is confirmed: two candles strictly inside follow before
    any outside. *)
Definition confirmed (ft : ftype) (cs : list (candle f64)) (i : nat) : Prop :=
  exists before a b x right, map (price_of ft) cs = before ++ a :: b :: x :: right /\ (length before + 2 = i)%nat /\ peak (below ft) a b x /\ confirmed_right (below ft) x right.
