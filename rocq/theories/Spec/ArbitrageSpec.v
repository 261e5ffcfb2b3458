(** Vocabulary of C119: buying on one book and selling on the other. *)
From Coq Require Import List Reals.
From Verif Require Import Model.OrderBook Spec.OrderBookSpec.
Import ListNotations.
Open Scope list_scope.
Open Scope R_scope.

(** From each row of [l] an amount that is on offer there. *)
Definition taken (xs : list R) (l : list (row R)) : Prop :=
  Forall2 (fun x r => 0 <= x <= volume r) xs l.
Definition amount (xs : list R) : R := fold_right Rplus 0 xs.
(** What these amounts cost, or bring in. *)
Fixpoint worth (xs : list R) (l : list (row R)) : R :=
  match xs, l with
  | x :: xs', r :: l' => x * price r + worth xs' l'
  | _, _ => 0
  end.
(** Buy [xs] from the asks [la] and sell the same total, as [ys], to the bids
    [lb]; nothing is left over. *)
Definition deal (la lb : list (row R)) (xs ys : list R) : Prop :=
  taken xs la /\ taken ys lb /\ amount xs = amount ys.
Definition gain (la lb : list (row R)) (xs ys : list R) : R := worth ys lb - worth xs la.

(** The largest gain a deal can make. *)
Definition best_gain (la lb : list (row R)) (g : R) : Prop :=
  (exists xs ys, deal la lb xs ys /\ gain la lb xs ys = g) /\
  (forall xs ys, deal la lb xs ys -> gain la lb xs ys <= g).

(** Best ask against best bid, as long as that pays; every step uses up a row,
    so [n] = the number of rows is enough. *)
Fixpoint matched (n : nat) (la lb : list (row R)) : R :=
  match n, la, lb with
  | S n', a :: la', b :: lb' =>
      if Rlt_dec (price a) (price b) then
        if Rle_dec (volume a) (volume b)
        then volume a * (price b - price a) + matched n' la' (mkRow (price b) (volume b - volume a) 0 :: lb')
        else volume b * (price b - price a) + matched n' (mkRow (price a) (volume a - volume b) 0 :: la') lb'
      else 0
  | _, _, _ => 0
  end.
Definition matched_gain (la lb : list (row R)) : R := matched (length la + length lb) la lb.

(** Volumes are amounts. *)
Definition stocked (l : list (row R)) : Prop := Forall (fun r => 0 <= volume r) l.
