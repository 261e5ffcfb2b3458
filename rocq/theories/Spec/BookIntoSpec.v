(** Vocabulary of C123: reading JSON into a book whose memory others may
    share. *)
From Coq Require Import List.
From Verif Require Import Go.Heap.

(** Everything a slice can reach: its elements up to the capacity. *)
Definition backing {A} (h : heap A) (s : slice) : list A :=
  firstn (s_cap s) (skipn (s_off s) (nth (s_arr s) h nil)).
(** Element [p] of [s] and element [k] of [t] are the same place. *)
Definition same_place (s : slice) (p : nat) (t : slice) (k : nat) : Prop :=
  s_arr s = s_arr t /\ s_off s + p = s_off t + k.
(** [t] shows the [news] in the places it shares with the first elements of
    [s] (as many as fit into the capacity of [s]), and elsewhere what it
    showed. *)
Definition written_through {A} (s : slice) (news before : list A) (t : slice) (after : list A) : Prop :=
  length after = length before /\
  forall k, k < length before ->
    (forall p, p < s_cap s -> p < length news -> same_place s p t k -> nth_error after k = nth_error news p) /\
    ((forall p, p < s_cap s -> p < length news -> ~ same_place s p t k) -> nth_error after k = nth_error before k).
(** A list of [old] with its beginning replaced by [new]. *)
Definition front {A} (new old : list A) : list A := firstn (length old) (new ++ skipn (length new) old).
