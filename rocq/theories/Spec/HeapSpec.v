(** Vocabulary of the aliasing properties (C16, C68). *)
From Verif Require Import Go.Outcome Go.Slice Go.Heap Model.OrderBook Model.OrderBookHeap.
Open Scope list_scope.
Open Scope Z_scope.

(** A header that refers to allocated memory. *)
Definition valid {A} (h : heap A) (s : slice) : Prop :=
  (s_len s <= s_cap s)%nat /\
  (s_cap s <> 0 -> s_arr s < List.length h /\ s_off s + s_cap s <= List.length (nth (s_arr s) h []))%nat.

(** No element within capacity in common. *)
Definition disjoint (s t : slice) : Prop :=
  (s_cap s = 0 \/ s_cap t = 0 \/ s_arr s <> s_arr t \/ s_off s + s_cap s <= s_off t \/ s_off t + s_cap t <= s_off s)%nat.

(** The two slices of a book are allocated and share no memory. *)
Definition own {F} (h : heap (row F)) (b : hbook) : Prop :=
  valid h (hb_asks b) /\ valid h (hb_bids b) /\ disjoint (hb_asks b) (hb_bids b).
(** The slice [t] shares no memory with the book. *)
Definition apart (b : hbook) (t : slice) : Prop := disjoint (hb_asks b) t /\ disjoint (hb_bids b) t.
(** Two books that share no memory. *)
Definition separate {F} (h : heap (row F)) (b c : hbook) : Prop :=
  own h b /\ own h c /\ apart b (hb_asks c) /\ apart b (hb_bids c).

(** The calls made on the first (second) of two objects, in order. *)
Definition calls {A} (k : bool) (l : list (bool * A)) : list A :=
  map snd (filter (fun x => Bool.eqb (fst x) k) l).
