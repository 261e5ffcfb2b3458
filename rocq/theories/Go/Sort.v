(** sort.SliceStable: the algorithm of src/sort/zfuncversion.go (insertion sort
    on blocks of 20, then in-place SymMerge with rotations), on the elements of
    the slice as a list.  Indexes are non-negative and far below 2^63, so [nat]
    has the same arithmetic as int.  An index out of range is [None];
    Proofs/StableSort.v (stable_func_some) proves that it never happens, for
    any comparison function, and that the fuel always suffices. *)
From Coq Require Import Arith.
From Verif Require Import Go.Outcome.
Open Scope list_scope.
Open Scope nat_scope.

Section Sort.
Context {A : Type} (less : A -> A -> bool).

(** [less(i, j)]: the comparison closure applied to the current elements. *)
Definition less_at (l : list A) (i j : nat) : option bool :=
  match nth_error l i, nth_error l j with
  | Some x, Some y => Some (less x y)
  | _, _ => None
  end.

(** reflect.Swapper: [swap(i, j)]. *)
Fixpoint put (l : list A) (i : nat) (x : A) : list A :=
  match l, i with
  | [], _ => []
  | _ :: r, O => x :: r
  | y :: r, S i' => y :: put r i' x
  end.
Definition swap (l : list A) (i j : nat) : option (list A) :=
  match nth_error l i, nth_error l j with
  | Some x, Some y => Some (put (put l i y) j x)
  | _, _ => None
  end.

Definition obind {B C} (o : option B) (f : B -> option C) : option C :=
  match o with Some b => f b | None => None end.
Local Notation "x <-- o ;; e" := (obind o (fun x => e)) (at level 61, o at next level, right associativity).

(** zfuncversion.go, insertionSort_func: the inner loop from [j] down to [a + 1];
    [k] is j - a. *)
Fixpoint sift (l : list A) (a k : nat) : option (list A) :=
  match k with
  | O => Some l
  | S k' =>
      b <-- less_at l (a + k) (a + k') ;;
      if b then l' <-- swap l (a + k) (a + k') ;; sift l' a k' else Some l
  end.
(** The outer loop: [c] iterations remain, the next is [i]. *)
Fixpoint insertion_loop (l : list A) (a i c : nat) : option (list A) :=
  match c with
  | O => Some l
  | S c' => l' <-- sift l a (i - a) ;; insertion_loop l' a (i + 1) c'
  end.
Definition insertion_sort (l : list A) (a b : nat) : option (list A) :=
  insertion_loop l a (a + 1) (b - (a + 1)).

(** swapRange_func *)
Fixpoint swap_range (l : list A) (a b n : nat) : option (list A) :=
  match n with
  | O => Some l
  | S n' => l' <-- swap l a b ;; swap_range l' (a + 1) (b + 1) n'
  end.

(** rotate_func; [fuel] bounds the iterations (i + j decreases). *)
Fixpoint rotate_loop (fuel : nat) (l : list A) (m i j : nat) : option (list A) :=
  match fuel with
  | O => None
  | S f =>
      if i =? j then swap_range l (m - i) m i
      else if j <? i then l' <-- swap_range l (m - i) m j ;; rotate_loop f l' m (i - j) j
      else l' <-- swap_range l (m - i) (m + j - i) i ;; rotate_loop f l' m i (j - i)
  end.
Definition rotate (l : list A) (a m b : nat) : option (list A) :=
  rotate_loop (b - a) l m (m - a) (b - m).

(** The binary searches of symMerge_func: the smallest [k] of [i, j) with
    [test k] false, assuming [test] is true up to some point; [fuel] bounds the
    iterations (j - i decreases). *)
Fixpoint bisect (fuel : nat) (test : nat -> option bool) (i j : nat) : option nat :=
  if i <? j then
    match fuel with
    | O => None
    | S f =>
        let h := Nat.div2 (i + j) in
        b <-- test h ;;
        if b then bisect f test (h + 1) j else bisect f test i h
    end
  else Some i.

(** "for k := a; k < i-1; k++ { Swap(k, k+1) }": [c] iterations from [k]. *)
Fixpoint swap_up (l : list A) (k c : nat) : option (list A) :=
  match c with
  | O => Some l
  | S c' => l' <-- swap l k (k + 1) ;; swap_up l' (k + 1) c'
  end.
(** "for k := m; k > i; k-- { Swap(k, k-1) }": [c] = k - i iterations. *)
Fixpoint swap_down (l : list A) (i c : nat) : option (list A) :=
  match c with
  | O => Some l
  | S c' => l' <-- swap l (i + c) (i + c') ;; swap_down l' i c'
  end.

(** symMerge_func; [fuel] bounds the recursion (b - a decreases). *)
Fixpoint sym_merge (fuel : nat) (l : list A) (a m b : nat) : option (list A) :=
  match fuel with
  | O => None
  | S f =>
      if m - a =? 1 then
        i <-- bisect (b - m) (fun h => less_at l h a) m b ;;
        swap_up l a (i - 1 - a)
      else if b - m =? 1 then
        i <-- bisect (m - a) (fun h => option_map negb (less_at l m h)) a m ;;
        swap_down l i (m - i)
      else
        let mid := Nat.div2 (a + b) in
        let n := mid + m in
        let start0 := if mid <? m then n - b else a in
        let r0 := if mid <? m then mid else m in
        start <-- bisect (b - a) (fun c => option_map negb (less_at l (n - 1 - c) c)) start0 r0 ;;
        let end_ := n - start in
        l1 <-- (if (start <? m) && (m <? end_) then rotate l start m end_ else Some l) ;;
        l2 <-- (if (a <? start) && (start <? mid) then sym_merge f l1 a start mid else Some l1) ;;
        (if (mid <? end_) && (end_ <? b) then sym_merge f l2 mid end_ b else Some l2)
  end.

(** stable_func: the first loop (blocks of 20) ... *)
Fixpoint sort_blocks (fuel : nat) (l : list A) (bs a n : nat) : option (list A) :=
  if a + bs <=? n then
    match fuel with
    | O => None
    | S f => l' <-- insertion_sort l a (a + bs) ;; sort_blocks f l' bs (a + bs) n
    end
  else insertion_sort l a n.
(** ... one pass of merges of neighbouring blocks of size [bs] ... *)
Fixpoint merge_pass (fuel : nat) (l : list A) (bs a n : nat) : option (list A) :=
  if a + 2 * bs <=? n then
    match fuel with
    | O => None
    | S f => l' <-- sym_merge (2 * bs) l a (a + bs) (a + 2 * bs) ;; merge_pass f l' bs (a + 2 * bs) n
    end
  else if a + bs <? n then sym_merge (n - a) l a (a + bs) n
  else Some l.
(** ... and the passes with doubling block size. *)
Fixpoint merge_passes (fuel : nat) (l : list A) (bs n : nat) : option (list A) :=
  if bs <? n then
    match fuel with
    | O => None
    | S f => l' <-- merge_pass n l bs 0 n ;; merge_passes f l' (2 * bs) n
    end
  else Some l.
Definition stable_func (l : list A) (n : nat) : option (list A) :=
  l' <-- sort_blocks n l 20 0 n ;; merge_passes n l' 20 n.

(** sort.SliceStable(x, less); the [None] branch is never taken. *)
Definition slice_stable (l : list A) : list A :=
  match stable_func l (List.length l) with
  | Some l' => l'
  | None => l
  end.
End Sort.
