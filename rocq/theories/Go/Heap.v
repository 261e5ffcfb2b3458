(** Slices with explicit backing arrays: what Go's append, copy, reslicing and
    element stores do to memory that other slices may share.  Only what the Go
    specification promises is used: the spare capacity after a reallocation is
    arbitrary. *)
From Verif Require Import Go.Outcome.
Open Scope list_scope.
Open Scope Z_scope.

(** Memory: the arrays allocated so far, by address. *)
Definition heap (A : Type) : Type := list (list A).

(** A slice header.  The nil slice has capacity 0. *)
Record slice : Type := mkSlice { s_arr : nat; s_off : nat; s_len : nat; s_cap : nat }.

Definition nil_slice : slice := mkSlice 0 0 0 0.

Section Heap.
Context {A : Type}.

(** The visible elements. *)
Definition view (h : heap A) (s : slice) : list A :=
  firstn (s_len s) (skipn (s_off s) (nth (s_arr s) h [])).

(** Overwrite the elements from position [k] on. *)
Definition overwrite (k : nat) (xs l : list A) : list A :=
  firstn k l ++ xs ++ skipn (k + List.length xs) l.
Fixpoint set_array (i : nat) (l : list A) (h : heap A) : heap A :=
  match h, i with
  | [], _ => []
  | _ :: rest, O => l :: rest
  | x :: rest, S j => x :: set_array j l rest
  end.
(** Store [xs] at positions [i], [i+1], ... of the slice. *)
Definition store (h : heap A) (s : slice) (i : nat) (xs : list A) : heap A :=
  set_array (s_arr s) (overwrite (s_off s + i) xs (nth (s_arr s) h [])) h.

(** [append(s, xs...)]: in place if the capacity allows, else into a new array
    with [spare] extra elements (zero values [z]). *)
Definition append_slice (z : A) (spare : nat) (h : heap A) (s : slice) (xs : list A) : heap A * slice :=
  let n := (s_len s + List.length xs)%nat in
  if (n <=? s_cap s)%nat then (store h s (s_len s) xs, mkSlice (s_arr s) (s_off s) n (s_cap s))
  else (h ++ [view h s ++ xs ++ repeat z spare], mkSlice (List.length h) 0 n (n + spare)).

(** [s[lo:hi]]; the bound is the capacity. *)
Definition sub_slice (s : slice) (lo hi : Z) : go slice :=
  if (0 <=? lo) && (lo <=? hi) && (hi <=? Z.of_nat (s_cap s))
  then Ret (mkSlice (s_arr s) (s_off s + Z.to_nat lo) (Z.to_nat (hi - lo)) (s_cap s - Z.to_nat lo))
  else Panic PSlice.

(** [copy(dst, src)] *)
Definition copy_slice (h : heap A) (dst src : slice) : heap A :=
  store h dst 0 (firstn (s_len dst) (view h src)).

(** [s[i]] and [s[i] = x]. *)
Definition get_elem (h : heap A) (s : slice) (i : Z) : go A :=
  if i <? 0 then Panic PIndex
  else match nth_error (view h s) (Z.to_nat i) with
       | Some x => Ret x
       | None => Panic PIndex
       end.
Definition set_elem (h : heap A) (s : slice) (i : Z) (x : A) : go (heap A) :=
  if (i <? 0) || (Z.of_nat (s_len s) <=? i) then Panic PIndex
  else Ret (store h s (Z.to_nat i) [x]).

End Heap.
