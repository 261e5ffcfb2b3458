(** Several goroutines using one book: what they should see.  In terms of the
    sequential library only (Model/OrderBook.v); of Model/Concurrent.v only
    the records are used. *)
From Verif Require Import Go.Outcome Go.Slice Go.Float64 Go.Num Go.Heap Model.OrderBook Model.OrderBookHeap
  Model.Concurrent Spec.OrderBookSpec Spec.HistorySpec.
Open Scope list_scope.
Open Scope Z_scope.

Section Spec.
Context {F : Type} {N : GoFloat F}.

(** A call, and a list of calls, made by a program without concurrency: the
    book afterwards and the replies. *)
Definition seq_call (c : call F) (ob : book F) : go (book F * reply F) :=
  match c with
  | CUpdate u => '(ob', e) <- apply_update u ob ;; Ret (ob', RUpdate e)
  | CDepth q => r <- get_depth ob q ;; Ret (ob, RDepth r)
  end.
Fixpoint seq_calls (cs : list (call F)) (ob : book F) : go (book F * list (reply F)) :=
  match cs with
  | [] => Ret (ob, [])
  | c :: rest =>
      '(ob', r) <- seq_call c ob ;;
      '(ob2, rs) <- seq_calls rest ob' ;;
      Ret (ob2, r :: rs)
  end.

(** The calls of goroutine [i] in a list of calls with their callers. *)
Definition made_by (i : nat) (log : list (nat * call F)) : list (call F) :=
  map snd (filter (fun e => Nat.eqb (fst e) i) log).
(** An order of all calls in which each goroutine keeps its own order. *)
Definition serialises (calls : list (list (call F))) (log : list (nat * call F)) : Prop :=
  forall i, made_by i log = nth i calls [].
(** The same for calls made so far. *)
Definition serialises_part (calls : list (list (call F))) (log : list (nat * call F)) : Prop :=
  forall i, exists rest, nth i calls [] = made_by i log ++ rest.

(** All goroutines have made all their calls. *)
Definition finished (c : config F) : Prop := Forall (fun t => t = Idle []) (cf_threads c).
(** The calls that have returned, in order, with callers; the replies. *)
Definition returned (c : config F) : list (nat * call F) := map fst (cf_log c).
Definition replies (c : config F) : list (reply F) := map snd (cf_log c).
(** The book as memory shows it. *)
Definition shown_book (c : config F) : book F := book_view (sh_heap (cf_shared c)) (sh_book (cf_shared c)).
End Spec.

(** No two goroutines ever update the same level. *)
Definition own_levels (uss : list (list (update f64))) : Prop :=
  forall i j u v, In u (nth i uss []) -> In v (nth j uss []) ->
    u_side u = u_side v -> f64_eq (u_price u) (u_price v) = true -> i = j.
