(** Goroutines that ask for the unrealized profit of a position
    (market/position.go:115-122) while others trade on it.  As in
    Model/PositionConcurrent.v every access to a field is a step of its own;
    a further kind of step is the return of a result to the caller.

    Simplifications: those of Model/PositionConcurrent.v.  Go fixes no order
    among the two fields read; the model reads them from left to right. *)
From Verif Require Import Go.Outcome Go.Int64 Go.Float64 Go.Num Go.Heap Model.Pair Model.Entities Model.PositionHeap
  Model.ActionsConcurrent Model.PositionConcurrent.
Open Scope string_scope.
Open Scope list_scope.

Section Readers.
Context {F : Type} {N : GoFloat F}.
Variable spare : nat -> nat.

(** What is called: [p.Modify(t)] (market/position.go:125) or
    [p.UnrealizedProfit(price)] (market/position.go:116). *)
Inductive pcall : Type := CTrade (t : trade F) | CProfit (price : F).
(** An access to memory, or the return of [x] from UnrealizedProfit(price). *)
Inductive rop : Type -> Type :=
| Access {X : Type} (o : pop F X) : rop X
| Return (price x : F) : rop unit.
(** Memory, and what UnrealizedProfit has returned so far (price, result). *)
Record rmem : Type := mkRMem { r_mem : pmem F; returned : list (F * F) }.
(** What a single access of market/position.go:115-186 does to memory. *)
Definition rexec (X : Type) (o : rop X) (m : rmem) : go (X * rmem) :=
  match o in rop X return go (X * rmem) with
  | @Access X o => '(x, m1) <- pexec spare X o (r_mem m) ;; Ret (x, mkRMem m1 (returned m))
  | Return price x => Ret (tt, mkRMem (r_mem m) (returned m ++ [(price, x)]))
  end.

(** A program of Model/PositionConcurrent.v. *)
Fixpoint with_access (p : prog (pop F)) : prog rop :=
  match p with Done => Done | Do o k => Do (Access o) (fun x => with_access (k x)) end.
(** market/position.go:115-122 *)
Definition c_profit (price : F) : prog rop :=
  Do (Access GetType) (fun ty =>
  Do (Access GetOpenPrice) (fun op => Do (Access GetQuantity) (fun q =>
  Do (Return price (if String.eqb ty LongPosition then fmul (fsub price op) q else fmul (fsub op price) q)) (fun _ => Done)))).
(** market/position.go:115-143 *)
Definition c_call (c : pcall) : prog rop :=
  match c with CTrade t => with_access (c_modify t) | CProfit x => c_profit x end.
End Readers.
Arguments pcall F : clear implicits.
Arguments rop F X : clear implicits.
Arguments rmem F : clear implicits.
