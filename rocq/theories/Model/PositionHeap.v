(** market/position.go with the backing array of Trades explicit (compare
    Model/Entities.v, where Trades is a plain list).  [spare] gives the extra
    capacity of each reallocation; it is arbitrary. *)
From Verif Require Import Go.Outcome Go.Float64 Go.Num Go.Heap Model.Pair Model.Entities.
Open Scope list_scope.
Open Scope Z_scope.

(** market/position.go:33-49.  [hp_fields] holds every field but Trades (its
    [ps_trades] is not used); [hp_trades] is the slice header. *)
Record hposition (F : Type) : Type := mkHPos { hp_fields : position F; hp_trades : slice }.
Arguments mkHPos {F}.
Arguments hp_fields {F} h.
Arguments hp_trades {F} h.

Section HeapPosition.
Context {F : Type} {N : GoFloat F}.
Variable spare : nat -> nat.

(** The struct of market/position.go:33-49 with the Trades a reader sees. *)
Definition with_trades (p : position F) (l : list string) : position F :=
  mkPosition (ps_id p) (ps_type p) (ps_pair p) (ps_open p) (ps_take_profit p) (ps_stop_loss p)
    (ps_open_price p) (ps_close_price p) (ps_quantity p) (ps_profit p) (ps_open_time p) (ps_close_time p)
    l (ps_execution_id p) (ps_data p).
(** What a reader of the struct sees. *)
Definition pos_view (h : heap string) (p : hposition F) : position F :=
  with_trades (hp_fields p) (view h (hp_trades p)).

(** market/position.go:52-73: [[]string{trade.ID}] is a new array of one
    element. *)
Definition h_new_position (id : string) (t : trade F) (h : heap string) : heap string * hposition F :=
  (h ++ [[t_id t]], mkHPos (new_position id t) (mkSlice (List.length h) 0 1 1)).

(** market/position.go:94: [*p = *position] copies the slice header. *)
Definition h_position_update (self other : hposition F) : hposition F := other.

(** The appends to Trades at market/position.go:152 and 183. *)
Definition h_append (h : heap string) (s : slice) (t : trade F) : heap string * slice :=
  append_slice "" (spare (List.length h)) h s [t_id t].

(** market/position.go:146-155 *)
Definition h_pos_add (h : heap string) (p : hposition F) (t : trade F) : heap string * hposition F :=
  let '(h1, s) := h_append h (hp_trades p) t in (h1, mkHPos (pos_add (hp_fields p) t) s).
(** market/position.go:158-186: the error return leaves the struct alone. *)
Definition h_pos_substract (h : heap string) (p : hposition F) (t : trade F) : heap string * hposition F :=
  match pos_substract (hp_fields p) t with
  | (_, Some _) => (h, p)
  | (q, None) => let '(h1, s) := h_append h (hp_trades p) t in (h1, mkHPos q s)
  end.
(** market/position.go:125-143 *)
Definition h_modify (t : trade F) (h : heap string) (p : hposition F) : heap string * hposition F :=
  let ty := ps_type (hp_fields p) in
  if negb (pair_eqb (ps_pair (hp_fields p)) (t_pair t)) then (h, p)
  else if String.eqb ty LongPosition && String.eqb (t_action t) BuyAction then h_pos_add h p t
  else if String.eqb ty LongPosition && String.eqb (t_action t) SellAction then h_pos_substract h p t
  else if String.eqb ty ShortPosition && String.eqb (t_action t) BuyAction then h_pos_substract h p t
  else if String.eqb ty ShortPosition && String.eqb (t_action t) SellAction then h_pos_add h p t
  else (h, p).

(** Modify calls on two positions in any order ([true]: on the first). *)
Fixpoint h_modify2 (ts : list (bool * trade F)) (h : heap string) (p q : hposition F)
  : heap string * hposition F * hposition F :=
  match ts with
  | [] => (h, p, q)
  | (true, t) :: rest => let '(h1, p1) := h_modify t h p in h_modify2 rest h1 p1 q
  | (false, t) :: rest => let '(h1, q1) := h_modify t h q in h_modify2 rest h1 p q1
  end.

End HeapPosition.
