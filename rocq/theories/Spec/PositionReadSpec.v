(** What goroutines asking for the unrealized profit of a position should be
    told.  Of Model/PositionReaders.v only the calls are used. *)
From Coq Require Import List String.
From Verif Require Import Go.Num Model.Entities Model.PositionReaders.
Import ListNotations.

Section Spec.
Context {F : Type} {N : GoFloat F}.
(** The trades among some calls. *)
Fixpoint trades_of (cs : list (pcall F)) : list (trade F) :=
  match cs with
  | [] => []
  | CTrade t :: rest => t :: trades_of rest
  | CProfit _ :: rest => trades_of rest
  end.
(** The answers when the calls are made one after the other. *)
Fixpoint answers (p : position F) (cs : list (pcall F)) : list (F * F) :=
  match cs with
  | [] => []
  | CTrade t :: rest => answers (fst (modify p t)) rest
  | CProfit x :: rest => (x, unrealized_profit p x) :: answers p rest
  end.
End Spec.
(** Calls that only ask. *)
Definition only_asks {F} (calls : list (list (pcall F))) : Prop := trades_of (List.concat calls) = [].
