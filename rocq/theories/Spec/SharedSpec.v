(** Vocabulary of C117: Actions as plain values, and what two variables that
    may hold the same maps show after a history of calls. *)
From Verif Require Import Go.Outcome Go.Num Go.Heap Model.Entities Model.Strategy Model.ActionsHeap
  Spec.HeapSpec.
Open Scope list_scope.

Section Shared.
Context {F : Type}.

(** The calls on one plain value, one after the other. *)
Definition v_call (c : call F) (a : actions F) : go (actions F) :=
  match c with
  | AddCreate ids l => add_create_orders ids 0 a l
  | AddUpdate ids l => add_update_orders ids 0 a l
  | AddCancel ids l => add_cancel_orders ids 0 a l
  | AddUpPos ids l => add_update_positions ids 0 a l
  | AddClose ids l => add_close_positions ids 0 a l
  | AddNotes l => Ret (add_annotations a l)
  end.
Fixpoint v_calls (cs : list (call F)) (a : actions F) : go (actions F) :=
  match cs with [] => Ret a | c :: rest => a' <- v_call c a ;; v_calls rest a' end.

(** References into allocated memory. *)
Definition ok_ref {A} (h : mheap A) (r : mref) : Prop :=
  match r with None => True | Some i => (i < List.length h)%nat end.
Definition mem_ok (m : amem F) (a : hactions) : Prop :=
  ok_ref (m_create m) (ha_create a) /\ ok_ref (m_update m) (ha_update a) /\
  ok_ref (m_cancel m) (ha_cancel a) /\ ok_ref (m_uppos m) (ha_uppos a) /\
  ok_ref (m_close m) (ha_close a) /\ valid (m_notes m) (ha_notes a).

(** Not the same map; two nil variables hold no map. *)
Definition other_map (r s : mref) : Prop := r = None \/ r <> s.
Definition no_sharing (a b : hactions) : Prop :=
  other_map (ha_create a) (ha_create b) /\ other_map (ha_update a) (ha_update b) /\
  other_map (ha_cancel a) (ha_cancel b) /\ other_map (ha_uppos a) (ha_uppos b) /\
  other_map (ha_close a) (ha_close b) /\ disjoint (ha_notes a) (ha_notes b).

(** A map that existed when the struct was copied ([start]) is one map: both
    copies show it with the additions of both ([both]).  A map that did not is
    two maps: each copy shows its own additions only. *)
Definition copied {A} (start one other own_one own_other both : gmap A) : Prop :=
  match start with
  | None => one = own_one /\ other = own_other
  | Some _ => one = both /\ other = both
  end.
End Shared.
