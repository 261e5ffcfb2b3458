(** Property C122: several goroutines adding to one Actions
    (strategy/actions.go:13-70).  The package has no lock; these theorems say
    what a lock around each call gives, what needs none, and what is lost
    without it.  Model: Model/ActionsConcurrent.v, every access to shared memory
    is a step of its own.  Vocabulary: Spec/SharedActionsSpec.v. *)
From Coq Require Import List String Permutation.
From Verif Require Import Go.Outcome Go.Float64 Go.Num Go.Heap Model.Entities Model.Strategy Model.ActionsHeap
  Model.ActionsConcurrent Spec.SharedActionsSpec Spec.HeapSpec Proofs.SharedActions.
Import ListNotations.
Open Scope string_scope.
Open Scope list_scope.
Open Scope nat_scope.

(** The five kinds of actions put the generated id where it is looked up. *)
Theorem C122_ids : 
  (forall i (a : create_order f64), co_id (create_gen i a) = i) /\
  (forall i (a : update_order f64), uo_id (update_gen i a) = i) /\
  (forall i a, ca_id (cancel_gen i a) = i) /\
  (forall i (a : update_position f64), up_id (uppos_gen i a) = i) /\
  (forall i a, cp_id (close_gen i a) = i).
Proof. repeat split; intros i []; reflexivity. Qed.

(** The step-by-step programs, left alone, are the calls of
    Model/ActionsHeap.v. *)
Theorem C122_alone_as_called : forall A (gen : string -> A -> A) get_id c h r,
  alone mexec (m_add gen get_id c) (mkField h r) =
  match h_add gen get_id (fst c) h r (snd c) with Ret (h', r') => Ret (mkField h' r') | Panic p => Panic p end.
Proof. exact @alone_add. Qed.
Theorem C122_alone_as_called_notes : forall A (zero : A) spare h s l,
  alone (nexec zero spare) (n_add l) (mkNotes h s) =
  Ret (let '(h', s') := append_slice zero (spare (List.length h)) h s l in mkNotes h' s').
Proof. exact @alone_notes. Qed.

(** With a lock held during each call nothing panics and nothing is lost,
    whatever the scheduler does: once all calls are made the collection, nil
    before, holds exactly the actions of all of them. *)
Theorem C122_locked : forall A (gen : string -> A -> A) get_id, (forall i a, get_id (gen i a) = i) ->
  forall (calls : list (list (mcall A))) h sched, fresh (all_entries gen calls) ->
  exists c, execute mexec (m_add gen get_id) true sched (start calls (mkField h None)) = Ret c /\
    (finished c -> holds_all nothing (map_get (mview (maps (shared c)) (field (shared c)))) (all_entries gen calls)).
Proof. exact @locked_keeps_all. Qed.
(** And from any moment on the calls can be completed: no deadlock. *)
Theorem C122_never_stuck : forall A (gen : string -> A -> A) get_id, (forall i a, get_id (gen i a) = i) ->
  forall (calls : list (list (mcall A))) h sched c, fresh (all_entries gen calls) ->
  execute mexec (m_add gen get_id) true sched (start calls (mkField h None)) = Ret c ->
  exists more c', execute mexec (m_add gen get_id) true more c = Ret c' /\ finished c'.
Proof. exact @locked_maps_finish. Qed.
(** The same for a collection that exists before the first call, with a lock or
    without (as long as a map assignment is one step). *)
Theorem C122_existing : forall A (gen : string -> A -> A) get_id, (forall i a, get_id (gen i a) = i) ->
  forall locked (calls : list (list (mcall A))) h i f sched, nth_error h i = Some f -> fresh (all_entries gen calls) ->
  exists c, execute mexec (m_add gen get_id) locked sched (start calls (mkField h (Some i))) = Ret c /\
    (finished c -> exists f', mview (maps (shared c)) (field (shared c)) = Some f' /\ holds_all f f' (all_entries gen calls)).
Proof. exact @existing_keeps_all. Qed.
(** Without a lock a nil collection loses actions: of any two added by two
    goroutines, the scheduler can make either vanish without a trace (swap
    them for the other).  Both calls return. *)
Theorem C122_unlocked_keeps_all_refuted : forall A (gen : string -> A -> A) get_id, (forall i a, get_id (gen i a) = i) ->
  forall (i1 i2 : string) (a1 a2 : A) h, i1 <> i2 ->
  exists sched c, execute mexec (m_add gen get_id) false sched
      (start [[(fun _ => i1, [a1])]; [(fun _ => i2, [a2])]] (mkField h None)) = Ret c /\ finished c /\
    map_get (mview (maps (shared c)) (field (shared c))) i1 = None /\
    map_get (mview (maps (shared c)) (field (shared c))) i2 = Some (gen i2 a2).
Proof. exact @lost_action. Qed.
(** But it never panics, writes to no other map, and whatever the collection
    holds was added by one of the calls. *)
Theorem C122_unlocked_invents_nothing : forall A (gen : string -> A -> A) get_id, (forall i a, get_id (gen i a) = i) ->
  forall (calls : list (list (mcall A))) h sched,
  exists c, execute mexec (m_add gen get_id) false sched (start calls (mkField h None)) = Ret c /\
    firstn (List.length h) (maps (shared c)) = h /\
    (forall k a, map_get (mview (maps (shared c)) (field (shared c))) k = Some a -> In (k, a) (all_entries gen calls)).
Proof. exact @unlocked_sound. Qed.

(** Annotations: with a lock every one is kept, behind those that were there. *)
Theorem C122_notes_locked : forall A (zero : A) spare (calls : list (list (list A))) h s sched, valid h s ->
  exists c, execute (nexec zero spare) n_add true sched (start calls (mkNotes h s)) = Ret c /\
    (finished c -> exists added, Permutation added (List.concat (List.concat calls)) /\
       view (arrays (shared c)) (notes (shared c)) = view h s ++ added).
Proof. exact @locked_notes. Qed.
Theorem C122_notes_never_stuck : forall A (zero : A) spare (calls : list (list (list A))) h s sched c, valid h s ->
  execute (nexec zero spare) n_add true sched (start calls (mkNotes h s)) = Ret c ->
  exists more c', execute (nexec zero spare) n_add true more c = Ret c' /\ finished c'.
Proof. exact @locked_notes_finish. Qed.
(** Without one, whatever is there already and whatever room the array has, all
    the annotations of one of two calls can be lost. *)
Theorem C122_notes_unlocked_refuted : forall A (zero : A) spare h s (l1 l2 : list A), valid h s ->
  exists sched c, execute (nexec zero spare) n_add false sched (start [[l1]; [l2]] (mkNotes h s)) = Ret c /\ finished c /\
    view (arrays (shared c)) (notes (shared c)) = view h s ++ l2.
Proof. exact @lost_notes. Qed.

(** Two goroutines cancel orders; with a lock, in turns, both cancellations are
    there. *)
Definition two : list (list (mcall cancel_order)) :=
  [[(fun _ => "x1", [mkCancel "" "order 7"])]; [(fun _ => "x2", [mkCancel "" "order 8"])]].
Example C122_example : fresh (all_entries cancel_gen two) /\
  match execute mexec (m_add cancel_gen ca_id) true [0; 1; 0; 1; 0; 0; 0; 0; 0; 1; 1; 1; 1; 1; 1] (start two (mkField [] None)) with
  | Ret c => finished c /\
      map_get (mview (maps (shared c)) (field (shared c))) "x1" = Some (mkCancel "x1" "order 7") /\
      map_get (mview (maps (shared c)) (field (shared c))) "x2" = Some (mkCancel "x2" "order 8")
  | Panic _ => False
  end.
Proof.
  split.
  - vm_compute. repeat constructor; simpl; intuition discriminate.
  - vm_compute. repeat split; repeat constructor.
Qed.
(** The same turns without the lock: the first cancellation is gone. *)
Example C122_example_lost :
  match execute mexec (m_add cancel_gen ca_id) false [0; 1; 0; 1; 0; 0; 0; 0; 0; 1; 1; 1; 1; 1; 1] (start two (mkField [] None)) with
  | Ret c => finished c /\
      map_get (mview (maps (shared c)) (field (shared c))) "x1" = None /\
      map_get (mview (maps (shared c)) (field (shared c))) "x2" = Some (mkCancel "x2" "order 8")
  | Panic _ => False
  end.
Proof. vm_compute. repeat split; repeat constructor. Qed.
(** Annotations (here just their ids): three slots, one used; goroutine 0 adds
    two, goroutine 1 adds one at the same time. *)
Example C122_example_notes :
  valid [["a"; ""; ""]] (mkSlice 0 0 1 3) /\
  match execute (nexec "" (fun _ => 0)) n_add false [0; 1; 0; 1; 0; 1; 1; 1; 0; 0]
      (start [[["b"; "c"]]; [["d"]]] (mkNotes [["a"; ""; ""]] (mkSlice 0 0 1 3))) with
  | Ret c => finished c /\ view (arrays (shared c)) (notes (shared c)) = ["a"; "d"; "c"]
  | Panic _ => False
  end.
Proof. split; [split; cbn; [|split]; repeat constructor|]. vm_compute. repeat split; repeat constructor. Qed.

Print Assumptions C122_ids.
Print Assumptions C122_alone_as_called.
Print Assumptions C122_alone_as_called_notes.
Print Assumptions C122_locked.
Print Assumptions C122_existing.
Print Assumptions C122_unlocked_keeps_all_refuted.
Print Assumptions C122_unlocked_invents_nothing.
Print Assumptions C122_notes_locked.
Print Assumptions C122_notes_unlocked_refuted.
Print Assumptions C122_never_stuck.
Print Assumptions C122_notes_never_stuck.
