(** strategy/actions.go with maps as references and the backing array of
    Annotations explicit (compare Model/Strategy.v, where an Actions is a plain
    value).  Copying the struct copies the references. *)
From Verif Require Import Go.Outcome Go.Float64 Go.Num Go.Heap Model.Entities Model.Strategy.
Open Scope string_scope.
Open Scope list_scope.

(** The maps allocated so far, by address; a map variable holds an address, or
    nil ([None]). *)
Definition mheap (A : Type) : Type := list (string -> option A).
(** A map variable, as at strategy/actions.go:5-9: nil or an address. *)
Definition mref : Type := option nat.

Section Maps.
Context {A : Type}.
Implicit Types (h : mheap A) (r : mref).

(** What a reader of the variable sees. *)
Definition mview h r : gmap A := match r with None => None | Some i => nth_error h i end.

(** A write to a map at strategy/actions.go:20, 31, 42, 53, 64: the map at address [i] replaced. *)
Fixpoint put_map (i : nat) (f : string -> option A) h : mheap A :=
  match h, i with
  | [], _ => []
  | _ :: rest, O => f :: rest
  | g :: rest, S j => g :: put_map j f rest
  end.
(** [m[k] = v]: changes the map itself, so every variable holding it. *)
Definition h_map_set h r (k : string) (v : A) : go (mheap A) :=
  match r with
  | None => Panic PNil
  | Some i =>
      match nth_error h i with
      | Some f => Ret (put_map i (fun k' => if String.eqb k' k then Some v else f k') h)
      | None => Panic PNil
      end
  end.
(** strategy/actions.go:14-16, 25-27, 36-38, 47-49, 58-60: a nil variable is
    given a new, empty map. *)
Definition h_map_init h r : mheap A * mref :=
  match r with
  | None => (h ++ [fun _ => None], Some (List.length h))
  | Some _ => (h, r)
  end.
(** The loops at strategy/actions.go:18-21, 29-32, 40-43, 51-54, 62-65.
    [GenerateID] works on the loop variable, a copy of the argument. *)
Fixpoint h_add_loop (gen : string -> A -> A) (get_id : A -> string) (ids : nat -> string) (n : nat)
    h r (l : list A) : go (mheap A) :=
  match l with
  | [] => Ret h
  | a :: rest =>
      let a' := gen (ids n) a in
      h' <- h_map_set h r (get_id a') a' ;;
      h_add_loop gen get_id ids (S n) h' r rest
  end.
(** strategy/actions.go:13-66: the body shared by the five methods. *)
Definition h_add (gen : string -> A -> A) (get_id : A -> string) (ids : nat -> string)
    h r (l : list A) : go (mheap A * mref) :=
  let '(h1, r1) := h_map_init h r in
  h2 <- h_add_loop gen get_id ids 0 h1 r1 l ;;
  Ret (h2, r1).
End Maps.

Section Actions.
Context {F : Type} {N : GoFloat F}.
Variable spare : nat -> nat.

(** Memory: one store for each kind of map, and the arrays of annotations. *)
Record amem : Type := mkMem {
  m_create : mheap (create_order F);
  m_update : mheap (update_order F);
  m_cancel : mheap cancel_order;
  m_uppos : mheap (update_position F);
  m_close : mheap close_position;
  m_notes : heap (annotation F) }.

(** strategy/actions.go:4-11 *)
Record hactions : Type := mkHAct {
  ha_create : mref; ha_update : mref; ha_cancel : mref; ha_uppos : mref; ha_close : mref;
  ha_notes : slice }.

(** What a reader of the struct sees. *)
Definition act_view (m : amem) (a : hactions) : actions F :=
  mkActions (mview (m_create m) (ha_create a)) (mview (m_update m) (ha_update a))
    (mview (m_cancel m) (ha_cancel a)) (mview (m_uppos m) (ha_uppos a))
    (mview (m_close m) (ha_close a)) (view (m_notes m) (ha_notes a)).

(** The zero value of strategy/annotation.go:23-31. *)
Definition zero_note : annotation F := mkAnnotation "" 0 0 (fofZ 0) "" "" "".

(** A call of one of the six methods, with the ids xid.New() gives during it. *)
Inductive call : Type :=
| AddCreate (ids : nat -> string) (l : list (create_order F))
| AddUpdate (ids : nat -> string) (l : list (update_order F))
| AddCancel (ids : nat -> string) (l : list cancel_order)
| AddUpPos (ids : nat -> string) (l : list (update_position F))
| AddClose (ids : nat -> string) (l : list close_position)
| AddNotes (l : list (annotation F)).

(** strategy/actions.go:13-70.  [spare] gives the extra capacity of each
    reallocation; it is arbitrary. *)
Definition h_call (c : call) (m : amem) (a : hactions) : go (amem * hactions) :=
  let (m1, m2, m3, m4, m5, m6) := m in
  let (a1, a2, a3, a4, a5, a6) := a in
  match c with
  | AddCreate ids l =>
      '(h, r) <- h_add create_gen co_id ids m1 a1 l ;;
      Ret (mkMem h m2 m3 m4 m5 m6, mkHAct r a2 a3 a4 a5 a6)
  | AddUpdate ids l =>
      '(h, r) <- h_add update_gen uo_id ids m2 a2 l ;;
      Ret (mkMem m1 h m3 m4 m5 m6, mkHAct a1 r a3 a4 a5 a6)
  | AddCancel ids l =>
      '(h, r) <- h_add cancel_gen ca_id ids m3 a3 l ;;
      Ret (mkMem m1 m2 h m4 m5 m6, mkHAct a1 a2 r a4 a5 a6)
  | AddUpPos ids l =>
      '(h, r) <- h_add uppos_gen up_id ids m4 a4 l ;;
      Ret (mkMem m1 m2 m3 h m5 m6, mkHAct a1 a2 a3 r a5 a6)
  | AddClose ids l =>
      '(h, r) <- h_add close_gen cp_id ids m5 a5 l ;;
      Ret (mkMem m1 m2 m3 m4 h m6, mkHAct a1 a2 a3 a4 r a6)
  | AddNotes l =>
      let '(h, s) := append_slice zero_note (spare (List.length m6)) m6 a6 l in
      Ret (mkMem m1 m2 m3 m4 m5 h, mkHAct a1 a2 a3 a4 a5 s)
  end.

(** Calls on two Actions variables in any order ([true]: on the first). *)
Fixpoint h_calls2 (cs : list (bool * call)) (m : amem) (a b : hactions)
  : go (amem * hactions * hactions) :=
  match cs with
  | [] => Ret (m, a, b)
  | (true, c) :: rest => '(m1, a1) <- h_call c m a ;; h_calls2 rest m1 a1 b
  | (false, c) :: rest => '(m1, b1) <- h_call c m b ;; h_calls2 rest m1 a b1
  end.

End Actions.
Arguments amem F : clear implicits.
Arguments call F : clear implicits.
