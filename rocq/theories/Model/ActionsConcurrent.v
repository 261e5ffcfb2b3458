(** strategy/actions.go used by several goroutines at once.  The package
    starts no goroutine and takes no lock; whether its callers do is theirs to
    decide, so both are modelled.  Every access to shared memory is a step of
    its own.

    Simplifications: an assignment to a key of a map and a call of the built-in
    [append] are each one step.  (The Go runtime stops the whole program when it
    happens to notice two goroutines inside one map: the model leaves such runs
    out, so what it shows going wrong goes wrong without the runtime noticing.)
    One collection at a time: the six methods touch six different fields. *)
From Verif Require Import Go.Outcome Go.Heap Model.Strategy Model.ActionsHeap.
Open Scope string_scope.
Open Scope list_scope.

(** Goroutines over any memory [M], whose accesses are the [op]s. *)
Section Threads.
Context {M C : Type} {op : Type -> Type}.
Variable exec : forall X, op X -> M -> go (X * M).

(** What is left of a call: nothing, or an access and then something that
    depends on what it read. *)
Inductive prog : Type :=
| Done
| Do {X : Type} (o : op X) (k : X -> prog).
Variable body : C -> prog.

(** A goroutine: the calls it will make, preceded by one in progress. *)
Inductive thread : Type :=
| Idle (todo : list C)
| Running (p : prog) (todo : list C).
(** The whole program: the struct (strategy/actions.go:4-11), who holds the caller's lock if one is used, the goroutines. *)
Record config : Type := mkConfig { shared : M; owner : option nat; threads : list thread }.

(** No repository counterpart: the list of goroutines with the [i]-th replaced. *)
Fixpoint set_thread (i : nat) (t : thread) (l : list thread) : list thread :=
  match l, i with
  | [], _ => []
  | _ :: rest, O => t :: rest
  | x :: rest, S j => x :: set_thread j t rest
  end.

(** One step of goroutine [i].  With [locked] every call is made between Lock
    and Unlock of one sync.Mutex; a goroutine waiting for it does nothing. *)
Definition cstep (locked : bool) (i : nat) (c : config) : go config :=
  match nth_error (threads c) i with
  | None => Ret c
  | Some (Idle []) => Ret c
  | Some (Idle (k :: todo)) =>
      match owner c with
      | Some _ => Ret c
      | None => Ret (mkConfig (shared c) (if locked then Some i else None) (set_thread i (Running (body k) todo) (threads c)))
      end
  | Some (Running Done todo) => Ret (mkConfig (shared c) None (set_thread i (Idle todo) (threads c)))
  | Some (Running (Do o f) todo) =>
      '(x, m) <- exec _ o (shared c) ;;
      Ret (mkConfig m (owner c) (set_thread i (Running (f x) todo) (threads c)))
  end.
(** The scheduler's choices, one goroutine after the other. *)
Fixpoint execute (locked : bool) (sched : list nat) (c : config) : go config :=
  match sched with
  | [] => Ret c
  | i :: rest => c1 <- cstep locked i c ;; execute locked rest c1
  end.
(** No repository counterpart: before the first step of a run. *)
Definition start (calls : list (list C)) (m : M) : config := mkConfig m None (map Idle calls).
(** Every goroutine has made all its calls. *)
Definition finished (c : config) : Prop := Forall (fun t => t = Idle []) (threads c).
End Threads.
Arguments prog op : clear implicits.
Arguments thread C op : clear implicits.
Arguments config M C op : clear implicits.

(** A map field of Actions: the maps allocated so far and the field. *)
Section MapField.
Context {A : Type}.
(** strategy/actions.go:5-9: the maps allocated so far and one field. *)
Record mfield : Type := mkField { maps : mheap A; field : mref }.
(** The single accesses made at strategy/actions.go:13-66. *)
Inductive mop : Type -> Type :=
| ReadField : mop mref                                     (* a.CreateOrders *)
| WriteField (r : mref) : mop unit                         (* a.CreateOrders = r *)
| NewMap : mop mref                                        (* map[string]CreateOrderAction{} *)
| SetKey (r : mref) (k : string) (v : A) : mop unit.       (* r[k] = v *)
Definition mexec (X : Type) (o : mop X) (m : mfield) : go (X * mfield) :=
  match o in mop X return go (X * mfield) with
  | ReadField => Ret (field m, m)
  | WriteField r => Ret (tt, mkField (maps m) r)
  | NewMap => Ret (Some (List.length (maps m)), mkField (maps m ++ [fun _ => None]) (field m))
  | SetKey r k v => h <- h_map_set (maps m) r k v ;; Ret (tt, mkField h (field m))
  end.

(** A call: the ids xid.New() gives during it, and the actions added. *)
Definition mcall : Type := (nat -> string) * list A.

(** strategy/actions.go:18-21, 29-32, 40-43, 51-54, 62-65: the field is read
    anew for every action.  ([GenerateID] works on the loop variable.) *)
Fixpoint m_loop (gen : string -> A -> A) (get_id : A -> string) (ids : nat -> string) (n : nat) (l : list A) : prog mop :=
  match l with
  | [] => Done
  | a :: rest =>
      Do ReadField (fun r => Do (SetKey r (get_id (gen (ids n) a)) (gen (ids n) a)) (fun _ => m_loop gen get_id ids (S n) rest))
  end.
(** strategy/actions.go:13-22, 24-33, 35-44, 46-55, 57-66 *)
Definition m_add (gen : string -> A -> A) (get_id : A -> string) (c : mcall) : prog mop :=
  Do ReadField (fun r =>
    match r with
    | None => Do NewMap (fun r' => Do (WriteField r') (fun _ => m_loop gen get_id (fst c) 0 (snd c)))
    | Some _ => m_loop gen get_id (fst c) 0 (snd c)
    end).
End MapField.
Arguments mfield A : clear implicits.
Arguments mop A X : clear implicits.
Arguments mcall A : clear implicits.

(** The field Annotations. *)
Section NotesField.
Context {A : Type}.
Variable zero : A.
Variable spare : nat -> nat.
(** strategy/actions.go:10: the arrays allocated so far and the field. *)
Record nfield : Type := mkNotes { arrays : heap A; notes : slice }.
(** The single accesses made at strategy/actions.go:68-70. *)
Inductive nop : Type -> Type :=
| ReadNotes : nop slice                                    (* a.Annotations *)
| WriteNotes (s : slice) : nop unit                        (* a.Annotations = s *)
| AppendNotes (s : slice) (l : list A) : nop slice.        (* append(s, l...) *)
Definition nexec (X : Type) (o : nop X) (m : nfield) : go (X * nfield) :=
  match o in nop X return go (X * nfield) with
  | ReadNotes => Ret (notes m, m)
  | WriteNotes s => Ret (tt, mkNotes (arrays m) s)
  | AppendNotes s l =>
      let '(h, t) := append_slice zero (spare (List.length (arrays m))) (arrays m) s l in Ret (t, mkNotes h (notes m))
  end.
(** strategy/actions.go:68-70 *)
Definition n_add (l : list A) : prog nop :=
  Do ReadNotes (fun s => Do (AppendNotes s l) (fun t => Do (WriteNotes t) (fun _ => Done))).
End NotesField.
Arguments nfield A : clear implicits.
Arguments nop A X : clear implicits.

(** A call run without interference. *)
Fixpoint alone {M : Type} {op : Type -> Type} (exec : forall X, op X -> M -> go (X * M)) (p : prog op) (m : M) : go M :=
  match p with
  | Done => Ret m
  | Do o k => '(x, m1) <- exec _ o m ;; alone exec (k x) m1
  end.
