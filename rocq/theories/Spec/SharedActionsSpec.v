(** What several goroutines add to one collection. *)
From Coq Require Import List String.
Import ListNotations.

(** The actions of a call under the ids it is given: action number [i] with id
    number [i] written into it by [put]. *)
Definition entries {A} (put : string -> A -> A) (c : (nat -> string) * list A) : list (string * A) :=
  map (fun '(i, a) => (fst c i, put (fst c i) a)) (combine (seq 0 (List.length (snd c))) (snd c)).
(** All that all goroutines add. *)
Definition all_entries {A} (put : string -> A -> A) (calls : list (list ((nat -> string) * list A))) : list (string * A) :=
  List.concat (map (entries put) (List.concat calls)).
(** xid.New() never gives an id twice. *)
Definition fresh {A} (es : list (string * A)) : Prop := NoDup (map fst es).
(** [after] is [before] with exactly [es] added. *)
Definition holds_all {A} (before after : string -> option A) (es : list (string * A)) : Prop :=
  (forall k a, In (k, a) es -> after k = Some a) /\
  (forall k, ~ In k (map fst es) -> after k = before k).
Definition nothing {A} : string -> option A := fun _ => None.
