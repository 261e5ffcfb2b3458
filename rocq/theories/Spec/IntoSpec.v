(** Vocabulary of C101: reading JSON into a variable that is already in use. *)
From Coq Require Import ZArith List Sorted Permutation String.
From Verif Require Import Go.Json Go.JsonInto Spec.JsonSpec Spec.DecimalSpec Spec.JsonReadSpec.
Import ListNotations.

(** A value of Go type [t]: any texts, numbers and times; maps listed in key
    order. *)
Fixpoint shaped (t : gotype) (v : goval) : Prop :=
  match t, v with
  | TStr, VStr _ | TInt, VInt _ | TFloat, VFloat _ | TBool, VBool _ | TTime, VTime _ _ => True
  | TPtr _, VPtr None | TSlice _, VSlice None | TMap _, VMap None => True
  | TPtr t', VPtr (Some v') => shaped t' v'
  | TSlice t', VSlice (Some l) => Forall (shaped t') l
  | TMap t', VMap (Some l) => Forall (fun kv => shaped t' (snd kv)) l /\ StronglySorted before (map fst l)
  | TStruct fs, VStruct vs =>
      (fix fields (fs : list (string * gotype)) (vs : list goval) : Prop :=
         match fs, vs with
         | [], [] => True
         | (_, t') :: fs', v' :: vs' => shaped t' v' /\ fields fs' vs'
         | _, _ => False
         end) fs vs
  | _, _ => False
  end.

(** [r] is [v] read over [old]: everything is as in [v], except that a map
    keeps the entries of the old map whose keys [v] does not have. *)
Fixpoint over (t : gotype) (old v r : goval) {struct t} : Prop :=
  match t with
  | TPtr t' =>
      match old, v with
      | VPtr (Some o), VPtr (Some w) => exists x, r = VPtr (Some x) /\ over t' o w x
      | _, _ => r = v
      end
  | TSlice t' =>
      match old, v with
      | VSlice (Some os), VSlice (Some ws) =>
          exists rs, r = VSlice (Some rs) /\ List.length rs = List.length ws /\
            forall i w x, nth_error ws i = Some w -> nth_error rs i = Some x ->
              match nth_error os i with Some o => over t' o w x | None => x = w end
      | _, _ => r = v
      end
  | TMap t' =>
      match old, v with
      | VMap (Some os), VMap (Some ws) =>
          exists rs, r = VMap (Some rs) /\ StronglySorted before (map fst rs) /\
            forall k x, In (k, x) rs <-> In (k, x) ws \/ (In (k, x) os /\ ~ In k (map fst ws))
      | _, _ => r = v
      end
  | TStruct fs =>
      match old, v, r with
      | VStruct os, VStruct ws, VStruct rs =>
          (fix fields (fs : list (string * gotype)) (os ws rs : list goval) : Prop :=
             match fs, os, ws, rs with
             | [], [], [], [] => True
             | (_, t') :: fs', o :: os', w :: ws', x :: rs' => over t' o w x /\ fields fs' os' ws' rs'
             | _, _, _, _ => False
             end) fs os ws rs
      | _, _, _ => False
      end
  | _ => r = v
  end.

(** No map anywhere in the type. *)
Fixpoint without_maps (t : gotype) : Prop :=
  match t with
  | TPtr t' | TSlice t' => without_maps t'
  | TMap _ => False
  | TStruct fs => fold_right and True (map (fun f => without_maps (snd f)) fs)
  | _ => True
  end.

(** The text of [a] read into any variable of its type, whatever it holds,
    leaves exactly [a] there. *)
Definition replaces {A} (t : gotype) (val : A -> goval) (of : goval -> option A) (a : A) : Prop :=
  exists text, marshal t (val a) = Some text /\
    forall old, shaped t old -> exists v, unmarshal_into t old text = Some v /\ of v = Some a.

(** The tree [j] read over the value [old] of type [t] means [v]: null makes
    pointers, slices and maps nil and leaves anything else as it is; a field
    without member stays, a field with one is read over; the elements of an
    array are read over the elements in the same places, as far as there are
    any; the members of a map are new, the entries of other keys stay. *)
Fixpoint denotes_over (t : gotype) (old : goval) (j : json) (v : goval) {struct t} : Prop :=
  (j = JNull /\ v = match t with TPtr _ | TSlice _ | TMap _ => zero t | _ => old end) \/
  j <> JNull /\
  match t, v with
  | TStr, VStr _ | TInt, VInt _ | TFloat, VFloat _ | TBool, VBool _ | TTime, VTime _ _ => denotes t j v
  | TPtr t', VPtr (Some v') => denotes_over t' (match old with VPtr (Some o) => o | _ => zero t' end) j v'
  | TSlice t', VSlice (Some vs) =>
      exists js, j = JArr js /\ List.length vs = List.length js /\
        forall i j' v', nth_error js i = Some j' -> nth_error vs i = Some v' ->
          denotes_over t' (nth i (match old with VSlice (Some os) => os | _ => [] end) (zero t')) j' v'
  | TMap t', VMap (Some kvs) => exists ms news, j = JObj ms /\
      Forall2 (fun m kv => contents (fst m) (fst kv) /\ denotes t' (snd m) (snd kv)) ms news /\ NoDup (map fst news) /\
      StronglySorted before (map fst kvs) /\
      forall k x, In (k, x) kvs <-> In (k, x) news \/ (In (k, x) (match old with VMap (Some os) => os | _ => [] end) /\ ~ In k (map fst news))
  | TStruct fs, VStruct vs => exists ms os, j = JObj ms /\ old = VStruct os /\ Forall (fun m => exists k, contents (fst m) k /\ all_ascii k) ms /\
      (fix fields (fs : list (string * gotype)) (os vs : list goval) : Prop :=
         match fs, os, vs with
         | [], [], [] => True
         | (n, t') :: fs', o :: os', v' :: vs' =>
             ((v' = o /\ Forall (fun m => ~ named n m) ms) \/
              exists before_it m after_it, ms = before_it ++ m :: after_it /\ named n m /\
                Forall (fun m => ~ named n m) (before_it ++ after_it) /\ denotes_over t' o (snd m) v') /\
             fields fs' os' vs'
         | _, _, _ => False
         end) fs os vs
  | _, _ => False
  end.

(** The entry of a map under a key. *)
Fixpoint entry {A} (k : string) (m : list (string * A)) : option A :=
  match m with
  | [] => None
  | (k', v) :: r => if String.eqb k k' then Some v else entry k r
  end.
