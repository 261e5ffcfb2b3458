(** Vocabulary of the JSON properties (C83, C84). *)
From Coq Require Import ZArith NArith List Sorted String Ascii.
From Flocq Require Import Core BinarySingleNaN.
From Verif Require Import Go.Float64 Go.Json.
Import ListNotations.
Open Scope string_scope.
Open Scope Z_scope.

(** Valid UTF-8 (RFC 3629): no overlong forms, no surrogates, nothing above
    U+10FFFF. *)
Local Notation byte c := (N_of_ascii c).
Inductive utf8 : string -> Prop :=
| utf8_nil : utf8 ""
| utf8_1 c s : (byte c < 128)%N -> utf8 s -> utf8 (String c s)
| utf8_2 c0 c1 s : (194 <= byte c0 <= 223)%N -> (128 <= byte c1 <= 191)%N -> utf8 s -> utf8 (String c0 (String c1 s))
| utf8_3 c0 c1 c2 s : (224 <= byte c0 <= 239)%N -> (128 <= byte c1 <= 191)%N -> (128 <= byte c2 <= 191)%N ->
    (byte c0 = 224 -> 160 <= byte c1)%N -> (byte c0 = 237 -> byte c1 <= 159)%N ->
    utf8 s -> utf8 (String c0 (String c1 (String c2 s)))
| utf8_4 c0 c1 c2 c3 s : (240 <= byte c0 <= 244)%N -> (128 <= byte c1 <= 191)%N -> (128 <= byte c2 <= 191)%N ->
    (128 <= byte c3 <= 191)%N -> (byte c0 = 240 -> 144 <= byte c1)%N -> (byte c0 = 244 -> byte c1 <= 143)%N ->
    utf8 s -> utf8 (String c0 (String c1 (String c2 (String c3 s)))).

(** A time a JSON text can hold: zone of whole minutes, less than a day off,
    and local date within the years 0 to 9999. *)
Definition time_ok (off t : Z) : Prop :=
  (60 | off) /\ -86400 < off < 86400 /\ -62167219200 <= t / 1000000000 + off < 253402300800.

Definition int64_ok (z : Z) : Prop := - 2 ^ 63 <= z < 2 ^ 63.

(** Byte order of map keys. *)
Inductive before : string -> string -> Prop :=
| before_nil c s : before "" (String c s)
| before_head c c' s s' : (N_of_ascii c < N_of_ascii c')%N -> before (String c s) (String c' s')
| before_tail c s s' : before s s' -> before (String c s) (String c s').

(** Types whose nil is written "null". *)
Definition has_nil (t : gotype) : bool :=
  match t with TPtr _ | TSlice _ | TMap _ => true | _ => false end.

(** Values of type [t] that a JSON text can hold. *)
Fixpoint storable (t : gotype) (v : goval) : Prop :=
  match t, v with
  | TStr, VStr s => utf8 s
  | TInt, VInt z => int64_ok z
  | TFloat, VFloat x => is_finite x = true
  | TBool, VBool _ => True
  | TTime, VTime off i => time_ok off i
  | TPtr _, VPtr None => True
  | TPtr t', VPtr (Some v') => has_nil t' = false /\ storable t' v'
  | TSlice _, VSlice None => True
  | TSlice t', VSlice (Some l) => Forall (storable t') l
  | TMap _, VMap None => True
  | TMap t', VMap (Some l) =>
      Forall (fun kv => utf8 (fst kv) /\ storable t' (snd kv)) l /\ StronglySorted before (map fst l)
  | TStruct fs, VStruct vs =>
      (fix fields (fs : list (string * gotype)) (vs : list goval) : Prop :=
         match fs, vs with
         | [], [] => True
         | (_, t') :: fs', v' :: vs' => storable t' v' /\ fields fs' vs'
         | _, _ => False
         end) fs vs
  | _, _ => False
  end.

(** Struct types with different member names, in UTF-8. *)
Fixpoint well_named (t : gotype) : Prop :=
  match t with
  | TPtr t' | TSlice t' | TMap t' => well_named t'
  | TStruct fs =>
      NoDup (map fst fs) /\
      (fix fields (fs : list (string * gotype)) : Prop :=
         match fs with
         | [] => True
         | (n, t') :: fs' => utf8 n /\ well_named t' /\ fields fs'
         end) fs
  | _ => True
  end.

(** Values of Go type [t], with times in a zone of whole minutes and not more
    than 2^62 seconds before 1970. *)
Fixpoint typed (t : gotype) (v : goval) : Prop :=
  match t, v with
  | TStr, VStr _ => True
  | TInt, VInt z => int64_ok z
  | TFloat, VFloat _ => True
  | TBool, VBool _ => True
  | TTime, VTime off i => (60 | off) /\ -86400 < off < 86400 /\ - 2 ^ 62 <= i / 1000000000
  | TPtr _, VPtr None => True
  | TPtr t', VPtr (Some v') => typed t' v'
  | TSlice _, VSlice None => True
  | TSlice t', VSlice (Some l) => Forall (typed t') l
  | TMap _, VMap None => True
  | TMap t', VMap (Some l) => Forall (fun kv => typed t' (snd kv)) l /\ StronglySorted before (map fst l)
  | TStruct fs, VStruct vs =>
      (fix fields (fs : list (string * gotype)) (vs : list goval) : Prop :=
         match fs, vs with
         | [], [] => True
         | (_, t') :: fs', v' :: vs' => typed t' v' /\ fields fs' vs'
         | _, _ => False
         end) fs vs
  | _, _ => False
  end.

(** A NaN, an infinity, or a date outside the years 0 to 9999 somewhere in the
    value. *)
Fixpoint beyond_json (t : gotype) (v : goval) : Prop :=
  match t, v with
  | TFloat, VFloat x => is_finite x = false
  | TTime, VTime off i => ~ (-62167219200 <= i / 1000000000 + off < 253402300800)
  | TPtr t', VPtr (Some v') => beyond_json t' v'
  | TSlice t', VSlice (Some l) => Exists (beyond_json t') l
  | TMap t', VMap (Some l) => Exists (fun kv => beyond_json t' (snd kv)) l
  | TStruct fs, VStruct vs =>
      (fix fields (fs : list (string * gotype)) (vs : list goval) : Prop :=
         match fs, vs with
         | (_, t') :: fs', v' :: vs' => beyond_json t' v' \/ fields fs' vs'
         | _, _ => False
         end) fs vs
  | _, _ => False
  end.
