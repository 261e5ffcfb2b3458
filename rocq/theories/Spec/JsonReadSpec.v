(** Vocabulary of C92: JSON texts of any origin (RFC 8259) and the Go value
    that a text denotes for a given type. *)
From Coq Require Import ZArith NArith List Sorted Permutation String Ascii Reals.
From Flocq Require Import Core BinarySingleNaN.
From Verif Require Import Go.Float64 Go.Json Spec.DateSpec Spec.JsonSpec Spec.DecimalSpec.
Import ListNotations.
Open Scope string_scope.
Open Scope list_scope.
Open Scope Z_scope.

(** *** Tokens *)
Inductive blank : string -> Prop :=
| blank_nil : blank ""
| blank_cons c s : In c [" "; "009"; "010"; "013"]%char -> blank s -> blank (String c s).

(** A number: no superfluous leading zero, digits on both sides of the point. *)
Definition number (t : string) : Prop :=
  exists sg ip n fr m k ex e,
    t = (sg ++ ip ++ fr ++ ex)%string /\ (sg = "" \/ sg = "-") /\ digits ip n /\ ip <> "" /\
    (ip = "0" \/ forall r, ip <> String "0" r) /\
    fraction fr m k /\ fr <> "." /\ exponent ex e.

(** The bytes of a code point in UTF-8. *)
Definition follows (c : ascii) : Prop := 128 <= byte c < 192.
Inductive code_point : string -> Z -> Prop :=
| point_1 c : byte c < 128 -> code_point (String c "") (byte c)
| point_2 c0 c1 n : n = (byte c0 - 192) * 64 + (byte c1 - 128) -> follows c1 ->
    128 <= n < 2048 -> code_point (String c0 (String c1 "")) n
| point_3 c0 c1 c2 n : n = (byte c0 - 224) * 4096 + (byte c1 - 128) * 64 + (byte c2 - 128) -> follows c1 -> follows c2 ->
    2048 <= n < 65536 -> ~ 55296 <= n < 57344 -> code_point (String c0 (String c1 (String c2 ""))) n
| point_4 c0 c1 c2 c3 n : n = (byte c0 - 240) * 262144 + (byte c1 - 128) * 4096 + (byte c2 - 128) * 64 + (byte c3 - 128) ->
    follows c1 -> follows c2 -> follows c3 -> 65536 <= n < 1114112 -> code_point (String c0 (String c1 (String c2 (String c3 "")))) n.

Definition hex (c : ascii) (n : Z) : Prop :=
  (48 <= byte c <= 57 /\ n = byte c - 48) \/ (97 <= byte c <= 102 /\ n = byte c - 87) \/ (65 <= byte c <= 70 /\ n = byte c - 55).
(** A Unicode escape. *)
Inductive escaped : string -> Z -> Prop :=
| escaped_intro a b c d n0 n1 n2 n3 : hex a n0 -> hex b n1 -> hex c n2 -> hex d n3 ->
    escaped (String "\" (String "u" (String a (String b (String c (String d "")))))) (((n0 * 16 + n1) * 16 + n2) * 16 + n3).

(** Bytes between quotes, and the string they stand for. *)
Inductive contents : string -> string -> Prop :=
| contents_nil : contents "" ""
| contents_byte c raw s : 32 <= byte c < 128 -> c <> "034"%char -> c <> "\"%char -> contents raw s ->
    contents (String c raw) (String c s)
| contents_point u n raw s : code_point u n -> 128 <= n -> contents raw s -> contents (u ++ raw)%string (u ++ s)%string
| contents_short e c raw s : In (e, c) [("034", "034"); ("\", "\"); ("/", "/"); ("b", "008"); ("f", "012"); ("n", "010"); ("r", "013"); ("t", "009")]%char ->
    contents raw s -> contents (String "\" (String e raw)) (String c s)
| contents_escape x u n raw s : escaped x n -> code_point u n -> contents raw s -> contents (x ++ raw)%string (u ++ s)%string
| contents_pair x y hi lo u raw s : escaped x hi -> escaped y lo -> 55296 <= hi < 56320 -> 56320 <= lo < 57344 ->
    code_point u (65536 + (hi - 55296) * 1024 + (lo - 56320)) -> contents raw s -> contents (x ++ y ++ raw)%string (u ++ s)%string.

(** *** Texts *)
Definition in_quotes (raw : string) : string := String "034" (raw ++ String "034" "").

(** Texts and the trees of their tokens; [well] says which bytes may stand
    between quotes. *)
Inductive text (well : string -> Prop) : json -> string -> Prop :=
| text_null : text well JNull "null"
| text_true : text well (JBool true) "true"
| text_false : text well (JBool false) "false"
| text_num t : number t -> text well (JNum t) t
| text_str raw : well raw -> text well (JStr raw) (in_quotes raw)
| text_no_elements w : blank w -> text well (JArr []) ("[" ++ w ++ "]")
| text_arr l e : elements_text well l e -> text well (JArr l) ("[" ++ e ++ "]")
| text_no_members w : blank w -> text well (JObj []) ("{" ++ w ++ "}")
| text_obj l e : members_text well l e -> text well (JObj l) ("{" ++ e ++ "}")
with elements_text (well : string -> Prop) : list json -> string -> Prop :=
| elements_last a j x b : blank a -> text well j x -> blank b -> elements_text well [j] (a ++ x ++ b)
| elements_more a j x b l e : blank a -> text well j x -> blank b -> elements_text well l e ->
    elements_text well (j :: l) (a ++ x ++ b ++ "," ++ e)
with members_text (well : string -> Prop) : list (string * json) -> string -> Prop :=
| members_last k x : member_text well k x -> members_text well [k] x
| members_more k x l e : member_text well k x -> members_text well l e -> members_text well (k :: l) (x ++ "," ++ e)
with member_text (well : string -> Prop) : string * json -> string -> Prop :=
| member_intro a raw b c j x d : blank a -> well raw -> blank b -> blank c -> text well j x -> blank d ->
    member_text well (raw, j) (a ++ in_quotes raw ++ b ++ ":" ++ c ++ x ++ d).
Definition whole (well : string -> Prop) (j : json) (s : string) : Prop :=
  exists a x b, s = (a ++ x ++ b)%string /\ blank a /\ text well j x /\ blank b.
(** RFC 8259: strings are UTF-8. *)
Definition document : json -> string -> Prop := whole (fun raw => exists s, contents raw s).
(** Any bytes above the control characters between quotes, and Unicode escapes
    of anything. *)
Inductive loose : string -> Prop :=
| loose_nil : loose ""
| loose_byte c raw : 32 <= byte c -> c <> "034"%char -> c <> "\"%char -> loose raw -> loose (String c raw)
| loose_short e raw : In e ["034"; "\"; "/"; "b"; "f"; "n"; "r"; "t"]%char -> loose raw -> loose (String "\" (String e raw))
| loose_escape x n raw : escaped x n -> loose raw -> loose (x ++ raw).
Definition loose_document : json -> string -> Prop := whole loose.

(** *** Nesting *)

(** [x] is an element or a member value of [j]. *)
Inductive inside (x : json) : json -> Prop :=
| inside_arr l : In x l -> inside x (JArr l)
| inside_obj raw l : In (raw, x) l -> inside x (JObj l).
(** [n] arrays and objects, each inside the one before, the first being [j]. *)
Inductive chain : Z -> json -> Prop :=
| chain_arr l : chain 1 (JArr l)
| chain_obj l : chain 1 (JObj l)
| chain_more n x j : inside x j -> chain n x -> chain (n + 1) j.
(** More than the 10000 levels the library reads. *)
Definition too_deep (j : json) : Prop := exists n, 10000 < n /\ chain n j.

(** *** Moments *)

(** Days since 1970-01-01 in the Gregorian calendar. *)
Inductive day_number : Z -> Z -> Z -> Z -> Prop :=
| day_epoch : day_number 1970 1 1 0
| day_later y m d n y' m' d' : day_number y m d n -> next_day y m d y' m' d' -> valid_date y' m' d' -> day_number y' m' d' (n + 1)
| day_earlier y m d n y' m' d' : day_number y' m' d' n -> next_day y m d y' m' d' -> valid_date y m d -> day_number y m d (n - 1).
(** Nanoseconds, rounded down. *)
Inductive part_second : string -> Z -> Prop :=
| part_none : part_second "" 0
| part_some f k : digits f k -> f <> "" -> part_second (String "." f) (k * 10 ^ 9 / 10 ^ Z.of_nat (String.length f)).
Inductive zone : string -> Z -> Prop :=
| zone_utc : zone "Z" 0
| zone_east h m : 0 <= h < 24 -> 0 <= m < 60 -> zone ("+" ++ two h ++ ":" ++ two m) (h * 3600 + m * 60)
| zone_west h m : 0 <= h < 24 -> 0 <= m < 60 -> zone ("-" ++ two h ++ ":" ++ two m) (- (h * 3600 + m * 60)).
(** [raw] is an RFC 3339 time with zone offset [off] of the instant [i], in
    nanoseconds since 1970. *)
Definition moment (raw : string) (off i : Z) : Prop :=
  exists y mo d n h mi s f ns z,
    raw = (date_text y mo d ++ "T" ++ two h ++ ":" ++ two mi ++ ":" ++ two s ++ f ++ z)%string /\
    day_number y mo d n /\ 0 <= h < 24 /\ 0 <= mi < 60 /\ 0 <= s < 60 /\ part_second f ns /\ zone z off /\
    i = (n * 86400 + h * 3600 + mi * 60 + s - off) * 10 ^ 9 + ns.

(** What time.Parse lets pass beyond that: an hour of one digit, a decimal
    comma, zones of 24 hours. *)
Inductive hour_text : Z -> string -> Prop :=
| hour_two h : 0 <= h < 24 -> hour_text h (two h)
| hour_one h : 0 <= h < 10 -> hour_text h (String (digit h) "").
Inductive loose_part : string -> Z -> Prop :=
| loose_part_none : loose_part "" 0
| loose_part_some p f k : In p ["."%char; ","%char] -> digits f k -> f <> "" ->
    loose_part (String p f) (k * 10 ^ 9 / 10 ^ Z.of_nat (String.length f)).
Inductive loose_zone : string -> Z -> Prop :=
| loose_zone_utc : loose_zone "Z" 0
| loose_zone_east h m : 0 <= h <= 24 -> 0 <= m < 60 -> loose_zone ("+" ++ two h ++ ":" ++ two m) (h * 3600 + m * 60)
| loose_zone_west h m : 0 <= h <= 24 -> 0 <= m < 60 -> loose_zone ("-" ++ two h ++ ":" ++ two m) (- (h * 3600 + m * 60)).
Definition loose_moment (raw : string) (off i : Z) : Prop :=
  exists y mo d n h ht mi s f ns z,
    raw = (date_text y mo d ++ "T" ++ ht ++ ":" ++ two mi ++ ":" ++ two s ++ f ++ z)%string /\
    day_number y mo d n /\ hour_text h ht /\ 0 <= mi < 60 /\ 0 <= s < 60 /\ loose_part f ns /\ loose_zone z off /\
    i = (n * 86400 + h * 3600 + mi * 60 + s - off) * 10 ^ 9 + ns.

(** *** Values *)

(** Member names: ASCII, compared without regard to case. *)
Definition lower_case (c : ascii) : ascii := if andb (65 <=? byte c) (byte c <=? 90) then ascii_of_N (Z.to_N (byte c + 32)) else c.
Fixpoint in_lower_case (s : string) : string :=
  match s with "" => "" | String c r => String (lower_case c) (in_lower_case r) end.
Fixpoint all_ascii (s : string) : Prop :=
  match s with "" => True | String c r => byte c < 128 /\ all_ascii r end.
Definition named (n : string) (m : string * json) : Prop :=
  exists k, contents (fst m) k /\ in_lower_case k = in_lower_case n.

(** The tree [j] denotes the value [v] of type [t].  null denotes the zero
    value.  A struct takes each field from the only member of that name; a field
    without member is zero, a member without field is ignored. *)
Fixpoint denotes (t : gotype) (j : json) (v : goval) {struct t} : Prop :=
  (j = JNull /\ v = zero t) \/
  j <> JNull /\
  match t, v with
  | TStr, VStr s => exists raw, j = JStr raw /\ contents raw s
  | TInt, VInt z => exists w, j = JNum w /\ integer w z /\ int64_ok z
  | TFloat, VFloat x => exists w neg r, j = JNum w /\ decimal w neg r /\ short w /\ in_range r /\ is_nearest x neg r
  | TBool, VBool b => j = JBool b
  | TTime, VTime off i => exists raw, j = JStr raw /\ moment raw off i
  | TPtr t', VPtr (Some v') => denotes t' j v'
  | TSlice t', VSlice (Some vs) => exists js, j = JArr js /\ Forall2 (denotes t') js vs
  | TMap t', VMap (Some kvs) => exists ms ms', j = JObj ms /\ Permutation ms ms' /\ StronglySorted before (map fst kvs) /\
      Forall2 (fun m kv => contents (fst m) (fst kv) /\ denotes t' (snd m) (snd kv)) ms' kvs
  | TStruct fs, VStruct vs => exists ms, j = JObj ms /\ Forall (fun m => exists k, contents (fst m) k /\ all_ascii k) ms /\
      (fix fields (fs : list (string * gotype)) (vs : list goval) : Prop :=
         match fs, vs with
         | [], [] => True
         | (n, t') :: fs', v' :: vs' =>
             ((v' = zero t' /\ Forall (fun m => ~ named n m) ms) \/
              exists before_it m after_it, ms = before_it ++ m :: after_it /\ named n m /\
                Forall (fun m => ~ named n m) (before_it ++ after_it) /\ denotes t' (snd m) v') /\
             fields fs' vs'
         | _, _ => False
         end) fs vs
  | _, _ => False
  end.

(** Struct types whose member names are ASCII and differ in more than case. *)
Fixpoint well_cased (t : gotype) : Prop :=
  match t with
  | TPtr t' | TSlice t' | TMap t' => well_cased t'
  | TStruct fs =>
      NoDup (map (fun f => in_lower_case (fst f)) fs) /\
      (fix fields (fs : list (string * gotype)) : Prop :=
         match fs with
         | [] => True
         | (n, t') :: fs' => all_ascii n /\ well_cased t' /\ fields fs'
         end) fs
  | _ => True
  end.

(** *** Refusals *)

(** Names equal up to case; the long s and the Kelvin sign count as s and k. *)
Inductive alike : string -> string -> Prop :=
| alike_nil : alike "" ""
| alike_byte c c' k n : lower_case c = lower_case c' -> alike k n -> alike (String c k) (String c' n)
| alike_long_s c k n : lower_case c = "s"%char -> alike k n -> alike (String "197" (String "191" k)) (String c n)
| alike_kelvin c k n : lower_case c = "k"%char -> alike k n -> alike (String "226" (String "132" (String "170" k))) (String c n).

Definition is_str (j : json) : Prop := exists raw, j = JStr raw.
Definition is_num (j : json) : Prop := exists t, j = JNum t.
Definition is_bool (j : json) : Prop := exists b, j = JBool b.
Definition is_arr (j : json) : Prop := exists l, j = JArr l.
Definition is_obj (j : json) : Prop := exists ms, j = JObj ms.

(** Somewhere in the tree [j] for a value of type [t] is a token of the wrong
    kind, no whole number or one out of range where a whole number is due, a
    number beyond the largest float64, or no time where one is due. *)
Fixpoint clash (t : gotype) (j : json) {struct t} : Prop :=
  j <> JNull /\
  match t with
  | TStr => ~ is_str j
  | TInt => ~ exists w z, j = JNum w /\ integer w z /\ int64_ok z
  | TFloat => ~ is_num j \/ exists w neg r, j = JNum w /\ decimal w neg r /\ short w /\ ~ in_range r
  | TBool => ~ is_bool j
  | TTime => ~ exists raw off i, j = JStr raw /\ loose_moment raw off i
  | TPtr t' => clash t' j
  | TSlice t' => ~ is_arr j \/ exists l, j = JArr l /\ Exists (clash t') l
  | TMap t' => ~ is_obj j \/ exists ms, j = JObj ms /\ Exists (fun m => clash t' (snd m)) ms
  | TStruct fs => ~ is_obj j \/ exists ms, j = JObj ms /\
      (fix fields (fs : list (string * gotype)) : Prop :=
         match fs with
         | [] => False
         | (n, t') :: fs' => Exists (fun m => (exists k, contents (fst m) k /\ alike k n) /\ clash t' (snd m)) ms \/ fields fs'
         end) fs
  end.
