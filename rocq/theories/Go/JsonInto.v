(** json.Unmarshal into a variable that already holds a value.
    encoding/json/decode.go (Go 1.16), Unmarshal, array, object, literalStore.
    The slices of [old] are listed up to their capacity: [array] decodes into
    the elements it finds there, also beyond the length. *)
From Coq Require Import ZArith String.
From Verif Require Import Go.Json.

Definition unmarshal_into (t : gotype) (old : goval) (s : string) : option goval :=
  match parse_json s with
  | Some j => if (nesting j <=? max_nesting)%Z then decode t old j else None
  | None => None
  end.
