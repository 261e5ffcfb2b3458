(** market/pair.go. *)
From Verif Require Import Go.Outcome Model.Asset.
Open Scope string_scope.

(** market/pair.go:8-11 *)
Record pair := mkPair { p_base : asset; p_quote : asset }.

(** market/pair.go:14-16 *)
Definition new_pair (base quote : asset) : pair := mkPair base quote.

(** market/pair.go:19-21 *)
Definition pair_string (p : pair) : string :=
  a_symbol (p_base p) ++ "/" ++ a_symbol (p_quote p) ++ String "010"%char "".

(** market/pair.go:24-30 *)
Definition pair_symbol (p : pair) (sep : string) : string :=
  if String.eqb (a_symbol (p_quote p)) "" then a_symbol (p_base p)
  else a_symbol (p_base p) ++ sep ++ a_symbol (p_quote p).

(** Struct equality [p == q] (all six strings), used at market/position.go:128. *)
Definition asset_eqb (a b : asset) : bool :=
  String.eqb (a_name a) (a_name b) && String.eqb (a_symbol a) (a_symbol b) &&
  String.eqb (a_alt a) (a_alt b).
(** The [==] of market/position.go:128 on market/pair.go:8-11. *)
Definition pair_eqb (p q : pair) : bool :=
  asset_eqb (p_base p) (p_base q) && asset_eqb (p_quote p) (p_quote q).
