(** json.Unmarshal into an OrderBook, with explicit backing arrays: which
    memory is written, also when an error is returned.
    encoding/json/decode.go (Go 1.16): Unmarshal, array, object, literalStore.
    Simplifications: of the error only its presence is modelled; nil and empty
    slices are one. *)
From Coq Require Import ZArith List String.
From Verif Require Import Go.Outcome Go.Float64 Go.Num Go.Text Go.Json Go.Heap Model.OrderBook Model.OrderBookHeap.
Import ListNotations.
Open Scope string_scope.
Open Scope list_scope.
Open Scope nat_scope.

(** literalStore into float64 and int64: a value of another kind or out of
    range is an error that is remembered (saveError), and reading goes on. *)
Definition read_float (old : f64) (j : json) : f64 * bool :=
  match j with
  | JNull => (old, false)
  | JNum s => match parse_float s with inl x => (x, false) | inr _ => (old, true) end
  | _ => (old, true)
  end.
(** encoding/json into an int64 field, as at market/orderbook.go:13, 16. *)
Definition read_int (old : Z) (j : json) : Z * bool :=
  match j with
  | JNull => (old, false)
  | JNum s => match parse_int 64 s with inl z => (z, false) | inr _ => (old, true) end
  | _ => (old, true)
  end.

(** object into market/orderbook_types.go:6-10 *)
Definition read_member (r : row f64) (kv : string * json) : row f64 * bool :=
  match field_index ["price"; "volume"; "accum_volume"] (unquote (fst kv)) with
  | Some 0 => let (x, e) := read_float (price r) (snd kv) in (mkRow x (volume r) (accum r), e)
  | Some 1 => let (x, e) := read_float (volume r) (snd kv) in (mkRow (price r) x (accum r), e)
  | Some 2 => let (x, e) := read_float (accum r) (snd kv) in (mkRow (price r) (volume r) x, e)
  | _ => (r, false)
  end.
(** encoding/json into a row, market/orderbook_types.go:6-10. *)
Definition read_row (r : row f64) (j : json) : row f64 * bool :=
  match j with
  | JNull => (r, false)
  | JObj ms => fold_left (fun acc kv => let (r', e') := read_member (fst acc) kv in (r', (snd acc || e')%bool)) ms (r, false)
  | _ => (r, true)
  end.

Section Into.
Variable spare : nat -> nat.

(** array: [if i >= v.Cap()] a larger array is allocated and the elements are
    copied; [spare] gives its size. *)
Definition grow (h : heap (row f64)) (s : slice) (i : nat) : heap (row f64) * slice :=
  if s_cap s <=? i
  then (h ++ [view h s ++ repeat zero_row (s_cap s + 1 + spare (s_cap s) - s_len s)],
        mkSlice (List.length h) 0 (s_len s) (s_cap s + 1 + spare (s_cap s)))
  else (h, s).
(** array, the loop: [if i >= v.Len() { v.SetLen(i + 1) }], then element [i] is
    read over what is there. *)
Fixpoint read_elems (h : heap (row f64)) (s : slice) (i : nat) (js : list json) : heap (row f64) * slice * bool :=
  match js with
  | [] => (h, s, false)
  | j :: rest =>
      let (h1, s1) := grow h s i in
      let s2 := if s_len s1 <=? i then mkSlice (s_arr s1) (s_off s1) (S i) (s_cap s1) else s1 in
      let (r, e) := read_row (nth i (view h1 s2) zero_row) j in
      let '(h2, s3, e') := read_elems (store h1 s2 i [r]) s2 (S i) rest in
      (h2, s3, (e || e')%bool)
  end.
(** array, the end: [v.SetLen(i)], and a new empty slice if there were no
    elements. *)
Definition read_rows (h : heap (row f64)) (s : slice) (j : json) : heap (row f64) * slice * bool :=
  match j with
  | JNull => (h, nil_slice, false)
  | JArr js =>
      let '(h', s', e) := read_elems h s 0 js in
      (h', match js with [] => nil_slice | _ => mkSlice (s_arr s') (s_off s') (List.length js) (s_cap s') end, e)
  | _ => (h, s, true)
  end.

(** object into market/orderbook.go:12-17 *)
Definition read_field (h : heap (row f64)) (b : hbook) (kv : string * json) : heap (row f64) * hbook * bool :=
  match field_index ["time"; "asks"; "bids"; "max_depth"] (unquote (fst kv)) with
  | Some 0 => let (z, e) := read_int (hb_time b) (snd kv) in (h, mkHBook z (hb_asks b) (hb_bids b) (hb_depth b), e)
  | Some 1 => let '(h', s, e) := read_rows h (hb_asks b) (snd kv) in (h', mkHBook (hb_time b) s (hb_bids b) (hb_depth b), e)
  | Some 2 => let '(h', s, e) := read_rows h (hb_bids b) (snd kv) in (h', mkHBook (hb_time b) (hb_asks b) s (hb_depth b), e)
  | Some 3 => let (z, e) := read_int (hb_depth b) (snd kv) in (h, mkHBook (hb_time b) (hb_asks b) (hb_bids b) z, e)
  | _ => (h, b, false)
  end.
(** encoding/json into the fields of market/orderbook.go:12-17, in the order of the text. *)
Fixpoint read_fields (h : heap (row f64)) (b : hbook) (ms : list (string * json)) : heap (row f64) * hbook * bool :=
  match ms with
  | [] => (h, b, false)
  | kv :: rest =>
      let '(h1, b1, e) := read_field h b kv in
      let '(h2, b2, e') := read_fields h1 b1 rest in
      (h2, b2, (e || e')%bool)
  end.
(** encoding/json into market/orderbook.go:12-17. *)
Definition read_book (h : heap (row f64)) (b : hbook) (j : json) : heap (row f64) * hbook * bool :=
  match j with
  | JNull => (h, b, false)
  | JObj ms => read_fields h b ms
  | _ => (h, b, true)
  end.
(** Unmarshal: a text that is not JSON or nested too deeply is refused before
    anything is read (checkValid). *)
Definition h_unmarshal_book (h : heap (row f64)) (b : hbook) (text : string) : heap (row f64) * hbook * bool :=
  match parse_json text with
  | Some j => if (nesting j <=? max_nesting)%Z then read_book h b j else (h, b, true)
  | None => (h, b, true)
  end.
End Into.
