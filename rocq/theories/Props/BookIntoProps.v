(** C123: reading JSON into an order book, and who else sees it. *)
From Coq Require Import ZArith Lia List Bool String.
From Verif Require Import Go.Outcome Go.Slice Go.Float64 Go.Num Go.Text Go.Json Go.JsonInto Go.Heap Model.OrderBook Model.OrderBookHeap Model.Stored Model.BookInto
  Spec.HeapSpec Spec.StoredSpec Spec.JsonSpec Spec.JsonReadSpec Spec.IntoSpec Spec.BookIntoSpec Proofs.Heap Proofs.IntoRead Proofs.JsonNesting Proofs.JsonStrict Proofs.Stored Proofs.BookInto Proofs.BookIntoRows Proofs.BookIntoStored.
Import ListNotations.
Open Scope list_scope.
Open Scope nat_scope.
Local Notation length := List.length.

(** The elements of an array are read over the rows in the same places, as far
    as the memory of the slice reaches; every row that can be read is, whatever
    becomes of the others; every slice that shares these places shows it. *)
Theorem C123_rows : forall spare h s js h' s' e, valid h s -> read_rows spare h s (JArr js) = (h', s', e) ->
  let news := view h' s' in
  valid h' s' /\ length news = length js /\
  (forall i j r, nth_error js i = Some j -> denotes_over row_type (row_val (nth i (backing h s) zero_row)) j (row_val r) -> nth_error news i = Some r) /\
  (forall i j, nth_error js i = Some j -> (forall ms, j <> JObj ms) -> nth_error news i = Some (nth i (backing h s) zero_row)) /\
  forall t, valid h t -> valid h' t /\ written_through s news (view h t) t (view h' t).
Proof.
  intros spare h s js h' s' e V E. destruct (rows_ok spare h s js V) as (h1 & s1 & E1 & V1 & Vw & _ & _ & _ & M). rewrite E1 in E. injection E as <- <- _.
  cbv zeta. rewrite Vw. split; [exact V1|]. split; [apply read_over_len|]. split; [|split].
  - intros i j r N D. rewrite (read_over_nth _ _ _ _ N). f_equal.
    apply over_decode in D; [|cbn; repeat constructor; cbn; intuition discriminate|cbn; auto].
    change (backing h s) with (region h s) in D. rewrite row_decode in D. destruct (snd (read_row _ j)); [discriminate D|].
    pose proof (f_equal (fun o => match o with Some v => row_of v | None => None end) D) as D'. cbv beta iota in D'.
    rewrite !row_back in D'. now injection D'.
  - intros i j N H. rewrite (read_over_nth _ _ _ _ N). f_equal. destruct j; try reflexivity. now contradiction (H l).
  - intros t Vt. destruct (M t Vt) as [A B]. split; [exact A|]. now apply through.
Qed.

(** Without an error the rows are what C101 says of values, the old rows listed
    up to the capacity; there is an error exactly when C101 has one. *)
Theorem C123_value : forall spare h s js h' s' e, valid h s -> read_rows spare h s (JArr js) = (h', s', e) ->
  decode (TSlice row_type) (VSlice (Some (map row_val (backing h s)))) (JArr js) =
  if e then None else Some (VSlice (Some (map row_val (view h' s')))).
Proof.
  intros spare h s js h' s' e V E. destruct (rows_ok spare h s js V) as (h1 & s1 & E1 & _ & Vw & _). rewrite E1 in E. injection E as <- <- <-.
  rewrite Vw. exact (rows_decode (region h s) js).
Qed.

(** An array with more elements than the slice has room, or with none, ends
    the sharing. *)
Theorem C123_own_memory : forall spare h s js h' s' e, valid h s -> read_rows spare h s (JArr js) = (h', s', e) ->
  (js = [] \/ s_cap s < length js -> forall t, valid h t -> disjoint s' t) /\
  (js <> [] -> length js <= s_cap s -> s_arr s' = s_arr s /\ s_off s' = s_off s /\ s_cap s' = s_cap s).
Proof.
  intros spare h s js h' s' e V E. destruct (rows_ok spare h s js V) as (h1 & s1 & E1 & _ & _ & _ & A & B & _). rewrite E1 in E. injection E as <- <- _. auto.
Qed.

(** Anything but an array: null gives the nil slice, the rest is an error;
    nothing is written. *)
Theorem C123_no_array : forall spare h s j, (forall js, j <> JArr js) ->
  read_rows spare h s j = match j with JNull => (h, nil_slice, false) | _ => (h, s, true) end.
Proof. intros spare h s j H. destruct j; try reflexivity. now contradiction (H l). Qed.

(** Books that share nothing: reading any text into one, with or without
    error, leaves the other as it is, and they still share nothing. *)
Theorem C123_separate : forall spare h b c text h' b' e, separate h b c -> h_unmarshal_book spare h b text = (h', b', e) ->
  book_view h' c = book_view h c /\ separate h' b' c.
Proof.
  intros spare h b c text h' b' e (Ob & Oc & A1 & A2) E. destruct (unmarshal_outside spare _ _ _ _ _ _ Ob E) as [O' M].
  destruct Oc as (Va & Vb & D). destruct (M _ Va A1) as (B1 & B2 & B3). destruct (M _ Vb A2) as (C1 & C2 & C3). split.
  - unfold book_view. rewrite (view_region h' (hb_asks c)), (view_region h' (hb_bids c)), B2, C2, <- !view_region by assumption. reflexivity.
  - split; [exact O'|]. split; [split; [exact B1|split; assumption]|]. split; assumption.
Qed.

(** The text of a stored book read into a book, of which [b] may also be a
    copy kept elsewhere: the variable holds the stored book, and whoever still
    uses the old slices sees the beginnings of their rows replaced. *)
Theorem C123_stored : forall spare na nb a h b text, book_ok a -> own h b -> marshal book_type (book_val na nb a) = Some text ->
  exists h' c, h_unmarshal_book spare h b text = (h', c, false) /\ own h' c /\ book_view h' c = a /\
    book_view h' b = mkBook (hb_time b) (front (asks a) (view h (hb_asks b))) (front (bids a) (view h (hb_bids b))) (hb_depth b).
Proof. exact stored_book. Qed.

(** A text that is not JSON, or nested too deeply, changes nothing. *)
Theorem C123_refused : forall spare h b text, (forall j, loose_document j text -> too_deep j) -> h_unmarshal_book spare h b text = (h, b, true).
Proof.
  intros spare h b text H. unfold h_unmarshal_book. destruct (parse_json text) as [j|] eqn:E; [|reflexivity].
  specialize (H j (proj1 (parse_iff text j) E)). apply deep_nesting in H.
  destruct (Z.leb_spec (nesting j) max_nesting); [lia|reflexivity].
Qed.

(** ** What does not hold *)
Definition row_at (p : Z) : row f64 := mkRow (i2f p) (i2f 1) (i2f 0).
Definition shown (h : heap (row f64)) (b : hbook) : list Z * list Z :=
  (map (fun r => f2i (price r)) (asks (book_view h b)), map (fun r => f2i (price r)) (bids (book_view h b))).
Definition two_books : heap (row f64) := [[row_at 11; row_at 12]; [row_at 9; row_at 8]].
Definition held : hbook := mkHBook 0 (mkSlice 0 0 2 2) (mkSlice 1 0 2 2) 5.

(** A copy of the struct is not a snapshot: reading the next book into the
    variable changes the copy. *)
Theorem C123_copy_is_snapshot_refuted : exists spare h b text h' c, own h b /\
  h_unmarshal_book spare h b text = (h', c, false) /\
  shown h b = ([11; 12], [9; 8])%Z /\ shown h' c = ([21], [7])%Z /\ shown h' b = ([21; 12], [7; 8])%Z.
Proof.
  set (text := "{""asks"":[{""price"":21}],""bids"":[{""price"":7}]}"%string).
  exists (fun _ => 0), two_books, held, text. destruct (h_unmarshal_book (fun _ => 0) two_books held text) as [[h' c] e] eqn:E.
  assert ((let '(h, b, x) := h_unmarshal_book (fun _ => 0) two_books held text in (x, shown h b, shown h held)) =
    (false, ([21], [7]), ([21; 12], [7; 8]))%Z) as H by (vm_compute; reflexivity).
  rewrite E in H. apply pair_equal_spec in H. destruct H as [H H2]. apply pair_equal_spec in H. destruct H as [-> H1]. exists h', c.
  split; [|split; [reflexivity|split; [vm_compute; reflexivity|split; assumption]]].
  split; [|split]; [split; cbn; [lia|intros _; lia]|split; cbn; [lia|intros _; lia]|]. right; right; left. discriminate.
Qed.

(** An error does not mean that nothing was read. *)
Theorem C123_error_changes_nothing_refuted : exists spare h b text h' c, own h b /\
  h_unmarshal_book spare h b text = (h', c, true) /\
  hb_time b = 0%Z /\ hb_time c = 7%Z /\ shown h' b = ([21; 12], [9; 8])%Z /\ shown h' c = ([21; 12; 0], [9; 8])%Z.
Proof.
  set (text := "{""time"":7,""asks"":[{""price"":21},""x"",{}],""bids"":3}"%string).
  exists (fun _ => 0), two_books, held, text. destruct (h_unmarshal_book (fun _ => 0) two_books held text) as [[h' c] e] eqn:E.
  assert ((let '(h, b, x) := h_unmarshal_book (fun _ => 0) two_books held text in (x, hb_time b, shown h b, shown h held)) =
    (true, 7, ([21; 12; 0], [9; 8]), ([21; 12], [9; 8]))%Z) as H by (vm_compute; reflexivity).
  rewrite E in H. apply pair_equal_spec in H. destruct H as [H H2]. apply pair_equal_spec in H. destruct H as [H H1].
  apply pair_equal_spec in H. destruct H as [-> Ht]. exists h', c.
  split; [|split; [reflexivity|split; [reflexivity|split; [exact Ht|split; assumption]]]].
  split; [|split]; [split; cbn; [lia|intros _; lia]|split; cbn; [lia|intros _; lia]|]. right; right; left. discriminate.
Qed.

(** A text read into a fresh book does not give zero for what its last array
    leaves out: of the rows of an earlier array that a shorter one has hidden,
    the volumes come back. *)
Theorem C123_left_out_is_zero_refuted : exists spare text h' c,
  text = "{""asks"":[{""price"":1,""volume"":2},{""price"":3,""volume"":4}],""asks"":[{""price"":5}],""asks"":[{""price"":6},{""price"":7}]}"%string /\
  h_unmarshal_book spare [] (mkHBook 0 nil_slice nil_slice 0) text = (h', c, false) /\
  fst (shown h' c) = [6; 7]%Z /\ map (fun r => f2i (volume r)) (asks (book_view h' c)) = [2; 4]%Z.
Proof.
  set (text := "{""asks"":[{""price"":1,""volume"":2},{""price"":3,""volume"":4}],""asks"":[{""price"":5}],""asks"":[{""price"":6},{""price"":7}]}"%string).
  exists (fun _ => 3), text. destruct (h_unmarshal_book (fun _ => 3) [] (mkHBook 0 nil_slice nil_slice 0) text) as [[h' c] e] eqn:E.
  assert ((let '(h, b, x) := h_unmarshal_book (fun _ => 3) [] (mkHBook 0 nil_slice nil_slice 0) text in
    (x, fst (shown h b), map (fun r => f2i (volume r)) (asks (book_view h b)))) = (false, [6; 7], [2; 4])%Z) as H by (vm_compute; reflexivity).
  rewrite E in H. apply pair_equal_spec in H. destruct H as [H H2]. apply pair_equal_spec in H. destruct H as [-> H1]. exists h', c. split; [reflexivity|]. split; [reflexivity|]. split; assumption.
Qed.

(** Two books that share nothing, one of them read into. *)
Example C123_example :
  let h := two_books ++ [[row_at 31; row_at 32; row_at 33]; [row_at 29]] in
  let c := mkHBook 0 (mkSlice 2 0 2 3) (mkSlice 3 0 1 1) 5 in
  separate h held c /\
  match h_unmarshal_book (fun _ => 0) h held "{""Asks"":[null,{""PRICE"":22},{""price"":23}],""bids"":null,""x"":[]}" with
  | (h', b', e) => (e, shown h' b', shown h' held, shown h' c) = (false, ([11; 22; 23], []), ([11; 22], [9; 8]), ([31; 32], [29]))%Z
  end.
Proof.
  cbv zeta. split; [|vm_compute; reflexivity].
  split; [|split; [|split]]; [split; [|split]|split; [|split]|split|split]; try (split; cbn; [lia|intros _; lia]);
    (right; right; left; discriminate).
Qed.

Print Assumptions C123_rows.
Print Assumptions C123_value.
Print Assumptions C123_own_memory.
Print Assumptions C123_no_array.
Print Assumptions C123_separate.
Print Assumptions C123_stored.
Print Assumptions C123_refused.
Print Assumptions C123_copy_is_snapshot_refuted.
Print Assumptions C123_error_changes_nothing_refuted.
Print Assumptions C123_left_out_is_zero_refuted.
