(** C123: the text of a stored book read into a book in memory. *)
From Coq Require Import ZArith Lia List Bool String.
From Verif Require Import Go.Outcome Go.Slice Go.Float64 Go.Num Go.Text Go.Json Go.JsonInto Go.Heap Model.OrderBook Model.OrderBookHeap Model.Stored Model.BookInto
  Spec.HeapSpec Spec.StoredSpec Spec.JsonSpec Spec.IntoSpec Spec.BookIntoSpec Proofs.Heap Proofs.JsonTree Proofs.JsonValue Proofs.Stored Proofs.Into Proofs.BookInto Proofs.BookIntoRows.
Import ListNotations.
Open Scope list_scope.
Open Scope nat_scope.
Local Notation length := List.length.
Local Notation rw := (row f64).

Lemma through_self (s : slice) (news before after : list rw) : length before <= s_cap s -> written_through s news before s after ->
  after = front news before.
Proof.
  intros L [E H]. unfold front. apply list_ext. intros k. rewrite nth_firstn'. destruct (Nat.ltb_spec k (length before)) as [Lk|Lk].
  - destruct (H k Lk) as [H1 H2]. destruct (Nat.lt_ge_cases k (length news)) as [Ln|Ln].
    + rewrite (H1 k) by (try lia; split; reflexivity). now rewrite nth_error_app1 by exact Ln.
    + rewrite H2; [|intros p P1 P2 [_ P3]; lia]. rewrite nth_error_app2, nth_skipn' by exact Ln. f_equal. lia.
  - apply nth_error_None. lia.
Qed.
Lemma row_val_inj l : forall l', map row_val l = map row_val l' -> l = l'.
Proof.
  induction l as [|r l IH]; intros [|r' l'] E; try discriminate E; [reflexivity|]. cbn [map] in E.
  pose proof (f_equal (@tl goval) E) as E2. pose proof (f_equal (fun l => hd (row_val r) l) E) as E1. cbn [hd tl] in E1, E2.
  pose proof (f_equal row_of E1) as E3. rewrite !row_back in E3. injection E3 as <-. f_equal. now apply IH.
Qed.
Lemma shaped_rows (l : list rw) : shaped (TSlice row_type) (VSlice (Some (map row_val l))).
Proof. cbn [shaped]. rewrite Forall_map. apply Forall_forall. intros r _. cbn. auto. Qed.

Section Stored.
Variable spare : nat -> nat.

Lemma stored_rows nil l ja h s : Forall row_ok l -> encode (TSlice row_type) (slice_val row_val nil l) = Some ja -> valid h s ->
  exists h' s', read_rows spare h s ja = (h', s', false) /\ view h' s' = l /\
    forall t, valid h t -> valid h' t /\ written_through s l (view h t) t (view h' t).
Proof.
  intros O E V.
  assert (storable (TSlice row_type) (slice_val row_val nil l)) as St by (apply slice_store; eapply Forall_impl; [exact row_store|exact O]).
  assert (well_named (TSlice row_type)) as W by exact named_row.
  destruct (encode_over _ _ W St ja _ E (shaped_rows (region h s))) as (r & D & Ov).
  apply over_no_maps in Ov; [|cbn; tauto]. subst r.
  destruct ja as [|b|x|x|js|ms]; try (exfalso; destruct l as [|r0 l0]; [destruct nil; discriminate E|]; cbn [encode slice_val] in E; destruct (all_some _); discriminate E).
  - cbn [decode] in D. assert (l = []) as -> by (destruct l; [reflexivity|discriminate D]).
    exists h, nil_slice. split; [reflexivity|]. split; [reflexivity|]. intros t Vt. split; [exact Vt|].
    apply (through h s t [] h V Vt Vt). rewrite firstn_nil, store_none. reflexivity.
  - pose proof (eq_trans (eq_sym (rows_decode (region h s) js)) D) as D'. clear D. rename D' into D. destruct (bad_over (region h s) js) eqn:B; [discriminate D|].
    assert (read_over (region h s) js = l) as R.
    { apply row_val_inj. destruct l as [|r l]; [|cbn [slice_val] in D; now injection D].
      destruct nil; cbn [slice_val] in D; [discriminate D|now injection D]. }
    destruct (rows_ok spare h s js V) as (h' & s' & E1 & V1 & Vw & _ & _ & _ & M). rewrite B in E1. rewrite R in *.
    exists h', s'. split; [exact E1|]. split; [exact Vw|]. intros t Vt. destruct (M t Vt) as [A1 A2]. split; [exact A1|]. now apply through.
Qed.
Lemma stored_int z old : int64_ok z -> read_int old (JNum (fmt_int z)) = (z, false).
Proof.
  intros H. assert (storable TInt (VInt z)) as St by exact H. destruct (encode_over TInt (VInt z) I St _ (VInt old) eq_refl I) as (r & D & Ov).
  cbn [over] in Ov. subst r. rewrite int_decode in D. destruct (read_int old (JNum (fmt_int z))) as [x e]. cbn [fst snd] in D.
  destruct e; [discriminate D|]. injection D as ->. reflexivity.
Qed.

Theorem stored_book na nb a h b text : book_ok a -> own h b -> marshal book_type (book_val na nb a) = Some text ->
  exists h' c, h_unmarshal_book spare h b text = (h', c, false) /\ own h' c /\ book_view h' c = a /\
    book_view h' b = mkBook (hb_time b) (front (asks a) (view h (hb_asks b))) (front (bids a) (view h (hb_bids b))) (hb_depth b).
Proof.
  intros (O1 & O2 & O3 & O4) Ow M.
  assert (storable book_type (book_val na nb a)) as St.
  { split; [exact O1|]. split; [apply slice_store; eapply Forall_impl; [exact row_store|exact O3]|].
    split; [apply slice_store; eapply Forall_impl; [exact row_store|exact O4]|]. split; [exact O2|exact I]. }
  destruct (encode_decode _ _ named_book St) as (j & E & Wf & _). unfold marshal in M. rewrite E in M. injection M as <-.
  pose proof (encode_levels _ _ _ E) as Lv. cbn [option_map].
  assert (exists ja jb, encode (TSlice row_type) (slice_val row_val na (asks a)) = Some ja /\ encode (TSlice row_type) (slice_val row_val nb (bids a)) = Some jb /\
    j = JObj [("time"%string, JNum (fmt_int (b_time a))); ("asks"%string, ja); ("bids"%string, jb); ("max_depth"%string, JNum (fmt_int (max_depth a)))]) as (ja & jb & Ea & Eb & ->).
  { unfold book_type, book_val in E. cbn [encode] in E. fold (encode (TSlice row_type)) in E.
    change (match encode (TSlice row_type) (slice_val row_val na (asks a)) with
            | Some x => match encode (TSlice row_type) (slice_val row_val nb (bids a)) with
                        | Some y => Some (JObj [(escape "time", JNum (fmt_int (b_time a))); (escape "asks", x); (escape "bids", y); (escape "max_depth", JNum (fmt_int (max_depth a)))])
                        | None => None end | None => None end = Some j) || idtac.
    destruct (encode (TSlice row_type) (slice_val row_val na (asks a))) as [x|] eqn:Ex; [|exfalso; revert E; cbn [encode] in Ex; rewrite Ex; discriminate].
    destruct (encode (TSlice row_type) (slice_val row_val nb (bids a))) as [y|] eqn:Ey; [|exfalso; revert E; cbn [encode] in Ex, Ey; rewrite Ex, Ey; discriminate].
    exists x, y. split; [reflexivity|]. split; [reflexivity|]. cbn [encode] in Ex, Ey. rewrite Ex, Ey in E. cbn [option_map] in E. injection E as <-. reflexivity. }
  unfold h_unmarshal_book. rewrite parse_print by exact Wf.
  replace (nesting _ <=? max_nesting)%Z with true by (symmetry; apply Z.leb_le; unfold max_nesting; unfold type_levels in Lv; cbn in Lv |- *; lia).
  cbn [read_book read_fields].
  destruct Ow as (Va & Vb & D).
  destruct (stored_rows na (asks a) ja h (hb_asks b) O3 Ea Va) as (h1 & s1 & R1 & W1 & T1).
  pose proof (rows_step spare _ _ _ _ _ _ Va R1) as [V1 St1]. destruct (St1 _ Vb D) as (Vb1 & Rb1 & D1).
  destruct (stored_rows nb (bids a) jb h1 (hb_bids b) O4 Eb Vb1) as (h2 & s2 & R2 & W2 & T2).
  pose proof (rows_step spare _ _ _ _ _ _ Vb1 R2) as [V2 St2].
  destruct (St2 _ V1 (disjoint_sym _ _ D1)) as (V12 & R12 & D12).
  destruct (T1 _ Va) as [Va1 Th1]. destruct (St2 _ Va1 (disjoint_sym _ _ D)) as (Va2 & Ra2 & _).
  destruct (T2 _ Vb1) as [Vb2 Th2].
  unfold read_field at 1. change (field_index _ (unquote (fst ("time"%string, _)))) with (Some 0). cbv iota. cbn [snd]. rewrite stored_int by exact O1.
  unfold read_field at 1. change (field_index _ (unquote (fst ("asks"%string, _)))) with (Some 1). cbv iota. cbn [snd hb_asks hb_bids hb_time hb_depth]. rewrite R1.
  unfold read_field at 1. change (field_index _ (unquote (fst ("bids"%string, _)))) with (Some 2). cbv iota. cbn [snd hb_asks hb_bids hb_time hb_depth]. rewrite R2.
  unfold read_field at 1. change (field_index _ (unquote (fst ("max_depth"%string, _)))) with (Some 3). cbv iota. cbn [snd hb_asks hb_bids hb_time hb_depth]. rewrite stored_int by exact O2.
  cbn [orb]. eexists _, _. split; [reflexivity|]. split; [split; [exact V12|split; [exact V2|now apply disjoint_sym]]|].
  unfold book_view. cbn [hb_time hb_asks hb_bids hb_depth].
  assert (view h2 s1 = asks a) as -> by (rewrite view_region, R12, <- view_region by assumption; exact W1).
  rewrite W2. split; [destruct a; reflexivity|]. f_equal.
  - rewrite (view_region h2), Ra2, <- view_region by assumption. apply (through_self (hb_asks b)); [|exact Th1].
    rewrite view_len by exact Va. apply Va.
  - assert (view h1 (hb_bids b) = view h (hb_bids b)) as <- by (rewrite !view_region, Rb1 by assumption; reflexivity).
    apply (through_self (hb_bids b)); [|exact Th2]. rewrite view_len by exact Vb1. apply Vb1.
Qed.
End Stored.
