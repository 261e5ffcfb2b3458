(** C123: rows and books read from JSON, their memory and their values. *)
From Coq Require Import ZArith Lia List Bool String.
From Verif Require Import Go.Outcome Go.Slice Go.Float64 Go.Num Go.Text Go.Json Go.JsonInto Go.Heap Model.OrderBook Model.OrderBookHeap Model.Stored Model.BookInto
  Spec.HeapSpec Spec.BookIntoSpec Proofs.Heap Proofs.BookInto.
Import ListNotations.
Open Scope list_scope.
Open Scope nat_scope.
Local Notation length := List.length.
Local Notation rw := (row f64).

(** ** Agreement with the decoder on values *)
Lemma float_decode x j : decode TFloat (VFloat x) j = if snd (read_float x j) then None else Some (VFloat (fst (read_float x j))).
Proof. destruct j; try reflexivity. cbn [decode read_float]. destruct (parse_float _); reflexivity. Qed.
Lemma int_decode x j : decode TInt (VInt x) j = if snd (read_int x j) then None else Some (VInt (fst (read_int x j))).
Proof. destruct j; try reflexivity. cbn [decode read_int]. destruct (parse_int _ _); reflexivity. Qed.
Lemma index_of_lt p ns i : index_of p ns = Some i -> i < length ns.
Proof.
  revert i. induction ns as [|n ns IH]; intros i; cbn [index_of]; [discriminate|]. destruct (p n); [intros E; injection E as <-; cbn; lia|].
  destruct (index_of p ns) as [k|]; [|discriminate]. intros E. injection E as <-. specialize (IH k eq_refl). cbn. lia.
Qed.
Lemma field_index_lt ns k i : field_index ns k = Some i -> i < length ns.
Proof.
  unfold field_index. destruct (index_of _ ns) eqn:E; [intros H; injection H as <-; eapply index_of_lt, E|]. apply index_of_lt.
Qed.
Definition row_vals (r : rw) : list goval := [VFloat (price r); VFloat (volume r); VFloat (accum r)].
Lemma row_fold ms : forall r e,
  fold_left (fun acc kv => match acc with None => None | Some vs =>
      match field_index ["price"; "volume"; "accum_volume"] (unquote (fst kv)) with
      | None => Some vs
      | Some i => set_field (fun t' v => decode t' v (snd kv)) [("price", TFloat); ("volume", TFloat); ("accum_volume", TFloat)] vs i
      end end) ms (if e : bool then None else Some (row_vals r)) =
  let a := fold_left (fun acc kv => let (r', e') := read_member (fst acc) kv in (r', (snd acc || e')%bool)) ms (r, e) in
  if snd a then None else Some (row_vals (fst a)).
Proof.
  induction ms as [|kv ms IH]; intros r e; cbn [fold_left]; [reflexivity|]. cbv zeta in *.
  destruct (read_member (fst (r, e)) kv) as [r' e'] eqn:E. cbn [fst snd] in E |- *.
  rewrite <- IH. f_equal. destruct e; [reflexivity|]. unfold read_member in E. cbn [orb].
  destruct (field_index _ _) as [i|] eqn:F.
  - pose proof (field_index_lt _ _ _ F) as L. cbn in L.
    destruct i as [|[|[|i]]]; [| | |lia]; unfold row_vals at 1; cbn [set_field option_map]; rewrite float_decode.
    + destruct (read_float (price r) (snd kv)) as [x e0]. injection E as <- <-. destruct e0; reflexivity.
    + destruct (read_float (volume r) (snd kv)) as [x e0]. injection E as <- <-. destruct e0; reflexivity.
    + destruct (read_float (accum r) (snd kv)) as [x e0]. injection E as <- <-. destruct e0; reflexivity.
  - injection E as <- <-. reflexivity.
Qed.
Lemma row_decode r j : decode row_type (row_val r) j = if snd (read_row r j) then None else Some (row_val (fst (read_row r j))).
Proof.
  destruct j as [|b|s|s|js|ms]; try reflexivity. unfold row_type. cbn [decode row_val read_row map fst]. cbv zeta.
  pose proof (row_fold ms r false) as H. cbv zeta in H. unfold row_vals at 1 in H. rewrite H. destruct (snd _); reflexivity.
Qed.
Lemma zero_row_val : zero row_type = row_val zero_row.
Proof. reflexivity. Qed.
Lemma rows_decode_at olds js : forall k,
  all_some (map (fun ij => decode row_type (nth (fst ij) (map row_val olds) (zero row_type)) (snd ij)) (combine (seq k (length js)) js)) =
  if bad_over (skipn k olds) js then None else Some (map row_val (read_over (skipn k olds) js)).
Proof.
  induction js as [|j js IH]; intros k; [reflexivity|]. cbn [length seq combine map fst snd bad_over read_over].
  rewrite zero_row_val, map_nth, row_decode, hd_skipn. rewrite <- zero_row_val, tl_skipn.
  destruct (read_row _ j) as [r e]. cbn [fst snd]. destruct e; [reflexivity|]. cbn [all_some orb].
  rewrite IH. destruct (bad_over _ js); reflexivity.
Qed.
Lemma rows_decode olds js : decode (TSlice row_type) (VSlice (Some (map row_val olds))) (JArr js) =
  if bad_over olds js then None else Some (VSlice (Some (map row_val (read_over olds js)))).
Proof.
  pose proof (rows_decode_at olds js 0) as H. cbn [skipn] in H.
  change (option_map (fun vs => VSlice (Some vs)) (all_some (map (fun ij => decode row_type (nth (fst ij) (map row_val olds) (zero row_type)) (snd ij))
    (combine (seq 0 (length js)) js))) = if bad_over olds js then None else Some (VSlice (Some (map row_val (read_over olds js))))).
  rewrite H. destruct (bad_over olds js); reflexivity.
Qed.

(** ** A slice of rows *)
Section Rows.
Variable spare : nat -> nat.

Lemma fresh_disjoint (h : heap rw) s' t : length h <= s_arr s' -> valid h t -> disjoint s' t.
Proof.
  intros L [_ V]. unfold disjoint. destruct (Nat.eq_dec (s_cap t) 0) as [Z|Z]; [auto|]. right; right; left. specialize (V Z). lia.
Qed.
Lemma nil_valid (h : heap rw) : valid h nil_slice.
Proof. split; cbn; [lia|]. intros H. now contradiction H. Qed.

Lemma rows_ok h s js : valid h s ->
  exists h' s', read_rows spare h s (JArr js) = (h', s', bad_over (region h s) js) /\ valid h' s' /\
    view h' s' = read_over (region h s) js /\ length h <= length h' /\
    (js <> [] -> length js <= s_cap s -> s_arr s' = s_arr s /\ s_off s' = s_off s /\ s_cap s' = s_cap s) /\
    (js = [] \/ s_cap s < length js -> forall t, valid h t -> disjoint s' t) /\
    forall t, valid h t -> valid h' t /\ region h' t = region (store h s 0 (firstn (s_cap s) (read_over (region h s) js))) t.
Proof.
  intros V. destruct (read_elems_ok spare js h s 0 V ltac:(lia)) as (h' & s' & E & V' & Ln & Lh & F & Same & Own & M).
  cbn [skipn plus firstn app] in *. rewrite Nat.sub_0_r in M. unfold read_rows. rewrite E.
  destruct js as [|j js].
  - exists h', nil_slice. split; [reflexivity|]. split; [apply nil_valid|]. split; [reflexivity|]. split; [exact Lh|].
    split; [congruence|]. split; [|exact M]. intros _ t _. left. reflexivity.
  - set (js' := j :: js) in *. exists h', (mkSlice (s_arr s') (s_off s') (length js') (s_cap s')). split; [reflexivity|].
    assert (valid h' (mkSlice (s_arr s') (s_off s') (length js') (s_cap s'))) as V2.
    { destruct V' as [W1 W2]. split; cbn [s_len s_cap s_arr s_off]; [lia|exact W2]. }
    split; [exact V2|]. split; [rewrite view_region by exact V2; exact F|]. split; [exact Lh|]. split; [intros _; exact Same|].
    split; [|exact M]. intros [Q|Q] t Vt; [discriminate Q|]. apply fresh_disjoint with (h := h); [cbn; now apply Own|exact Vt].
Qed.

Lemma through_store (h : heap rw) s t xs (h' : heap rw) : valid h s -> valid h t -> valid h' t -> length xs <= s_cap s ->
  region h' t = region (store h s 0 xs) t ->
  length (view h' t) = length (view h t) /\
  forall k, k < s_len t ->
    (forall p, p < length xs -> same_place s p t k -> nth_error (view h' t) k = nth_error xs p) /\
    ((forall p, p < length xs -> ~ same_place s p t k) -> nth_error (view h' t) k = nth_error (view h t) k).
Proof.
  intros V Vt Vt' L R. rewrite !view_len by assumption. split; [reflexivity|]. intros k Lk. pose proof (proj1 Vt) as LC.
  assert (nth_error (view h' t) k = nth_error (nth (s_arr t) (store h s 0 xs) []) (s_off t + k)) as E1.
  { rewrite view_region, R by exact Vt'. rewrite nth_firstn', nth_region. destruct (Nat.ltb_spec k (s_len t)); [|lia].
    destruct (Nat.ltb_spec k (s_cap t)); [reflexivity|lia]. }
  assert (nth_error (view h t) k = nth_error (nth (s_arr t) h []) (s_off t + k)) as E2.
  { rewrite view_region by exact Vt. rewrite nth_firstn', nth_region. destruct (Nat.ltb_spec k (s_len t)); [|lia].
    destruct (Nat.ltb_spec k (s_cap t)); [reflexivity|lia]. }
  rewrite E1, E2. destruct Vt as [_ Vt]. specialize (Vt ltac:(lia)).
  destruct xs as [|x xs].
  { rewrite store_none. split; [cbn; lia|reflexivity]. }
  set (ys := x :: xs) in *. destruct V as [_ V]. specialize (V ltac:(cbn in L; lia)).
  unfold same_place. split.
  - intros p Lp [Ea Eo]. unfold store. rewrite <- Ea, set_array_same by lia. rewrite nth_overwrite by lia.
    rewrite Nat.add_0_r. destruct (Nat.ltb_spec (s_off t + k) (s_off s)); [lia|].
    destruct (Nat.ltb_spec (s_off t + k) (s_off s + length ys)); [f_equal; lia|lia].
  - intros H. unfold store. destruct (Nat.eq_dec (s_arr s) (s_arr t)) as [Ea|Ea].
    + rewrite <- Ea, set_array_same by lia. rewrite nth_overwrite by lia. rewrite Nat.add_0_r.
      destruct (Nat.ltb_spec (s_off t + k) (s_off s)); [reflexivity|].
      destruct (Nat.ltb_spec (s_off t + k) (s_off s + length ys)); [|reflexivity].
      exfalso. apply (H (s_off t + k - s_off s)); [lia|]. split; [exact Ea|lia].
    + now rewrite set_array_other.
Qed.
Lemma nth_firstn_some (l : list rw) c p : p < c -> nth_error (firstn c l) p = nth_error l p.
Proof. intros H. rewrite nth_firstn'. destruct (Nat.ltb_spec p c); [reflexivity|lia]. Qed.
Lemma through (h : heap rw) s t news (h' : heap rw) : valid h s -> valid h t -> valid h' t ->
  region h' t = region (store h s 0 (firstn (s_cap s) news)) t -> written_through s news (view h t) t (view h' t).
Proof.
  intros V Vt Vt' R. pose proof (firstn_length (s_cap s) news) as FL.
  assert (length (firstn (s_cap s) news) <= s_cap s) as FC by (rewrite firstn_length; lia).
  destruct (through_store h s t (firstn (s_cap s) news) h' V Vt Vt' FC R) as [L H]. split; [exact L|].
  rewrite view_len by exact Vt. intros k Lk. destruct (H k Lk) as [H1 H2]. split.
  - intros p Lp Ln P. rewrite (H1 p ltac:(lia) P). now apply nth_firstn_some.
  - intros N. apply H2. intros p Lp. apply N; lia.
Qed.

(** Reading into [s] touches nothing apart from [s]. *)
Lemma rows_step h s j h' s' e : valid h s -> read_rows spare h s j = (h', s', e) -> step h s h' s'.
Proof.
  intros V E. assert (forall b, read_rows spare h s j = (h, s, b) -> step h s h' s') as Id.
  { intros b Eb. rewrite Eb in E. injection E as <- <- _. now apply step_refl. }
  destruct j as [|b|x|x|js|ms]; try (eapply Id; reflexivity).
  - injection E as <- <- _. split; [apply nil_valid|]. intros t Vt _. split; [exact Vt|]. split; [reflexivity|]. left. reflexivity.
  - destruct (rows_ok h s js V) as (h1 & s1 & E1 & V1 & _ & _ & Same & Own & M). rewrite E1 in E. injection E as <- <- _.
    split; [exact V1|]. intros t Vt D. destruct (M t Vt) as [A B]. split; [exact A|].
    split; [rewrite B; apply store_other; auto; rewrite firstn_length; lia|].
    destruct js as [|j0 js]; [apply Own; auto|].
    destruct (Nat.le_gt_cases (length (j0 :: js)) (s_cap s)) as [Q|Q]; [|apply Own; auto].
    destruct (Same ltac:(congruence) Q) as (A1 & A2 & A3). unfold disjoint in *. rewrite A1, A2, A3. exact D.
Qed.

(** ** Books *)
Definition outside (h : heap rw) (b : hbook) (h' : heap rw) (b' : hbook) : Prop :=
  own h' b' /\ forall t, valid h t -> apart b t -> valid h' t /\ region h' t = region h t /\ apart b' t.
Lemma outside_refl h b b' : own h b -> hb_asks b' = hb_asks b -> hb_bids b' = hb_bids b -> outside h b h b'.
Proof. intros O Ea Eb. unfold outside, own, apart. rewrite Ea, Eb. split; [exact O|]. auto. Qed.
Lemma outside_trans h b h1 b1 h2 b2 : outside h b h1 b1 -> outside h1 b1 h2 b2 -> outside h b h2 b2.
Proof.
  intros [_ H1] [O2 H2]. split; [exact O2|]. intros t Vt A. destruct (H1 t Vt A) as (B1 & B2 & B3).
  destruct (H2 t B1 B3) as (C1 & C2 & C3). rewrite C2. auto.
Qed.
Lemma field_outside h b kv h' b' e : own h b -> read_field spare h b kv = (h', b', e) -> outside h b h' b'.
Proof.
  intros O E. destruct O as (Va & Vb & D). unfold read_field in E.
  assert (forall z z', outside h b h (mkHBook z (hb_asks b) (hb_bids b) z')) as Id.
  { intros z z'. apply outside_refl; [split; [exact Va|split; assumption]|reflexivity|reflexivity]. }
  assert (outside h b h b) as Idb by (apply outside_refl; [split; [exact Va|split; assumption]|reflexivity|reflexivity]).
  destruct (field_index _ _) as [[|[|[|[|i]]]]|].
  - destruct (read_int _ _). injection E as <- <- _. apply Id.
  - destruct (read_rows spare h (hb_asks b) (snd kv)) as [[h1 s1] e1] eqn:R. injection E as <- <- _.
    destruct (rows_step _ _ _ _ _ _ Va R) as [V1 M]. destruct (M _ Vb D) as (B1 & B2 & B3). split; [split; [exact V1|split; assumption]|].
    intros t Vt [A1 A2]. destruct (M t Vt A1) as (C1 & C2 & C3). split; [exact C1|]. split; [exact C2|]. split; assumption.
  - destruct (read_rows spare h (hb_bids b) (snd kv)) as [[h1 s1] e1] eqn:R. injection E as <- <- _.
    destruct (rows_step _ _ _ _ _ _ Vb R) as [V1 M]. destruct (M _ Va (disjoint_sym _ _ D)) as (B1 & B2 & B3).
    split; [split; [exact B1|split; [exact V1|now apply disjoint_sym]]|].
    intros t Vt [A1 A2]. destruct (M t Vt A2) as (C1 & C2 & C3). split; [exact C1|]. split; [exact C2|]. split; assumption.
  - destruct (read_int _ _). injection E as <- <- _. apply Id.
  - injection E as <- <- _. exact Idb.
  - injection E as <- <- _. exact Idb.
Qed.
Lemma fields_outside ms : forall h b h' b' e, own h b -> read_fields spare h b ms = (h', b', e) -> outside h b h' b'.
Proof.
  induction ms as [|kv ms IH]; intros h b h' b' e O E; cbn [read_fields] in E.
  - injection E as <- <- _. now apply outside_refl.
  - destruct (read_field spare h b kv) as [[h1 b1] e1] eqn:E1. destruct (read_fields spare h1 b1 ms) as [[h2 b2] e2] eqn:E2. injection E as <- <- _.
    pose proof (field_outside _ _ _ _ _ _ O E1) as S1. eapply outside_trans; [exact S1|]. eapply IH; [exact (proj1 S1)|exact E2].
Qed.
Lemma unmarshal_outside h b text h' b' e : own h b -> h_unmarshal_book spare h b text = (h', b', e) -> outside h b h' b'.
Proof.
  intros O E. unfold h_unmarshal_book in E.
  assert (forall x, (h, b, x) = (h', b', e) -> outside h b h' b') as Id by (intros x X; injection X as <- <- _; now apply outside_refl).
  destruct (parse_json text) as [j|]; [|eapply Id; exact E]. destruct (_ <=? _)%Z; [|eapply Id; exact E].
  destruct j as [|x|x|x|js|ms]; try (eapply Id; exact E). eapply fields_outside; eassumption.
Qed.
End Rows.
