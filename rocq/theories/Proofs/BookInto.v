(** C123: reading JSON into rows in memory. *)
From Coq Require Import ZArith Lia List Bool String.
From Verif Require Import Go.Outcome Go.Slice Go.Float64 Go.Num Go.Text Go.Json Go.JsonInto Go.Heap Model.OrderBook Model.OrderBookHeap Model.Stored Model.BookInto
  Spec.HeapSpec Spec.BookIntoSpec Proofs.Heap.
Import ListNotations.
Open Scope list_scope.
Open Scope nat_scope.
Local Notation length := List.length.
Local Notation rw := (row f64).

(** ** The rows, as values *)
Fixpoint read_over (olds : list rw) (js : list json) : list rw :=
  match js with
  | [] => []
  | j :: r => fst (read_row (hd zero_row olds) j) :: read_over (tl olds) r
  end.
Fixpoint bad_over (olds : list rw) (js : list json) : bool :=
  match js with
  | [] => false
  | j :: r => (snd (read_row (hd zero_row olds) j) || bad_over (tl olds) r)%bool
  end.
Lemma read_over_len js : forall olds, length (read_over olds js) = length js.
Proof. induction js as [|j js IH]; intros olds; cbn [read_over length]; auto. Qed.
Lemma hd_skipn (l : list rw) i : hd zero_row (skipn i l) = nth i l zero_row.
Proof. revert i. induction l as [|x l IH]; intros [|i]; cbn; auto. Qed.
Lemma tl_skipn {A} (l : list A) i : tl (skipn i l) = skipn (S i) l.
Proof. revert i. induction l as [|x l IH]; intros [|i]; try reflexivity. cbn [skipn]. rewrite IH. destruct l; reflexivity. Qed.
Lemma read_over_nth js : forall olds i j, nth_error js i = Some j ->
  nth_error (read_over olds js) i = Some (fst (read_row (nth i olds zero_row) j)).
Proof.
  induction js as [|j0 js IH]; intros olds i j H; [destruct i; discriminate|]. destruct i as [|i]; cbn [nth_error read_over] in *.
  - injection H as ->. destruct olds; reflexivity.
  - rewrite (IH _ _ _ H). destruct olds; cbn [tl nth]; [destruct i; reflexivity|reflexivity].
Qed.
(** Only the old rows in the places read matter. *)
Lemma read_over_ext js : forall olds olds', (forall i, i < length js -> nth i olds zero_row = nth i olds' zero_row) ->
  read_over olds js = read_over olds' js /\ bad_over olds js = bad_over olds' js.
Proof.
  induction js as [|j js IH]; intros olds olds' H; [split; reflexivity|]. cbn [read_over bad_over].
  assert (hd zero_row olds = hd zero_row olds') as ->.
  { specialize (H 0 ltac:(cbn; lia)). destruct olds, olds'; exact H. }
  destruct (IH (tl olds) (tl olds')) as [-> ->]; [|split; reflexivity].
  intros i L. specialize (H (S i) ltac:(cbn; lia)). destruct olds, olds'; cbn [tl nth] in *; auto; destruct i; auto.
Qed.

(** ** Memory *)
Lemma overwrite_twice (l : list rw) k x xs : k + S (length xs) <= length l ->
  overwrite (S k) xs (overwrite k [x] l) = overwrite k (x :: xs) l.
Proof.
  intros H. apply list_ext. intros i.
  assert (length (overwrite k [x] l) = length l) as L1 by (apply overwrite_len; cbn; lia).
  rewrite nth_overwrite by (rewrite L1; lia). rewrite (nth_overwrite k (x :: xs)) by (cbn; lia).
  rewrite nth_overwrite by (cbn; lia). cbn [length].
  destruct (Nat.ltb_spec i (S k)), (Nat.ltb_spec i k), (Nat.ltb_spec i (k + 1)), (Nat.ltb_spec i (k + S (length xs))),
    (Nat.ltb_spec i (S k + length xs)); try lia; try reflexivity.
  - assert (i = k) as -> by lia. rewrite Nat.sub_diag. reflexivity.
  - destruct (i - k) as [|d] eqn:E; [lia|]. cbn [nth_error]. f_equal. lia.
Qed.
Lemma set_array_twice (h : heap rw) i a b : set_array i b (set_array i a h) = set_array i b h.
Proof. revert i. induction h as [|x h IH]; intros [|i]; cbn; try reflexivity. now rewrite IH. Qed.
Lemma set_array_id (h : heap rw) i : set_array i (nth i h []) h = h.
Proof. revert i. induction h as [|x h IH]; intros [|i]; cbn; try reflexivity. now rewrite IH. Qed.
Lemma store_none (h : heap rw) s i : store h s i [] = h.
Proof. unfold store, overwrite. cbn [app length]. rewrite Nat.add_0_r, firstn_skipn. apply set_array_id. Qed.
Lemma store_more (h : heap rw) s i x xs : valid h s -> i + S (length xs) <= s_cap s ->
  store (store h s i [x]) s (S i) xs = store h s i (x :: xs).
Proof.
  intros [_ V] H. destruct (V ltac:(lia)) as [Va Vo]. unfold store. rewrite set_array_same by exact Va. rewrite set_array_twice. f_equal.
  replace (s_off s + S i) with (S (s_off s + i)) by lia. apply overwrite_twice. lia.
Qed.
Lemma store_header (h : heap rw) s s' i xs : s_arr s = s_arr s' -> s_off s = s_off s' -> store h s i xs = store h s' i xs.
Proof. intros E1 E2. unfold store. now rewrite E1, E2. Qed.
Lemma region_header (h : heap rw) s s' : s_arr s = s_arr s' -> s_off s = s_off s' -> s_cap s = s_cap s' -> region h s = region h s'.
Proof. intros E1 E2 E3. unfold region. now rewrite E1, E2, E3. Qed.

Lemma nth_firstn_lt (l : list rw) k i d : i < k -> nth i (firstn k l) d = nth i l d.
Proof. revert k l. induction i as [|i IH]; intros [|k] [|x l] H; cbn; try lia; auto. apply IH. lia. Qed.
Lemma skipn_repeat (x : rw) m : forall d k, nth k (skipn d (repeat x m)) x = x.
Proof.
  induction m as [|m IH]; intros d k; [destruct d, k; reflexivity|]. destruct d as [|d]; [|apply IH].
  destruct k as [|k]; [reflexivity|]. exact (IH 0 k).
Qed.
Lemma skipn_overwrite (l : list rw) k x : k + 1 <= length l -> skipn (S k) (overwrite k [x] l) = skipn (S k) l.
Proof.
  intros H. apply list_ext. intros i. rewrite !nth_skipn', nth_overwrite by (cbn; lia).
  destruct (Nat.ltb_spec (S k + i) k), (Nat.ltb_spec (S k + i) (k + length [x])); cbn in *; try lia. reflexivity.
Qed.
Lemma firstn_overwrite (l : list rw) k x : k + 1 <= length l -> firstn (S k) (overwrite k [x] l) = firstn k l ++ [x].
Proof.
  intros H. unfold overwrite. rewrite firstn_app, firstn_firstn, firstn_length, !Nat.min_r by lia.
  replace (S k - k) with 1 by lia. rewrite Nat.min_l by lia. replace (S k - k) with 1 by lia. reflexivity.
Qed.

(** What the loop does. *)
Definition looped (h : heap rw) (s : slice) (i : nat) (js : list json) (h' : heap rw) (s' : slice) : Prop :=
  let news := read_over (skipn i (region h s)) js in
  valid h' s' /\ i + length js <= s_len s' /\ length h <= length h' /\
  firstn (i + length js) (region h' s') = firstn i (region h s) ++ news /\
  (i + length js <= s_cap s -> s_arr s' = s_arr s /\ s_off s' = s_off s /\ s_cap s' = s_cap s) /\
  (s_cap s < i + length js -> length h <= s_arr s') /\
  forall t, valid h t -> valid h' t /\ region h' t = region (store h s i (firstn (s_cap s - i) news)) t.

Lemma valid_more (h : heap rw) a t : valid h t -> valid (h ++ [a]) t /\ region (h ++ [a]) t = region h t.
Proof.
  intros [T1 T2]. assert (s_cap t <> 0 -> nth (s_arr t) (h ++ [a]) [] = nth (s_arr t) h []) as E.
  { intros Z. apply app_nth1. now apply T2. }
  split.
  - split; [assumption|]. intros Z. rewrite app_length, E by assumption. specialize (T2 Z). lia.
  - unfold region. destruct (Nat.eq_dec (s_cap t) 0) as [Z|Z]; [now rewrite Z|]. now rewrite E.
Qed.

Section Loop.
Variable spare : nat -> nat.

Lemma read_elems_ok js : forall h s i, valid h s -> i <= s_len s ->
  exists h' s', read_elems spare h s i js = (h', s', bad_over (skipn i (region h s)) js) /\ looped h s i js h' s'.
Proof.
  induction js as [|j js IH]; intros h s i V L.
  { exists h, s. split; [reflexivity|]. unfold looped. cbn [read_over length]. rewrite !Nat.add_0_r, app_nil_r.
    pose proof (proj1 V). split; [exact V|]. split; [lia|]. split; [lia|]. split; [reflexivity|]. split; [auto|]. split; [lia|].
    intros t Vt. split; [exact Vt|]. rewrite firstn_nil, store_none. reflexivity. }
  pose proof (proj1 V) as LC. cbn [read_elems]. unfold grow.
  destruct (Nat.leb_spec (s_cap s) i) as [G|G].
  - (* a new array *)
    assert (s_len s = s_cap s /\ i = s_cap s) as [El Ei] by lia. subst i.
    set (n := s_cap s + 1 + spare (s_cap s)). set (arr := view h s ++ repeat zero_row (n - s_len s)).
    assert (length (view h s) = s_len s) as VL by now apply view_len.
    assert (length arr = n) as LA by (unfold arr; rewrite app_length, repeat_length, VL; unfold n in *; lia).
    cbn [s_len s_cap s_arr s_off]. rewrite El. rewrite Nat.leb_refl.
    set (s2 := mkSlice (length h) 0 (S (s_cap s)) n). set (h1 := h ++ [arr]).
    assert (nth (length h) h1 [] = arr) as Na by (unfold h1; rewrite app_nth2, Nat.sub_diag by lia; reflexivity).
    assert (valid h1 s2) as V2.
    { split; [unfold s2, n; cbn; lia|]. intros _. unfold s2. cbn [s_arr s_off s_cap]. rewrite Na, LA. unfold h1. rewrite app_length. cbn. lia. }
    assert (region h1 s2 = arr) as R2.
    { unfold region, s2. cbn [s_cap s_off s_arr]. rewrite Na. cbn [skipn]. apply firstn_all2. lia. }
    assert (region h s = view h s) as RV by (unfold region, view; now rewrite El).
    assert (nth (s_cap s) (view h1 s2) zero_row = zero_row) as Z0.
    { rewrite view_region by exact V2. rewrite R2. cbn [s_len s2]. rewrite nth_firstn_lt by lia. unfold arr. rewrite app_nth2 by lia.
      rewrite VL, El, Nat.sub_diag. destruct (n - s_cap s) eqn:E; [unfold n in E; lia|]. reflexivity. }
    fold h1 n. fold arr. fold h1.
    rewrite Z0. rewrite (skipn_all2 (region h s)) by (rewrite region_len by exact V; lia). cbn [bad_over hd tl].
    destruct (read_row zero_row j) as [r e] eqn:Er. cbn [fst snd].
    assert (s_cap s + length [r] <= s_cap s2) as Fit by (unfold s2, n; cbn; lia).
    set (h2 := store h1 s2 (s_cap s) [r]).
    assert (valid h2 s2) as V3 by (unfold h2; now apply store_valid).
    destruct (IH h2 s2 (S (s_cap s)) V3 ltac:(cbn; lia)) as (h' & s' & E & V' & Ln & Lh & F & Same & Own & M).
    assert (region h2 s2 = overwrite (s_cap s) [r] arr) as R3 by (unfold h2; rewrite store_region by auto; now rewrite R2).
    assert (forall k, nth k (skipn (S (s_cap s)) (region h2 s2)) zero_row = zero_row) as Zk.
    { intros k. rewrite R3, skipn_overwrite by (rewrite LA; unfold n; lia). unfold arr. rewrite skipn_app, VL, El.
      rewrite skipn_all2 by lia. cbn [app]. apply skipn_repeat. }
    destruct (read_over_ext js (skipn (S (s_cap s)) (region h2 s2)) []) as [Ro Bo].
    { intros k _. rewrite Zk. destruct k; reflexivity. }
    rewrite E, Bo. exists h', s'. split; [reflexivity|]. unfold looped. cbv zeta.
    rewrite (skipn_all2 (region h s)) by (rewrite region_len by exact V; lia). cbn [read_over hd tl length].
    rewrite Er. cbn [fst]. rewrite Nat.sub_diag. cbn [firstn].
    assert (length h1 = S (length h)) as L1 by (unfold h1; rewrite app_length; cbn; lia).
    assert (length h2 = S (length h)) as L2 by (unfold h2; now rewrite store_len).
    split; [exact V'|]. split; [lia|]. split; [lia|]. split.
    + replace (s_cap s + S (length js)) with (S (s_cap s) + length js) by lia. rewrite F, Ro, R3.
      rewrite firstn_overwrite by (rewrite LA; unfold n; lia). unfold arr. rewrite firstn_app, VL, El, Nat.sub_diag. cbn [firstn].
      rewrite app_nil_r, RV, <- app_assoc. reflexivity.
    + split; [lia|]. split.
      * intros _. destruct (Nat.le_gt_cases (S (s_cap s) + length js) (s_cap s2)) as [Q|Q].
        -- destruct (Same Q) as [-> _]. cbn. lia.
        -- specialize (Own Q). lia.
      * intros t Vt. destruct (valid_more h arr t Vt) as [V1t R1t]. fold h1 in V1t, R1t.
        assert (disjoint s2 t) as D.
        { unfold disjoint. cbn [s_cap s_arr s_off s2]. destruct (Nat.eq_dec (s_cap t) 0) as [Z|Z]; [auto|]. right; right; left.
          destruct Vt as [_ Vt]. specialize (Vt Z). lia. }
        assert (valid h2 t) as V2t by (unfold h2; now apply store_valid).
        destruct (M t V2t) as [A B]. split; [exact A|]. rewrite B.
        set (later := firstn _ _) in B |- *.
        assert (S (s_cap s) + length later <= s_cap s2) as Fl.
        { unfold later. rewrite firstn_length. unfold s2, n; cbn [s_cap]. lia. }
        rewrite store_other by auto. unfold h2. rewrite store_other by auto. rewrite store_none. exact R1t.
  - (* within the array *)
    set (s2 := if s_len s <=? i then mkSlice (s_arr s) (s_off s) (S i) (s_cap s) else s).
    assert (s_arr s2 = s_arr s /\ s_off s2 = s_off s /\ s_cap s2 = s_cap s) as (A2 & O2 & C2) by (unfold s2; destruct (s_len s <=? i); auto).
    assert (S i <= s_len s2) as L2 by (unfold s2; destruct (Nat.leb_spec (s_len s) i); cbn; lia).
    assert (valid h s2) as V2.
    { destruct V as [V1 Vc]. split; [unfold s2; destruct (s_len s <=? i); cbn; lia|]. rewrite A2, O2, C2. exact Vc. }
    assert (region h s2 = region h s) as R2 by now apply region_header.
    assert (length (region h s) = s_cap s) as RL by now apply region_len.
    assert (nth i (view h s2) zero_row = nth i (region h s) zero_row) as Nv.
    { rewrite view_region by exact V2. rewrite R2. apply nth_firstn_lt. lia. }
    rewrite Nv, <- hd_skipn. cbn [bad_over].
    destruct (read_row (hd zero_row (skipn i (region h s))) j) as [r e] eqn:Er. cbn [fst snd].
    set (h2 := store h s2 i [r]).
    assert (i + length [r] <= s_cap s2) as Fit by (cbn; lia).
    assert (valid h2 s2) as V3 by (unfold h2; now apply store_valid).
    destruct (IH h2 s2 (S i) V3 L2) as (h' & s' & E & V' & Ln & Lh & F & Same & Own & M).
    assert (region h2 s2 = overwrite i [r] (region h s)) as R3 by (unfold h2; rewrite store_region by auto; now rewrite R2).
    assert (skipn (S i) (region h2 s2) = skipn (S i) (region h s)) as Sk by (rewrite R3; apply skipn_overwrite; lia).
    rewrite E, Sk, <- tl_skipn. exists h', s'. split; [reflexivity|]. unfold looped. cbv zeta. cbn [read_over length]. rewrite Er. cbn [fst].
    rewrite tl_skipn. rewrite Sk in F, M.
    assert (length h2 = length h) as Lh2 by (unfold h2; now rewrite store_len).
    split; [exact V'|]. split; [lia|]. split; [lia|]. split.
    + replace (i + S (length js)) with (S i + length js) by lia. rewrite F, R3, firstn_overwrite, <- app_assoc by lia. reflexivity.
    + split.
      * intros Q. destruct (Same ltac:(lia)) as (-> & -> & ->). auto.
      * split; [intros Q; specialize (Own ltac:(lia)); lia|].
        intros t Vt. assert (valid h2 t) as V2t by (unfold h2; now apply store_valid).
        destruct (M t V2t) as [A B]. split; [exact A|]. rewrite B. rewrite C2.
        replace (s_cap s - i) with (S (s_cap s - S i)) by lia. cbn [firstn].
        unfold h2. rewrite (store_header h s2 s) by auto. rewrite (store_header _ s2 s) by auto.
        rewrite store_more; [reflexivity|exact V|]. rewrite firstn_length. lia.
Qed.
End Loop.
