(** Reasoning about slices in memory. *)
From Coq Require Import Lia Arith.
From Verif Require Import Go.Outcome Go.Slice Go.Heap Spec.HeapSpec.
Open Scope list_scope.
Open Scope Z_scope.
Local Notation length := List.length.

Section Heap.
Context {A : Type}.
Implicit Types (h : heap A) (s t : slice) (l xs : list A).

Definition region h s : list A := firstn (s_cap s) (skipn (s_off s) (nth (s_arr s) h [])).

Lemma disjoint_sym s t : disjoint s t -> disjoint t s.
Proof. unfold disjoint. intuition. Qed.

Lemma view_region h s : valid h s -> view h s = firstn (s_len s) (region h s).
Proof. intros [H _]. unfold view, region. rewrite firstn_firstn. now rewrite Nat.min_l. Qed.
Lemma region_len h s : valid h s -> length (region h s) = s_cap s.
Proof.
  intros [_ H]. unfold region. rewrite firstn_length, skipn_length. destruct (Nat.eq_dec (s_cap s) 0); lia.
Qed.
Lemma view_len h s : valid h s -> length (view h s) = s_len s.
Proof. intros H. rewrite view_region by assumption. rewrite firstn_length, region_len by assumption. destruct H. lia. Qed.
Lemma view_zlen h s : valid h s -> zlen (view h s) = Z.of_nat (s_len s).
Proof. intros H. unfold zlen. now rewrite view_len. Qed.

Lemma set_array_len i l h : length (set_array i l h) = length h.
Proof. revert i. induction h as [|x h IH]; intros [|i]; simpl; auto. Qed.
Lemma set_array_same i l h : (i < length h)%nat -> nth i (set_array i l h) [] = l.
Proof. revert i. induction h as [|x h IH]; intros [|i]; simpl; intros; try lia; auto. apply IH. lia. Qed.
Lemma set_array_other i j l h : i <> j -> nth j (set_array i l h) [] = nth j h [].
Proof. revert i j. induction h as [|x h IH]; intros [|i] [|j]; simpl; intros; auto; try lia. Qed.
Lemma overwrite_len k xs l : (k + length xs <= length l)%nat -> length (overwrite k xs l) = length l.
Proof. intros H. unfold overwrite. rewrite !app_length, firstn_length, skipn_length. lia. Qed.

Lemma nth_skipn' k l i : nth_error (skipn k l) i = nth_error l (k + i).
Proof. revert l. induction k as [|k IH]; intros l; [reflexivity|]. destruct l; simpl; [now destruct i|]. apply IH. Qed.
Lemma nth_firstn' k l i : nth_error (firstn k l) i = if (i <? k)%nat then nth_error l i else None.
Proof.
  revert l i. induction k as [|k IH]; intros l i; simpl; [now destruct i|]. destruct l, i; simpl; auto.
  - now destruct (S i <? S k)%nat.
  - rewrite IH. now destruct (Nat.ltb_spec i k), (Nat.ltb_spec (S i) (S k)); try lia.
Qed.
Lemma nth_overwrite k xs l i : (k + length xs <= length l)%nat ->
  nth_error (overwrite k xs l) i =
  if (i <? k)%nat then nth_error l i else if (i <? k + length xs)%nat then nth_error xs (i - k) else nth_error l i.
Proof.
  intros H. unfold overwrite. destruct (Nat.ltb_spec i k).
  - rewrite nth_error_app1 by (rewrite firstn_length; lia). rewrite nth_firstn'. destruct (Nat.ltb_spec i k); [reflexivity|lia].
  - rewrite nth_error_app2 by (rewrite firstn_length; lia). rewrite firstn_length, Nat.min_l by lia.
    destruct (Nat.ltb_spec i (k + length xs)).
    + rewrite nth_error_app1 by lia. reflexivity.
    + rewrite nth_error_app2 by lia. rewrite nth_skipn'. f_equal. lia.
Qed.
Lemma list_ext l l' : (forall i, nth_error l i = nth_error l' i) -> l = l'.
Proof.
  revert l'. induction l as [|x l IH]; intros [|y l'] H; auto.
  - specialize (H 0%nat). discriminate.
  - specialize (H 0%nat). discriminate.
  - pose proof (H 0%nat) as H0. simpl in H0. injection H0 as ->. f_equal. apply IH. intros i. apply (H (S i)).
Qed.
Lemma skipn_skipn' a b l : skipn a (skipn b l) = skipn (a + b) l.
Proof. apply list_ext. intros i. rewrite !nth_skipn'. f_equal. lia. Qed.
Lemma nth_region h s i : nth_error (region h s) i =
  if (i <? s_cap s)%nat then nth_error (nth (s_arr s) h []) (s_off s + i) else None.
Proof. unfold region. rewrite nth_firstn', nth_skipn'. reflexivity. Qed.

(** ** Stores *)
Lemma store_len h s i xs : length (store h s i xs) = length h.
Proof. apply set_array_len. Qed.
Lemma store_region h s i xs : valid h s -> (i + length xs <= s_cap s)%nat ->
  region (store h s i xs) s = overwrite i xs (region h s).
Proof.
  intros V H. destruct (Nat.eq_dec (s_cap s) 0) as [Z|Z].
  { assert (xs = []) as -> by (destruct xs; simpl in H; [reflexivity|lia]). unfold region. rewrite Z. simpl.
    unfold overwrite. simpl. rewrite firstn_nil, skipn_nil. reflexivity. }
  destruct V as [V1 V2]. destruct (V2 Z) as [Va Vo].
  apply list_ext. intros j. rewrite nth_overwrite by (rewrite region_len by (split; auto); assumption).
  rewrite !nth_region. unfold store. rewrite set_array_same by assumption. rewrite nth_overwrite by lia.
  destruct (Nat.ltb_spec j (s_cap s)) as [L|L], (Nat.ltb_spec j i), (Nat.ltb_spec (s_off s + j) (s_off s + i)),
    (Nat.ltb_spec j (i + length xs)), (Nat.ltb_spec (s_off s + j) (s_off s + i + length xs)); try lia; try reflexivity.
  f_equal. lia.
Qed.
Lemma store_valid h s i xs t : (i + length xs <= s_cap s)%nat -> valid h s -> valid h t -> valid (store h s i xs) t.
Proof.
  intros Hi Vs [V1 V2]. split; [assumption|]. intros Z. destruct (V2 Z) as [Va Vo]. rewrite store_len. split; [assumption|].
  unfold store. destruct (Nat.eq_dec (s_arr s) (s_arr t)) as [E|E].
  - rewrite <- E in *. rewrite set_array_same by assumption. destruct Vs as [_ Vs].
    destruct (Nat.eq_dec (s_cap s) 0) as [Z0|Z0].
    + assert (xs = []) as -> by (destruct xs; simpl in Hi; [reflexivity|lia]). unfold overwrite. simpl.
      rewrite Nat.add_0_r, firstn_skipn. assumption.
    + specialize (Vs Z0). rewrite overwrite_len by lia. assumption.
  - rewrite set_array_other by assumption. assumption.
Qed.
Lemma store_other h s i xs t : (i + length xs <= s_cap s)%nat -> valid h s -> valid h t -> disjoint s t ->
  region (store h s i xs) t = region h t.
Proof.
  intros Hi Vs Vt D. apply list_ext. intros j. rewrite !nth_region. destruct (Nat.ltb_spec j (s_cap t)) as [L|L]; [|reflexivity].
  unfold store. destruct (Nat.eq_dec (s_arr s) (s_arr t)) as [E|E].
  - destruct Vs as [_ Vs], Vt as [_ Vt]. specialize (Vt ltac:(lia)).
    destruct (Nat.eq_dec (s_cap s) 0) as [Z0|Z0].
    + assert (xs = []) as -> by (destruct xs; simpl in Hi; [reflexivity|lia]). rewrite <- E, set_array_same by lia.
      unfold overwrite. simpl. now rewrite Nat.add_0_r, firstn_skipn.
    + specialize (Vs Z0). rewrite <- E in *. rewrite set_array_same by lia. rewrite nth_overwrite by lia.
      destruct (Nat.ltb_spec (s_off t + j) (s_off s + i)); [reflexivity|].
      destruct (Nat.ltb_spec (s_off t + j) (s_off s + i + length xs)); [|reflexivity].
      exfalso. unfold disjoint in D. lia.
  - now rewrite set_array_other.
Qed.

(** ** Steps: [s] becomes [s'] and nothing apart from [s] is touched. *)
Definition step h s h' s' : Prop :=
  valid h' s' /\
  forall t, valid h t -> disjoint s t -> valid h' t /\ region h' t = region h t /\ disjoint s' t.

Lemma step_refl h s : valid h s -> step h s h s.
Proof. intros V. split; [assumption|]. auto. Qed.
Lemma step_trans h s h1 s1 h2 s2 : step h s h1 s1 -> step h1 s1 h2 s2 -> step h s h2 s2.
Proof.
  intros [V1 S1] [V2 S2]. split; [assumption|]. intros t Vt D. destruct (S1 t Vt D) as (A1 & A2 & A3).
  destruct (S2 t A1 A3) as (B1 & B2 & B3). rewrite B2. auto.
Qed.
Lemma step_view h s h' s' t : step h s h' s' -> valid h t -> disjoint s t -> view h' t = view h t.
Proof.
  intros [_ S] Vt D. destruct (S t Vt D) as (A1 & A2 & _). rewrite !view_region by assumption. now rewrite A2.
Qed.

Lemma store_step h s i xs : valid h s -> (i + length xs <= s_cap s)%nat -> step h s (store h s i xs) s.
Proof.
  intros V H. split; [now apply store_valid|]. intros t Vt D. split; [now apply store_valid|]. split; [now apply store_other|assumption].
Qed.
Lemma store_view h s i xs : valid h s -> (i + length xs <= s_len s)%nat -> view (store h s i xs) s = overwrite i xs (view h s).
Proof.
  intros V H. pose proof (proj1 V) as L. pose proof (view_len h s V) as VL.
  rewrite view_region by (apply store_valid; auto; lia). rewrite store_region by (auto; lia).
  apply list_ext. intros j. rewrite nth_firstn', !nth_overwrite by (rewrite ?region_len by assumption; lia).
  rewrite view_region by assumption. rewrite !nth_firstn'.
  destruct (Nat.ltb_spec j (s_len s)), (Nat.ltb_spec j i), (Nat.ltb_spec j (i + length xs)); try lia; reflexivity.
Qed.

Lemma set_elem_ok h s i x : valid h s -> (0 <= i < Z.of_nat (s_len s)) ->
  exists h', set_elem h s i x = Ret h' /\ step h s h' s /\ view h' s = overwrite (Z.to_nat i) [x] (view h s).
Proof.
  intros V H. unfold set_elem. destruct (Z.ltb_spec i 0); [lia|]. destruct (Z.leb_spec (Z.of_nat (s_len s)) i); [lia|].
  cbn [orb]. eexists. split; [reflexivity|]. pose proof (proj1 V). split; [apply store_step; simpl; auto; lia|].
  apply store_view; simpl; auto; lia.
Qed.
Lemma get_elem_index h s i : get_elem h s i = index (view h s) i.
Proof. reflexivity. Qed.

Lemma append_ok z k h s xs : valid h s -> let r := append_slice z k h s xs in
  step h s (fst r) (snd r) /\ view (fst r) (snd r) = view h s ++ xs /\ s_len (snd r) = (s_len s + length xs)%nat.
Proof.
  intros V. pose proof (proj1 V) as VL. unfold append_slice. cbv zeta.
  destruct (Nat.leb_spec (s_len s + length xs) (s_cap s)) as [L|L]; cbn [fst snd].
  - set (s' := mkSlice (s_arr s) (s_off s) (s_len s + length xs) (s_cap s)).
    assert (valid h s') as V' by (destruct V as [? V2]; split; [exact L|exact V2]).
    assert (step h s' (store h s (s_len s) xs) s') as St.
    { change (store h s (s_len s) xs) with (store h s' (s_len s) xs). now apply store_step. }
    split; [|split; [|reflexivity]].
    + split; [exact (proj1 St)|]. intros t Vt D. exact (proj2 St t Vt D).
    + change (store h s (s_len s) xs) with (store h s' (s_len s) xs). rewrite store_view by (auto; simpl; lia).
      rewrite !view_region by assumption. change (region h s') with (region h s). cbn [s_len s'].
      unfold overwrite. rewrite firstn_firstn, Nat.min_l by lia.
      rewrite skipn_all2 by (rewrite firstn_length; lia). now rewrite app_nil_r.
  - set (arr := view h s ++ xs ++ repeat z k).
    assert (length arr = s_len s + length xs + k)%nat as La.
    { unfold arr. rewrite !app_length, view_len, repeat_length by assumption. lia. }
    assert (nth (length h) (h ++ [arr]) [] = arr) as Na by (rewrite app_nth2, Nat.sub_diag by lia; reflexivity).
    split; [|split; [|reflexivity]].
    + split.
      * split; cbn [s_len s_cap s_arr s_off]; [lia|]. intros _. rewrite app_length, Na, La. simpl. lia.
      * intros t [T1 T2] D. assert (s_cap t <> 0%nat -> nth (s_arr t) (h ++ [arr]) [] = nth (s_arr t) h []) as E.
        { intros Z. apply app_nth1. now apply T2. }
        split; [|split].
        -- split; [assumption|]. intros Z. rewrite app_length, E by assumption. specialize (T2 Z). lia.
        -- unfold region. destruct (Nat.eq_dec (s_cap t) 0) as [Z|Z]; [now rewrite Z|]. now rewrite E.
        -- unfold disjoint. cbn [s_cap s_arr s_off]. destruct (Nat.eq_dec (s_cap t) 0) as [Z|Z]; [auto|].
           right; right; left. specialize (T2 Z). lia.
    + unfold view at 1. cbn [s_len s_arr s_off]. rewrite Na. cbn [skipn]. unfold arr. rewrite app_assoc.
      rewrite firstn_app, app_length, view_len by assumption. rewrite Nat.sub_diag. cbn [firstn]. rewrite app_nil_r.
      rewrite firstn_all2; [reflexivity|]. rewrite app_length, view_len by assumption. lia.
Qed.

(** Reslicing within the length: as on lists. *)
Lemma sub_slice_sim h s lo hi : valid h s -> hi <= Z.of_nat (s_len s) ->
  match reslice (view h s) lo hi with
  | Ret l => exists s', sub_slice s lo hi = Ret s' /\ step h s h s' /\ view h s' = l
  | Panic p => sub_slice s lo hi = Panic p
  end.
Proof.
  intros V H. unfold reslice, sub_slice. rewrite view_zlen by assumption. pose proof (proj1 V) as VL.
  destruct (Z.leb_spec 0 lo); [|reflexivity]. destruct (Z.leb_spec lo hi); [|reflexivity].
  destruct (Z.leb_spec hi (Z.of_nat (s_len s))); [|lia]. destruct (Z.leb_spec hi (Z.of_nat (s_cap s))); [|lia].
  cbn [andb]. set (s' := mkSlice _ _ _ _). exists s'. split; [reflexivity|]. split.
  - destruct V as [V1 V2]. split.
    + split; cbn [s_len s_cap s_arr s_off s']; [lia|]. intros Z. assert (s_cap s <> 0%nat) as Z' by lia. specialize (V2 Z'). lia.
    + intros t Vt D. split; [assumption|]. split; [reflexivity|]. unfold disjoint in *. cbn [s_cap s_arr s_off s']. lia.
  - unfold view at 1. cbn [s_len s_off s_arr s']. unfold view. rewrite skipn_firstn_comm, firstn_firstn.
    rewrite skipn_skipn'. rewrite Nat.min_l by lia. rewrite (Nat.add_comm (Z.to_nat lo)). reflexivity.
Qed.
End Heap.
