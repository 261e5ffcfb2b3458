(** Proofs about maps as references (C117). *)
From Coq Require Import Lia Arith.
From Verif Require Import Go.Outcome Go.Slice Go.Num Go.Heap Model.Entities Model.Strategy Model.ActionsHeap
  Spec.HeapSpec Spec.SharedSpec Proofs.Heap.
Open Scope list_scope.
Local Notation length := List.length.

Section Maps.
Context {A : Type}.
Implicit Types (h : mheap A) (r s : mref) (g : gmap A).

Lemma put_map_len i f h : length (put_map i f h) = length h.
Proof. revert i. induction h as [|x h IH]; intros [|i]; simpl; auto. Qed.
Lemma put_map_same i f h : (i < length h)%nat -> nth_error (put_map i f h) i = Some f.
Proof. revert i. induction h as [|x h IH]; intros [|i]; simpl; intros; try lia; auto. apply IH. lia. Qed.
Lemma put_map_other i j f h : i <> j -> nth_error (put_map i f h) j = nth_error h j.
Proof. revert i j. induction h as [|x h IH]; intros [|i] [|j]; simpl; intros; auto; try lia. Qed.

Lemma ok_len h h' r : length h = length h' -> ok_ref h r -> ok_ref h' r.
Proof. intros E. destruct r; simpl; lia. Qed.

Context (gen : string -> A -> A) (get_id : A -> string).

(** The loop on a map in memory: as on the value, and no other map moves. *)
Lemma loop_sim ids l : forall n h i, (i < length h)%nat -> exists h' f,
  h_add_loop gen get_id ids n h (Some i) l = Ret h' /\ length h' = length h /\
  nth_error h' i = Some f /\ add_loop gen get_id ids n (nth_error h i) l = Ret (Some f) /\
  forall j, j <> i -> nth_error h' j = nth_error h j.
Proof.
  induction l as [|a l IH]; intros n h i Hi.
  - destruct (nth_error h i) as [f|] eqn:E; [|apply nth_error_None in E; lia].
    exists h, f. cbn [h_add_loop add_loop]. auto.
  - destruct (nth_error h i) as [f|] eqn:E; [|apply nth_error_None in E; lia].
    cbn [h_add_loop add_loop map_set bind]. unfold h_map_set. rewrite E. cbn [bind].
    set (f1 := fun k' => if String.eqb k' (get_id (gen (ids n) a)) then Some (gen (ids n) a) else f k').
    destruct (IH (S n) (put_map i f1 h) i ltac:(now rewrite put_map_len)) as (h' & f' & E1 & E2 & E3 & E4 & E5).
    exists h', f'. rewrite put_map_len in E2. rewrite put_map_same in E4 by assumption.
    split; [exact E1|]. split; [exact E2|]. split; [exact E3|]. split; [exact E4|].
    intros j Hj. rewrite E5 by assumption. apply put_map_other. congruence.
Qed.
Lemma loop_total ids l n f : exists f', add_loop gen get_id ids n (Some f) l = Ret (Some f').
Proof.
  revert n f. induction l as [|a l IH]; intros n f; [now exists f|]. cbn [add_loop map_set bind]. apply IH.
Qed.
Lemma add_total ids l n g : exists f', add_loop gen get_id ids n (map_init g) l = Ret (Some f').
Proof. destruct g; apply loop_total. Qed.

Lemma add_sim ids l h r : ok_ref h r -> exists h' i,
  h_add gen get_id ids h r l = Ret (h', Some i) /\ ok_ref h' (Some i) /\
  add_loop gen get_id ids 0 (map_init (mview h r)) l = Ret (mview h' (Some i)) /\
  (r <> None -> r = Some i) /\ (r = None -> i = length h) /\
  forall j, (j < length h)%nat -> (j < length h')%nat /\ (j <> i -> nth_error h' j = nth_error h j).
Proof.
  intros Hr. unfold h_add. destruct r as [i|]; cbn [h_map_init].
  - destruct (loop_sim ids l 0 h i Hr) as (h' & f & E1 & E2 & E3 & E4 & E5). rewrite E1. cbn [bind].
    exists h', i. split; [reflexivity|]. cbn [ok_ref mview] in *. rewrite E2, E3. split; [assumption|].
    destruct (nth_error h i) eqn:E; [|apply nth_error_None in E; lia]. cbn [map_init].
    split; [exact E4|]. split; [auto|]. split; [discriminate|]. auto.
  - destruct (loop_sim ids l 0 (h ++ [fun _ => None]) (length h) ltac:(rewrite app_length; simpl; lia))
      as (h' & f & E1 & E2 & E3 & E4 & E5). rewrite E1. cbn [bind].
    exists h', (length h). split; [reflexivity|]. cbn [ok_ref mview map_init] in *. rewrite app_length in E2. simpl in E2.
    rewrite E2, E3. split; [lia|]. rewrite nth_error_app2, Nat.sub_diag in E4 by lia. cbn [nth_error] in E4.
    split; [exact E4|]. split; [congruence|]. split; [auto|]. intros j Hj. split; [lia|]. intros _.
    rewrite E5 by lia. now apply nth_error_app1.
Qed.
End Maps.

(** Two variables [r], [s]: one map, or different maps. *)
Definition track {A} (sh : bool) (h : mheap A) (r s : mref) (gr gs gall : gmap A) : Prop :=
  ok_ref h r /\ ok_ref h s /\
  if sh then r = s /\ r <> None /\ mview h r = gall
  else other_map r s /\ mview h r = gr /\ mview h s = gs.

Lemma track_sym {A} sh (h : mheap A) r s gr gs gall : track sh h r s gr gs gall -> track sh h s r gs gr gall.
Proof.
  intros (O1 & O2 & T). split; [assumption|]. split; [assumption|]. destruct sh.
  - destruct T as (-> & B & C). auto.
  - destruct T as (B & C & D). split; [|auto]. unfold other_map in *. destruct B as [->|B]; [|right; congruence].
    destruct s; [right; congruence|left; reflexivity].
Qed.
Lemma track_step {A} (gen : string -> A -> A) get_id ids l sh (h : mheap A) r s gr gs gall :
  track sh h r s gr gs gall -> exists h' r' gr' gall',
  h_add gen get_id ids h r l = Ret (h', r') /\ add_loop gen get_id ids 0 (map_init gr) l = Ret gr' /\
  add_loop gen get_id ids 0 (map_init gall) l = Ret gall' /\ track sh h' r' s gr' gs gall'.
Proof.
  intros (O1 & O2 & T). destruct (add_sim gen get_id ids l h r O1) as (h' & i & E1 & E2 & E3 & E4 & E5 & E6).
  destruct (add_total gen get_id ids l 0 gr) as (f1 & F1). destruct (add_total gen get_id ids l 0 gall) as (f2 & F2).
  exists h', (Some i), (Some f1), (Some f2). split; [exact E1|]. split; [exact F1|]. split; [exact F2|].
  split; [exact E2|]. split.
  { destruct s as [j|]; [|exact I]. cbn [ok_ref] in *. now apply E6. }
  destruct sh.
  - destruct T as (<- & T1 & T2). split; [symmetry; auto|]. split; [discriminate|]. rewrite T2 in E3. congruence.
  - destruct T as (T1 & T2 & T3). rewrite T2 in E3. assert (other_map (Some i) s) as Q.
    { right. unfold other_map in T1. destruct s as [j|]; [|discriminate]. intros K. injection K as <-.
      destruct T1 as [T1|T1].
      - rewrite (E5 T1) in O2. cbn in O2. lia.
      - apply T1. apply E4. intros ->. cbn in O2. rewrite (E5 eq_refl) in O2. lia. }
    split; [exact Q|]. split; [congruence|]. rewrite <- T3. destruct s as [j|]; [|reflexivity]. cbn [mview].
    apply E6; [exact O2|]. destruct Q as [Q|Q]; congruence.
Qed.

Section Notes.
Context {A : Type} (z : A).
Implicit Types (h : heap A) (s u : slice).

Definition filled s : Prop := s_len s = s_cap s.
(** Appending to one cannot be seen through the other. *)
Definition unseen s u : Prop := disjoint s u \/ (filled s /\ filled u).
Lemma unseen_sym s u : unseen s u -> unseen u s.
Proof. intros [D|[B C]]; [left; now apply disjoint_sym|right; auto]. Qed.

Lemma append_unseen k h s u xs : valid h s -> valid h u -> unseen s u ->
  let r := append_slice z k h s xs in
  valid (fst r) (snd r) /\ valid (fst r) u /\ unseen (snd r) u /\ view (fst r) u = view h u /\
  view (fst r) (snd r) = view h s ++ xs.
Proof.
  intros Vs Vu I. destruct (append_ok z k h s xs Vs) as (St & W & L). cbv zeta in *.
  destruct I as [D|[Fs Fu]].
  - destruct (proj2 St u Vu D) as (P1 & P2 & P3). split; [exact (proj1 St)|]. split; [assumption|]. split; [now left|].
    split; [eapply step_view; eassumption|assumption].
  - split; [exact (proj1 St)|].
    unfold append_slice in *. unfold filled in Fs. destruct (Nat.leb_spec (s_len s + length xs) (s_cap s)) as [Q|Q].
    + assert (xs = []) as -> by (destruct xs; [reflexivity|simpl in Q; lia]). cbn [fst snd List.length] in *.
      assert (store h s (s_len s) [] = h) as E.
      { unfold store. generalize (s_arr s) as i. intros i.
        assert (overwrite (s_off s + s_len s) [] (nth i h []) = nth i h []) as ->
          by (unfold overwrite; cbn [List.length app]; rewrite Nat.add_0_r; apply firstn_skipn).
        clear. revert i. induction h as [|x h IH]; intros [|i]; simpl; auto. now rewrite IH. }
      rewrite E in *. split; [assumption|]. split; [|split; [reflexivity|exact W]].
      right. split; [|exact Fu]. unfold filled. cbn [s_len s_cap]. lia.
    + cbn [fst snd] in *. set (arr := view h s ++ xs ++ repeat z k) in *.
      assert (s_cap u <> 0%nat -> nth (s_arr u) (h ++ [arr]) [] = nth (s_arr u) h []) as E.
      { intros Z. apply app_nth1. now apply (proj2 Vu). }
      assert (view (h ++ [arr]) u = view h u) as Wu.
      { unfold view. destruct (Nat.eq_dec (s_cap u) 0) as [Z|Z]; [|now rewrite E].
        unfold filled in Fu. rewrite Fu, Z. reflexivity. }
      split.
      { split; [exact (proj1 Vu)|]. intros Z. rewrite app_length, E by assumption. pose proof (proj2 Vu Z). simpl. lia. }
      split; [|split; assumption]. left. unfold disjoint. cbn [s_cap s_arr s_off].
      destruct (Nat.eq_dec (s_cap u) 0) as [Z|Z]; [auto|]. right; right; left. pose proof (proj2 Vu Z). lia.
Qed.

(** Appending to two copies of a header with room: the second wins. *)
Lemma append_both h s xs ys k1 k2 : valid h s -> (s_len s + length xs <= s_cap s)%nat -> length ys = length xs ->
  let r := append_slice z k1 h s xs in
  let r2 := append_slice z k2 (fst r) s ys in
  view (fst r2) (snd r) = view h s ++ ys /\ view (fst r2) (snd r2) = view h s ++ ys.
Proof.
  intros V L E. cbv zeta. destruct (append_ok z k1 h s xs V) as (S1 & W1 & L1). cbv zeta in *.
  set (s1 := mkSlice (s_arr s) (s_off s) (s_len s + length xs) (s_cap s)).
  assert (snd (append_slice z k1 h s xs) = s1) as E1.
  { unfold append_slice. destruct (Nat.leb_spec (s_len s + length xs) (s_cap s)); [reflexivity|lia]. }
  set (h1 := fst (append_slice z k1 h s xs)) in *. rewrite E1 in *.
  assert (valid h1 s) as V1 by (destruct (proj1 S1) as [Q1 Q2]; cbn in *; split; [lia|exact Q2]).
  destruct (append_ok z k2 h1 s ys V1) as (S2 & W2 & L2). cbv zeta in *.
  assert (snd (append_slice z k2 h1 s ys) = s1) as E2.
  { unfold append_slice. rewrite E. destruct (Nat.leb_spec (s_len s + length xs) (s_cap s)); [reflexivity|lia]. }
  rewrite E2 in *.
  assert (view h1 s = view h s) as W.
  { pose proof (view_len h s V) as VL.
    assert (firstn (s_len s) (view h1 s1) = view h1 s) as Q.
    { unfold view, s1. cbn [s_len s_off s_arr]. rewrite firstn_firstn. f_equal. lia. }
    rewrite <- Q, W1, firstn_app, VL, Nat.sub_diag. cbn [firstn]. rewrite app_nil_r. apply firstn_all2. lia. }
  rewrite W in W2. auto.
Qed.
End Notes.

Section Calls.
Context {F : Type} {N : GoFloat F}.
Variable spare : nat -> nat.

(** All components at once; [notes] says whether annotations are followed. *)
Definition tracks (k1 k2 k3 k4 k5 notes : bool) (m : amem F) (a b : hactions) (va vb vall : actions F) : Prop :=
  track k1 (m_create m) (ha_create a) (ha_create b) (create_orders va) (create_orders vb) (create_orders vall) /\
  track k2 (m_update m) (ha_update a) (ha_update b) (update_orders va) (update_orders vb) (update_orders vall) /\
  track k3 (m_cancel m) (ha_cancel a) (ha_cancel b) (cancel_orders va) (cancel_orders vb) (cancel_orders vall) /\
  track k4 (m_uppos m) (ha_uppos a) (ha_uppos b) (update_positions va) (update_positions vb) (update_positions vall) /\
  track k5 (m_close m) (ha_close a) (ha_close b) (close_positions va) (close_positions vb) (close_positions vall) /\
  (notes = true -> valid (m_notes m) (ha_notes a) /\ valid (m_notes m) (ha_notes b) /\
     unseen (ha_notes a) (ha_notes b) /\
     view (m_notes m) (ha_notes a) = annotations va /\ view (m_notes m) (ha_notes b) = annotations vb).

Lemma tracks_sym k1 k2 k3 k4 k5 k m a b va vb vall :
  tracks k1 k2 k3 k4 k5 k m a b va vb vall -> tracks k1 k2 k3 k4 k5 k m b a vb va vall.
Proof.
  intros (T1 & T2 & T3 & T4 & T5 & T6).
  repeat (split; [now apply track_sym|]). intros K. destruct (T6 K) as (V1 & V2 & U & W1 & W2).
  apply unseen_sym in U. auto.
Qed.

Lemma tracks_call k1 k2 k3 k4 k5 k m a b va vb vall c :
  tracks k1 k2 k3 k4 k5 k m a b va vb vall -> exists m' a' va' vall',
  h_call spare c m a = Ret (m', a') /\ v_call c va = Ret va' /\ v_call c vall = Ret vall' /\
  tracks k1 k2 k3 k4 k5 k m' a' b va' vb vall'.
Proof.
  intros (T1 & T2 & T3 & T4 & T5 & T6). destruct m as [m1 m2 m3 m4 m5 m6], a as [a1 a2 a3 a4 a5 a6].
  cbn [m_create m_update m_cancel m_uppos m_close m_notes ha_create ha_update ha_cancel ha_uppos ha_close ha_notes] in *.
  unfold h_call. destruct c as [ids l|ids l|ids l|ids l|ids l|l];
    cbn [v_call]; unfold add_create_orders, add_update_orders, add_cancel_orders, add_update_positions, add_close_positions.
  - destruct (track_step create_gen co_id ids l _ _ _ _ _ _ _ T1) as (h & r & g & gg & -> & -> & -> & T). cbn [bind].
    do 4 eexists. repeat (split; [reflexivity|]). unfold tracks. cbn. auto 10.
  - destruct (track_step update_gen uo_id ids l _ _ _ _ _ _ _ T2) as (h & r & g & gg & -> & -> & -> & T). cbn [bind].
    do 4 eexists. repeat (split; [reflexivity|]). unfold tracks. cbn. auto 10.
  - destruct (track_step cancel_gen ca_id ids l _ _ _ _ _ _ _ T3) as (h & r & g & gg & -> & -> & -> & T). cbn [bind].
    do 4 eexists. repeat (split; [reflexivity|]). unfold tracks. cbn. auto 10.
  - destruct (track_step uppos_gen up_id ids l _ _ _ _ _ _ _ T4) as (h & r & g & gg & -> & -> & -> & T). cbn [bind].
    do 4 eexists. repeat (split; [reflexivity|]). unfold tracks. cbn. auto 10.
  - destruct (track_step close_gen cp_id ids l _ _ _ _ _ _ _ T5) as (h & r & g & gg & -> & -> & -> & T). cbn [bind].
    do 4 eexists. repeat (split; [reflexivity|]). unfold tracks. cbn. auto 10.
  - destruct (append_slice zero_note (spare (length m6)) m6 a6 l) as [h s] eqn:E.
    do 4 eexists. repeat (split; [reflexivity|]). unfold tracks. cbn. repeat (split; [assumption|]).
    intros K. destruct (T6 K) as (V1 & V2 & U & W1 & W2).
    pose proof (append_unseen zero_note (spare (length m6)) m6 a6 (ha_notes b) l V1 V2 U) as Q. rewrite E in Q. cbn [fst snd] in Q.
    destruct Q as (Q1 & Q2 & Q3 & Q4 & Q5). rewrite W1 in Q5. rewrite W2 in Q4. auto.
Qed.

Lemma tracks_calls k1 k2 k3 k4 k5 k cs : forall m a b va vb vall,
  tracks k1 k2 k3 k4 k5 k m a b va vb vall -> exists m' a' b' va' vb' vall',
  h_calls2 spare cs m a b = Ret (m', a', b') /\ v_calls (calls true cs) va = Ret va' /\
  v_calls (calls false cs) vb = Ret vb' /\ v_calls (map snd cs) vall = Ret vall' /\
  tracks k1 k2 k3 k4 k5 k m' a' b' va' vb' vall'.
Proof.
  induction cs as [|[[] c] cs IH]; intros m a b va vb vall T.
  - do 6 eexists. repeat (split; [reflexivity|]). exact T.
  - destruct (tracks_call _ _ _ _ _ _ _ _ _ _ _ _ c T) as (m1 & a1 & va1 & vall1 & E1 & E2 & E3 & T1).
    destruct (IH _ _ _ _ _ _ T1) as (m' & a' & b' & va' & vb' & vall' & H1 & H2 & H3 & H4 & T').
    exists m', a', b', va', vb', vall'. cbn [h_calls2 map snd]. unfold calls. cbn [filter map fst snd Bool.eqb].
    fold (calls true cs) (calls false cs). cbn [v_calls]. rewrite E1, E2, E3. cbn [bind]. auto.
  - apply tracks_sym in T.
    destruct (tracks_call _ _ _ _ _ _ _ _ _ _ _ _ c T) as (m1 & a1 & va1 & vall1 & E1 & E2 & E3 & T1).
    apply tracks_sym in T1.
    destruct (IH _ _ _ _ _ _ T1) as (m' & a' & b' & va' & vb' & vall' & H1 & H2 & H3 & H4 & T').
    exists m', a', b', va', vb', vall'. cbn [h_calls2 map snd]. unfold calls. cbn [filter map fst snd Bool.eqb].
    fold (calls true cs) (calls false cs). cbn [v_calls]. rewrite E1, E2, E3. cbn [bind]. auto.
Qed.
End Calls.
