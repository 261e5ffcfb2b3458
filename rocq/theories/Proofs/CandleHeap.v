(** Proofs about ModifyInterval in memory (C118). *)
From Coq Require Import Lia Arith.
From Verif Require Import Go.Outcome Go.Int64 Go.Slice Go.Float64 Go.Num Go.Heap Model.Candle Model.CandleHeap
  Spec.HeapSpec Proofs.Heap.
Open Scope list_scope.
Open Scope Z_scope.
Local Notation length := List.length.

Section CandleHeap.
Context {F : Type} {N : GoFloat F}.
Variable spare : nat -> nat.
Implicit Types (h : heap (candle F)) (s t : slice) (cs : list (candle F)).

Lemma nil_valid h : valid h nil_slice.
Proof. split; cbn; lia. Qed.
Lemma nil_disjoint t : disjoint nil_slice t.
Proof. now left. Qed.

Lemma compress_sim h s cs i j : valid h s -> view h s = cs -> h_compress h s i j = compress_candle cs i j.
Proof.
  intros V <-. unfold h_compress, compress_candle. rewrite !get_elem_index.
  destruct (index (view h s) i) as [c|p]; [|reflexivity]. cbn [bind].
  destruct (index (view h s) (j - 1)) as [d|p] eqn:E; [|reflexivity]. cbn [bind].
  apply index_Ret in E. destruct E as [E _]. rewrite view_zlen in E by assumption.
  pose proof (sub_slice_sim h s i j V ltac:(lia)) as Q. destruct (reslice (view h s) i j) as [l|p].
  - destruct Q as (s' & -> & _ & <-). reflexivity.
  - rewrite Q. reflexivity.
Qed.

(** [out] holds [acc] in memory of its own made since [h0]. *)
Definition grown_from h0 h out cs : Prop := step h0 nil_slice h out /\ view h out = cs.

Lemma grown_append h0 h out cs c : grown_from h0 h out cs ->
  let '(h1, out1) := h_append_candle spare h out c in grown_from h0 h1 out1 (cs ++ [c]).
Proof.
  intros [St W]. unfold h_append_candle.
  destruct (append_ok zero_candle (spare (length h)) h out [c] (proj1 St)) as (A & B & _). cbv zeta in *.
  destruct (append_slice zero_candle (spare (length h)) h out [c]) as [h1 out1]. cbn [fst snd] in *.
  split; [eapply step_trans; eassumption|]. now rewrite B, W.
Qed.
Lemma grown_other h0 h out cs t : grown_from h0 h out cs -> valid h0 t ->
  valid h t /\ view h t = view h0 t /\ disjoint out t.
Proof.
  intros [St W] V. destruct (proj2 St t V (nil_disjoint t)) as (A & B & C).
  split; [assumption|]. split; [|assumption]. eapply step_view; [exact St|assumption|apply nil_disjoint].
Qed.

Lemma skipn_cons_nth {A} (l : list A) k x rest : skipn k l = x :: rest -> nth_error l k = Some x /\ skipn (S k) l = rest.
Proof.
  revert k. induction l as [|y l IH]; intros [|k] E; cbn in *; try discriminate.
  - injection E as <- <-. auto.
  - now apply IH.
Qed.

Lemma loop_sim h0 s rs cs ps pivot n : valid h0 s -> view h0 s = cs -> valid h0 rs -> view h0 rs = ps ->
  forall rest k idx start h out acc, skipn (Z.to_nat k) ps = rest -> 0 <= k -> grown_from h0 h out acc ->
  match mi_loop cs pivot n rest idx start acc with
  | Panic p => h_mi_loop spare s rs pivot n (length rest) k idx start h out = Panic p
  | Ret (inr e) => h_mi_loop spare s rs pivot n (length rest) k idx start h out = Ret (inr e)
  | Ret (inl (acc', start')) => exists h' out',
      h_mi_loop spare s rs pivot n (length rest) k idx start h out = Ret (inl (h', out', start')) /\ grown_from h0 h' out' acc'
  end.
Proof.
  intros Vs Ws Vr Wr. induction rest as [|v rest IH]; intros k idx start h out acc E K G.
  - cbn. eauto.
  - cbn [mi_loop h_mi_loop List.length]. destruct (skipn_cons_nth _ _ _ _ E) as [E1 E2].
    destruct (grown_other _ _ _ _ s G Vs) as (Vs' & Ws' & _). destruct (grown_other _ _ _ _ rs G Vr) as (Vr' & Wr' & _).
    rewrite get_elem_index, Wr', Wr. replace (index ps k) with (Ret v) by (unfold index; destruct (Z.ltb_spec k 0); [lia|]; now rewrite E1). cbn [bind].
    assert (skipn (Z.to_nat (k + 1)) ps = rest) as E2' by (replace (Z.to_nat (k + 1)) with (S (Z.to_nat k)) by lia; exact E2).
    destruct (boundary pivot n (c_time v)) as [b|p]; cbn [bind]; [|reflexivity]. destruct b.
    + rewrite (compress_sim h s cs start idx Vs') by congruence.
      destruct (compress_candle cs start idx) as [[c e]|p]; cbn [bind]; [|reflexivity]. destruct e as [e'|]; [reflexivity|].
      pose proof (grown_append _ _ _ _ c G) as G1. destruct (h_append_candle spare h out c) as [h1 out1].
      apply IH; auto. lia.
    + apply IH; auto. lia.
Qed.

Lemma modify_interval_sim tz h s n : valid h s ->
  match modify_interval tz (view h s) n with
  | Panic p => h_modify_interval spare tz h s n = Panic p
  | Ret (cs, e) => exists h' r, h_modify_interval spare tz h s n = Ret (h', r, e) /\
      ((s_len s = 1%nat /\ h' = h /\ r = s /\ cs = view h s) \/ (s_len s <> 1%nat /\ grown_from h h' r cs))
  end.
Proof.
  intros V. unfold modify_interval, h_modify_interval. rewrite view_zlen by assumption.
  destruct (Z.eqb_spec (Z.of_nat (s_len s)) 1) as [L|L]; [exists h, s; split; [reflexivity|left; repeat split; lia]|].
  assert (s_len s <> 1%nat) as L' by lia.
  assert (forall e : err, exists h' r, Ret (h, nil_slice, Some e) = Ret (h', r, Some e) /\
    ((s_len s = 1%nat /\ h' = h /\ r = s /\ [] = view h s) \/ (s_len s <> 1%nat /\ grown_from h h' r []))) as Err.
  { intros e. exists h, nil_slice. split; [reflexivity|]. right. split; [assumption|]. split; [apply step_refl, nil_valid|reflexivity]. }
  rewrite !get_elem_index.
  destruct (index (view h s) 1) as [c1|p]; cbn [bind]; [|reflexivity].
  destruct (index (view h s) 0) as [c0|p]; cbn [bind]; [|reflexivity].
  destruct (idiv (wrap64 (c_time c1 - c_time c0)) 60) as [delta|p]; cbn [bind]; [|reflexivity].
  destruct (negb (delta =? 1) && (n =? 1)); [apply Err|].
  destruct (imod n delta) as [r|p]; cbn [bind]; [|reflexivity]. destruct (negb (r =? 0)); [apply Err|].
  destruct (find_first_index tz (view h s) n) as [start [e|]]; [apply Err|].
  rewrite !get_elem_index. destruct (index (view h s) start) as [p0|p]; cbn [bind]; [|reflexivity].
  pose proof (sub_slice_sim h s (start + 1) (Z.of_nat (s_len s)) V ltac:(lia)) as Q.
  destruct (reslice (view h s) (start + 1) (Z.of_nat (s_len s))) as [ps|p]; cbn [bind]; [|rewrite Q; reflexivity].
  destruct Q as (rs & -> & Sr & Wr). cbn [bind].
  pose proof (loop_sim h s rs (view h s) ps (c_time p0) n V eq_refl (proj1 Sr) Wr ps 0 (start + 1) start h nil_slice []
    eq_refl ltac:(lia) (conj (step_refl h _ (nil_valid h)) eq_refl)) as Lp.
  assert (s_len rs = length ps) as Lr by (rewrite <- Wr, view_len by exact (proj1 Sr); reflexivity). rewrite Lr.
  destruct (mi_loop (view h s) (c_time p0) n ps (start + 1) start []) as [[[acc start']|e]|p]; cbn [bind].
  - destruct Lp as (h1 & out & -> & G). cbn [bind]. destruct (grown_other _ _ _ _ s G V) as (Vs & Ws & _).
    rewrite (compress_sim h1 s (view h s) start' _ Vs Ws).
    destruct (compress_candle (view h s) start' (Z.of_nat (s_len s))) as [[c [e|]]|p]; cbn [bind]; [| |reflexivity].
    + exists h1, nil_slice. split; [reflexivity|]. right. split; [assumption|].
      split; [|reflexivity]. split; [apply nil_valid|]. intros t Vt D. destruct (proj2 (proj1 G) t Vt D) as (A & B & _).
      split; [assumption|]. split; [assumption|apply nil_disjoint].
    + pose proof (grown_append _ _ _ _ c G) as G1. destruct (h_append_candle spare h1 out c) as [h2 out2].
      exists h2, out2. split; [reflexivity|]. right. auto.
  - rewrite Lp. cbn [bind]. apply Err.
  - rewrite Lp. reflexivity.
Qed.
End CandleHeap.
