(** Goroutines trading on one position (for C124). *)
From Coq Require Import List String Lia Permutation Bool.
From Verif Require Import Go.Outcome Go.Float64 Go.Num Go.Heap Model.Pair Model.Entities Model.PositionHeap
  Model.ActionsConcurrent Model.PositionConcurrent Spec.SharedPositionSpec Spec.HeapSpec
  Proofs.Heap Proofs.Shared Proofs.SharedActions Proofs.PositionHeap.
Import ListNotations.
Open Scope list_scope.
Local Open Scope nat_scope.
Local Notation length := List.length.
Local Notation concat := List.concat.

(** With a lock a run is a sequence of calls, over any memory. *)
Section Sequential.
Context {M C : Type} {op : Type -> Type} (exec : forall X, op X -> M -> go (X * M)) (body : C -> prog op).
Local Notation cfg := (config M C op).
Fixpoint in_turn (cs : list C) (m : M) : go M :=
  match cs with [] => Ret m | k :: rest => m1 <- alone exec (body k) m ;; in_turn rest m1 end.
Lemma in_turn_app a : forall b m, in_turn (a ++ b) m = bind (in_turn a m) (in_turn b).
Proof. induction a as [|k a IH]; intros b m; simpl; [reflexivity|]. destruct (alone exec (body k) m); simpl; auto. Qed.

Definition todo (i : nat) (ts : list (thread C op)) : list C :=
  match nth_error ts i with Some (Idle l) => l | Some (Running _ l) => l | None => [] end.
Lemma todo_set j t ts i x : nth_error ts j = Some x ->
  todo i (set_thread j t ts) = if Nat.eqb j i then match t with Idle l => l | Running _ l => l end else todo i ts.
Proof.
  intros E. unfold todo. rewrite set_nth_thr. destruct (PeanoNat.Nat.eqb_spec j i) as [->|_]; [|reflexivity].
  rewrite E. reflexivity.
Qed.
Lemma calls_of_app i (a b : list (nat * C)) : calls_of i (a ++ b) = calls_of i a ++ calls_of i b.
Proof. unfold calls_of. now rewrite filter_app, map_app. Qed.

Variable calls : list (list C).
Variable m0 : M.
Definition held (log : list (nat * C)) (c : cfg) : Prop :=
  match owner c with
  | None => (forall o, others_idle o (threads c)) /\ in_turn (map snd log) m0 = Ret (shared c) /\
      forall i, nth i calls [] = calls_of i log ++ todo i (threads c)
  | Some o => others_idle o (threads c) /\ exists k p l m1, nth_error (threads c) o = Some (Running p l) /\
      in_turn (map snd log) m0 = Ret m1 /\ alone exec (body k) m1 = alone exec p (shared c) /\
      forall i, nth i calls [] = calls_of i log ++ (if Nat.eqb o i then [k] else []) ++ todo i (threads c)
  end.
Lemma held_step j c c' log : held log c -> cstep exec body true j c = Ret c' -> exists log', held log' c'.
Proof.
  intros H E. unfold cstep in E.
  destruct (nth_error (threads c) j) as [t|] eqn:Et; [|injection E as <-; exists log; exact H].
  destruct t as [[|k l]|p l].
  - injection E as <-. eauto.
  - destruct (owner c) as [o|] eqn:Eo; [injection E as <-; eauto|]. injection E as <-.
    exists log. unfold held in H |- *. rewrite Eo in H. destruct H as (H1 & H2 & H3). cbn [owner shared threads].
    split; [apply others_set, H1|]. exists k, (body k), l, (shared c).
    split; [eapply set_has'; eauto|]. split; [exact H2|]. split; [reflexivity|].
    intros i. rewrite (todo_set _ _ _ _ _ Et), H3. destruct (PeanoNat.Nat.eqb_spec j i) as [->|_]; [|reflexivity].
    unfold todo. now rewrite Et.
  - destruct (owner c) as [o|] eqn:Eo.
    2:{ exfalso. unfold held in H. rewrite Eo in H. destruct H as (H & _). destruct (H (S j) j _ Et ltac:(lia)) as (? & ?). discriminate. }
    unfold held in H. rewrite Eo in H. destruct H as (H1 & k & p' & l' & m1 & H2 & H3 & H4 & H5).
    assert (j = o) as -> by (destruct (PeanoNat.Nat.eq_dec j o) as [|Hn]; [assumption|]; destruct (H1 j _ Et Hn) as (? & ?); discriminate).
    rewrite Et in H2. injection H2 as <- <-.
    destruct p as [|X q f].
    + injection E as <-. exists (log ++ [(o, k)]). unfold held. cbn [owner shared threads].
      split; [now apply others_none|]. split.
      * rewrite map_app, in_turn_app, H3. cbn [map bind snd in_turn]. rewrite H4. reflexivity.
      * intros i. rewrite calls_of_app, (todo_set _ _ _ _ _ Et), H5, <- app_assoc. f_equal.
        unfold calls_of. simpl. destruct (PeanoNat.Nat.eqb_spec o i) as [->|_]; simpl; [|reflexivity].
        unfold todo. now rewrite Et.
    + destruct (exec X q (shared c)) as [[x m]|] eqn:Ex; cbn [bind] in E; [|discriminate]. injection E as <-.
      exists log. unfold held. cbn [owner shared threads]. split; [now apply others_set|].
      exists k, (f x), l, m1. split; [eapply set_has'; eauto|]. split; [exact H3|]. split.
      * rewrite H4. cbn [alone]. rewrite Ex. reflexivity.
      * intros i. rewrite (todo_set _ _ _ _ _ Et), H5. destruct (PeanoNat.Nat.eqb_spec o i) as [->|_]; [|reflexivity].
        unfold todo. now rewrite Et.
Qed.
Lemma held_run sched : forall c c' log, held log c -> execute exec body true sched c = Ret c' -> exists log', held log' c'.
Proof.
  induction sched as [|j s IH]; intros c c' log H E; simpl in E; [injection E as <-; eauto|].
  destruct (cstep exec body true j c) as [c1|] eqn:E1; cbn [bind] in E; [|discriminate].
  destruct (held_step j c c1 log H E1) as (log1 & H1). eapply IH; eauto.
Qed.
Lemma held_start : held [] (start calls m0).
Proof.
  unfold held, start. cbn [owner threads shared]. split; [|split; [reflexivity|]].
  - intros o j t Ej _. apply nth_error_In, in_map_iff in Ej. destruct Ej as (l & <- & _). eauto.
  - intros i. unfold todo. cbn. rewrite nth_error_map. clear. revert i.
    induction calls as [|x cs IH]; intros [|i]; simpl; auto.
Qed.
Lemma locked_in_turn sched c : execute exec body true sched (start calls m0) = Ret c ->
  exists log m1, order_so_far calls log /\ in_turn (map snd log) m0 = Ret m1 /\
    (owner c = None -> shared c = m1) /\ (finished c -> an_order calls log /\ shared c = m1).
Proof.
  intros E. destruct (held_run sched _ _ _ held_start E) as (log & H). unfold held in H.
  destruct (owner c) as [o|] eqn:Eo.
  - destruct H as (H1 & k & p & l & m1 & H2 & H3 & H4 & H5). exists log, m1.
    split; [intros i; eexists; apply H5|]. split; [exact H3|]. split; [discriminate|].
    intros Hf. exfalso. apply nth_error_In in H2. unfold finished in Hf. rewrite Forall_forall in Hf. apply Hf in H2. discriminate.
  - destruct H as (H1 & H2 & H3). exists log, (shared c). split; [intros i; eexists; apply H3|].
    split; [exact H2|]. split; [reflexivity|]. intros Hf. split; [|reflexivity].
    intros i. rewrite H3. assert (todo i (threads c) = []) as ->; [|now rewrite app_nil_r].
    unfold todo. destruct (nth_error (threads c) i) as [t|] eqn:Et; [|reflexivity].
    apply nth_error_In in Et. unfold finished in Hf. rewrite Forall_forall in Hf. apply Hf in Et. now subst t.
Qed.
(** Nothing panics when no access can. *)
Lemma never_panics locked : (forall X (o : op X) m, exists r, exec X o m = Ret r) ->
  forall sched c, exists c', execute exec body locked sched c = Ret c'.
Proof.
  intros T. induction sched as [|j s IH]; intros c; simpl; [eauto|].
  assert (exists c1, cstep exec body locked j c = Ret c1) as (c1 & ->); [|cbn [bind]; apply IH].
  unfold cstep. destruct (nth_error (threads c) j) as [[[|k l]|[|X o f] l]|]; eauto.
  - destruct (owner c); eauto.
  - destruct (T X o (shared c)) as ([x m] & ->). cbn [bind]. eauto.
Qed.
End Sequential.

(** An order of all calls is a permutation of them. *)
Lemma order_perm {C} : forall (log : list (nat * C)) calls, an_order calls log -> Permutation (map snd log) (concat calls).
Proof.
  induction log as [|[i k] log IH]; intros calls H.
  - assert (concat calls = []) as ->; [|constructor].
    assert (forall x, In x calls -> x = []) as Hx.
    { intros x Hx. destruct (In_nth _ _ [] Hx) as (n & _ & <-). specialize (H n). now rewrite <- H. }
    clear H. induction calls as [|x cs IHc]; [reflexivity|]. simpl. rewrite (Hx x (or_introl eq_refl)). apply IHc.
    intros y Hy. apply Hx. now right.
  - pose proof (H i) as Hi. unfold calls_of in Hi. simpl in Hi. rewrite PeanoNat.Nat.eqb_refl in Hi. simpl in Hi.
    destruct (nth_error calls i) as [l|] eqn:El.
    2:{ apply nth_error_None in El. rewrite nth_overflow in Hi by exact El. discriminate. }
    apply nth_error_split in El. destruct El as (a & b & -> & <-).
    rewrite app_nth2, PeanoNat.Nat.sub_diag in Hi by lia. simpl in Hi.
    simpl. rewrite concat_app. simpl. rewrite <- Hi. simpl.
    apply Permutation_cons_app. etransitivity.
    + apply (IH (a ++ map snd (filter (fun e => Nat.eqb (fst e) (length a)) log) :: b)).
      intros n. specialize (H n). unfold calls_of in H. simpl in H.
      destruct (PeanoNat.Nat.eqb_spec (length a) n) as [E|Hn].
      * subst n. rewrite app_nth2, PeanoNat.Nat.sub_diag by lia. reflexivity.
      * unfold calls_of. rewrite H. destruct (PeanoNat.Nat.lt_ge_cases n (length a)) as [L|L].
        -- now rewrite !app_nth1 by lia.
        -- rewrite !app_nth2 by lia. destruct (n - length a) eqn:Ej; [lia|reflexivity].
    + rewrite concat_app. simpl. reflexivity.
Qed.

Section Pos.
Context {F : Type} {N : GoFloat F}.
Variable spare : nat -> nat.
Local Notation run := (execute (pexec spare) c_modify).
Local Notation ok m := (valid (p_heap m) (hp_trades (p_pos m))).

Lemma pexec_total X (o : pop F X) m : exists r, pexec spare X o m = Ret r.
Proof. destruct o; cbn [pexec]; eauto. destruct (append_slice _ _ _ _ _); eauto. Qed.

Lemma alone_append t (m : pmem F) : ok m -> exists m', alone (pexec spare) (c_append t) m = Ret m' /\ ok m' /\
  p_heap m' = fst (h_append spare (p_heap m) (hp_trades (p_pos m)) t) /\
  hp_trades (p_pos m') = snd (h_append spare (p_heap m) (hp_trades (p_pos m)) t) /\
  shown m' = with_trades (hp_fields (p_pos m)) (view (p_heap m) (hp_trades (p_pos m)) ++ [t_id t]).
Proof.
  intros V. cbn [c_append alone pexec bind]. unfold h_append.
  destruct (append_ok "" (spare (length (p_heap m))) (p_heap m) (hp_trades (p_pos m)) [t_id t] V) as (St & W & _). cbv zeta in *.
  destruct (append_slice "" (spare (length (p_heap m))) (p_heap m) (hp_trades (p_pos m)) [t_id t]) as [h1 s1]. cbn [fst snd] in *.
  cbn [bind alone pexec]. eexists. split; [reflexivity|]. cbn [p_heap p_pos hp_trades]. split; [exact (proj1 St)|].
  split; [reflexivity|]. split; [reflexivity|]. unfold shown, pos_view. cbn [p_heap p_pos hp_trades hp_fields]. now rewrite W.
Qed.
Lemma alone_modify t (m : pmem F) : ok m -> exists m', alone (pexec spare) (c_modify t) m = Ret m' /\ ok m' /\
  p_heap m' = fst (h_modify spare t (p_heap m) (p_pos m)) /\
  hp_trades (p_pos m') = hp_trades (snd (h_modify spare t (p_heap m) (p_pos m))) /\
  shown m' = fst (modify (shown m) t).
Proof.
  intros V.
  assert (forall (f : position F -> position F) (q : position F), 
    with_trades (f (hp_fields (p_pos m))) [] = with_trades q [] ->
    exists m', alone (pexec spare) (c_append t) (on_fields f m) = Ret m' /\ ok m' /\
      p_heap m' = fst (let '(h1, s) := h_append spare (p_heap m) (hp_trades (p_pos m)) t in (h1, mkHPos q s)) /\
      hp_trades (p_pos m') = hp_trades (snd (let '(h1, s) := h_append spare (p_heap m) (hp_trades (p_pos m)) t in (h1, mkHPos q s))) /\
      shown m' = with_trades q (view (p_heap m) (hp_trades (p_pos m)) ++ [t_id t])) as K.
  { intros f q Hq. destruct (alone_append t (on_fields f m) V) as (m' & A1 & A2 & A3 & A4 & A5). cbn [on_fields p_heap p_pos hp_trades hp_fields] in *.
    exists m'. split; [exact A1|]. split; [exact A2|]. destruct (h_append spare (p_heap m) (hp_trades (p_pos m)) t) as [h1 s1]. cbn [fst snd hp_trades] in *.
    split; [exact A3|]. split; [exact A4|]. rewrite A5. unfold with_trades in Hq |- *. injection Hq as -> -> -> -> -> -> -> -> -> -> -> -> -> ->. reflexivity. }
  assert (forall m' : pmem F, m' = m -> ok m' /\ p_heap m' = p_heap m /\ hp_trades (p_pos m') = hp_trades (p_pos m) /\ shown m' = shown m) as K0
    by (intros m' ->; auto).
  assert (exists m', alone (pexec spare) (c_add t) m = Ret m' /\ ok m' /\
    p_heap m' = fst (h_pos_add spare (p_heap m) (p_pos m) t) /\ hp_trades (p_pos m') = hp_trades (snd (h_pos_add spare (p_heap m) (p_pos m) t)) /\
    shown m' = pos_add (shown m) t) as Kadd.
  { unfold h_pos_add. cbn [c_add alone pexec bind].
    match goal with |- context [alone _ (c_append t) (on_fields ?g (on_fields ?f m))] =>
      apply (K (fun p => g (f p)) (pos_add (hp_fields (p_pos m)) t)) end. reflexivity. }
  assert (exists m', alone (pexec spare) (c_substract t) m = Ret m' /\ ok m' /\
    p_heap m' = fst (h_pos_substract spare (p_heap m) (p_pos m) t) /\ hp_trades (p_pos m') = hp_trades (snd (h_pos_substract spare (p_heap m) (p_pos m) t)) /\
    shown m' = fst (pos_substract (shown m) t)) as Ksub.
  { unfold h_pos_substract. unfold shown at 2. unfold pos_view. rewrite sub_trades. unfold pos_substract. cbv zeta. cbn [c_substract alone pexec bind].
    destruct (flt (fsub (ps_quantity (hp_fields (p_pos m))) (t_quantity t)) f0 && flt (fsub (ps_quantity (hp_fields (p_pos m))) (t_quantity t)) (fconst (-1) (-4))).
    { exists m. split; [reflexivity|]. now apply K0. }
    destruct (fle (fsub (ps_quantity (hp_fields (p_pos m))) (t_quantity t)) f0).
    - cbn [c_close alone pexec bind]. cbn [on_fields p_pos hp_fields set_close_price ps_type].
      destruct (String.eqb (ps_type (hp_fields (p_pos m))) LongPosition); cbn [alone pexec bind];
        match goal with |- context [alone _ (c_append t) ?x] =>
          change x with (on_fields (fun p => hp_fields (p_pos x)) m) end;
        eapply K; reflexivity.
    - cbn [c_reduce alone pexec bind].
      match goal with |- context [alone _ (c_append t) ?x] =>
          change x with (on_fields (fun p => hp_fields (p_pos x)) m) end.
      eapply K; reflexivity. }
  unfold h_modify, modify. change (ps_pair (shown m)) with (ps_pair (hp_fields (p_pos m))). change (ps_type (shown m)) with (ps_type (hp_fields (p_pos m))).
  cbn [c_modify alone pexec bind]. cbv zeta.
  destruct (negb (pair_eqb (ps_pair (hp_fields (p_pos m))) (t_pair t))); [exists m; split; [reflexivity|]; now apply K0|].
  cbn [alone pexec bind].
  destruct (String.eqb (ps_type (hp_fields (p_pos m))) LongPosition && String.eqb (t_action t) BuyAction); [exact Kadd|]. cbn [alone pexec bind].
  destruct (String.eqb (ps_type (hp_fields (p_pos m))) LongPosition && String.eqb (t_action t) SellAction); [exact Ksub|]. cbn [alone pexec bind].
  destruct (String.eqb (ps_type (hp_fields (p_pos m))) ShortPosition && String.eqb (t_action t) BuyAction); [exact Ksub|]. cbn [alone pexec bind].
  destruct (String.eqb (ps_type (hp_fields (p_pos m))) ShortPosition && String.eqb (t_action t) SellAction); [exact Kadd|].
  exists m. split; [reflexivity|]. now apply K0.
Qed.

Lemma in_turn_modify : forall ts (m m' : pmem F), ok m -> in_turn (pexec spare) c_modify ts m = Ret m' ->
  ok m' /\ shown m' = modify_all (shown m) ts.
Proof.
  induction ts as [|t ts IH]; intros m m' V E; cbn [in_turn] in E; [injection E as <-; auto|].
  destruct (alone_modify t m V) as (m1 & A1 & A2 & _ & _ & A5). rewrite A1 in E. cbn [bind] in E.
  destruct (IH m1 m' A2 E) as (B1 & B2). split; [exact B1|]. cbn [modify_all]. now rewrite <- A5.
Qed.
Lemma locked_position (calls : list (list (trade F))) (m : pmem F) sched : ok m ->
  exists c log, run true sched (start calls m) = Ret c /\ order_so_far calls log /\
    (owner c = None -> shown (shared c) = modify_all (shown m) (map snd log)) /\
    (finished c -> an_order calls log /\ shown (shared c) = modify_all (shown m) (map snd log)).
Proof.
  intros V. destruct (never_panics (pexec spare) c_modify true pexec_total sched (start calls m)) as (c & E).
  destruct (locked_in_turn _ _ _ _ _ _ E) as (log & m1 & A1 & A2 & A3 & A4).
  destruct (in_turn_modify _ _ _ V A2) as (_ & B).
  exists c, log. split; [exact E|]. split; [exact A1|]. split.
  - intros H. rewrite (A3 H). exact B.
  - intros H. destruct (A4 H) as (H1 & ->). auto.
Qed.
Lemma position_finish (calls : list (list (trade F))) (m : pmem F) sched c : 
  run true sched (start calls m) = Ret c -> exists more c', run true more c = Ret c' /\ finished c'.
Proof. apply can_finish. intros s. apply never_panics, pexec_total. Qed.
End Pos.
