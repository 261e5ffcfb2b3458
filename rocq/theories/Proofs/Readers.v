(** Goroutines that only read need no lock. *)
From Coq Require Import Lia Arith.
From Verif Require Import Go.Outcome Go.Int64 Go.Slice Go.Float64 Go.Num Go.Heap Model.OrderBook Model.OrderBookHeap
  Model.Concurrent Spec.HeapSpec Spec.ConcurrentSpec Proofs.Lists Proofs.Heap Proofs.OrderBookHeap Proofs.Concurrent
  Proofs.Locked.
Open Scope list_scope.
Open Scope Z_scope.

Section Readers.
Context {F : Type} {N : GoFloat F}.
Variable spare : nat -> nat.

Definition reads {X} (o : @op F X) : bool := match o with Fetch _ | Depth | Get _ _ => true | _ => false end.
Fixpoint readonly {A} (p : prog A) : Prop :=
  match p with
  | Done _ => True
  | Crash _ => True
  | Do o k => reads o = true /\ forall x, readonly (k x)
  end.
Lemma reads_same {X} (o : @op F X) m x m1 : reads o = true -> exec spare o m = Ret (x, m1) -> m1 = m.
Proof.
  destruct o; cbn [reads exec]; intros R E; try discriminate.
  - now injection E as _ <-.
  - now injection E as _ <-.
  - destruct (get_elem (sh_heap m) s i) as [r|e]; cbn [bind] in E; [|discriminate]. now injection E as _ <-.
Qed.
Lemma readonly_after {A B} (p : prog A) (k : A -> @prog F B) : readonly p -> (forall a, readonly (k a)) -> readonly (after p k).
Proof.
  induction p as [a|e|X o f IH]; intros Rp Rk; cbn [after readonly] in *; [apply Rk|trivial|].
  destruct Rp as [R1 R2]. split; [exact R1|]. intros x. apply IH; auto.
Qed.
Lemma ro_load a : readonly (@load F a).
Proof. cbn. split; [reflexivity|intros; exact Logic.I]. Qed.
Lemma ro_get s i : readonly (act (@Get F s i)).
Proof. cbn. split; [reflexivity|intros; exact Logic.I]. Qed.
Lemma ro_find a test n : forall i, readonly (@p_find F a test n i).
Proof.
  induction n as [|n IH]; intros i; cbn [p_find]; [exact Logic.I|].
  apply readonly_after; [apply ro_load|]. intros s. apply readonly_after; [apply ro_get|]. intros r.
  destruct (test r); [exact Logic.I|apply IH].
Qed.
Lemma ro_depth_in a beyond q last : readonly (@p_depth_in F a beyond q last).
Proof.
  unfold p_depth_in, p_range. apply readonly_after.
  - apply readonly_after; [apply ro_load|]. intros s. apply ro_find.
  - intros [k|]; [|exact Logic.I]. apply readonly_after; [apply ro_load|]. intros s.
    apply readonly_after; [apply ro_get|]. intros r. exact Logic.I.
Qed.
Lemma ro_first a : readonly (@p_first F a).
Proof. unfold p_first. apply readonly_after; [apply ro_load|]. intros s. apply ro_get. Qed.
Lemma ro_last a : readonly (@p_last F a).
Proof.
  unfold p_last. apply readonly_after; [apply ro_load|]. intros s. apply readonly_after; [apply ro_load|]. intros s1. apply ro_get.
Qed.
Lemma ro_get_depth q : readonly (p_get_depth q).
Proof.
  unfold p_get_depth. destruct (fle q fzero); [exact Logic.I|].
  apply readonly_after; [apply ro_first|]. intros fa. apply readonly_after; [apply ro_last|]. intros la.
  apply readonly_after; [apply ro_first|]. intros fb. apply readonly_after; [apply ro_last|]. intros lb.
  destruct (fle (price fa) q && fle q (price la)); [apply ro_depth_in|].
  destruct (fle (price lb) q && fle q (price fb)); [apply ro_depth_in|exact Logic.I].
Qed.
Lemma ro_body q : readonly (body (CDepth q)).
Proof. cbn [body]. apply readonly_after; [apply ro_get_depth|]. intros r. exact Logic.I. Qed.

Section Inv.
Variable qss : list (list F).
Variable m : shared F.
Definition asked (k : call F) : Prop := exists q, k = CDepth q /\ In q (List.concat qss).
Definition thread_ok (t : thread F) : Prop :=
  Forall asked (pending t) /\
  match t with
  | Idle _ => True
  | Running k p _ => readonly p /\ alone spare p m = alone spare (body k) m
  end.
Definition rinv (c : config F) : Prop :=
  cf_shared c = m /\ cf_owner c = None /\
  (forall j t, nth_error (cf_threads c) j = Some t -> thread_ok t) /\
  Forall (fun e => asked (snd (fst e)) /\ alone spare (body (snd (fst e))) m = Ret (snd e, m)) (cf_log c) /\
  forall i, nth i (map (map CDepth) qss) [] = made_by i (returned c) ++ left_of c i.

Lemma rstep i c : rinv c -> match cstep spare false i c with
  | Ret c' => rinv c'
  | Panic e => exists q, In q (List.concat qss) /\ alone spare (body (CDepth q)) m = Panic e
  end.
Proof.
  intros Hc. pose proof Hc as (Em & Eo & Th & Lg & Ps). unfold cstep.
  destruct (nth_error (cf_threads c) i) as [[[|k todo]|k p todo]|] eqn:Ei; try exact Hc.
  - rewrite Eo. destruct (Th i _ Ei) as [Pd _]. cbn [pending] in Pd.
    split; [exact Em|]. split; [reflexivity|]. cbn [cf_threads cf_log]. split; [|split; [exact Lg|]].
    + intros j t Hj. destruct (Nat.eq_dec i j) as [<-|D].
      * rewrite (set_same _ _ _ _ Ei) in Hj. injection Hj as <-. split; [exact Pd|]. split; [|reflexivity].
        inversion Pd as [|? ? (q & -> & _) ?]; subst. apply ro_body.
      * rewrite set_other in Hj by assumption. eauto.
    + intros j. rewrite (left_set c i (Running k (body k) todo) (Idle (k :: todo)) _ _ _ Ei eq_refl j). apply Ps.
  - destruct (Th i _ Ei) as (Pd & Ro & Al). cbn [pending] in Pd.
    destruct p as [r|e|X o f].
    + split; [exact Em|]. split; [reflexivity|]. cbn [cf_threads cf_log]. split; [|split].
      * intros j t Hj. destruct (Nat.eq_dec i j) as [<-|D].
        -- rewrite (set_same _ _ _ _ Ei) in Hj. injection Hj as <-. split; [now inversion Pd|exact Logic.I].
        -- rewrite set_other in Hj by assumption. eauto.
      * apply Forall_app. split; [exact Lg|]. constructor; [|constructor]. cbn [fst snd]. split; [now inversion Pd|].
        rewrite <- Al. reflexivity.
      * intros j. unfold returned. cbn [cf_log]. rewrite map_app. cbn [map fst]. rewrite made_snoc. unfold left_of. cbn [cf_threads].
        specialize (Ps j). unfold left_of, returned in Ps. destruct (Nat.eqb_spec i j) as [<-|D].
        -- rewrite (set_same i _ _ _ Ei). rewrite Ei in Ps. cbn [pending] in *. rewrite <- app_assoc. exact Ps.
        -- rewrite set_other by assumption. rewrite app_nil_r. exact Ps.
    + inversion Pd as [|? ? (q & -> & Hq) ?]; subst. exists q. split; [exact Hq|]. rewrite <- Al. reflexivity.
    + cbn [readonly alone] in Ro, Al. rewrite <- Em in Al. destruct Ro as [R1 R2].
      destruct (exec spare o (cf_shared c)) as [[x m1]|e] eqn:Ex; cbn [bind] in *.
      * pose proof (reads_same o _ x m1 R1 Ex) as ->.
        split; [exact Em|]. split; [exact Eo|]. cbn [cf_threads cf_log]. split; [|split; [exact Lg|]].
        -- intros j t Hj. destruct (Nat.eq_dec i j) as [<-|D].
           ++ rewrite (set_same _ _ _ _ Ei) in Hj. injection Hj as <-. split; [exact Pd|]. split; [apply R2|].
              rewrite <- Em. exact Al.
           ++ rewrite set_other in Hj by assumption. eauto.
        -- intros j. rewrite (left_set c i (Running k (f x) todo) (Running k (Do o f) todo) _ _ _ Ei eq_refl j). apply Ps.
      * destruct (Forall_inv Pd) as (q & -> & Hq). exists q. split; [exact Hq|]. rewrite <- Em. symmetry. exact Al.
Qed.
Lemma rexecute sched : forall c, rinv c -> match execute spare false sched c with
  | Ret c' => rinv c'
  | Panic e => exists q, In q (List.concat qss) /\ alone spare (body (CDepth q)) m = Panic e
  end.
Proof.
  induction sched as [|i sched IH]; intros c I; cbn [execute]; [exact I|].
  pose proof (rstep i c I) as S. destruct (cstep spare false i c) as [c1|e]; cbn [bind]; [now apply IH|exact S].
Qed.
End Inv.

Lemma alone_depth_body q h b : own h b ->
  alone spare (body (CDepth q)) (mkShared h b) = (r <- get_depth (book_view h b) q ;; Ret (RDepth r, mkShared h b)).
Proof.
  intros O. cbn [body]. rewrite alone_after, alone_get_depth by assumption. now destruct (get_depth (book_view h b) q).
Qed.

Lemma readers qss h b sched : own h b ->
  match execute spare false sched (start (map (map CDepth) qss) (mkShared h b)) with
  | Ret c => cf_shared c = mkShared h b /\ serialises_part (map (map CDepth) qss) (returned c) /\
      (finished c -> serialises (map (map CDepth) qss) (returned c)) /\
      Forall (fun e => exists q r, snd (fst e) = CDepth q /\ snd e = RDepth r /\ get_depth (book_view h b) q = Ret r) (cf_log c)
  | Panic e => exists q, In q (List.concat qss) /\ get_depth (book_view h b) q = Panic e
  end.
Proof.
  intros O. assert (rinv qss (mkShared h b) (start (map (map CDepth) qss) (mkShared h b))) as I.
  { unfold start. split; [reflexivity|]. split; [reflexivity|]. cbn [cf_threads cf_log]. split; [|split; [constructor|]].
    - intros j t H. rewrite nth_error_map in H. destruct (nth_error (map (map CDepth) qss) j) as [l|] eqn:E; [|discriminate].
      injection H as <-. split; [|exact Logic.I]. cbn [pending]. rewrite nth_error_map in E.
      destruct (nth_error qss j) as [qs|] eqn:Eq; [|discriminate]. injection E as <-. rewrite Forall_forall. intros k Hk.
      apply in_map_iff in Hk. destruct Hk as (q & <- & Hq). exists q. split; [reflexivity|]. apply in_concat.
      exists qs. split; [now apply nth_error_In in Eq|exact Hq].
    - intros i. unfold left_of, returned, made_by. cbn [cf_threads cf_log map filter app]. rewrite nth_error_map.
      destruct (nth_error (map (map CDepth) qss) i) as [l|] eqn:E; cbn [option_map pending].
      + now apply nth_error_nth.
      + apply nth_error_None in E. now apply nth_overflow. }
  pose proof (rexecute qss (mkShared h b) sched _ I) as R.
  destruct (execute spare false sched (start (map (map CDepth) qss) (mkShared h b))) as [c|e].
  - destruct R as (Em & _ & Th & Lg & Ps). split; [exact Em|]. split; [|split].
    + intros i. exists (left_of c i). apply Ps.
    + intros Fi i. unfold finished in Fi. rewrite Forall_forall in Fi. rewrite (Ps i). unfold left_of.
      destruct (nth_error (cf_threads c) i) as [t|] eqn:Et; [|now rewrite app_nil_r].
      rewrite (Fi t (nth_error_In _ _ Et)). cbn [pending]. now rewrite app_nil_r.
    + rewrite Forall_forall in *. intros e He. destruct (Lg e He) as [(q & Eq & _) A]. rewrite Eq in A.
      rewrite alone_depth_body in A by assumption. exists q.
      destruct (get_depth (book_view h b) q) as [r|e']; cbn [bind] in A; [|discriminate].
      exists r. split; [exact Eq|]. split; [congruence|reflexivity].
  - destruct R as (q & Hq & A). exists q. split; [exact Hq|]. rewrite alone_depth_body in A by assumption.
    destruct (get_depth (book_view h b) q) as [r|e']; cbn [bind] in A; [discriminate|congruence].
Qed.
End Readers.
