(** Goroutines that take a lock around every call. *)
From Coq Require Import Lia Arith.
From Flocq Require Import BinarySingleNaN.
From Verif Require Import Go.Outcome Go.Int64 Go.Slice Go.Float64 Go.FloatOrder Go.Num Go.Heap Model.OrderBook
  Model.OrderBookHeap Model.Concurrent Spec.HeapSpec Spec.OrderBookSpec Spec.HistorySpec Spec.ConcurrentSpec
  Proofs.Lists Proofs.Heap Proofs.OrderBookHeap Proofs.Concurrent Proofs.UpdateThms Proofs.History Proofs.Replay.
Open Scope list_scope.
Open Scope Z_scope.
Local Notation length := List.length.

Section Locked.
Context {F : Type} {N : GoFloat F}.
Variable spare : nat -> nat.

Lemma seq_snoc cs k (ob : book F) : seq_calls (cs ++ [k]) ob =
  ('(ob1, rs) <- seq_calls cs ob ;; '(ob2, r) <- seq_call k ob1 ;; Ret (ob2, rs ++ [r])).
Proof.
  revert ob. induction cs as [|c cs IH]; intros ob; cbn [app seq_calls].
  - cbn [bind]. destruct (seq_call k ob) as [[ob2 r]|e]; reflexivity.
  - destruct (seq_call c ob) as [[ob1 r]|e]; cbn [bind]; [|reflexivity]. rewrite IH.
    destruct (seq_calls cs ob1) as [[ob2 rs]|e]; cbn [bind]; [|reflexivity].
    destruct (seq_call k ob2) as [[ob3 r']|e]; reflexivity.
Qed.

(** *** Threads *)
Definition pending (t : thread F) : list (call F) :=
  match t with Idle todo => todo | Running c _ todo => c :: todo end.
Definition idle (t : thread F) : Prop := exists todo, t = Idle todo.

Lemma set_same i (t : thread F) l u : nth_error l i = Some u -> nth_error (set_thread i t l) i = Some t.
Proof. revert i. induction l as [|x l IH]; intros [|i] H; cbn in *; try discriminate; auto. Qed.
Lemma set_other i j (t : thread F) l : i <> j -> nth_error (set_thread i t l) j = nth_error l j.
Proof.
  revert i j. induction l as [|x l IH]; intros [|i] [|j] H; cbn; try reflexivity; [congruence|]. apply IH. congruence.
Qed.
Lemma set_set i (t u : thread F) l : set_thread i t (set_thread i u l) = set_thread i t l.
Proof. revert i. induction l as [|x l IH]; intros [|i]; cbn; try reflexivity. now rewrite IH. Qed.
Lemma made_snoc i log j (k : call F) : made_by i (log ++ [(j, k)]) = made_by i log ++ (if Nat.eqb j i then [k] else []).
Proof.
  unfold made_by. rewrite filter_app, map_app. cbn [filter fst]. now destruct (Nat.eqb j i).
Qed.

(** *** The invariant *)
Section Inv.
Variable calls : list (list (call F)).
Variable ob0 : book F.

Definition left_of (c : config F) (i : nat) : list (call F) :=
  match nth_error (cf_threads c) i with Some t => pending t | None => [] end.
Definition inv (c : config F) : Prop := exists ob,
  seq_calls (map snd (returned c)) ob0 = Ret (ob, replies c) /\
  (forall i, nth i calls [] = made_by i (returned c) ++ left_of c i) /\
  match cf_owner c with
  | None => own (sh_heap (cf_shared c)) (sh_book (cf_shared c)) /\ shown_book c = ob /\
      (forall j t, nth_error (cf_threads c) j = Some t -> idle t)
  | Some i => exists k p todo, nth_error (cf_threads c) i = Some (Running k p todo) /\
      (forall j t, j <> i -> nth_error (cf_threads c) j = Some t -> idle t) /\
      match seq_call k ob with
      | Ret (ob', r) => exists h' b', alone spare p (cf_shared c) = Ret (r, mkShared h' b') /\ own h' b' /\ book_view h' b' = ob'
      | Panic e => alone spare p (cf_shared c) = Panic e
      end
  end.

Definition excused (e : panic) : Prop := exists log,
  serialises_part calls log /\ seq_calls (map snd log) ob0 = Panic e.

Lemma left_set c i t u m o l : nth_error (cf_threads c) i = Some u -> pending t = pending u ->
  forall j, left_of (mkConfig m o (set_thread i t (cf_threads c)) l) j = left_of c j.
Proof.
  intros H E j. unfold left_of. cbn [cf_threads]. destruct (Nat.eq_dec i j) as [<-|D].
  - rewrite (set_same i t _ u H), H. exact E.
  - now rewrite set_other.
Qed.

Lemma inv_step i c : inv c ->
  match cstep spare true i c with Ret c' => inv c' | Panic e => excused e end.
Proof.
  intros (ob & Sq & Ps & Ow). unfold cstep.
  destruct (nth_error (cf_threads c) i) as [[[|k todo]|k p todo]|] eqn:Ei; try (exists ob; auto; fail).
  - destruct (cf_owner c) as [o|] eqn:Eo; [exists ob; rewrite Eo; auto|].
    destruct Ow as (O & W & Id). exists ob. cbn [cf_shared cf_owner cf_threads cf_log].
    split; [exact Sq|]. split; [intros j; rewrite (left_set c i (Running k (body k) todo) (Idle (k :: todo)) _ _ _ Ei eq_refl j); apply Ps|].
    exists k, (body k), todo. split; [eapply set_same; exact Ei|]. split; [intros j t D H; rewrite set_other in H by congruence; eauto|].
    unfold shown_book in W. destruct (cf_shared c) as [h b]. cbn [sh_heap sh_book] in *.
    pose proof (alone_body spare k h b O) as A. rewrite W in A. exact A.
  - destruct (cf_owner c) as [o|] eqn:Eo.
    2:{ destruct Ow as (_ & _ & Id). destruct (Id i _ Ei) as [td H]. discriminate. }
    destruct Ow as (k' & p' & todo' & Eo' & Id & A).
    assert (i = o) as ->.
    { destruct (Nat.eq_dec i o) as [E|D]; [assumption|]. destruct (Id i _ D Ei) as [td H]. discriminate. }
    rewrite Ei in Eo'. injection Eo' as <- <- <-.
    destruct p as [r|e|X o' f].
    + destruct (seq_call k ob) as [[ob' r']|e] eqn:Ek; [|discriminate A].
      destruct A as (h' & b' & A & O & W). cbn [alone] in A. injection A as -> Em.
      exists ob'. unfold returned, replies. cbn [cf_shared cf_owner cf_threads cf_log]. rewrite !map_app. cbn [map fst snd].
      split; [rewrite seq_snoc; unfold returned, replies in Sq; rewrite Sq; cbn [bind]; rewrite Ek; reflexivity|].
      split.
      * intros j. rewrite made_snoc. unfold left_of. cbn [cf_threads]. specialize (Ps j). unfold left_of in Ps.
        destruct (Nat.eqb_spec o j) as [<-|D].
        -- rewrite (set_same o _ _ _ Ei). rewrite Ei in Ps. cbn [pending] in *. rewrite <- app_assoc. exact Ps.
        -- rewrite set_other by assumption. rewrite app_nil_r. exact Ps.
      * unfold shown_book. cbn [cf_shared]. rewrite Em. cbn [sh_heap sh_book]. split; [exact O|]. split; [exact W|].
        intros j t H. destruct (Nat.eq_dec o j) as [<-|D].
        -- rewrite (set_same o _ _ _ Ei) in H. injection H as <-. now exists todo.
        -- rewrite set_other in H by assumption. apply (Id j); congruence.
    + destruct (seq_call k ob) as [[ob' r']|e'] eqn:Ek; [destruct A as (h' & b' & A & _); discriminate A|].
      cbn [alone] in A. injection A as <-.
      exists (returned c ++ [(o, k)]). split.
      * intros j. rewrite made_snoc. specialize (Ps j). unfold left_of in Ps. destruct (Nat.eqb_spec o j) as [<-|D].
        -- rewrite Ei in Ps. cbn [pending] in Ps. exists todo. rewrite <- app_assoc. exact Ps.
        -- rewrite app_nil_r. eexists. exact Ps.
      * rewrite map_app. cbn [map snd]. rewrite seq_snoc, Sq. cbn [bind]. now rewrite Ek.
    + cbn [alone] in A. destruct (exec spare o' (cf_shared c)) as [[x m]|e] eqn:Ex; cbn [bind] in *.
      * exists ob. cbn [cf_shared cf_owner cf_threads cf_log]. split; [exact Sq|].
        split; [intros j; rewrite (left_set c o (Running k (f x) todo) (Running k (Do o' f) todo) _ _ _ Ei eq_refl j); apply Ps|].
        exists k, (f x), todo. split; [eapply set_same; exact Ei|]. split; [|exact A].
        intros j t D H. rewrite set_other in H by congruence. eauto.
      * destruct (seq_call k ob) as [[ob' r']|e'] eqn:Ek; [destruct A as (h' & b' & A & _); discriminate A|].
        injection A as <-.
        exists (returned c ++ [(o, k)]). split.
        -- intros j. rewrite made_snoc. specialize (Ps j). unfold left_of in Ps. destruct (Nat.eqb_spec o j) as [<-|D].
           ++ rewrite Ei in Ps. cbn [pending] in Ps. exists todo. rewrite <- app_assoc. exact Ps.
           ++ rewrite app_nil_r. eexists. exact Ps.
        -- rewrite map_app. cbn [map snd]. rewrite seq_snoc, Sq. cbn [bind]. now rewrite Ek.
Qed.
Lemma inv_execute sched : forall c, inv c ->
  match execute spare true sched c with Ret c' => inv c' | Panic e => excused e end.
Proof.
  induction sched as [|i sched IH]; intros c I; cbn [execute]; [exact I|].
  pose proof (inv_step i c I) as S. destruct (cstep spare true i c) as [c1|e]; cbn [bind]; [now apply IH|exact S].
Qed.
End Inv.

Lemma inv_start calls h b : own h b -> inv calls (book_view h b) (start calls (mkShared h b)).
Proof.
  intros O. exists (book_view h b). unfold start, returned, replies, shown_book. cbn [cf_log cf_owner cf_shared cf_threads map sh_heap sh_book].
  split; [reflexivity|]. split.
  - intros i. unfold left_of. cbn [cf_threads]. unfold made_by. cbn [filter map app]. rewrite nth_error_map.
    destruct (nth_error calls i) as [l|] eqn:E; cbn [option_map pending].
    + now apply nth_error_nth.
    + apply nth_error_None in E. now apply nth_overflow.
  - split; [exact O|]. split; [reflexivity|]. intros j t H. rewrite nth_error_map in H.
    destruct (nth_error calls j) as [l|]; [|discriminate]. injection H as <-. now exists l.
Qed.

Lemma locked_sequential calls h b sched : own h b ->
  match execute spare true sched (start calls (mkShared h b)) with
  | Ret c => serialises_part calls (returned c) /\
      exists ob, seq_calls (map snd (returned c)) (book_view h b) = Ret (ob, replies c) /\
        (cf_owner c = None -> shown_book c = ob)
  | Panic e => exists log, serialises_part calls log /\ seq_calls (map snd log) (book_view h b) = Panic e
  end.
Proof.
  intros O. pose proof (inv_execute calls (book_view h b) sched _ (inv_start calls h b O)) as I.
  destruct (execute spare true sched (start calls (mkShared h b))) as [c|e]; [|exact I].
  destruct I as (ob & Sq & Ps & Ow). split.
  - intros i. exists (left_of c i). apply Ps.
  - exists ob. split; [exact Sq|]. intros E. rewrite E in Ow. apply Ow.
Qed.
Lemma locked_finished calls h b sched c : own h b ->
  execute spare true sched (start calls (mkShared h b)) = Ret c -> finished c ->
  serialises calls (returned c) /\
  seq_calls (map snd (returned c)) (book_view h b) = Ret (shown_book c, replies c).
Proof.
  intros O E Fi. pose proof (inv_execute calls (book_view h b) sched _ (inv_start calls h b O)) as I. rewrite E in I.
  destruct I as (ob & Sq & Ps & Ow). unfold finished in Fi. rewrite Forall_forall in Fi. split.
  - intros i. rewrite (Ps i). unfold left_of. destruct (nth_error (cf_threads c) i) as [t|] eqn:Et; [|now rewrite app_nil_r].
    rewrite (Fi t (nth_error_In _ _ Et)). cbn [pending]. now rewrite app_nil_r.
  - destruct (cf_owner c) as [o|].
    + destruct Ow as (k & p & todo & Et & _). specialize (Fi _ (nth_error_In _ _ Et)). discriminate.
    + destruct Ow as (_ & W & _). now rewrite W.
Qed.

(** *** Nobody waits for ever *)
Lemma execute_app s1 s2 l (c : config F) : execute spare l (s1 ++ s2) c = (c1 <- execute spare l s1 c ;; execute spare l s2 c1).
Proof.
  revert c. induction s1 as [|i s1 IH]; intros c; cbn [app execute]; [reflexivity|].
  destruct (cstep spare l i c) as [c1|e]; cbn [bind]; [apply IH|reflexivity].
Qed.
Lemma run_call i k todo p : forall c : config F, nth_error (cf_threads c) i = Some (Running k p todo) ->
  exists s, match execute spare true s c with
            | Ret c' => cf_threads c' = set_thread i (Idle todo) (cf_threads c) /\ cf_owner c' = None
            | Panic _ => True
            end.
Proof.
  induction p as [r|e|X o f IH]; intros c H.
  - exists [i]. cbn [execute]. unfold cstep. rewrite H. cbn [bind]. auto.
  - exists [i]. cbn [execute]. unfold cstep. now rewrite H.
  - destruct (exec spare o (cf_shared c)) as [[x m]|e] eqn:Ex.
    + pose (c1 := mkConfig m (cf_owner c) (set_thread i (Running k (f x) todo) (cf_threads c)) (cf_log c)).
      assert (cstep spare true i c = Ret c1) as S by (unfold cstep; rewrite H, Ex; reflexivity).
      destruct (IH x c1) as [s Hs]; [exact (set_same _ _ _ _ H)|].
      exists (i :: s). cbn [execute]. rewrite S. cbn [bind].
      destruct (execute spare true s c1) as [c'|e]; [|trivial]. unfold c1 in Hs. cbn [cf_threads] in Hs. now rewrite set_set in Hs.
    + exists [i]. cbn [execute]. unfold cstep. rewrite H, Ex. reflexivity.
Qed.
Definition weight (l : list (thread F)) : nat := list_sum (map (fun t => length (pending t)) l).
Lemma weight_set i t u l : nth_error l i = Some u -> (length (pending t) < length (pending u))%nat ->
  (weight (set_thread i t l) < weight l)%nat.
Proof.
  unfold weight. revert i. induction l as [|x l IH]; intros [|i] H L; cbn [nth_error] in H; try discriminate; cbn [set_thread map list_sum fold_right].
  - injection H as ->. change (fold_right Nat.add 0%nat) with list_sum. lia.
  - change (fold_right Nat.add 0%nat) with list_sum. specialize (IH i H L). lia.
Qed.
Lemma idle_done_dec (t : thread F) : {t = Idle []} + {t <> Idle []}.
Proof. destruct t as [[|k l]|k p l]; [left; reflexivity|right; discriminate|right; discriminate]. Qed.
Lemma idle_run n : forall c : config F, (weight (cf_threads c) <= n)%nat -> cf_owner c = None ->
  (forall j t, nth_error (cf_threads c) j = Some t -> idle t) ->
  exists s, match execute spare true s c with Ret c' => finished c' | Panic _ => True end.
Proof.
  induction n as [|n IH]; intros c L O Id.
  - exists []. cbn [execute]. unfold finished. rewrite Forall_forall. intros t Ht. apply In_nth_error in Ht. destruct Ht as [j Hj].
    destruct (Id j t Hj) as [todo ->]. destruct todo as [|k todo]; [reflexivity|].
    pose proof (weight_set j (Idle []) (Idle (k :: todo)) _ Hj ltac:(cbn; lia)). lia.
  - destruct (Forall_dec (fun t : thread F => t = Idle []) idle_done_dec (cf_threads c)) as [Fi|Nf].
    + exists []. exact Fi.
    + apply neg_Forall_Exists_neg in Nf.
      2:{ intros t. destruct t as [[|k l]|k p l]; [left; reflexivity|right; discriminate|right; discriminate]. }
      apply Exists_exists in Nf. destruct Nf as (t & Ht & Nt). apply In_nth_error in Ht. destruct Ht as [i Hi].
      destruct (Id i t Hi) as [todo ->]. destruct todo as [|k todo]; [congruence|].
      pose (c1 := mkConfig (cf_shared c) (Some i) (set_thread i (Running k (body k) todo) (cf_threads c)) (cf_log c)).
      assert (cstep spare true i c = Ret c1) as S by (unfold cstep; rewrite Hi, O; reflexivity).
      destruct (run_call i k todo (body k) c1) as [s1 H1]; [exact (set_same _ _ _ _ Hi)|].
      destruct (execute spare true s1 c1) as [c2|e] eqn:E1.
      * destruct H1 as [T2 O2]. unfold c1 in T2. cbn [cf_threads] in T2. rewrite set_set in T2.
        destruct (IH c2) as [s2 H2].
        -- rewrite T2. pose proof (weight_set i (Idle todo) (Idle (k :: todo)) _ Hi ltac:(cbn; lia)). lia.
        -- exact O2.
        -- intros j t Hj. rewrite T2 in Hj. destruct (Nat.eq_dec i j) as [<-|D].
           ++ rewrite (set_same _ _ _ _ Hi) in Hj. injection Hj as <-. now exists todo.
           ++ rewrite set_other in Hj by assumption. eauto.
        -- exists (i :: s1 ++ s2). cbn [execute]. rewrite S. cbn [bind]. rewrite execute_app, E1. cbn [bind]. exact H2.
      * exists (i :: s1). cbn [execute]. rewrite S. cbn [bind]. now rewrite E1.
Qed.
Lemma never_stuck calls h b sched c : own h b ->
  execute spare true sched (start calls (mkShared h b)) = Ret c ->
  exists more, match execute spare true more c with Ret c' => finished c' | Panic _ => True end.
Proof.
  intros O E. pose proof (inv_execute calls (book_view h b) sched _ (inv_start calls h b O)) as I. rewrite E in I.
  destruct I as (ob & Sq & Ps & Ow). destruct (cf_owner c) as [i|] eqn:Eo.
  - destruct Ow as (k & p & todo & Hi & Id & _). destruct (run_call i k todo p c Hi) as [s1 H1].
    destruct (execute spare true s1 c) as [c2|e] eqn:E1; [|exists s1; now rewrite E1].
    destruct H1 as [T2 O2]. destruct (idle_run (weight (cf_threads c2)) c2) as [s2 H2]; [lia|exact O2| |].
    + intros j t Hj. rewrite T2 in Hj. destruct (Nat.eq_dec i j) as [<-|D].
      * rewrite (set_same _ _ _ _ Hi) in Hj. injection Hj as <-. now exists todo.
      * rewrite set_other in Hj by assumption. apply (Id j); congruence.
    + exists (s1 ++ s2). rewrite execute_app, E1. exact H2.
  - destruct Ow as (_ & _ & Id). now apply (idle_run (weight (cf_threads c))).
Qed.
End Locked.

(** *** Updates of different levels *)
Section Updates.
Variable spare : nat -> nat.
Implicit Types (h : heap (row f64)) (b : hbook).

Lemma seq_updates vs : forall (ob ob' : book f64) rs, seq_calls (map CUpdate vs) ob = Ret (ob', rs) -> apply_updates vs ob = Ret ob'.
Proof.
  induction vs as [|u vs IH]; intros ob ob' rs H; cbn [map seq_calls apply_updates seq_call] in *.
  - congruence.
  - destruct (apply_update u ob) as [[ob1 e]|e]; cbn [bind] in *; [|discriminate].
    destruct (seq_calls (map CUpdate vs) ob1) as [[ob2 rs2]|e2] eqn:E; cbn [bind] in H; [|discriminate].
    injection H as <- _. exact (IH ob1 ob2 rs2 E).
Qed.
Lemma seq_updates_panic vs e : forall ob : book f64, seq_calls (map CUpdate vs) ob = Panic e -> apply_updates vs ob = Panic e.
Proof.
  induction vs as [|u vs IH]; intros ob H; cbn [map seq_calls apply_updates seq_call] in *.
  - discriminate.
  - destruct (apply_update u ob) as [[ob1 e1]|e1]; cbn [bind] in *; [|congruence].
    destruct (seq_calls (map CUpdate vs) ob1) as [[ob2 rs2]|e2] eqn:E; cbn [bind] in H; [discriminate|].
    injection H as ->. exact (IH ob1 E).
Qed.
(** A log of updates only. *)
Definition ucall (e : nat * update f64) : nat * call f64 := (fst e, CUpdate (snd e)).
Lemma only_updates uss log : serialises_part (map (map CUpdate) uss) log -> exists ulog, log = map ucall ulog.
Proof.
  intros H. assert (Forall (fun e : nat * call f64 => exists u, snd e = CUpdate u) log) as A.
  { rewrite Forall_forall. intros [i k] He. destruct (H i) as [rest E].
    assert (In k (made_by i log)) as Hk.
    { unfold made_by. apply in_map_iff. exists (i, k). split; [reflexivity|]. apply filter_In. split; [assumption|]. apply Nat.eqb_refl. }
    assert (In k (nth i (map (map CUpdate) uss) [])) as Hn by (rewrite E; apply in_or_app; now left).
    change (@nil (call f64)) with (map (@CUpdate f64) []) in Hn. rewrite map_nth in Hn. apply in_map_iff in Hn.
    destruct Hn as (u & <- & _). now exists u. }
  clear H. induction A as [|[i k] log [u Hu] _ [ul ->]]; [now exists []|].
  cbn [snd] in Hu. subst k. exists ((i, u) :: ul). reflexivity.
Qed.
Lemma made_ucall i ulog : made_by i (map ucall ulog) = map CUpdate (map snd (filter (fun e => Nat.eqb (fst e) i) ulog)).
Proof.
  unfold made_by. induction ulog as [|[j u] ul IH]; cbn [map filter ucall fst snd]; [reflexivity|].
  destruct (Nat.eqb j i); cbn [map]; now rewrite IH.
Qed.
Lemma snd_ucall ulog : map snd (map ucall ulog) = map CUpdate (map snd ulog).
Proof. rewrite !map_map. reflexivity. Qed.

Lemma never_panics uss h b sched : own h b -> sizes_ok (book_view h b) ->
  exists c, execute spare true sched (start (map (map CUpdate) uss) (mkShared h b)) = Ret c.
Proof.
  intros O Sz. pose proof (locked_sequential spare (map (map CUpdate) uss) h b sched O) as L.
  destruct (execute spare true sched (start (map (map CUpdate) uss) (mkShared h b))) as [c|e]; [now exists c|].
  destruct L as (log & Sp & E). destruct (only_updates uss log Sp) as [ul ->]. rewrite snd_ucall in E.
  apply seq_updates_panic in E. destruct (updates_total (map snd ul) (book_view h b) Sz) as (ob' & E' & _). congruence.
Qed.

Definition hits (side : string) (p : f64) (u : update f64) : bool := String.eqb (u_side u) side && f64_eq p (u_price u).
Lemma last_at_filter side p us : last_at side p us = last_at side p (filter (hits side p) us).
Proof.
  induction us as [|u us IH]; [reflexivity|]. cbn [last_at filter]. rewrite IH. unfold hits at 2.
  destruct (String.eqb (u_side u) side) eqn:E1; cbn [andb].
  - destruct (f64_eq p (u_price u)) eqn:E2.
    + cbn [last_at]. now rewrite E1, E2.
    + now destruct (last_at side p (filter (hits side p) us)).
  - now destruct (last_at side p (filter (hits side p) us)).
Qed.
Lemma filter_nil {A} (m : A -> bool) l : (forall x, In x l -> m x = false) -> filter m l = [].
Proof.
  induction l as [|x l IH]; intros H; cbn [filter]; [reflexivity|]. rewrite (H x) by now left. apply IH. intros; apply H; now right.
Qed.
Lemma filter_concat_one {A} (m : A -> bool) uss : forall i,
  (forall j x, j <> i -> In x (nth j uss []) -> m x = false) -> filter m (List.concat uss) = filter m (nth i uss []).
Proof.
  induction uss as [|l uss IH]; intros i H; [now destruct i|]. cbn [List.concat]. rewrite filter_app. destruct i as [|i].
  - rewrite (filter_nil m (List.concat uss)); [now rewrite app_nil_r|]. intros x Hx. apply in_concat in Hx. destruct Hx as (l' & Hl & Hx).
    apply (In_nth uss l' []) in Hl. destruct Hl as (n & _ & <-). apply (H (S n)); [discriminate|exact Hx].
  - rewrite (filter_nil m l); [|intros x Hx; apply (H 0%nat); [discriminate|exact Hx]]. cbn [app nth].
    apply IH. intros j x D Hx. apply (H (S j)); [congruence|exact Hx].
Qed.
Lemma filter_log_one {A} (m : A -> bool) (i : nat) (ulog : list (nat * A)) :
  (forall e, In e ulog -> m (snd e) = true -> fst e = i) ->
  filter m (map snd ulog) = filter m (map snd (filter (fun e => Nat.eqb (fst e) i) ulog)).
Proof.
  induction ulog as [|e ul IH]; intros H; [reflexivity|]. cbn [map filter].
  assert (forall e, In e ul -> m (snd e) = true -> fst e = i) as H' by (intros; apply H; [now right|assumption]).
  specialize (IH H'). destruct (m (snd e)) eqn:Em.
  - rewrite (H e) by (now left || assumption). rewrite Nat.eqb_refl. cbn [map filter]. rewrite Em. now rewrite IH.
  - destruct (Nat.eqb (fst e) i); [|exact IH]. cbn [map filter]. rewrite Em. exact IH.
Qed.

Lemma schedule_irrelevant uss h b sched c : own h b -> sizes_ok (book_view h b) -> well_sorted (book_view h b) ->
  Forall real_price (List.concat uss) -> sides_apart (book_view h b) (List.concat uss) -> room (book_view h b) (List.concat uss) ->
  own_levels uss ->
  execute spare true sched (start (map (map CUpdate) uss) (mkShared h b)) = Ret c -> finished c ->
  apply_updates (List.concat uss) (book_view h b) = Ret (shown_book c).
Proof.
  intros O Sz W Q X R Ol E Fi.
  destruct (locked_finished spare _ h b sched c O E Fi) as [Se Sq].
  assert (serialises_part (map (map CUpdate) uss) (returned c)) as Sp.
  { intros i. exists []. rewrite app_nil_r. symmetry. apply Se. }
  destruct (only_updates uss _ Sp) as [ul Eu]. rewrite Eu in *. rewrite snd_ucall in Sq.
  apply seq_updates in Sq. rewrite <- Sq. set (vs := map snd ul) in *.
  assert (forall i, map snd (filter (fun e : nat * update f64 => Nat.eqb (fst e) i) ul) = nth i uss []) as Th.
  { intros i. specialize (Se i). rewrite made_ucall in Se.
    change (@nil (call f64)) with (map (@CUpdate f64) []) in Se. rewrite map_nth in Se.
    revert Se. generalize (nth i uss []). generalize (map snd (filter (fun e : nat * update f64 => Nat.eqb (fst e) i) ul)).
    intros l. induction l as [|x l IH]; intros [|y l'] H; cbn in H; try discriminate; [reflexivity|].
    injection H as -> H. now rewrite (IH l' H). }
  assert (forall e, In e ul -> In (snd e) (nth (fst e) uss [])) as Lg.
  { intros e He. rewrite <- Th. apply in_map. apply filter_In. split; [assumption|]. apply Nat.eqb_refl. }
  assert (forall i u, In u (nth i uss []) -> In u (List.concat uss)) as Nc.
  { intros i u Hu. apply in_concat. destruct (Nat.lt_ge_cases i (length uss)) as [L|L].
    - exists (nth i uss []). split; [now apply nth_In|assumption].
    - rewrite nth_overflow in Hu by assumption. destruct Hu. }
  assert (forall u, In u vs -> In u (List.concat uss)) as Vc.
  { intros u Hu. apply in_map_iff in Hu. destruct Hu as (e & <- & He). exact (Nc _ _ (Lg e He)). }
  assert (forall side p, last_at side p (List.concat uss) = last_at side p vs) as La.
  { intros side p. rewrite (last_at_filter side p (List.concat uss)), (last_at_filter side p vs).
    assert (forall i j u v, In u (nth i uss []) -> In v (nth j uss []) -> hits side p u = true -> hits side p v = true -> i = j) as One.
    { intros i j u v Hu Hv H1 H2. unfold hits in H1, H2. apply andb_true_iff in H1, H2.
      destruct H1 as [S1 P1], H2 as [S2 P2]. apply String.eqb_eq in S1, S2.
      apply (Ol i j u v Hu Hv); [congruence|].
      apply f64_eq_true in P1, P2. rewrite f64_eq_key by tauto. apply Z.eqb_eq. lia. }
    f_equal. destruct (filter (hits side p) (List.concat uss)) as [|u0 l0] eqn:Ef.
    - symmetry. apply filter_nil. intros u Hu. destruct (hits side p u) eqn:Eh; [|reflexivity].
      assert (In u (filter (hits side p) (List.concat uss))) as Bad by (apply filter_In; auto). rewrite Ef in Bad. destruct Bad.
    - assert (In u0 (filter (hits side p) (List.concat uss))) as H0 by (rewrite Ef; now left). apply filter_In in H0.
      destruct H0 as [H0 Hh]. apply in_concat in H0. destruct H0 as (l & Hl & H0). apply (In_nth uss l []) in Hl.
      destruct Hl as (i0 & _ & <-). rewrite <- Ef. rewrite (filter_concat_one _ uss i0).
      + rewrite <- Th. symmetry. apply filter_log_one. intros e He Hm. exact (One _ _ _ _ (Lg e He) H0 Hm Hh).
      + intros j x D Hx. destruct (hits side p x) eqn:Ex; [|reflexivity]. elim D. exact (One _ _ _ _ Hx H0 Ex Hh). }
  apply room_last; auto.
  - rewrite Forall_forall in *. auto.
  - destruct X as (X1 & X2 & X3). split; [|split]; intros; [apply X1|apply X2|apply X3]; auto.
  - destruct R as (pa & pb & R1 & R2 & R3 & R4 & R5 & R6). exists pa, pb. repeat split; auto.
Qed.
End Updates.
