(** Goroutines asking for the unrealized profit (for C127). *)
From Coq Require Import List String Lia Permutation Bool.
From Verif Require Import Go.Outcome Go.Float64 Go.Num Go.Heap Model.Pair Model.Entities Model.PositionHeap
  Model.ActionsConcurrent Model.PositionConcurrent Model.PositionReaders Spec.SharedPositionSpec Spec.PositionReadSpec
  Spec.HeapSpec Spec.EntitySpec Proofs.Entities
  Proofs.Heap Proofs.Shared Proofs.SharedActions Proofs.PositionHeap Proofs.SharedPosition Proofs.SharedPositionRaces.
Import ListNotations.
Open Scope list_scope.
Local Open Scope nat_scope.
Local Notation length := List.length.

(** *** One call interrupted by another, over any memory, without a lock *)
Section Between.
Context {M C : Type} {op : Type -> Type} (exec : forall X, op X -> M -> go (X * M)) (body : C -> prog op).
Local Notation run := (execute exec body false).
Inductive reach : prog op -> M -> prog op -> M -> Prop :=
| RNow p m : reach p m p m
| RStep X (o : op X) k m x m1 p' m' : exec X o m = Ret (x, m1) -> reach (k x) m1 p' m' -> reach (Do o k) m p' m'.
Lemma run_app_gen s1 : forall s2 c, run (s1 ++ s2) c = bind (run s1 c) (run s2).
Proof. induction s1 as [|i s IH]; intros s2 c; simpl; [reflexivity|]. destruct (cstep exec body false i c); simpl; auto. Qed.
Lemma first_reach t1 p m p' m' : reach p m p' m' -> exists s,
  run s (mkConfig m None [Running p []; t1]) = Ret (mkConfig m' None [Running p' []; t1]).
Proof.
  induction 1 as [p m|X o k m x m1 p' m' E R (s & IH)]; [now exists []|].
  exists (0 :: s). cbn [execute cstep threads nth_error shared]. rewrite E. cbn [bind set_thread owner]. exact IH.
Qed.
Lemma first_out t1 : forall p m m', alone exec p m = Ret m' -> exists s,
  run s (mkConfig m None [Running p []; t1]) = Ret (mkConfig m' None [Idle []; t1]).
Proof.
  induction p as [|X o k IH]; intros m m' E; cbn [alone] in E.
  - injection E as <-. now exists [0].
  - destruct (exec X o m) as [[x m1]|] eqn:Ex; cbn [bind] in E; [|discriminate].
    destruct (IH x m1 m' E) as (s & Es). exists (0 :: s). cbn [execute cstep threads nth_error shared]. rewrite Ex.
    cbn [bind set_thread owner]. exact Es.
Qed.
Lemma second_out t0 : forall p m m', alone exec p m = Ret m' -> exists s,
  run s (mkConfig m None [t0; Running p []]) = Ret (mkConfig m' None [t0; Idle []]).
Proof.
  induction p as [|X o k IH]; intros m m' E; cbn [alone] in E.
  - injection E as <-. now exists [1].
  - destruct (exec X o m) as [[x m1]|] eqn:Ex; cbn [bind] in E; [|discriminate].
    destruct (IH x m1 m' E) as (s & Es). exists (1 :: s). cbn [execute cstep threads nth_error shared]. rewrite Ex.
    cbn [bind set_thread owner]. exact Es.
Qed.
Lemma between a b m p m1 m2 m3 : reach (body a) m p m1 -> alone exec (body b) m1 = Ret m2 -> alone exec p m2 = Ret m3 ->
  exists sched, run sched (start [[a]; [b]] m) = Ret (mkConfig m3 None [Idle []; Idle []]).
Proof.
  intros R B A. destruct (first_reach (Idle [b]) _ _ _ _ R) as (s1 & E1).
  destruct (second_out (Running p []) _ _ _ B) as (s2 & E2). destruct (first_out (Idle []) _ _ _ A) as (s3 & E3).
  exists ([0] ++ s1 ++ [1] ++ s2 ++ s3). rewrite !run_app_gen.
  cbn [execute cstep start threads nth_error map owner shared bind set_thread]. rewrite !run_app_gen, E1.
  cbn [bind]. rewrite run_app_gen. cbn [execute cstep threads nth_error owner shared bind set_thread]. rewrite run_app_gen, E2. cbn [bind]. exact E3.
Qed.
End Between.

Section Readers.
Context {F : Type} {N : GoFloat F}.
Variable spare : nat -> nat.
Local Notation run := (execute (rexec spare) c_call).
Local Notation ok m := (valid (p_heap (r_mem m)) (hp_trades (p_pos (r_mem m)))).
Local Notation seen m := (shown (r_mem m)).

Lemma rexec_total X (o : rop F X) m : exists r, rexec spare X o m = Ret r.
Proof. destruct o; cbn [rexec]; eauto. destruct (pexec_total spare X o (r_mem m)) as ([x m1] & ->). cbn [bind]. eauto. Qed.
Lemma alone_access : forall p (m : rmem F), alone (rexec spare) (with_access p) m =
  bind (alone (pexec spare) p (r_mem m)) (fun m1 => Ret (mkRMem m1 (returned m))).
Proof.
  induction p as [|X o k IH]; intros m; cbn [with_access alone rexec bind]; [now destruct m|].
  destruct (pexec spare X o (r_mem m)) as [[x m1]|]; cbn [bind]; [|reflexivity]. rewrite IH. reflexivity.
Qed.
Lemma alone_profit x (m : rmem F) : alone (rexec spare) (c_profit x) m =
  Ret (mkRMem (r_mem m) (returned m ++ [(x, unrealized_profit (seen m) x)])).
Proof. reflexivity. Qed.
Lemma alone_trade t (m : rmem F) : ok m -> exists m', alone (rexec spare) (c_call (CTrade t)) m = Ret m' /\ ok m' /\
  seen m' = fst (modify (seen m) t) /\ returned m' = returned m.
Proof.
  intros V. cbn [c_call]. rewrite alone_access. destruct (alone_modify spare t (r_mem m) V) as (m1 & -> & A2 & _ & _ & A5).
  cbn [bind]. eexists; split; [reflexivity|]. auto.
Qed.

(** With a lock. *)
Lemma in_turn_calls : forall cs (m m' : rmem F), ok m -> in_turn (rexec spare) c_call cs m = Ret m' ->
  seen m' = modify_all (seen m) (trades_of cs) /\ returned m' = returned m ++ answers (seen m) cs.
Proof.
  induction cs as [|[t|x] cs IH]; intros m m' V E; cbn [in_turn] in E.
  - injection E as <-. cbn. now rewrite app_nil_r.
  - destruct (alone_trade t m V) as (m1 & A1 & A2 & A3 & A4). rewrite A1 in E. cbn [bind] in E.
    destruct (IH m1 m' A2 E) as (B1 & B2). cbn [trades_of modify_all answers]. now rewrite B1, B2, A3, A4.
  - cbn [c_call] in E. rewrite alone_profit in E. cbn [bind] in E. destruct (IH (mkRMem (r_mem m) (returned m ++ [(x, unrealized_profit (seen m) x)])) m' V E) as (B1 & B2).
    cbn [trades_of answers r_mem returned] in *. rewrite B1, B2, <- app_assoc. auto.
Qed.
Lemma locked_readers calls (m : rmem F) sched : ok m ->
  exists c log, run true sched (start calls m) = Ret c /\ order_so_far calls log /\
    (owner c = None -> seen (shared c) = modify_all (seen m) (trades_of (map snd log)) /\
       returned (shared c) = returned m ++ answers (seen m) (map snd log)) /\
    (finished c -> an_order calls log /\ seen (shared c) = modify_all (seen m) (trades_of (map snd log)) /\
       returned (shared c) = returned m ++ answers (seen m) (map snd log)).
Proof.
  intros V. destruct (never_panics (rexec spare) c_call true rexec_total sched (start calls m)) as (c & E).
  destruct (locked_in_turn _ _ _ _ _ _ E) as (log & m1 & A1 & A2 & A3 & A4).
  pose proof (in_turn_calls _ _ _ V A2) as B. exists c, log. split; [exact E|]. split; [exact A1|]. split.
  - intros H. rewrite (A3 H). exact B.
  - intros H. destruct (A4 H) as (H1 & ->). auto.
Qed.
Lemma readers_finish calls (m : rmem F) sched c :
  run true sched (start calls m) = Ret c -> exists more c', run true more c = Ret c' /\ finished c'.
Proof. apply can_finish. intros s. apply never_panics, rexec_total. Qed.
Lemma returned_step locked j c c' : cstep (rexec spare) c_call locked j c = Ret c' ->
  exists l, returned (shared c') = returned (shared c) ++ l.
Proof.
  intros E. unfold cstep in E. pose proof (app_nil_r (returned (shared c))) as Z.
  destruct (nth_error (threads c) j) as [[[|k l]|[|X o f] l]|].
  1,5: injection E as <-; now exists [].
  - destruct (owner c); injection E as <-; now exists [].
  - injection E as <-. now exists [].
  - destruct o as [X o|price x]; cbn [rexec] in E.
    + destruct (pexec_total spare X o (r_mem (shared c))) as ([x m1] & Ex). rewrite Ex in E. cbn [bind] in E.
      injection E as <-. now exists [].
    + cbn [bind] in E. injection E as <-. eexists. reflexivity.
Qed.
Lemma returned_run locked sched : forall c c', run locked sched c = Ret c' ->
  exists l, returned (shared c') = returned (shared c) ++ l.
Proof.
  induction sched as [|j s IH]; intros c c' E; cbn [execute] in E; [injection E as <-; exists []; now rewrite app_nil_r|].
  destruct (cstep (rexec spare) c_call locked j c) as [c1|] eqn:E1; cbn [bind] in E; [|discriminate].
  destruct (returned_step _ _ _ _ E1) as (l1 & H1). destruct (IH _ _ E) as (l2 & H2). exists (l1 ++ l2). now rewrite H2, H1, app_assoc.
Qed.
Lemma answer_at : forall cs (p : position F) x v, In (x, v) (answers p cs) ->
  exists a b, cs = a ++ CProfit x :: b /\ v = unrealized_profit (modify_all p (trades_of a)) x.
Proof.
  induction cs as [|[t|y] cs IH]; intros p x v H; cbn [answers] in H; [destruct H| |].
  - destruct (IH _ _ _ H) as (a & b & -> & ->). now exists (CTrade t :: a), b.
  - destruct H as [H|H]; [injection H as -> <-; now exists [], cs|].
    destruct (IH _ _ _ H) as (a & b & -> & ->). now exists (CProfit y :: a), b.
Qed.
Lemma every_answer calls (m : rmem F) sched c x v : ok m -> returned m = [] ->
  run true sched (start calls m) = Ret c -> In (x, v) (returned (shared c)) ->
  exists before, order_so_far calls before /\ v = unrealized_profit (modify_all (seen m) (trades_of (map snd before))) x.
Proof.
  intros V Z E H. destruct (readers_finish _ _ _ _ E) as (more & c' & E' & Hf).
  destruct (returned_run _ _ _ _ E') as (l & Hl).
  destruct (locked_readers calls m (sched ++ more) V) as (c2 & log & E2 & _ & _ & K).
  rewrite (run_app (rexec spare) c_call) in E2. rewrite E in E2. cbn [bind] in E2. rewrite E' in E2. injection E2 as <-.
  destruct (K Hf) as (K1 & _ & K3). rewrite Z in K3. cbn [app] in K3.
  assert (In (x, v) (answers (seen m) (map snd log))) as Hi by (rewrite <- K3, Hl; apply in_or_app; now left).
  destruct (answer_at _ _ _ _ Hi) as (a & b & Ea & ->).
  apply map_eq_app in Ea. destruct Ea as (la & lb & -> & <- & Eb).
  exists la. split; [|reflexivity]. intros i. rewrite <- (K1 i), calls_of_app. eauto.
Qed.

(** Nobody trades: no lock is needed. *)
Section Asking.
Variable m0 : pmem F.
Variable before : list (F * F).
Definition right (l : list (F * F)) : Prop := forall x v, In (x, v) l -> In (x, v) before \/ v = unrealized_profit (shown m0) x.
Fixpoint reading (p : prog (rop F)) : Prop :=
  match p with
  | Done => True
  | @Do _ X o k => forall l, right l -> exists x l', rexec spare X o (mkRMem m0 l) = Ret (x, mkRMem m0 l') /\ right l' /\ reading (k x)
  end.
Definition asks (c : pcall F) : Prop := match c with CTrade _ => False | CProfit _ => True end.
Definition asker (t : thread (pcall F) (rop F)) : Prop :=
  match t with Idle l => Forall asks l | Running p l => reading p /\ Forall asks l end.
Lemma profit_reading x : reading (c_profit x).
Proof.
  cbn. intros l H. eexists _, l. split; [reflexivity|]. split; [exact H|].
  intros l1 H1. eexists _, l1. split; [reflexivity|]. split; [exact H1|].
  intros l2 H2. eexists _, l2. split; [reflexivity|]. split; [exact H2|].
  intros l3 H3. eexists _, _. split; [reflexivity|]. split; [|exact I].
  intros y v Hi. apply in_app_iff in Hi. destruct Hi as [Hi|[Hi|[]]]; [now apply H3|]. injection Hi as <- <-. right. reflexivity.
Qed.
Definition ainv (c : config (rmem F) (pcall F) (rop F)) : Prop :=
  r_mem (shared c) = m0 /\ right (returned (shared c)) /\ Forall asker (threads c).
Lemma ask_step locked j c c' : ainv c -> cstep (rexec spare) c_call locked j c = Ret c' -> ainv c'.
Proof.
  intros I0 E. pose proof I0 as (G & R & Ht). unfold cstep in E.
  destruct (nth_error (threads c) j) as [t|] eqn:Et; [|injection E as <-; exact I0].
  pose proof (proj1 (Forall_forall _ _) Ht t (nth_error_In _ _ Et)) as T.
  destruct t as [[|k l]|[|X o f] l].
  - injection E as <-. exact I0.
  - destruct (owner c); injection E as <-; [exact I0|]. split; [exact G|]. split; [exact R|]. apply forall_set; [exact Ht|].
    inversion T; subst. destruct k as [t|x]; [contradiction|]. split; [apply profit_reading|assumption].
  - injection E as <-. split; [exact G|]. split; [exact R|]. apply forall_set; [exact Ht|]. apply T.
  - destruct T as (T1 & T2). destruct (T1 _ R) as (x & l' & Ex & R' & Hk). 
    replace (mkRMem m0 (returned (shared c))) with (shared c) in Ex by (rewrite <- G; now destruct (shared c)).
    rewrite Ex in E. cbn [bind] in E. injection E as <-. split; [reflexivity|]. split; [exact R'|]. apply forall_set; [exact Ht|]. now split.
Qed.
Lemma ask_run locked sched : forall c c', ainv c -> run locked sched c = Ret c' -> ainv c'.
Proof.
  induction sched as [|j s IH]; intros c c' I0 E; cbn [execute] in E; [injection E as <-; exact I0|].
  destruct (cstep (rexec spare) c_call locked j c) as [c1|] eqn:E1; cbn [bind] in E; [|discriminate].
  eapply IH; [|exact E]. eapply ask_step; eauto.
Qed.
End Asking.
Lemma only_asks_all (calls : list (list (pcall F))) : only_asks calls -> Forall (Forall asks) calls.
Proof.
  unfold only_asks. assert (forall l : list (pcall F), trades_of l = [] -> Forall asks l) as K.
  { induction l as [|[t|x] l IH]; intros H; [constructor|discriminate|]. constructor; [exact I|]. now apply IH. }
  assert (forall a b : list (pcall F), trades_of (a ++ b) = trades_of a ++ trades_of b) as A.
  { induction a as [|[t|x] a IH]; intros b; cbn [app trades_of]; [reflexivity| |apply IH]. cbn [app]. now rewrite IH. }
  induction calls as [|l cs IH]; intros H; [constructor|]. cbn [List.concat] in H. rewrite A in H. apply app_eq_nil in H.
  constructor; [apply K, H|apply IH, H].
Qed.
Lemma asking_free locked calls (m : rmem F) sched : only_asks calls -> 
  exists c, run locked sched (start calls m) = Ret c /\ r_mem (shared c) = r_mem m /\
    forall x v, In (x, v) (returned (shared c)) -> In (x, v) (returned m) \/ v = unrealized_profit (seen m) x.
Proof.
  intros H. destruct (never_panics (rexec spare) c_call locked rexec_total sched (start calls m)) as (c & E).
  exists c. split; [exact E|]. apply only_asks_all in H.
  assert (ainv (r_mem m) (returned m) (start calls m)) as I0.
  { split; [reflexivity|]. split; [intros x v Hi; now left|]. cbn [start threads].
    apply Forall_forall. intros t Ht. apply in_map_iff in Ht. destruct Ht as (l & <- & Hl). now apply (proj1 (Forall_forall _ _) H). }
  destruct (ask_run _ _ _ _ _ _ I0 E) as (A1 & A2 & _). split; [exact A1|exact A2].
Qed.

(** Asking never changes what trading does. *)
Fixpoint reader (p : prog (rop F)) : Prop :=
  match p with
  | Done => True
  | @Do _ X o k => (forall m x m', rexec spare X o m = Ret (x, m') -> r_mem m' = r_mem m) /\ forall x, reader (k x)
  end.
Lemma profit_reader x : reader (c_profit x).
Proof.
  cbn. repeat (split; [intros m y m' H; injection H as <- <-; reflexivity|intros ?]). exact I.
Qed.
Inductive hides : thread (pcall F) (rop F) -> thread (trade F) (pop F) -> Prop :=
| HIdle l : hides (Idle l) (Idle (trades_of l))
| HTrade p l : hides (Running (with_access p) l) (Running p (trades_of l))
| HRead p l : reader p -> hides (Running p l) (Idle (trades_of l)).
Definition hidden (c : config (rmem F) (pcall F) (rop F)) (d : config (pmem F) (trade F) (pop F)) : Prop :=
  r_mem (shared c) = shared d /\ owner c = None /\ owner d = None /\ Forall2 hides (threads c) (threads d).
Lemma hides_set : forall ts us j t u u0, Forall2 hides ts us -> nth_error us j = Some u0 -> hides t u ->
  Forall2 hides (set_thread j t ts) (set_thread j u us).
Proof.
  intros ts us j t u u0 H. revert j. induction H as [|a b ts us H1 H2 IH]; intros [|j] E Hh; cbn in *; try discriminate; constructor; eauto.
Qed.
Lemma set_same {C op} : forall (us : list (thread C op)) j u, nth_error us j = Some u -> set_thread j u us = us.
Proof. induction us as [|a us IH]; intros [|j] u E; cbn in *; try discriminate; [now injection E as ->|]. now rewrite IH. Qed.
Lemma hides_at : forall ts us j t, Forall2 hides ts us -> nth_error ts j = Some t -> exists u, nth_error us j = Some u /\ hides t u.
Proof.
  intros ts us j t H. revert j. induction H as [|a b ts us H1 H2 IH]; intros [|j] E; cbn in *; try discriminate; eauto.
  injection E as <-. eauto.
Qed.
Lemma hidden_step j c d c' : hidden c d -> cstep (rexec spare) c_call false j c = Ret c' ->
  exists s d', execute (pexec spare) c_modify false s d = Ret d' /\ hidden c' d'.
Proof.
  intros H0 E. pose proof H0 as (G & O1 & O2 & Ht). unfold cstep in E.
  assert (exists s d', execute (pexec spare) c_modify false s d = Ret d' /\ hidden c d') as Stay by (exists [], d; auto).
  destruct (nth_error (threads c) j) as [t|] eqn:Et; [|injection E as <-; exact Stay].
  destruct (hides_at _ _ _ _ Ht Et) as (u & Eu & Hu).
  assert (forall t', hides t' u -> Forall2 hides (set_thread j t' (threads c)) (threads d)) as Same.
  { intros t' Ht'. rewrite <- (set_same _ _ _ Eu). eapply hides_set; eauto. }
  inversion Hu; subst.
  - (* idle *) destruct l as [|k l]; [injection E as <-; exact Stay|]. rewrite O1 in E. injection E as <-.
    destruct k as [t|x].
    + exists [j]. eexists. split.
      * cbn [execute]. unfold cstep. rewrite Eu. cbn [trades_of]. rewrite O2. cbn [bind]. reflexivity.
      * split; [exact G|]. split; [reflexivity|]. split; [reflexivity|]. eapply hides_set; eauto. cbn [c_call]. constructor.
    + exists [], d. split; [reflexivity|]. split; [exact G|]. split; [reflexivity|]. split; [exact O2|].
      apply Same. cbn [trades_of c_call]. constructor. apply profit_reader.
  - (* trading *) destruct p as [|X o k]; cbn [with_access] in E.
    + injection E as <-. exists [j]. eexists. split.
      * cbn [execute]. unfold cstep. rewrite Eu. cbn [bind]. reflexivity.
      * split; [exact G|]. split; [reflexivity|]. split; [reflexivity|]. eapply hides_set; eauto. constructor.
    + cbn [rexec] in E. rewrite G in E. destruct (pexec_total spare X o (shared d)) as ([x m1] & Ex). rewrite Ex in E. cbn [bind] in E.
      injection E as <-. exists [j]. eexists. split.
      * cbn [execute]. unfold cstep. rewrite Eu, Ex. cbn [bind]. reflexivity.
      * split; [reflexivity|]. split; [exact O1|]. split; [exact O2|]. eapply hides_set; eauto. constructor.
  - (* asking *) destruct p as [|X o k].
    + injection E as <-. exists [], d. split; [reflexivity|]. split; [exact G|]. split; [reflexivity|]. split; [exact O2|]. apply Same. constructor.
    + match goal with Hr : reader (Do o k) |- _ => destruct Hr as (R1 & R2) end.
      destruct (rexec spare X o (shared c)) as [[x m1]|] eqn:Ex; cbn [bind] in E; [|discriminate]. injection E as <-.
      exists [], d. split; [reflexivity|]. split; [cbn [shared]; now rewrite (R1 _ _ _ Ex)|]. split; [exact O1|]. split; [exact O2|].
      apply Same. constructor. apply R2.
Qed.
Lemma hidden_run sched : forall c d c', hidden c d -> run false sched c = Ret c' ->
  exists s d', execute (pexec spare) c_modify false s d = Ret d' /\ hidden c' d'.
Proof.
  induction sched as [|j s IH]; intros c d c' H E; cbn [execute] in E; [injection E as <-; exists [], d; auto|].
  destruct (cstep (rexec spare) c_call false j c) as [c1|] eqn:E1; cbn [bind] in E; [|discriminate].
  destruct (hidden_step _ _ _ _ H E1) as (s1 & d1 & D1 & H1). destruct (IH _ _ _ H1 E) as (s2 & d2 & D2 & H2).
  exists (s1 ++ s2), d2. split; [|exact H2]. rewrite run_app_gen, D1. exact D2.
Qed.
Lemma asking_unnoticed calls (m : rmem F) sched c : run false sched (start calls m) = Ret c ->
  exists s d, execute (pexec spare) c_modify false s (start (map trades_of calls) (r_mem m)) = Ret d /\
    r_mem (shared c) = shared d /\ (finished c -> finished d).
Proof.
  intros E. assert (hidden (start calls m) (start (map trades_of calls) (r_mem m))) as H0.
  { split; [reflexivity|]. split; [reflexivity|]. split; [reflexivity|]. cbn [start threads]. clear. induction calls as [|l ls IH]; cbn [map]; constructor; [constructor|exact IH]. }
  destruct (hidden_run _ _ _ _ H0 E) as (s & d & D & (H1 & _ & _ & H4)). exists s, d. split; [exact D|]. split; [exact H1|].
  unfold finished. intros Hf. clear -H4 Hf. induction H4 as [|t u ts us H _ IH]; [constructor|]. inversion Hf; subst. constructor; [|now apply IH].
  inversion H; subst. reflexivity.
Qed.

(** *** Torn answers *)
Lemma to_price t (m : rmem F) : ok m -> t_pair t = ps_pair (seen m) -> increases (ps_type (seen m)) (t_action t) ->
  exists p m1, reach (rexec spare) (c_call (CTrade t)) m p m1 /\ ok m1 /\ returned m1 = returned m /\
    seen m1 = set_open_price (seen m) (ps_open_price (fst (modify (seen m) t))) /\
    forall l, exists m3, alone (rexec spare) p (mkRMem (r_mem m1) l) = Ret m3 /\ seen m3 = fst (modify (seen m) t) /\ returned m3 = l.
Proof.
  intros V P I.
  assert (fst (modify (seen m) t) = pos_add (seen m) t) as Em.
  { unfold modify. rewrite P, pair_refl. cbn [negb]. destruct I as [(Ty & Ac)|(Ty & Ac)]; rewrite Ty, Ac; reflexivity. }
  rewrite Em.
  set (total := fadd (ps_quantity (seen m)) (t_quantity t)).
  set (op := fadd (fdiv (fmul (ps_open_price (seen m)) (ps_quantity (seen m))) total) (fdiv (fmul (t_price t) (t_quantity t)) total)).
  assert (exists p m1, reach (rexec spare) (with_access (c_add t)) m p m1 /\ m1 = mkRMem (on_fields (fun p => set_open_price p op) (r_mem m)) (returned m) /\
    p = with_access (Do (SetQuantity total) (fun _ => c_append t))) as (p & m1 & R & E1 & Ep).
  { eexists _, _. split; [|split; reflexivity]. unfold c_add. cbn [with_access].
    do 4 (eapply RStep; [cbn [rexec pexec bind]; reflexivity|]). cbn [r_mem returned]. apply RNow. }
  exists p, m1. split.
  - cbn [c_call]. unfold c_modify. cbv zeta. cbn [with_access].
    eapply RStep; [cbn [rexec pexec bind]; reflexivity|]. change (ps_pair (hp_fields (p_pos (r_mem m)))) with (ps_pair (seen m)).
    rewrite P, pair_refl. cbn [negb with_access].
    replace (mkRMem (r_mem m) (returned m)) with m by now destruct m.
    destruct I as [(Ty & Ac)|(Ty & Ac)]; change (ps_type (seen m)) with (ps_type (hp_fields (p_pos (r_mem m)))) in Ty;
      rewrite ?Ac; repeat (eapply RStep; [cbn [rexec pexec bind]; reflexivity|]; rewrite Ty;
        replace (mkRMem (r_mem m) (returned m)) with m by (now destruct m);
        match goal with |- reach _ (with_access (if ?b then _ else _)) _ _ _ =>
          let e := eval vm_compute in b in change b with e end; cbn [with_access]); exact R.
  - subst p m1. split; [exact V|]. split; [reflexivity|]. split; [reflexivity|].
    intros l. rewrite alone_access. cbn [r_mem returned alone pexec bind].
    destruct (alone_append spare t (on_fields (fun p => set_quantity p total) (on_fields (fun p => set_open_price p op) (r_mem m))) V)
      as (m3 & -> & _ & _ & _ & A5).
    cbn [bind]. eexists. split; [reflexivity|]. cbn [r_mem returned]. split; [|reflexivity]. rewrite A5. reflexivity.
Qed.
Lemma torn_one t x (m : rmem F) : ok m -> t_pair t = ps_pair (seen m) -> increases (ps_type (seen m)) (t_action t) ->
  exists sched c, run false sched (start [[CTrade t]; [CProfit x]] m) = Ret c /\ finished c /\
    seen (shared c) = fst (modify (seen m) t) /\
    returned (shared c) = returned m ++
      [(x, unrealized_profit (set_open_price (seen m) (ps_open_price (fst (modify (seen m) t)))) x)].
Proof.
  intros V P I. destruct (to_price t m V P I) as (p & m1 & R & V1 & Z1 & S1 & K).
  destruct (K (returned m1 ++ [(x, unrealized_profit (seen m1) x)])) as (m3 & A3 & S3 & Z3).
  destruct (between (rexec spare) c_call (CTrade t) (CProfit x) m p m1 _ m3 R (alone_profit x m1) A3) as (s & E).
  eexists s, _. split; [exact E|]. split; [repeat constructor|]. cbn [shared]. split; [exact S3|]. now rewrite Z3, Z1, S1.
Qed.
Lemma torn_two t x (m : rmem F) : ok m -> 
  exists sched c, run false sched (start [[CProfit x]; [CTrade t]] m) = Ret c /\ finished c /\
    seen (shared c) = fst (modify (seen m) t) /\
    returned (shared c) = returned m ++
      [(x, unrealized_profit (set_quantity (seen m) (ps_quantity (fst (modify (seen m) t)))) x)].
Proof.
  intros V. destruct (alone_trade t m V) as (m2 & A1 & A2 & A3 & A4).
  edestruct (between (rexec spare) c_call (CProfit x) (CTrade t) m) as (s & E).
  - cbn [c_call c_profit]. do 2 (eapply RStep; [cbn [rexec pexec bind]; reflexivity|]). apply RNow.
  - cbn [r_mem returned]. replace (mkRMem (r_mem m) (returned m)) with m by now destruct m. exact A1.
  - cbn [alone rexec pexec bind]. reflexivity.
  - eexists s, _. split; [exact E|]. split; [repeat constructor|]. cbn [shared r_mem returned]. split; [exact A3|]. rewrite A4. do 3 f_equal.
    rewrite <- A3. unfold unrealized_profit. cbn [set_quantity ps_type ps_open_price ps_quantity]. reflexivity.
Qed.
End Readers.
