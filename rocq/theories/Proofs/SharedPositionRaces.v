(** Goroutines trading on one position without a lock (for C124). *)
From Coq Require Import List String Lia Permutation Bool.
From Verif Require Import Go.Outcome Go.Float64 Go.Num Go.Heap Model.Pair Model.Entities Model.PositionHeap
  Model.ActionsConcurrent Model.PositionConcurrent Spec.SharedPositionSpec Spec.HeapSpec Spec.EntitySpec
  Proofs.Heap Proofs.Shared Proofs.SharedActions Proofs.PositionHeap Proofs.SharedPosition.
Import ListNotations.
Open Scope list_scope.
Local Open Scope nat_scope.
Local Notation length := List.length.
Local Notation concat := List.concat.

Section Races.
Context {F : Type} {N : GoFloat F}.
Variable spare : nat -> nat.
Local Notation run := (execute (pexec spare) c_modify).
Local Notation ok m := (valid (p_heap m) (hp_trades (p_pos m))).

(** *** What holds all the same *)
Variable allowed : string -> Prop.
Definition good (h : heap string) (s : slice) : Prop := valid h s /\ forall x, In x (view h s) -> allowed x.
Lemma view_nth (h : heap string) u i : nth_error (view h u) i = if (i <? s_len u)%nat then nth_error (nth (s_arr u) h []) (s_off u + i) else None.
Proof. unfold view. now rewrite nth_firstn', nth_skipn'. Qed.
Lemma append_good k h s u x : good h s -> good h u -> allowed x ->
  let r := append_slice "" k h s [x] in good (fst r) u /\ good (fst r) (snd r).
Proof.
  intros (Vs & Gs) (Vu & Gu) Hx r. destruct (append_ok "" k h s [x] Vs) as (St & W & _). fold r in St, W.
  split; [|split; [exact (proj1 St)|]].
  2:{ intros y Hy. rewrite W, in_app_iff in Hy. destruct Hy as [Hy|[<-|[]]]; auto. }
  unfold r, append_slice. cbv zeta. cbn [List.length].
  destruct (PeanoNat.Nat.leb_spec (s_len s + 1) (s_cap s)) as [L|L]; cbn [fst].
  - split; [now apply store_valid|]. intros y Hy. apply In_nth_error in Hy. destruct Hy as (i & Hi).
    rewrite view_nth in Hi. destruct (PeanoNat.Nat.ltb_spec i (s_len u)) as [Li|]; [|discriminate].
    assert (nth_error (nth (s_arr u) h []) (s_off u + i) = Some y -> allowed y) as Old.
    { intros H. apply Gu, (nth_error_In _ i). rewrite view_nth. destruct (PeanoNat.Nat.ltb_spec i (s_len u)); [exact H|lia]. }
    unfold store in Hi. destruct (PeanoNat.Nat.eq_dec (s_arr s) (s_arr u)) as [E|E].
    + destruct Vs as (V1 & V2). specialize (V2 ltac:(lia)). rewrite <- E, set_array_same in Hi by lia.
      rewrite nth_overwrite in Hi by (simpl; lia). rewrite E in Hi. simpl in Hi.
      destruct (PeanoNat.Nat.ltb_spec (s_off u + i) (s_off s + s_len s)); [auto|].
      destruct (PeanoNat.Nat.ltb_spec (s_off u + i) (s_off s + s_len s + 1)); [|auto].
      destruct (s_off u + i - (s_off s + s_len s)) as [|n]; simpl in Hi; [now injection Hi as <-|destruct n; discriminate].
    + rewrite set_array_other in Hi by exact E. auto.
  - split.
    + destruct Vu as (V1 & V2). split; [exact V1|]. intros Z. destruct (V2 Z) as (V3 & V4). rewrite app_length. split; [lia|].
      now rewrite app_nth1.
    + intros y Hy. apply Gu. destruct Vu as (V1 & V2). unfold view in Hy |- *.
      destruct (PeanoNat.Nat.eq_dec (s_cap u) 0) as [Z|Z].
      * replace (s_len u) with 0 in Hy by lia. destruct Hy.
      * destruct (V2 Z) as (V3 & _). now rewrite app_nth1 in Hy.
Qed.

(** An access that touches neither the list of trades nor what stays fixed. *)
Definition plain {X} (o : pop F X) : Prop :=
  match o with GetTrades | SetTrades _ | AppendId _ _ => False | _ => True end.
Inductive clean : prog (pop F) -> Prop :=
| CDone : clean Done
| CApp t : allowed (t_id t) -> clean (c_append t)
| CDo X (o : pop F X) k : plain o -> (forall x, clean (k x)) -> clean (Do o k).
Lemma modify_clean t : allowed (t_id t) -> clean (c_modify t).
Proof.
  intros H.
  assert (clean (c_add t)) as A by (unfold c_add; repeat (apply CDo; [exact I|intros]); now apply CApp).
  assert (clean (c_substract t)) as B.
  { unfold c_substract. apply CDo; [exact I|]. intros q0. cbv zeta. destruct (_ && _); [constructor|]. destruct (fle _ _).
    - unfold c_close. apply CDo; [exact I|]. intros ?. apply CDo; [exact I|]. intros ty. cbv zeta.
      destruct (String.eqb ty LongPosition); repeat (apply CDo; [exact I|intros]); now apply CApp.
    - unfold c_reduce; repeat (apply CDo; [exact I|intros]); now apply CApp. }
  unfold c_modify. cbv zeta. apply CDo; [exact I|]. intros pr. destruct (negb _); [constructor|].
  do 4 (apply CDo; [exact I|]; intros; match goal with |- clean (if ?b then _ else _) => destruct b end; auto). constructor.
Qed.
Inductive stage (h : heap string) : prog (pop F) -> Prop :=
| StClean p : clean p -> stage h p
| StApp s (t : trade F) : good h s -> allowed (t_id t) -> stage h (Do (AppendId s (t_id t)) (fun s' => Do (SetTrades s') (fun _ => Done)))
| StSet s : good h s -> stage h (Do (SetTrades s) (fun _ => Done)).
Definition thread_ok (h : heap string) (t : thread (trade F) (pop F)) : Prop :=
  match t with
  | Idle l => forall t, In t l -> allowed (t_id t)
  | Running p l => stage h p /\ forall t, In t l -> allowed (t_id t)
  end.
Variable p0 : position F.
Definition inv (c : config (pmem F) (trade F) (pop F)) : Prop :=
  good (p_heap (shared c)) (hp_trades (p_pos (shared c))) /\ same_identity (hp_fields (p_pos (shared c))) p0 /\
  Forall (thread_ok (p_heap (shared c))) (threads c).

Lemma forall_set {op C} (P : thread C op -> Prop) : forall l i t, Forall P l -> P t -> Forall P (set_thread i t l).
Proof. induction l as [|x l IH]; intros [|i] t H Ht; simpl; inversion H; subst; auto. Qed.
Lemma stage_mono h h' p : (forall s, good h s -> good h' s) -> stage h p -> stage h' p.
Proof. intros H []; [now apply StClean|apply StApp; auto|apply StSet; auto]. Qed.
Lemma inv_step locked j c : inv c -> exists c', cstep (pexec spare) c_modify locked j c = Ret c' /\ inv c'.
Proof.
  intros I0. pose proof I0 as (G & Id & Ht). unfold cstep.
  destruct (nth_error (threads c) j) as [t|] eqn:Et; [|eauto].
  pose proof (proj1 (Forall_forall _ _) Ht t (nth_error_In _ _ Et)) as T.
  destruct t as [[|k l]|p l]; [eauto| |].
  - destruct (owner c); [eauto|]. eexists; split; [reflexivity|]. split; [exact G|]. split; [exact Id|]. cbn [shared threads].
    apply forall_set; [exact Ht|]. split; [apply StClean, modify_clean, T; now left|]. intros x Hx. apply T. now right.
  - destruct T as (Hs & Hl). destruct Hs as [p Hc|s t Gs Ha|s Gs].
    + destruct Hc as [|t Ha|X o k Hp Hk].
      * eexists; split; [reflexivity|]. split; [exact G|]. split; [exact Id|]. cbn [shared threads]. now apply forall_set.
      * cbn [c_append pexec bind]. eexists; split; [reflexivity|]. split; [exact G|]. split; [exact Id|]. cbn [shared threads].
        apply forall_set; [exact Ht|]. split; [now apply StApp|exact Hl].
      * assert (exists x m, pexec spare X o (shared c) = Ret (x, m) /\ p_heap m = p_heap (shared c) /\
          hp_trades (p_pos m) = hp_trades (p_pos (shared c)) /\ same_identity (hp_fields (p_pos m)) p0) as (x & m & -> & E1 & E2 & E3).
        { destruct o; try destruct Hp; cbn [pexec]; eexists _, _; (split; [reflexivity|]); auto. }
        cbn [bind]. eexists; split; [reflexivity|]. unfold inv. cbn [shared threads]. rewrite E1, E2. split; [exact G|]. split; [exact E3|].
        apply forall_set; [exact Ht|]. split; [apply StClean, Hk|exact Hl].
    + cbn [pexec]. pose proof (fun u Gu => append_good (spare (length (p_heap (shared c)))) _ s u (t_id t) Gs Gu Ha) as K. cbv zeta in K.
      destruct (append_slice "" (spare (length (p_heap (shared c)))) (p_heap (shared c)) s [t_id t]) as [h1 s1]. cbn [fst snd] in K. cbn [bind].
      eexists; split; [reflexivity|]. unfold inv. cbn [shared threads p_heap p_pos]. split; [apply (K _ G)|]. split; [exact Id|].
      apply forall_set.
      * apply Forall_forall. intros x Hx. pose proof (proj1 (Forall_forall _ _) Ht x Hx) as T.
        destruct x as [?|? ?]; [exact T|]. destruct T as (T1 & T2). split; [|exact T2]. eapply stage_mono; [|exact T1]. intros u Gu. apply (K u Gu).
      * split; [|exact Hl]. apply StSet. apply (K _ G).
    + cbn [pexec bind]. eexists; split; [reflexivity|]. unfold inv. cbn [shared threads p_heap p_pos hp_trades hp_fields].
      split; [exact Gs|]. split; [exact Id|]. apply forall_set; [exact Ht|]. split; [apply StClean; constructor|exact Hl].
Qed.
Lemma inv_run locked sched : forall c, inv c -> exists c', run locked sched c = Ret c' /\ inv c'.
Proof.
  induction sched as [|j s IH]; intros c H; cbn [execute]; [eauto|].
  destruct (inv_step locked j c H) as (c1 & -> & H1). cbn [bind]. auto.
Qed.
End Races.

Section Results.
Context {F : Type} {N : GoFloat F}.
Variable spare : nat -> nat.
Local Notation run := (execute (pexec spare) c_modify).
Local Notation ok m := (valid (p_heap m) (hp_trades (p_pos m))).
Lemma always (calls : list (list (trade F))) locked (m : pmem F) sched : ok m ->
  exists c, run locked sched (start calls m) = Ret c /\ same_identity (shown (shared c)) (shown m) /\
    forall i, In i (ps_trades (shown (shared c))) -> In i (ps_trades (shown m)) \/ In i (map t_id (concat calls)).
Proof.
  intros V. set (allowed := fun i => In i (ps_trades (shown m)) \/ In i (map t_id (concat calls))).
  destruct (inv_run spare allowed (hp_fields (p_pos m)) locked sched (start calls m)) as (c & E & (G & Id & _)).
  - split; [split; [exact V|intros x Hx; now left]|]. split; [repeat split|]. cbn [start threads shared].
    apply Forall_forall. intros t Ht. apply in_map_iff in Ht. destruct Ht as (l & <- & Hl). intros x Hx. right. apply in_map.
    apply in_concat. eauto.
  - exists c. split; [exact E|]. split; [exact Id|]. exact (proj2 G).
Qed.


(** A goroutine that runs to the end of its call undisturbed. *)
Lemma undisturbed i : forall (p : prog (pop F)) todo (c : config (pmem F) (trade F) (pop F)) m', owner c = None ->
  nth_error (threads c) i = Some (Running p todo) -> alone (pexec spare) p (shared c) = Ret m' ->
  exists n, run false (repeat i n) c = Ret (mkConfig m' None (set_thread i (Idle todo) (threads c))).
Proof.
  induction p as [|X o f IH]; intros todo c m' Ho Ht E; cbn [alone] in E.
  - injection E as <-. exists 1. cbn [repeat execute]. unfold cstep. rewrite Ht. reflexivity.
  - destruct (pexec spare X o (shared c)) as [[x m1]|] eqn:Ex; cbn [bind] in E; [|discriminate].
    destruct (IH x todo (mkConfig m1 None (set_thread i (Running (f x) todo) (threads c))) m' eq_refl (set_has' _ _ _ _ Ht) E) as (n & En).
    exists (S n). cbn [repeat execute]. unfold cstep at 1. rewrite Ht, Ex. cbn [bind]. rewrite Ho, En. cbn [threads]. now rewrite set_twice.
Qed.
Lemma run_app' locked s1 : forall s2 (c : config (pmem F) (trade F) (pop F)), run locked (s1 ++ s2) c = bind (run locked s1 c) (run locked s2).
Proof. induction s1 as [|j s IH]; intros s2 c; [reflexivity|]. cbn [app execute]. destruct (cstep _ _ locked j c); cbn [bind]; auto. Qed.
Lemma pair_refl p : pair_eqb p p = true.
Proof. destruct p. unfold pair_eqb, asset_eqb. cbn. now rewrite !String.eqb_refl. Qed.
(** [c_modify] of an increase gets to [c_add] without writing. *)
Lemma to_add (m : pmem F) t1 t2 : t_pair t1 = ps_pair (shown m) -> increases (ps_type (shown m)) (t_action t1) ->
  exists n, run false (repeat 0 n) (start [[t1]; [t2]] m) = Ret (mkConfig m None [Running (c_add t1) []; Idle [t2]]).
Proof.
  intros Hp Hi. change (ps_pair (shown m)) with (ps_pair (hp_fields (p_pos m))) in Hp. change (ps_type (shown m)) with (ps_type (hp_fields (p_pos m))) in Hi.
  destruct m as [h [[a1 a2 a3 a4 a5 a6 a7 a8 a9 a10 a11 a12 a13 a14 a15] sl]]. cbn [p_pos hp_fields ps_pair ps_type] in Hp, Hi. subst a3.
  destruct Hi as [(-> & A)|(-> & A)]; [exists 3|exists 6];
    cbn [repeat execute cstep start map threads shared owner nth_error set_thread c_modify pexec bind p_pos hp_fields ps_pair t_pair];
    rewrite pair_refl, A; reflexivity.
Qed.
(** Goroutine 1 makes its call, goroutine 0 stands still. *)
Lemma other_call (m : pmem F) p t2 : ok m -> exists sched m',
  run false sched (mkConfig m None [Running p []; Idle [t2]]) = Ret (mkConfig m' None [Running p []; Idle []]) /\
  ok m' /\ shown m' = fst (modify (shown m) t2) /\
  p_heap m' = fst (h_modify spare t2 (p_heap m) (p_pos m)).
Proof.
  intros V. destruct (alone_modify spare t2 m V) as (m' & A1 & A2 & A3 & _ & A5).
  destruct (undisturbed 1 (c_modify t2) [] (mkConfig m None [Running p []; Running (c_modify t2) []]) m' eq_refl eq_refl A1) as (n & En).
  exists (1 :: repeat 1 n), m'. split; [|auto]. cbn [execute cstep threads nth_error owner shared set_thread bind]. exact En.
Qed.
Lemma the_rest (m m' : pmem F) p : alone (pexec spare) p m = Ret m' -> exists sched,
  run false sched (mkConfig m None [Running p []; Idle []]) = Ret (mkConfig m' None [Idle []; Idle []]).
Proof. intros A1. destruct (undisturbed 0 p [] (mkConfig m None [Running p []; Idle []]) m' eq_refl eq_refl A1) as (n & En). eauto. Qed.

(** Both trades are listed, the quantity of one is missing. *)
Lemma quantity_lost (m : pmem F) t1 t2 : ok m ->
  t_pair t1 = ps_pair (shown m) -> t_pair t2 = ps_pair (shown m) ->
  increases (ps_type (shown m)) (t_action t1) -> increases (ps_type (shown m)) (t_action t2) ->
  exists sched c, run false sched (start [[t1]; [t2]] m) = Ret c /\ finished c /\
    ps_trades (shown (shared c)) = ps_trades (shown m) ++ [t_id t2; t_id t1] /\
    ps_quantity (shown (shared c)) = fadd (ps_quantity (shown m)) (t_quantity t1) /\
    let one := fst (modify (shown m) t2) in let total := fadd (ps_quantity (shown m)) (t_quantity t1) in
    ps_open_price (shown (shared c)) =
      fadd (fdiv (fmul (ps_open_price one) (ps_quantity one)) total) (fdiv (fmul (t_price t1) (t_quantity t1)) total).
Proof.
  intros V P1 P2 I1 I2. destruct (to_add m t1 t2 P1 I1) as (n & E1).
  set (p := Do GetOpenPrice (fun op => Do GetQuantity (fun q1 =>
    Do (SetOpenPrice (fadd (fdiv (fmul op q1) (fadd (ps_quantity (shown m)) (t_quantity t1)))
       (fdiv (fmul (t_price t1) (t_quantity t1)) (fadd (ps_quantity (shown m)) (t_quantity t1))))) (fun _ =>
    Do (SetQuantity (fadd (ps_quantity (shown m)) (t_quantity t1))) (fun _ => c_append t1))))).
  destruct (other_call m p t2 V) as (s2 & m2 & E2 & V2 & A2 & _).
  assert (ps_trades (shown m2) = ps_trades (shown m) ++ [t_id t2]) as T2.
  { rewrite A2. unfold modify. rewrite P2, pair_refl. cbn [negb].
    destruct I2 as [(Ty & Ac)|(Ty & Ac)]; rewrite Ty, Ac; reflexivity. }
  eassert (alone (pexec spare) p m2 = alone (pexec spare) (c_append t1) _) as Eg by (unfold p; cbn [alone pexec bind]; reflexivity).
  match type of Eg with _ = alone _ (c_append t1) ?x => destruct (alone_append spare t1 x V2) as (m3 & A3 & _ & _ & _ & A4) end.
  rewrite A3 in Eg. destruct (the_rest m2 m3 p Eg) as (s3 & E3).
  exists (repeat 0 n ++ [0] ++ s2 ++ s3), (mkConfig m3 None [Idle []; Idle []]).
  split.
  - rewrite run_app', E1. cbn [bind]. rewrite run_app'. cbn [execute cstep threads nth_error c_add shared pexec bind set_thread owner].
    rewrite run_app'. match goal with |- bind (run false s2 ?x) _ = _ => change x with (mkConfig m None [Running p []; Idle [t2]]) end.
    rewrite E2. cbn [bind]. exact E3.
  - split; [repeat constructor|]. cbn [shared]. rewrite A4. cbn [with_trades ps_trades ps_quantity ps_open_price].
    split; [|split; [reflexivity|]].
    + cbn [on_fields p_heap p_pos hp_trades]. change (view (p_heap m2) (hp_trades (p_pos m2))) with (ps_trades (shown m2)).
      rewrite T2, <- app_assoc. reflexivity.
    + cbv zeta. rewrite <- A2. reflexivity.
Qed.
(** Quantity and price are right, one trade is not listed. *)
Lemma id_lost (m : pmem F) t1 t2 : ok m ->
  t_pair t1 = ps_pair (shown m) -> t_pair t2 = ps_pair (shown m) ->
  increases (ps_type (shown m)) (t_action t1) -> increases (ps_type (shown m)) (t_action t2) ->
  exists sched c, run false sched (start [[t1]; [t2]] m) = Ret c /\ finished c /\
    shown (shared c) = with_trades (modify_all (shown m) [t1; t2]) (ps_trades (shown m) ++ [t_id t1]).
Proof.
  intros V P1 P2 I1 I2. destruct (to_add m t1 t2 P1 I1) as (n & E1).
  pose (total := fadd (ps_quantity (shown m)) (t_quantity t1)).
  pose (m1 := on_fields (fun p => set_quantity p total) (on_fields (fun p => set_open_price p
     (fadd (fdiv (fmul (ps_open_price (shown m)) (ps_quantity (shown m))) total) (fdiv (fmul (t_price t1) (t_quantity t1)) total))) m)).
  set (s := hp_trades (p_pos m)).
  set (p := Do (AppendId s (t_id t1)) (fun s' => Do (SetTrades s') (fun _ => @Done (pop F)))).
  destruct (other_call m1 p t2 V) as (s2 & m2 & E2 & V2 & A2 & H2).
  assert (increases (ps_type (shown m1)) (t_action t2) /\ t_pair t2 = ps_pair (shown m1)) as (I2' & P2') by (split; [exact I2|exact P2]).
  assert (p_heap m2 = fst (append_slice "" (spare (length (p_heap m))) (p_heap m) s [t_id t2])) as H2'.
  { rewrite H2. unfold h_modify. change (ps_pair (hp_fields (p_pos m1))) with (ps_pair (shown m)). rewrite <- P2, pair_refl. cbn [negb]. cbv zeta.
    change (ps_type (hp_fields (p_pos m1))) with (ps_type (shown m)). 
    assert (fst (h_pos_add spare (p_heap m1) (p_pos m1) t2) = fst (append_slice "" (spare (length (p_heap m))) (p_heap m) s [t_id t2])) as K.
    { unfold h_pos_add, h_append. cbn [m1 on_fields p_heap p_pos hp_trades]. fold s. now destruct (append_slice _ _ _ _ _). }
    destruct I2 as [(Ty & Ac)|(Ty & Ac)]; rewrite Ty, Ac; exact K. }
  destruct (append_keeps "" (spare (length (p_heap m))) (p_heap m) s [t_id t2] V) as (V3 & K3). rewrite <- H2' in V3, K3.
  destruct (append_ok "" (spare (length (p_heap m2))) (p_heap m2) s [t_id t1] V3) as (_ & K4 & _).
  destruct (append_slice "" (spare (length (p_heap m2))) (p_heap m2) s [t_id t1]) as [h3 s3] eqn:Ea. cbn [fst snd] in K4.
  assert (alone (pexec spare) p m2 = Ret (mkPMem h3 (mkHPos (hp_fields (p_pos m2)) s3))) as Eg.
  { unfold p. cbn [alone pexec]. rewrite Ea. reflexivity. }
  destruct (the_rest m2 _ p Eg) as (s4 & E4).
  exists (repeat 0 n ++ repeat 0 6 ++ s2 ++ s4). eexists. split.
  - rewrite run_app', E1. cbn [bind]. rewrite run_app'. cbn [repeat execute cstep threads nth_error c_add shared pexec bind set_thread owner c_append].
    rewrite run_app'. match goal with |- bind (run false s2 ?x) _ = _ => change x with (mkConfig m1 None [Running p []; Idle [t2]]) end.
    rewrite E2. cbn [bind]. exact E4.
  - split; [repeat constructor|]. cbn [shared]. unfold shown at 1, pos_view. cbn [p_heap p_pos hp_fields hp_trades].
    rewrite K4, K3. change (view (p_heap m) s) with (ps_trades (shown m)).
    cbn [modify_all]. 
    assert (fst (modify (shown m) t1) = pos_add (shown m) t1) as M1.
    { unfold modify. rewrite P1, pair_refl. cbn [negb]. destruct I1 as [(Ty & Ac)|(Ty & Ac)]; rewrite Ty, Ac; reflexivity. }
    assert (forall q, ps_pair q = ps_pair (shown m) -> ps_type q = ps_type (shown m) -> fst (modify q t2) = pos_add q t2) as M2.
    { intros q Q1 Q2. unfold modify. rewrite P2, Q1, Q2, pair_refl. cbn [negb]. destruct I2 as [(Ty & Ac)|(Ty & Ac)]; rewrite Ty, Ac; reflexivity. }
    rewrite M1, (M2 (pos_add (shown m) t1)) by reflexivity.
    rewrite (M2 (shown m1)) in A2 by reflexivity.
    transitivity (with_trades (shown m2) (ps_trades (shown m) ++ [t_id t1])); [reflexivity|]. rewrite A2. reflexivity.
Qed.
End Results.
