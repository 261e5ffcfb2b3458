(** Goroutines adding to one Actions (for C122). *)
From Coq Require Import List String Lia Permutation.
From Verif Require Import Go.Outcome Go.Heap Model.Strategy Model.ActionsHeap Model.ActionsConcurrent
  Spec.SharedActionsSpec Spec.HeapSpec Proofs.Heap Proofs.Shared.
Import ListNotations.
Open Scope list_scope.
Local Open Scope nat_scope.
Local Notation length := List.length.
Local Notation concat := List.concat.

Section Lists.
Context {C : Type} {op : Type -> Type} {E : Type} (R : thread C op -> E -> Prop).
Fixpoint set_at (i : nat) (e : E) (l : list E) : list E :=
  match l, i with [], _ => [] | _ :: r, O => e :: r | x :: r, S j => x :: set_at j e r end.
Lemma f2_at : forall l m, Forall2 R l m -> forall i t, nth_error l i = Some t ->
  exists e, nth_error m i = Some e /\ R t e /\ forall t' e', R t' e' -> Forall2 R (set_thread i t' l) (set_at i e' m).
Proof.
  intros l m H. induction H as [|a b l m Hab H IH]; intros [|i] t E1; simpl in E1; try discriminate.
  - injection E1 as <-. exists b. split; [reflexivity|]. split; [exact Hab|]. intros t' e' Hr. simpl. now constructor.
  - destruct (IH i t E1) as (e & A1 & A2 & A3). exists e. split; [exact A1|]. split; [exact A2|].
    intros t' e' Hr. simpl. constructor; [exact Hab|auto].
Qed.
Lemma set_at_same : forall m i e, nth_error m i = Some e -> set_at i e m = m.
Proof. intros m; induction m as [|x m IH]; intros [|i] e H; simpl in *; try discriminate; [now injection H as <-|now rewrite IH]. Qed.
End Lists.
Lemma concat_drop {X} : forall (m : list (list X)) i x e, nth_error m i = Some (x :: e) ->
  forall y, In y (concat m) <-> y = x \/ In y (concat (set_at i e m)).
Proof.
  induction m as [|b m IH]; intros [|i] x e H y; simpl in *; try discriminate.
  - injection H as ->. simpl. rewrite !in_app_iff. intuition.
  - rewrite !in_app_iff. rewrite (IH i x e H y). intuition.
Qed.
Lemma concat_in {X} : forall (m : list (list X)) i e y, nth_error m i = Some e -> In y e -> In y (concat m).
Proof. intros m i e y H1 H2. apply in_concat. exists e. split; [eapply nth_error_In; eauto|exact H2]. Qed.

Section Idle.
Context {C : Type} {op : Type -> Type}.
Local Notation thr := (thread C op).
Definition all_idle (ts : list thr) := Forall (fun t => exists todo, t = Idle todo) ts.
Definition others_idle (o : nat) (ts : list thr) : Prop :=
  forall j t, nth_error ts j = Some t -> j <> o -> exists todo, t = Idle todo.
Lemma set_nth_thr : forall (l : list thr) i j t, nth_error (set_thread i t l) j =
  if Nat.eqb i j then option_map (fun _ => t) (nth_error l j) else nth_error l j.
Proof. intros l; induction l as [|x l IH]; intros [|i] [|j] t; simpl; auto. now destruct (Nat.eqb i j). Qed.
Lemma others_set o t ts : others_idle o ts -> others_idle o (set_thread o t ts).
Proof.
  intros H j t' E1 Hne. rewrite set_nth_thr in E1. destruct (PeanoNat.Nat.eqb_spec o j) as [->|_]; [congruence|]. eapply H; eauto.
Qed.
Lemma others_none o todo ts : others_idle o ts -> forall o', others_idle o' (set_thread o (Idle todo) ts).
Proof.
  intros H o' j t' E1 Hne. rewrite set_nth_thr in E1. destruct (PeanoNat.Nat.eqb_spec o j) as [->|Hn].
  - destruct (nth_error ts j); simpl in E1; [injection E1 as <-; eauto|discriminate].
  - eapply H; eauto.
Qed.
End Idle.

Section Maps.
Context {A : Type} (gen : string -> A -> A) (get_id : A -> string).
Hypothesis Hid : forall i a, get_id (gen i a) = i.
Local Notation entry := (string * A)%type.
Local Notation loop := (m_loop gen get_id).
Local Notation add := (m_add gen get_id).
Local Notation cfg := (config (mfield A) (mcall A) (mop A)).
Local Notation thr := (thread (mcall A) (mop A)).

Definition from (ids : nat -> string) (n : nat) (l : list A) : list entry :=
  map (fun '(i, a) => (ids i, gen (ids i) a)) (combine (seq n (length l)) l).
Lemma from_cons ids n a l : from ids n (a :: l) = (ids n, gen (ids n) a) :: from ids (S n) l.
Proof. reflexivity. Qed.
Definition todo_es (t : list (mcall A)) : list entry := concat (map (entries gen) t).

(** The field is not nil: shapes of calls in progress, and what they still add. *)
Inductive shape_some (i : nat) : prog (mop A) -> list entry -> Prop :=
| SS0 c : shape_some i (add c) (entries gen c)
| SSloop ids n l : shape_some i (loop ids n l) (from ids n l)
| SSset ids n a l : shape_some i (Do (SetKey (Some i) (get_id (gen (ids n) a)) (gen (ids n) a)) (fun _ => loop ids (S n) l))
    (from ids n (a :: l)).
Inductive tp (P : prog (mop A) -> list entry -> Prop) : thr -> list entry -> Prop :=
| TIdle todo : tp P (Idle todo) (todo_es todo)
| TRun p todo es : P p es -> tp P (Running p todo) (es ++ todo_es todo).

Variable All : list entry.
Variable before : string -> option A.
Hypothesis Hfresh : fresh All.
Definition progress (f : string -> option A) (pend : list entry) : Prop :=
  (forall e, In e pend -> In e All) /\
  (forall k a, In (k, a) All -> In (k, a) pend \/ f k = Some a) /\
  (forall k, ~ In k (map fst All) -> f k = before k).
Lemma fresh_one : forall k a b, In (k, a) All -> In (k, b) All -> a = b.
Proof.
  intros k a b H1 H2. unfold fresh in Hfresh. revert H1 H2 Hfresh. clear. induction All as [|[k' c] l IH]; simpl; [tauto|].
  intros H1 H2 N. inversion N as [|? ? N1 N2]; subst.
  destruct H1 as [H1|H1], H2 as [H2|H2].
  - congruence.
  - exfalso. apply N1. injection H1 as -> ->. apply (in_map fst) in H2. exact H2.
  - exfalso. apply N1. injection H2 as -> ->. apply (in_map fst) in H1. exact H1.
  - now apply IH.
Qed.
Lemma progress_write f k a pend pend' :
  progress f pend -> (forall y, In y pend <-> y = (k, a) \/ In y pend') ->
  progress (fun k' => if String.eqb k' k then Some a else f k') pend'.
Proof.
  intros (P1 & P2 & P3) Hp.
  assert (In (k, a) All) as Ha by (apply P1, Hp; now left).
  split; [|split].
  - intros e He. apply P1, Hp. now right.
  - intros k' a' Hi. destruct (String.eqb_spec k' k) as [->|Hne].
    + right. f_equal. eapply fresh_one; eauto.
    + destruct (P2 k' a' Hi) as [H|H]; [|now right].
      apply Hp in H. destruct H as [H|H]; [congruence|now left].
  - intros k' Hn. destruct (String.eqb_spec k' k) as [->|Hne]; [|now apply P3].
    exfalso. apply Hn. apply (in_map fst) in Ha. exact Ha.
Qed.

Definition inv_some (i : nat) (c : cfg) : Prop :=
  field (shared c) = Some i /\ exists f, nth_error (maps (shared c)) i = Some f /\
  exists m, Forall2 (tp (shape_some i)) (threads c) m /\ progress f (concat m).

Lemma some_step i locked j c : inv_some i c ->
  exists c', cstep mexec add locked j c = Ret c' /\ inv_some i c'.
Proof.
  intros (Hf & f & Hm & m & H2 & Hp). unfold cstep.
  destruct (nth_error (threads c) j) as [t|] eqn:Et; [|exists c; split; [reflexivity|]; repeat split; auto; exists f; split; auto; exists m; auto].
  destruct (f2_at _ _ _ H2 j t Et) as (es & M1 & M2 & M3).
  assert (inv_some i c) as I0 by (repeat split; auto; exists f; split; auto; exists m; auto).
  inversion M2 as [todo|p todo e Hsh]; subst t es.
  - destruct todo as [|k todo]; [exists c; auto|].
    destruct (owner c); [exists c; auto|].
    eexists; split; [reflexivity|]. split; [exact Hf|]. exists f. split; [exact Hm|]. exists m. split; [|exact Hp].
    specialize (M3 (Running (add k) todo) (todo_es (k :: todo))).
    rewrite (set_at_same m j _ M1) in M3. simpl. apply M3. apply TRun. constructor.
  - inversion Hsh as [c0|ids n l|ids n a l]; subst p e.
    + cbn [m_add mexec bind]. rewrite Hf.
      eexists; split; [reflexivity|]. split; [exact Hf|]. exists f. split; [exact Hm|]. exists m. split; [|exact Hp].
      simpl. rewrite <- (set_at_same m j _ M1). apply M3. apply TRun. apply (SSloop i (fst c0) 0 (snd c0)).
    + destruct l as [|a l].
      * cbn. eexists; split; [reflexivity|]. split; [exact Hf|]. exists f. split; [exact Hm|]. exists m. split; [|exact Hp].
        simpl. rewrite <- (set_at_same m j _ M1). apply M3. apply (TIdle (shape_some i) todo).
      * cbn [m_loop mexec bind]. rewrite Hf.
        eexists; split; [reflexivity|]. split; [exact Hf|]. exists f. split; [exact Hm|]. exists m. split; [|exact Hp].
        simpl. rewrite <- (set_at_same m j _ M1). apply M3. apply TRun. constructor.
    + cbn [mexec h_map_set bind]. rewrite Hm. cbn [bind].
      eexists; split; [reflexivity|]. split; [exact Hf|].
      exists (fun k' => if String.eqb k' (get_id (gen (ids n) a)) then Some (gen (ids n) a) else f k').
      split. { simpl. apply put_map_same. apply nth_error_Some. congruence. }
      exists (set_at j (from ids (S n) l ++ todo_es todo) m). split.
      * simpl. apply M3. apply TRun. apply SSloop.
      * rewrite Hid. apply (progress_write f (ids n) (gen (ids n) a) (concat m)); [exact Hp|].
        apply concat_drop. rewrite M1, from_cons. reflexivity.
Qed.
Lemma some_run i locked sched : forall c, inv_some i c ->
  exists c', execute mexec add locked sched c = Ret c' /\ inv_some i c'.
Proof.
  induction sched as [|j s IH]; intros c H; simpl; [eauto|].
  destruct (some_step i locked j c H) as (c1 & -> & H1). simpl. auto.
Qed.
Lemma some_finished i c : inv_some i c -> finished c -> exists f,
  mview (maps (shared c)) (field (shared c)) = Some f /\ holds_all before f All.
Proof.
  intros (Hf & f & Hm & m & H2 & P1 & P2 & P3) Hfin. exists f. rewrite Hf. split; [exact Hm|].
  assert (concat m = []) as E0.
  { clear - H2 Hfin. unfold finished in Hfin. induction H2 as [|t e l m Hte H2 IH]; [reflexivity|].
    inversion Hfin as [|? ? F1 F2]; subst. inversion Hte; subst. simpl. now rewrite IH. }
  split; [|exact P3]. intros k a Hi. destruct (P2 k a Hi) as [H|H]; [|exact H]. rewrite E0 in H. destruct H.
Qed.

(** The field is nil, every call holds the lock. *)
Inductive shape_none (h : mheap A) : prog (mop A) -> list entry -> Prop :=
| SN0 c : shape_none h (add c) (entries gen c)
| SN1 c : shape_none h (Do NewMap (fun r' => Do (WriteField r') (fun _ => loop (fst c) 0 (snd c)))) (entries gen c)
| SN2 c j : nth_error h j = Some (fun _ => None) ->
    shape_none h (Do (WriteField (Some j)) (fun _ => loop (fst c) 0 (snd c))) (entries gen c).
Definition inv_none (c : cfg) : Prop :=
  field (shared c) = None /\
  (exists m, Forall2 (tp (shape_none (maps (shared c)))) (threads c) m /\
     (forall e, In e (concat m) <-> In e All)) /\
  match owner c with
  | None => forall o, others_idle o (threads c)
  | Some o => others_idle o (threads c)
  end.
Lemma tp_mono (P Q : prog (mop A) -> list entry -> Prop) : (forall p e, P p e -> Q p e) ->
  forall ts m, Forall2 (tp P) ts m -> Forall2 (tp Q) ts m.
Proof. intros H ts m F. induction F as [|t e ts m Ht F IH]; constructor; auto. inversion Ht; subst; constructor; auto. Qed.
Lemma tp_idle (P Q : prog (mop A) -> list entry -> Prop) : forall ts m, Forall2 (tp P) ts m ->
  all_idle ts -> Forall2 (tp Q) ts m.
Proof.
  intros ts m F H. induction F as [|t e ts m Ht F IH]; constructor; inversion H as [|? ? (todo & H1) H2]; subst; auto.
  inversion Ht; subst; constructor.
Qed.
Lemma tp_others (P Q : prog (mop A) -> list entry -> Prop) : forall ts m o t e, Forall2 (tp P) ts m ->
  others_idle o ts -> tp Q t e -> nth_error m o = Some e -> Forall2 (tp Q) (set_thread o t ts) m.
Proof.
  intros ts m o t e F. revert o. induction F as [|x y ts m Hx F IH]; intros o Ho Hq He; [destruct o; constructor|].
  destruct o as [|o]; simpl in *.
  - injection He as ->. constructor; [exact Hq|]. apply (tp_idle P Q _ _ F). apply Forall_forall. intros z Hz.
    apply In_nth_error in Hz. destruct Hz as (j & Hj). exact (Ho (S j) z Hj ltac:(lia)).
  - constructor.
    + destruct (Ho 0 x eq_refl ltac:(lia)) as (todo & ->). inversion Hx; subst; constructor.
    + apply IH; auto. intros j z Hj Hne. apply (Ho (S j) z Hj). lia.
Qed.
Hypothesis Hnone : forall k, before k = None.
Lemma none_step j c : inv_none c ->
  exists c', cstep mexec add true j c = Ret c' /\ (inv_none c' \/ exists i, inv_some i c').
Proof.
  intros (Hf & (m & H2 & Hp) & Ho). unfold cstep.
  assert (inv_none c) as I0 by (split; [exact Hf|split; [exists m; auto|exact Ho]]).
  destruct (nth_error (threads c) j) as [t|] eqn:Et; [|exists c; split; [reflexivity|left; exact I0]].
  destruct (f2_at _ _ _ H2 j t Et) as (es & M1 & M2 & M3).
  inversion M2 as [todo|p todo e Hsh]; subst t es.
  - destruct todo as [|k todo]; [exists c; auto|].
    destruct (owner c) as [o|]; [exists c; auto|].
    eexists; split; [reflexivity|]. left. split; [exact Hf|]. split.
    + exists m. split; [|exact Hp]. simpl. rewrite <- (set_at_same m j _ M1). apply M3. apply TRun. constructor.
    + simpl. apply others_set. apply Ho.
  - assert (exists o, owner c = Some o /\ others_idle o (threads c)) as (o & Eo & Ho').
    { destruct (owner c) as [o|]; [eauto|]. exfalso. destruct (Ho (S j) j _ Et ltac:(lia)) as (? & ?). discriminate. }
    assert (j = o) as ->.
    { destruct (PeanoNat.Nat.eq_dec j o) as [|Hn]; auto. destruct (Ho' j _ Et Hn) as (? & ?). discriminate. }
    clear Ho.
    inversion Hsh as [c0|c0|c0 i Hi]; subst p e.
    + cbn [m_add mexec bind]. rewrite Hf.
      eexists; split; [reflexivity|]. left. split; [exact Hf|]. split.
      * exists m. split; [|exact Hp]. simpl. rewrite <- (set_at_same m o _ M1). apply M3. apply TRun. constructor.
      * simpl. rewrite Eo. now apply others_set.
    + cbn [mexec bind].
      eexists; split; [reflexivity|]. left. split; [exact Hf|]. split.
      * exists m. split; [|exact Hp]. simpl. eapply tp_others; eauto. apply TRun. constructor.
        rewrite nth_error_app2 by lia. now rewrite PeanoNat.Nat.sub_diag.
      * simpl. rewrite Eo. now apply others_set.
    + cbn [mexec bind].
      eexists; split; [reflexivity|]. right. exists i. split; [reflexivity|]. exists (fun _ => None). split; [exact Hi|].
      exists m. split.
      * simpl. eapply tp_others; eauto. apply TRun. apply (SSloop i (fst c0) 0 (snd c0)).
      * split; [|split].
        -- intros e He. now apply Hp.
        -- intros k a Hin. left. now apply Hp.
        -- intros k _. now rewrite Hnone.
Qed.
Lemma none_run sched : forall c, inv_none c ->
  exists c', execute mexec add true sched c = Ret c' /\ (inv_none c' \/ exists i, inv_some i c').
Proof.
  induction sched as [|j s IH]; intros c H; simpl; [eauto|].
  destruct (none_step j c H) as (c1 & -> & [H1|(i & H1)]); simpl; [auto|].
  destruct (some_run i true s c1 H1) as (c2 & E2 & H2). exists c2. split; [exact E2|]. right. eauto.
Qed.

(** Without a lock, from anything: nothing foreign appears, nothing panics. *)
Variable base : nat.
Variable old : mheap A.
Definition only_all (f : string -> option A) : Prop := forall k a, f k = Some a -> In (k, a) All.
Definition good (h : mheap A) (j : nat) : Prop := (base <= j)%nat /\ exists f, nth_error h j = Some f /\ only_all f.
Inductive shape_any (m : mfield A) : prog (mop A) -> list entry -> Prop :=
| SA0 c : shape_any m (add c) (entries gen c)
| SA1 c : shape_any m (Do NewMap (fun r' => Do (WriteField r') (fun _ => loop (fst c) 0 (snd c)))) (entries gen c)
| SA2 c j : good (maps m) j -> shape_any m (Do (WriteField (Some j)) (fun _ => loop (fst c) 0 (snd c))) (entries gen c)
| SAloop ids n l : field m <> None -> shape_any m (loop ids n l) (from ids n l)
| SAset ids n a l j : field m <> None -> good (maps m) j ->
    shape_any m (Do (SetKey (Some j) (get_id (gen (ids n) a)) (gen (ids n) a)) (fun _ => loop ids (S n) l)) (from ids n (a :: l)).
Definition inv_any (c : cfg) : Prop :=
  (base <= length (maps (shared c)))%nat /\ firstn base (maps (shared c)) = old /\
  match field (shared c) with None => True | Some j => good (maps (shared c)) j end /\
  exists m, Forall2 (tp (shape_any (shared c))) (threads c) m /\ (forall e, In e (concat m) -> In e All).
Lemma shape_mono m m' : (field m <> None -> field m' <> None) -> (forall j, good (maps m) j -> good (maps m') j) ->
  forall p e, shape_any m p e -> shape_any m' p e.
Proof. intros H1 H2 p e H. inversion H; subst; constructor; auto. Qed.
Lemma good_app h f j : good h j -> good (h ++ [f]) j.
Proof.
  intros (H1 & g & H2 & H3). split; [exact H1|]. exists g. split; [|exact H3].
  rewrite nth_error_app1; [exact H2|]. apply nth_error_Some. congruence.
Qed.
Lemma good_put h f i j : (i < length h)%nat -> only_all f -> good h j -> good (put_map i f h) j.
Proof.
  intros Hi Hf (H1 & g & H2 & H3). split; [exact H1|].
  destruct (PeanoNat.Nat.eq_dec i j) as [->|Hn].
  - exists f. split; [now apply put_map_same|exact Hf].
  - exists g. split; [now rewrite put_map_other|exact H3].
Qed.
Lemma firstn_put (f : string -> option A) : forall h i, (base <= i)%nat -> firstn base (put_map i f h) = firstn base h.
Proof.
  generalize base. intros b h; revert b. induction h as [|g h IH]; intros b i Hi; destruct i as [|i]; simpl; try reflexivity.
  - assert (b = 0)%nat as -> by lia. reflexivity.
  - destruct b as [|b]; [reflexivity|]. simpl. f_equal. apply IH. lia.
Qed.
Lemma any_step locked j c : inv_any c -> exists c', cstep mexec add locked j c = Ret c' /\ inv_any c'.
Proof.
  intros (Hb & Hold & Hf & m & H2 & Hp). unfold cstep.
  assert (inv_any c) as I0 by (split; [exact Hb|split; [exact Hold|split; [exact Hf|exists m; auto]]]).
  destruct (nth_error (threads c) j) as [t|] eqn:Et; [|exists c; auto].
  destruct (f2_at _ _ _ H2 j t Et) as (es & M1 & M2 & M3).
  assert (forall m', (field (shared c) <> None -> field m' <> None) -> (forall j, good (maps (shared c)) j -> good (maps m') j) ->
    forall p todo e, shape_any m' p e -> nth_error m j = Some (e ++ todo_es todo) ->
    Forall2 (tp (shape_any m')) (set_thread j (Running p todo) (threads c)) m) as K.
  { intros m' G1 G2 p todo e Hs He. pose proof (tp_mono _ _ (shape_mono _ m' G1 G2) _ _ H2) as H3.
    destruct (f2_at _ _ _ H3 j t Et) as (es' & N1 & N2 & N3). rewrite <- (set_at_same m j _ He). apply N3. now apply TRun. }
  inversion M2 as [todo|p todo e Hsh]; subst t es.
  - destruct todo as [|k todo]; [exists c; auto|].
    destruct (owner c); [exists c; auto|].
    eexists; split; [reflexivity|]. split; [exact Hb|]. split; [exact Hold|]. split; [exact Hf|]. exists m. split; [|exact Hp].
    simpl. apply (K (shared c) ltac:(auto) ltac:(auto) _ _ (entries gen k)); [constructor|exact M1].
  - inversion Hsh as [c0|c0|c0 i Hi|ids n l Hn|ids n a l i Hn Hi]; subst p e.
    + cbn [m_add mexec bind]. destruct (field (shared c)) as [i|] eqn:Ei.
      * eexists; split; [reflexivity|]. split; [exact Hb|]. split; [exact Hold|]. split; [simpl; rewrite Ei; exact Hf|].
        exists m. split; [|exact Hp]. simpl. apply (K (shared c) ltac:(congruence) ltac:(auto) _ _ (entries gen c0)); [|exact M1].
        apply (SAloop (shared c) (fst c0) 0 (snd c0)). congruence.
      * eexists; split; [reflexivity|]. split; [exact Hb|]. split; [exact Hold|]. split; [simpl; rewrite Ei; exact Hf|].
        exists m. split; [|exact Hp]. simpl. apply (K (shared c) ltac:(congruence) ltac:(auto) _ _ (entries gen c0)); [|exact M1].
        constructor.
    + cbn [mexec bind]. eexists; split; [reflexivity|]. split; [simpl; rewrite app_length; lia|].
      split. { simpl. rewrite firstn_app. replace (base - length (maps (shared c)))%nat with 0%nat by lia. simpl. now rewrite app_nil_r. }
      split. { simpl. destruct (field (shared c)); [now apply good_app|exact I]. }
      exists m. split; [|exact Hp]. simpl.
      apply (K (mkField (maps (shared c) ++ [fun _ => None]) (field (shared c))) ltac:(auto) ltac:(intros; now apply good_app) _ _ (entries gen c0)); [|exact M1].
      constructor. split; [exact Hb|]. exists (fun _ => None). split; [|intros ? ? E1; discriminate].
      simpl. rewrite nth_error_app2 by lia. now rewrite PeanoNat.Nat.sub_diag.
    + cbn [mexec bind]. eexists; split; [reflexivity|]. split; [exact Hb|]. split; [exact Hold|]. split; [exact Hi|].
      exists m. split; [|exact Hp]. simpl.
      apply (K (mkField (maps (shared c)) (Some i)) ltac:(simpl; congruence) ltac:(auto) _ _ (entries gen c0)); [|exact M1].
      apply (SAloop _ (fst c0) 0 (snd c0)). simpl. congruence.
    + destruct l as [|a l].
      * cbn. eexists; split; [reflexivity|]. split; [exact Hb|]. split; [exact Hold|]. split; [exact Hf|].
        exists m. split; [|exact Hp]. simpl. rewrite <- (set_at_same m j _ M1). apply M3. apply (TIdle (shape_any (shared c)) todo).
      * cbn [m_loop mexec bind]. destruct (field (shared c)) as [i|] eqn:Ei; [|congruence].
        eexists; split; [reflexivity|]. split; [exact Hb|]. split; [exact Hold|]. split; [simpl; rewrite Ei; exact Hf|].
        exists m. split; [|exact Hp]. simpl. apply (K (shared c) ltac:(congruence) ltac:(auto) _ _ (from ids n (a :: l))); [|exact M1].
        constructor; [congruence|exact Hf].
    + destruct Hi as (Hi1 & f & Hi2 & Hi3). cbn [mexec h_map_set bind]. rewrite Hi2. cbn [bind].
      set (f' := fun k' => if String.eqb k' (get_id (gen (ids n) a)) then Some (gen (ids n) a) else f k').
      assert (i < length (maps (shared c)))%nat as Hl by (apply nth_error_Some; congruence).
      assert (only_all f') as Hf'.
      { intros k x. unfold f'. destruct (String.eqb_spec k (get_id (gen (ids n) a))) as [->|_]; [|apply Hi3].
        intros E1. injection E1 as <-. rewrite Hid. apply Hp. eapply concat_in; [exact M1|]. rewrite from_cons. now left. }
      eexists; split; [reflexivity|]. split; [simpl; rewrite put_map_len; exact Hb|].
      split. { simpl. now rewrite firstn_put. }
      split. { simpl. destruct (field (shared c)); [now apply good_put|exact I]. }
      exists (set_at j (from ids (S n) l ++ todo_es todo) m). split.
      * pose proof (tp_mono _ _ (shape_mono (shared c) (mkField (put_map i f' (maps (shared c))) (field (shared c)))
          ltac:(auto) ltac:(intros; now apply good_put)) _ _ H2) as H3.
        destruct (f2_at _ _ _ H3 j _ Et) as (es' & N1 & N2 & N3). apply N3. apply TRun. constructor. exact Hn.
      * intros e He. apply Hp. apply (concat_drop m j (ids n, gen (ids n) a) (from ids (S n) l ++ todo_es todo));
          [rewrite M1, from_cons; reflexivity|now right].
Qed.
Lemma any_run locked sched : forall c, inv_any c ->
  exists c', execute mexec add locked sched c = Ret c' /\ inv_any c'.
Proof.
  induction sched as [|j s IH]; intros c H; simpl; [eauto|].
  destruct (any_step locked j c H) as (c1 & -> & H1). simpl. auto.
Qed.
End Maps.

Section Results.
Context {A : Type} (gen : string -> A -> A) (get_id : A -> string).
Hypothesis Hid : forall i a, get_id (gen i a) = i.
Local Notation add := (m_add gen get_id).

Lemma start_tp (P : prog (mop A) -> list (string * A) -> Prop) (calls : list (list (mcall A))) :
  Forall2 (tp gen P) (map Idle calls) (map (todo_es gen) calls).
Proof. induction calls as [|c calls IH]; simpl; constructor; auto. constructor. Qed.
Lemma start_es (calls : list (list (mcall A))) : concat (map (todo_es gen) calls) = all_entries gen calls.
Proof.
  unfold all_entries. induction calls as [|c calls IH]; [reflexivity|].
  simpl. rewrite map_app, concat_app, IH. reflexivity.
Qed.
Lemma start_idle (calls : list (list (mcall A))) o : others_idle o (map (Idle (op:=mop A)) calls).
Proof.
  intros j t E1 _. apply nth_error_In in E1. apply in_map_iff in E1. destruct E1 as (todo & <- & _). eauto.
Qed.

(** A map that exists: any schedule, lock or not. *)
Lemma existing_keeps_all locked calls h i f sched : nth_error h i = Some f -> fresh (all_entries gen calls) ->
  exists c, execute mexec add locked sched (start calls (mkField h (Some i))) = Ret c /\
    (finished c -> exists f', mview (maps (shared c)) (field (shared c)) = Some f' /\ holds_all f f' (all_entries gen calls)).
Proof.
  intros Hi Hfr.
  destruct (some_run gen get_id Hid (all_entries gen calls) f Hfr i locked sched (start calls (mkField h (Some i)))) as (c & E1 & H1).
  - split; [reflexivity|]. exists f. split; [exact Hi|]. exists (map (todo_es gen) calls). split; [apply start_tp|].
    rewrite start_es. split; [auto|]. split; [auto|auto].
  - exists c. split; [exact E1|]. intros Hfin. eapply some_finished; eauto.
Qed.
(** A nil map: any schedule with a lock. *)
Lemma locked_keeps_all calls h sched : fresh (all_entries gen calls) ->
  exists c, execute mexec add true sched (start calls (mkField h None)) = Ret c /\
    (finished c -> holds_all nothing (map_get (mview (maps (shared c)) (field (shared c)))) (all_entries gen calls)).
Proof.
  intros Hfr.
  destruct (none_run gen get_id Hid (all_entries gen calls) nothing Hfr ltac:(reflexivity) sched (start calls (mkField h None))) as (c & E1 & H1).
  - split; [reflexivity|]. split; [|intros o; apply start_idle].
    exists (map (todo_es gen) calls). split; [apply start_tp|]. intros e. now rewrite start_es.
  - exists c. split; [exact E1|]. intros Hfin. destruct H1 as [(Hf & (m & H2 & Hp) & _)|(i & H1)].
    + assert (concat m = []) as E0.
      { clear - H2 Hfin. unfold finished in Hfin. induction H2 as [|t e l m Hte H2 IH]; [reflexivity|].
        inversion Hfin as [|? ? F1 F2]; subst. inversion Hte; subst. simpl. now rewrite IH. }
      rewrite Hf. split; [|reflexivity]. intros k a Hi. apply Hp in Hi. rewrite E0 in Hi. destruct Hi.
    + destruct (some_finished gen get_id _ _ i c H1 Hfin) as (f & -> & Hh). exact Hh.
Qed.
(** A nil map, no lock: nothing foreign, no panic, existing maps untouched. *)
Lemma unlocked_sound calls h sched :
  exists c, execute mexec add false sched (start calls (mkField h None)) = Ret c /\
    firstn (length h) (maps (shared c)) = h /\
    (forall k a, map_get (mview (maps (shared c)) (field (shared c))) k = Some a -> In (k, a) (all_entries gen calls)).
Proof.
  destruct (any_run gen get_id Hid (all_entries gen calls) (length h) h false sched (start calls (mkField h None))) as (c & E1 & H1).
  - split; [simpl; lia|]. split; [apply firstn_all|]. split; [exact I|].
    exists (map (todo_es gen) calls). split; [apply start_tp|]. intros e. now rewrite start_es.
  - exists c. split; [exact E1|]. destruct H1 as (_ & Ho & Hf & _). split; [exact Ho|].
    intros k a Hk. destruct (field (shared c)) as [j|]; [|discriminate].
    destruct Hf as (_ & f & H1 & H2). simpl in Hk. rewrite H1 in Hk. now apply H2.
Qed.
(** Alone, the steps are the call of Model/ActionsHeap.v. *)
Lemma alone_loop ids : forall l n h r, alone mexec (m_loop gen get_id ids n l) (mkField h r) =
  match h_add_loop gen get_id ids n h r l with Ret h' => Ret (mkField h' r) | Panic p => Panic p end.
Proof.
  induction l as [|a l IH]; intros n h r; [reflexivity|].
  cbn [m_loop alone mexec bind h_add_loop field maps].
  destruct (h_map_set h r (get_id (gen (ids n) a)) (gen (ids n) a)); cbn [bind]; [apply IH|reflexivity].
Qed.
Lemma alone_add c h r : alone mexec (add c) (mkField h r) =
  match h_add gen get_id (fst c) h r (snd c) with Ret (h', r') => Ret (mkField h' r') | Panic p => Panic p end.
Proof.
  unfold m_add, h_add, h_map_init. cbn [alone mexec bind field].
  destruct r as [i|]; cbn [alone mexec bind field maps]; rewrite alone_loop;
    match goal with |- context [h_add_loop ?a ?b ?c ?d ?e ?f ?g] => destruct (h_add_loop a b c d e f g) end; reflexivity.
Qed.
End Results.

(** AddAnnotations under a lock. *)
Lemma concat_part {X} : forall (m : list (list X)) i l e, nth_error m i = Some (l ++ e) ->
  Permutation (concat m) (l ++ concat (set_at i e m)).
Proof.
  induction m as [|b m IH]; intros [|i] l e H; simpl in *; try discriminate.
  - injection H as ->. now rewrite app_assoc.
  - rewrite (IH i l e H). rewrite !app_assoc. apply Permutation_app_tail. apply Permutation_app_comm.
Qed.
Section Notes.
Context {A : Type} (zero : A) (spare : nat -> nat).
Local Notation cfg := (config (nfield A) (list A) (nop A)).
Local Notation thr := (thread (list A) (nop A)).
Variable v0 : list A.
Variable All : list A.
Inductive nshape (m : nfield A) (D : list A) : prog (nop A) -> list A -> Prop :=
| NS0 l : valid (arrays m) (notes m) -> view (arrays m) (notes m) = v0 ++ D -> nshape m D (n_add l) l
| NS1 l : valid (arrays m) (notes m) -> view (arrays m) (notes m) = v0 ++ D ->
    nshape m D (Do (AppendNotes (notes m) l) (fun t => Do (WriteNotes t) (fun _ => Done))) l
| NS2 l t : valid (arrays m) t -> view (arrays m) t = v0 ++ D ++ l -> nshape m D (Do (WriteNotes t) (fun _ => Done)) l
| NS3 : valid (arrays m) (notes m) -> view (arrays m) (notes m) = v0 ++ D -> nshape m D Done [].
Inductive ntp (m : nfield A) (D : list A) : thr -> list A -> Prop :=
| NIdle todo : ntp m D (Idle todo) (concat todo)
| NRun p todo es : nshape m D p es -> ntp m D (Running p todo) (es ++ concat todo).
Definition ninv (c : cfg) : Prop := exists D m,
  Forall2 (ntp (shared c) D) (threads c) m /\ Permutation (D ++ concat m) All /\
  match owner c with
  | None => valid (arrays (shared c)) (notes (shared c)) /\ view (arrays (shared c)) (notes (shared c)) = v0 ++ D /\
            forall o, others_idle o (threads c)
  | Some o => others_idle o (threads c) /\ exists p todo, nth_error (threads c) o = Some (Running p todo)
  end.
Lemma ntp_others m D m' D' : forall ts es o t e, Forall2 (ntp m D) ts es -> others_idle o ts -> ntp m' D' t e ->
  Forall2 (ntp m' D') (set_thread o t ts) (set_at o e es).
Proof.
  assert (forall ts es, Forall2 (ntp m D) ts es -> all_idle ts -> Forall2 (ntp m' D') ts es) as K.
  { intros ts es F H. induction F as [|x y ts es Hx F IH]; constructor; inversion H as [|? ? (todo & H1) H2]; subst; auto.
    inversion Hx; subst; constructor. }
  intros ts es o t e F. revert o. induction F as [|x y ts es Hx F IH]; intros o Ho Hq; [destruct o; constructor|].
  destruct o as [|o]; simpl in *.
  - constructor; [exact Hq|]. apply K; [exact F|]. apply Forall_forall. intros z Hz.
    apply In_nth_error in Hz. destruct Hz as (j & Hj). exact (Ho (S j) z Hj ltac:(lia)).
  - constructor.
    + destruct (Ho 0 x eq_refl ltac:(lia)) as (todo & ->). inversion Hx; subst; constructor.
    + apply IH; auto. intros j z Hj Hne. apply (Ho (S j) z Hj). lia.
Qed.
Lemma set_has : forall (l : list thr) i t x, nth_error l i = Some x -> nth_error (set_thread i t l) i = Some t.
Proof. intros l i t x H. rewrite set_nth_thr, PeanoNat.Nat.eqb_refl, H. reflexivity. Qed.
Lemma nstep j c : ninv c -> exists c', cstep (nexec zero spare) n_add true j c = Ret c' /\ ninv c'.
Proof.
  intros I0. pose proof I0 as (D & m & H2 & Hp & Ho). unfold cstep.
  destruct (nth_error (threads c) j) as [t|] eqn:Et; [|exists c; auto].
  destruct (f2_at _ _ _ H2 j t Et) as (es & M1 & M2 & M3).
  inversion M2 as [todo|p todo e Hsh]; subst t es.
  - destruct todo as [|k todo]; [exists c; auto|].
    destruct (owner c) as [o|]; [exists c; auto|]. destruct Ho as (V & Ev & Hi).
    eexists; split; [reflexivity|]. exists D, m. split; [|split; [exact Hp|]].
    + simpl. rewrite <- (set_at_same m j _ M1). apply M3. apply NRun. now constructor.
    + simpl. split; [apply others_set, Hi|]. eexists _, _. eapply set_has; eauto.
  - assert (exists o, owner c = Some o /\ others_idle o (threads c)) as (o & Eo & Ho').
    { destruct (owner c) as [o|]; [destruct Ho; eauto|]. exfalso. destruct Ho as (_ & _ & Ho).
      destruct (Ho (S j) j _ Et ltac:(lia)) as (? & ?). discriminate. }
    assert (j = o) as ->.
    { destruct (PeanoNat.Nat.eq_dec j o) as [|Hn]; auto. destruct (Ho' j _ Et Hn) as (? & ?). discriminate. }
    clear Ho.
    inversion Hsh as [l V Ev|l V Ev|l t V Ev|V Ev]; subst p e.
    + cbn [n_add nexec bind]. eexists; split; [reflexivity|]. exists D, m. split; [|split; [exact Hp|]].
      * simpl. rewrite <- (set_at_same m o _ M1). apply M3. apply NRun. now constructor.
      * simpl. rewrite Eo. split; [now apply others_set|]. eexists _, _. eapply set_has; eauto.
    + cbn [nexec bind]. pose proof (append_ok zero (spare (length (arrays (shared c)))) (arrays (shared c)) (notes (shared c)) l V) as Ha.
      cbv zeta in Ha. destruct (append_slice zero (spare (length (arrays (shared c)))) (arrays (shared c)) (notes (shared c)) l) as [h1 s1]; simpl in Ha.
      destruct Ha as (Ha1 & Ha2 & _).
      eexists; split; [reflexivity|]. exists D, m. split; [|split; [exact Hp|]].
      * simpl. rewrite <- (set_at_same m o _ M1). eapply ntp_others; eauto. apply NRun. apply NS2; simpl.
        -- exact (proj1 Ha1).
        -- rewrite Ha2, Ev. now rewrite app_assoc.
      * simpl. rewrite Eo. split; [now apply others_set|]. eexists _, _. eapply set_has; eauto.
    + cbn [nexec bind]. eexists; split; [reflexivity|]. exists (D ++ l), (set_at o (concat todo) m). split; [|split].
      * simpl. eapply ntp_others; eauto. apply (NRun _ _ Done todo []). constructor; simpl; [exact V|]. exact Ev.
      * rewrite <- Hp. rewrite (concat_part m o l _ M1). now rewrite app_assoc.
      * simpl. rewrite Eo. split; [now apply others_set|]. eexists _, _. eapply set_has; eauto.
    + eexists; split; [reflexivity|]. exists D, m. split; [|split; [exact Hp|]].
      * simpl. rewrite <- (set_at_same m o _ M1). eapply ntp_others; eauto. apply NIdle.
      * simpl. split; [exact V|]. split; [exact Ev|]. eapply others_none; eauto.
Qed.
Lemma nrun sched : forall c, ninv c -> exists c', execute (nexec zero spare) n_add true sched c = Ret c' /\ ninv c'.
Proof.
  induction sched as [|j s IH]; intros c H; simpl; [eauto|].
  destruct (nstep j c H) as (c1 & -> & H1). simpl. auto.
Qed.
End Notes.

Lemma locked_notes {A} (zero : A) spare (calls : list (list (list A))) h s sched : valid h s ->
  exists c, execute (nexec zero spare) n_add true sched (start calls (mkNotes h s)) = Ret c /\
    (finished c -> exists added, Permutation added (concat (concat calls)) /\
       view (arrays (shared c)) (notes (shared c)) = view h s ++ added).
Proof.
  intros V. destruct (nrun zero spare (view h s) (concat (concat calls)) sched (start calls (mkNotes h s))) as (c & E1 & D & m & H2 & Hp & Ho).
  - exists [], (map (@concat A) calls). split; [|split].
    + simpl. induction calls as [|k calls IH]; simpl; constructor; auto. constructor.
    + simpl. induction calls as [|k calls IH]; simpl; [constructor|]. rewrite concat_app. now apply Permutation_app_head.
    + simpl. split; [exact V|]. split; [now rewrite app_nil_r|].
      intros o j t Ej _. apply nth_error_In, in_map_iff in Ej. destruct Ej as (todo & <- & _). eauto.
  - exists c. split; [exact E1|]. intros Hfin. exists D.
    assert (concat m = []) as E0.
    { clear - H2 Hfin. unfold finished in Hfin. induction H2 as [|t e l m Hte H2 IH]; [reflexivity|].
      inversion Hfin as [|? ? F1 F2]; subst. inversion Hte; subst. simpl. now rewrite IH. }
    rewrite E0, app_nil_r in Hp. split; [exact Hp|].
    destruct (owner c) as [o|].
    + exfalso. destruct Ho as (_ & p & todo & Hn). apply nth_error_In in Hn. unfold finished in Hfin. rewrite Forall_forall in Hfin.
      specialize (Hfin _ Hn). discriminate.
    + tauto.
Qed.

(** Lost additions, without a lock. *)
Lemma at_end {X} (l : list X) x : nth_error (l ++ [x]) (length l) = Some x.
Proof. rewrite nth_error_app2 by lia. now rewrite PeanoNat.Nat.sub_diag. Qed.
Lemma lost_action {A} (gen : string -> A -> A) (get_id : A -> string) (Hid : forall i a, get_id (gen i a) = i)
  (i1 i2 : string) (a1 a2 : A) (h : mheap A) : i1 <> i2 ->
  exists sched c, execute mexec (m_add gen get_id) false sched
      (start [[(fun _ => i1, [a1])]; [(fun _ => i2, [a2])]] (mkField h None)) = Ret c /\ finished c /\
    map_get (mview (maps (shared c)) (field (shared c))) i1 = None /\
    map_get (mview (maps (shared c)) (field (shared c))) i2 = Some (gen i2 a2).
Proof.
  intros Hne. exists [0; 1; 0; 1; 0; 0; 0; 0; 0; 1; 1; 1; 1; 1].
  repeat (rewrite ?at_end; cbn [execute cstep start map threads shared owner nth_error set_thread m_add mexec bind field maps fst snd m_loop h_map_set]).
  eexists. split; [reflexivity|]. split; [repeat constructor|].
  cbn [mview map_get shared maps field]. rewrite put_map_same by (rewrite app_length; simpl; lia).
  rewrite !Hid. unfold map_get. rewrite String.eqb_refl. destruct (String.eqb_spec i1 i2) as [E1|_]; [congruence|]. auto.
Qed.
Lemma append_keeps {A} (zero : A) k h s xs : valid h s ->
  valid (fst (append_slice zero k h s xs)) s /\ view (fst (append_slice zero k h s xs)) s = view h s.
Proof.
  intros V. pose proof (proj1 V) as VL. unfold append_slice.
  destruct (PeanoNat.Nat.leb_spec (s_len s + length xs) (s_cap s)) as [L|L]; cbn [fst].
  - assert (valid (store h s (s_len s) xs) s) as V' by now apply store_valid.
    split; [exact V'|]. rewrite !view_region by assumption. rewrite store_region by assumption.
    unfold overwrite. rewrite firstn_app, firstn_firstn, PeanoNat.Nat.min_id.
    rewrite firstn_length, region_len by assumption. rewrite PeanoNat.Nat.min_l by lia.
    rewrite PeanoNat.Nat.sub_diag. simpl. now rewrite app_nil_r.
  - destruct V as (V1 & V2). destruct (PeanoNat.Nat.eq_dec (s_cap s) 0) as [E0|N0].
    + split; [split; [exact V1|intros N; congruence]|]. unfold view. replace (s_len s) with 0 by lia. reflexivity.
    + destruct (V2 N0) as (V3 & V4). split.
      * split; [exact V1|]. intros _. rewrite app_length, app_nth1 by lia. lia.
      * unfold view. now rewrite app_nth1.
Qed.
Lemma lost_notes {A} (zero : A) spare (h : heap A) s (l1 l2 : list A) : valid h s ->
  exists sched c, execute (nexec zero spare) n_add false sched (start [[l1]; [l2]] (mkNotes h s)) = Ret c /\ finished c /\
    view (arrays (shared c)) (notes (shared c)) = view h s ++ l2.
Proof.
  intros V. exists [0; 1; 0; 1; 0; 0; 0; 1; 1; 1].
  pose proof (append_keeps zero (spare (length h)) h s l1 V) as (K1 & K2).
  cbn [execute cstep start map threads shared owner nth_error set_thread n_add nexec bind arrays notes].
  destruct (append_slice zero (spare (length h)) h s l1) as [h1 s1]; cbn [fst] in K1, K2.
  cbn [execute cstep start map threads shared owner nth_error set_thread n_add nexec bind arrays notes].
  destruct (append_ok zero (spare (length h1)) h1 s l2 K1) as (_ & K3 & _).
  destruct (append_slice zero (spare (length h1)) h1 s l2) as [h2 s2]; cbn [fst snd] in K3.
  cbn [execute cstep start map threads shared owner nth_error set_thread n_add nexec bind arrays notes].
  eexists. split; [reflexivity|]. split; [repeat constructor|]. cbn [shared arrays notes]. now rewrite K3, K2.
Qed.
Lemma alone_notes {A} (zero : A) spare (h : heap A) s l : alone (nexec zero spare) (n_add l) (mkNotes h s) =
  Ret (let '(h', s') := append_slice zero (spare (length h)) h s l in mkNotes h' s').
Proof. cbn [n_add alone nexec bind arrays notes]. destruct (append_slice zero (spare (length h)) h s l). reflexivity. Qed.

(** With a lock the calls can always be completed. *)
Section Progress.
Context {M C : Type} {op : Type -> Type} (exec : forall X, op X -> M -> go (X * M)) (body : C -> prog op).
Local Notation cfg := (config M C op).
Local Notation run := (execute exec body true).
Definition lock_inv (c : cfg) : Prop :=
  match owner c with
  | None => forall o, others_idle o (threads c)
  | Some o => others_idle o (threads c) /\ exists p todo, nth_error (threads c) o = Some (Running p todo)
  end.
Lemma set_has' : forall (l : list (thread C op)) i t x, nth_error l i = Some x -> nth_error (set_thread i t l) i = Some t.
Proof. intros l i t x H. rewrite set_nth_thr, PeanoNat.Nat.eqb_refl, H. reflexivity. Qed.
Lemma lock_step j c c' : lock_inv c -> cstep exec body true j c = Ret c' -> lock_inv c'.
Proof.
  intros H E1. unfold cstep in E1. destruct (nth_error (threads c) j) as [t|] eqn:Et; [|injection E1 as <-; exact H].
  destruct t as [[|k todo]|p todo]; [injection E1 as <-; exact H| |].
  - unfold lock_inv in H. destruct (owner c) as [o|] eqn:Eo; [injection E1 as <-; unfold lock_inv; rewrite Eo; exact H|].
    injection E1 as <-. unfold lock_inv. cbn [owner threads]. split; [apply others_set, H|]. eexists _, _. eapply set_has'; eauto.
  - assert (owner c = Some j /\ others_idle j (threads c)) as (Eo & Ho).
    { unfold lock_inv in H. destruct (owner c) as [o|].
      - destruct H as (H & _). destruct (PeanoNat.Nat.eq_dec j o) as [->|Hn]; [auto|]. destruct (H j _ Et Hn) as (? & ?). discriminate.
      - destruct (H (S j) j _ Et ltac:(lia)) as (? & ?). discriminate. }
    destruct p as [|X o f].
    + injection E1 as <-. unfold lock_inv. cbn [owner threads]. eapply others_none; eauto.
    + destruct (exec X o (shared c)) as [[x m]|]; cbn [bind] in E1; [|discriminate]. injection E1 as <-.
      unfold lock_inv. cbn [owner threads]. rewrite Eo. split; [now apply others_set|]. eexists _, _. eapply set_has'; eauto.
Qed.
Lemma lock_run sched : forall c c', lock_inv c -> run sched c = Ret c' -> lock_inv c'.
Proof.
  induction sched as [|j s IH]; intros c c' H E1; simpl in E1; [now injection E1 as <-|].
  destruct (cstep exec body true j c) as [c1|] eqn:E2; cbn [bind] in E1; [|discriminate]. eapply IH; [|exact E1]. eapply lock_step; eauto.
Qed.
Lemma run_app s1 : forall s2 c, run (s1 ++ s2) c = bind (run s1 c) (run s2).
Proof.
  induction s1 as [|j s IH]; intros s2 c; [reflexivity|]. simpl. destruct (cstep exec body true j c); cbn [bind]; auto.
Qed.
Definition safe (c : cfg) : Prop := forall sched, exists c', run sched c = Ret c'.
Lemma safe_run s c c' : safe c -> run s c = Ret c' -> safe c'.
Proof. intros H E1 s'. destruct (H (s ++ s')) as (c2 & E2). rewrite run_app, E1 in E2. eauto. Qed.
Lemma set_twice : forall (l : list (thread C op)) i t t', set_thread i t (set_thread i t' l) = set_thread i t l.
Proof. intros l; induction l as [|x l IH]; intros [|i] t t'; simpl; auto. now rewrite IH. Qed.
Lemma finish_one i : forall p todo c, nth_error (threads c) i = Some (Running p todo) -> safe c ->
  exists more c', run more c = Ret c' /\ threads c' = set_thread i (Idle todo) (threads c) /\ owner c' = None.
Proof.
  induction p as [|X o k IH]; intros todo c Et Hs.
  - exists [i]. simpl. unfold cstep. rewrite Et. cbn [bind]. eexists. split; [reflexivity|]. auto.
  - destruct (Hs [i]) as (c1 & E1). simpl in E1. unfold cstep in E1. rewrite Et in E1.
    destruct (exec X o (shared c)) as [[x m]|] eqn:Ex; cbn [bind] in E1; [|discriminate]. injection E1 as E1.
    assert (run [i] c = Ret c1) as R1. { simpl. unfold cstep. rewrite Et, Ex. cbn [bind]. now rewrite E1. }
    assert (threads c1 = set_thread i (Running (k x) todo) (threads c)) as T1 by now rewrite <- E1.
    destruct (IH x todo c1) as (more & c' & E2 & E3 & E4).
    + rewrite T1. eapply set_has'; eauto.
    + eapply safe_run; eauto.
    + exists ([i] ++ more), c'. split; [|split; [|exact E4]].
      * rewrite run_app, R1. exact E2.
      * rewrite E3, T1. apply set_twice.
Qed.
Definition todos (t : thread C op) : nat := match t with Idle l => length l | Running _ l => S (length l) end.
Lemma todos_set : forall (l : list (thread C op)) i t x, nth_error l i = Some x ->
  list_sum (map todos (set_thread i t l)) + todos x = list_sum (map todos l) + todos t.
Proof.
  intros l; induction l as [|y l IH]; intros [|i] t x E1; simpl in *; try discriminate.
  - injection E1 as <-. lia.
  - specialize (IH i t x E1). lia.
Qed.
Lemma finish_all : forall n c, list_sum (map todos (threads c)) = n -> (forall o, others_idle o (threads c)) -> owner c = None -> safe c ->
  exists more c', run more c = Ret c' /\ finished c'.
Proof.
  induction n as [|n IH]; intros c Hn Hi Ho Hs.
  - exists [], c. split; [reflexivity|]. unfold finished. apply Forall_forall. intros t Ht.
    apply In_nth_error in Ht. destruct Ht as (j & Ej). destruct (Hi (S j) j t Ej ltac:(lia)) as (todo & ->).
    assert (length todo = 0) as L0. { pose proof (todos_set _ j (Idle []) _ Ej) as K. rewrite Hn in K. simpl in K. lia. }
    destruct todo; [reflexivity|discriminate].
  - assert (exists i k todo, nth_error (threads c) i = Some (Idle (k :: todo))) as (i & k & todo & Ei).
    { clear - Hn Hi. revert Hn Hi. generalize (threads c) as l. intros l. revert n. induction l as [|x l IHl]; intros n Hn Hi; [discriminate|].
      destruct (Hi 1 0 x eq_refl ltac:(lia)) as ([|k todo] & ->).
      - simpl in Hn. destruct (IHl n Hn) as (i & k & todo & E1).
        + intros o j t Ej Hne. apply (Hi (S o) (S j) t Ej). lia.
        + exists (S i), k, todo. exact E1.
      - exists 0, k, todo. reflexivity. }
    assert (run [i] c = Ret (mkConfig (shared c) (Some i) (set_thread i (Running (body k) todo) (threads c)))) as R1.
    { simpl. unfold cstep. rewrite Ei, Ho. reflexivity. }
    destruct (finish_one i (body k) todo (mkConfig (shared c) (Some i) (set_thread i (Running (body k) todo) (threads c))) (set_has' _ i (Running (body k) todo) _ Ei) (safe_run _ _ _ Hs R1)) as (more & c2 & E2 & E3 & E4).
    cbn [threads] in E3. rewrite set_twice in E3.
    assert (run ([i] ++ more) c = Ret c2) as R2 by (rewrite run_app, R1; exact E2).
    destruct (IH c2) as (more' & c3 & E5 & E6).
    + pose proof (todos_set _ i (Idle todo) _ Ei) as K. rewrite <- E3, Hn in K. simpl in K. lia.
    + rewrite E3. apply others_none with (o := i). apply Hi.
    + exact E4.
    + eapply safe_run; eauto.
    + exists (([i] ++ more) ++ more'), c3. split; [|exact E6]. rewrite run_app, R2. exact E5.
Qed.
Lemma can_finish calls m sched c : safe (start calls m) -> run sched (start calls m) = Ret c ->
  exists more c', run more c = Ret c' /\ finished c'.
Proof.
  intros Hs E1. assert (lock_inv c) as L.
  { eapply lock_run; [|exact E1]. intros o j t Ej _. simpl in Ej. apply nth_error_In, in_map_iff in Ej. destruct Ej as (todo & <- & _). eauto. }
  pose proof (safe_run _ _ _ Hs E1) as Hc. unfold lock_inv in L. destruct (owner c) as [o|] eqn:Eo.
  - destruct L as (L & p & todo & Ep). destruct (finish_one o p todo c Ep Hc) as (more & c1 & R1 & T1 & O1).
    destruct (finish_all _ c1 eq_refl) as (more' & c2 & R2 & F2).
    + rewrite T1. eapply others_none; eauto.
    + exact O1.
    + eapply safe_run; eauto.
    + exists (more ++ more'), c2. split; [|exact F2]. rewrite run_app, R1. exact R2.
  - eapply finish_all; eauto.
Qed.
End Progress.
Lemma locked_maps_finish {A} (gen : string -> A -> A) get_id (Hid : forall i a, get_id (gen i a) = i)
  (calls : list (list (mcall A))) h sched c : fresh (all_entries gen calls) ->
  execute mexec (m_add gen get_id) true sched (start calls (mkField h None)) = Ret c ->
  exists more c', execute mexec (m_add gen get_id) true more c = Ret c' /\ finished c'.
Proof.
  intros Hf. apply can_finish. intros s. destruct (locked_keeps_all gen get_id Hid calls h s Hf) as (c' & E1 & _). eauto.
Qed.
Lemma locked_notes_finish {A} (zero : A) spare (calls : list (list (list A))) h s sched c : valid h s ->
  execute (nexec zero spare) n_add true sched (start calls (mkNotes h s)) = Ret c ->
  exists more c', execute (nexec zero spare) n_add true more c = Ret c' /\ finished c'.
Proof.
  intros V. apply can_finish. intros s'. destruct (locked_notes zero spare calls h s s' V) as (c' & E1 & _). eauto.
Qed.
