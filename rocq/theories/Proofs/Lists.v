(** List lemmas used by several proofs. *)
From Coq Require Import Sorting.Sorted Sorting.Permutation.
From Verif Require Import Go.Outcome Go.Slice.
Open Scope list_scope.

Lemma ss_app {A} (R : A -> A -> Prop) a b :
  StronglySorted R (a ++ b) <->
  StronglySorted R a /\ StronglySorted R b /\ (forall x y, In x a -> In y b -> R x y).
Proof.
  induction a as [|x a IH]; simpl.
  - split; [intros H; split; [constructor|split; [auto|intros x y []]]|tauto].
  - split.
    + intros H. inversion H as [|? ? H1 H2]; subst. apply IH in H1 as (S1 & S2 & S3).
      rewrite Forall_forall in H2. repeat split.
      * constructor; auto. rewrite Forall_forall. intros y Hy. apply H2, in_or_app; auto.
      * auto.
      * intros u v [<-|Hu] Hv; [apply H2, in_or_app; auto|auto].
    + intros (H1 & H2 & H3). inversion H1; subst. constructor.
      * apply IH. repeat split; auto.
      * rewrite Forall_forall in *. intros y Hy. apply in_app_or in Hy as [Hy|Hy]; auto.
Qed.

Lemma ss_cons {A} (R : A -> A -> Prop) x l :
  StronglySorted R (x :: l) <-> StronglySorted R l /\ (forall y, In y l -> R x y).
Proof.
  split.
  - intros H; inversion H; subst. rewrite Forall_forall in *. auto.
  - intros [H1 H2]. constructor; [auto|]. now rewrite Forall_forall.
Qed.

Lemma ss_impl {A} (R R' : A -> A -> Prop) l :
  (forall x y, In x l -> In y l -> R x y -> R' x y) -> StronglySorted R l -> StronglySorted R' l.
Proof.
  intros H S. induction S as [|x l S IH F]; constructor.
  - apply IH. intros. apply H; simpl; auto.
  - rewrite Forall_forall in *. intros y Hy. apply H; simpl; auto.
Qed.

Lemma ss_firstn {A} (R : A -> A -> Prop) n l : StronglySorted R l -> StronglySorted R (firstn n l).
Proof. intros H. rewrite <- (firstn_skipn n l) in H. now apply ss_app in H. Qed.
Lemma ss_skipn {A} (R : A -> A -> Prop) n l : StronglySorted R l -> StronglySorted R (skipn n l).
Proof. intros H. rewrite <- (firstn_skipn n l) in H. now apply ss_app in H. Qed.

Lemma in_firstn {A} n (l : list A) x : In x (firstn n l) -> In x l.
Proof. intros H. rewrite <- (firstn_skipn n l). apply in_or_app; auto. Qed.
Lemma in_skipn {A} n (l : list A) x : In x (skipn n l) -> In x l.
Proof. intros H. rewrite <- (firstn_skipn n l). apply in_or_app; auto. Qed.

Lemma firstn_app_exact {A} (a b : list A) : firstn (List.length a) (a ++ b) = a.
Proof. rewrite firstn_app, firstn_all, Nat.sub_diag. simpl. apply app_nil_r. Qed.
Lemma skipn_app_exact {A} (a b : list A) : skipn (List.length a) (a ++ b) = b.
Proof. rewrite skipn_app, skipn_all, Nat.sub_diag. reflexivity. Qed.

Lemma Forall_app_iff {A} (P : A -> Prop) a b : Forall P (a ++ b) <-> Forall P a /\ Forall P b.
Proof. apply Forall_app. Qed.

Lemma filter_all {A} (f : A -> bool) l : Forall (fun x => f x = true) l -> filter f l = l.
Proof. induction 1; simpl; [auto|]. rewrite H. now f_equal. Qed.
Lemma filter_none {A} (f : A -> bool) l : Forall (fun x => f x = false) l -> filter f l = [].
Proof. induction 1; simpl; [auto|]. now rewrite H. Qed.

(** A strictly sorted list is determined by its elements. *)
Lemma ss_unique {A} (R : A -> A -> Prop) l1 l2 :
  (forall x y, R x y -> R y x -> False) ->
  StronglySorted R l1 -> StronglySorted R l2 -> (forall x, In x l1 <-> In x l2) -> l1 = l2.
Proof.
  intros Ant H1. revert l2. induction H1 as [|x l1 S1 IH F1]; intros l2 S2 E.
  - destruct l2 as [|y l2]; [reflexivity|]. destruct (proj2 (E y)); simpl; auto.
  - destruct S2 as [|y l2 S2 F2]; [destruct (proj1 (E x)); simpl; auto|].
    rewrite Forall_forall in F1, F2.
    assert (x = y) as <-.
    { destruct (proj1 (E x)) as [->|Hx]; simpl; auto.
      destruct (proj2 (E y)) as [->|Hy]; simpl; auto.
      exfalso. eauto. }
    f_equal. apply IH; [assumption|]. intros z. split; intros Hz.
    + destruct (proj1 (E z)) as [->|H]; simpl; auto. exfalso. eauto.
    + destruct (proj2 (E z)) as [->|H]; simpl; auto. exfalso. eauto.
Qed.
