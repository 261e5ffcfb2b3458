(** sort.SliceStable for a strict weak order. *)
From Coq Require Import Arith ZArith Lia Bool Sorting.Sorted Sorting.Permutation.
From Verif Require Import Go.Outcome Go.Slice Go.Sort Spec.SortSpec Proofs.Lists Proofs.StableSort.
Open Scope list_scope.
Local Notation length := List.length.

Section Order.
Context {A : Type} (less : A -> A -> bool) (l : list A).
Hypothesis W : strict_weak less (fun x => In x l).

(** Number of elements of [l] below [x]. *)
Definition rank (x : A) : Z := Z.of_nat (length (filter (fun y => less y x) l)).

Lemma filter_le {B} (f g : B -> bool) m : (forall x, In x m -> f x = true -> g x = true) ->
  (length (filter f m) <= length (filter g m))%nat.
Proof.
  induction m as [|x m IH]; intros H; [apply Nat.le_refl|].
  assert (length (filter f m) <= length (filter g m))%nat as G by (apply IH; intros y Hy; apply H; now right).
  cbn [filter]. pose proof (H x (or_introl eq_refl)) as Hx. destruct (f x); [rewrite Hx by reflexivity|destruct (g x)]; cbn [List.length]; lia.
Qed.
Lemma filter_lt {B} (f g : B -> bool) m x : (forall x, In x m -> f x = true -> g x = true) ->
  In x m -> f x = false -> g x = true -> (length (filter f m) < length (filter g m))%nat.
Proof.
  induction m as [|y m IH]; intros H I Fx Gx; [destruct I|]. cbn [filter].
  assert (forall x, In x m -> f x = true -> g x = true) as H' by (intros z Hz; apply H; now right).
  destruct I as [->|I].
  - rewrite Fx, Gx. cbn [List.length]. pose proof (filter_le f g m H'). lia.
  - pose proof (IH H' I Fx Gx). pose proof (H y (or_introl eq_refl)) as Hy.
    destruct (f y); [rewrite Hy by reflexivity|destruct (g y)]; cbn [List.length]; lia.
Qed.

Lemma asym x y : In x l -> In y l -> less x y = true -> less y x = false.
Proof.
  destruct W as (Ir & Tr & _). intros Hx Hy E. destruct (less y x) eqn:E2; [|reflexivity].
  rewrite <- (Ir x Hx). symmetry. now apply (Tr x y x).
Qed.
Lemma rank_less x y : In x l -> In y l -> less x y = (rank x <? rank y)%Z.
Proof.
  destruct W as (Ir & Tr & Nt). intros Hx Hy. destruct (less x y) eqn:E; symmetry.
  - apply Z.ltb_lt. unfold rank. apply inj_lt. apply (filter_lt _ _ l x); [|exact Hx|now apply Ir|exact E].
    intros z Hz H. now apply (Tr z x y).
  - apply Z.ltb_ge. unfold rank. apply inj_le. apply filter_le. intros z Hz H.
    destruct (less z x) eqn:E2; [reflexivity|]. rewrite (Nt z x y) in H by assumption. discriminate.
Qed.
Lemma rank_tie x y : In x l -> In y l -> tie less x y = (rank y =? rank x)%Z.
Proof.
  intros Hx Hy. unfold tie. rewrite !rank_less by assumption.
  destruct (Z.ltb_spec (rank x) (rank y)), (Z.ltb_spec (rank y) (rank x)), (Z.eqb_spec (rank y) (rank x)); cbn; lia || reflexivity.
Qed.

Lemma spec_key z : stably_sorted less l z <->
  Permutation l z /\ StronglySorted (fun a b => rank a <= rank b)%Z z /\
  (forall v, filter (fun a => rank a =? v)%Z z = filter (fun a => rank a =? v)%Z l).
Proof.
  assert (forall m, (forall x, In x m -> In x l) -> forall x, In x l -> filter (tie less x) m = filter (fun a => rank a =? rank x)%Z m) as T.
  { intros m Hm x Hx. apply filter_ext_in. intros y Hy. apply rank_tie; auto. }
  assert (forall m, (forall x, In x m -> In x l) ->
    (StronglySorted (fun x y => less y x = false) m <-> StronglySorted (fun a b => rank a <= rank b)%Z m)) as SS.
  { induction m as [|x m IH]; intros Hm; [split; constructor|]. rewrite !ss_cons. rewrite IH by (intros y Hy; apply Hm; now right).
    assert (forall y, In y m -> less y x = false <-> (rank x <= rank y)%Z) as Q.
    { intros y Hy. rewrite rank_less by (apply Hm; cbn; auto). now rewrite Z.ltb_ge. }
    split; intros [H1 H2]; (split; [exact H1|]); intros y Hy; apply Q; auto. }
  assert (forall (m : list A) x, Permutation l m -> In x m -> In x l) as PI by (intros m x Hp; apply Permutation_in; now apply Permutation_sym).
  split.
  - intros (Pm & S & F). split; [exact Pm|]. split; [apply SS; eauto|]. intros v.
    destruct (existsb (fun a => rank a =? v)%Z l) eqn:E.
    + apply existsb_exists in E as (x & Hx & Ex). apply Z.eqb_eq in Ex. subst v. rewrite <- !T; eauto.
    + assert (forall x, In x l -> (rank x =? v)%Z = false) as N.
      { intros x Hx. destruct (rank x =? v)%Z eqn:E2; [|reflexivity]. rewrite <- E. symmetry. apply existsb_exists. eauto. }
      assert (forall m, (forall x, In x m -> In x l) -> filter (fun a => rank a =? v)%Z m = []) as Z0.
      { induction m as [|y m IH]; intros Hm; [reflexivity|]. cbn [filter]. rewrite N by (apply Hm; now left). apply IH. intros w Hw. apply Hm. now right. }
      rewrite !Z0; eauto.
  - intros (Pm & S & F). split; [exact Pm|]. split; [apply SS; eauto|]. intros x Hx. rewrite !T; eauto.
Qed.

Lemma slice_stable_weak : stably_sorted less l (slice_stable less l).
Proof.
  apply spec_key. destruct (slice_stable_spec less rank (fun x => In x l)) with (l := l) as (S & Pm & F).
  - intros. now apply rank_less.
  - now apply Forall_forall.
  - auto.
Qed.
Lemma stably_sorted_unique z1 z2 : stably_sorted less l z1 -> stably_sorted less l z2 -> z1 = z2.
Proof.
  rewrite !spec_key. intros (_ & S1 & F1) (_ & S2 & F2). apply (stable_unique rank); [exact S1|exact S2|].
  intros v. now rewrite F1, F2.
Qed.
End Order.
