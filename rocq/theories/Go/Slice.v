(** Go slices as values: the visible elements, plus, where it matters, the
    hidden elements of the backing array between len and cap. *)
From Verif Require Import Go.Outcome.
Open Scope Z_scope.

Definition zlen {A} (l : list A) : Z := Z.of_nat (List.length l).

(** [s[i]] on the visible elements. *)
Definition index {A} (l : list A) (i : Z) : go A :=
  if i <? 0 then Panic PIndex
  else match nth_error l (Z.to_nat i) with
       | Some a => Ret a
       | None => Panic PIndex
       end.

(** [s[lo:hi]] when [hi] is checked against [bound] elements held in [l]. *)
Definition reslice {A} (l : list A) (lo hi : Z) : go (list A) :=
  if (0 <=? lo) && (lo <=? hi) && (hi <=? zlen l)
  then Ret (firstn (Z.to_nat (hi - lo)) (skipn (Z.to_nat lo) l))
  else Panic PSlice.

(** A slice with its capacity: [GNil] is the nil slice; [GSlice vis hid] has
    length [len vis], capacity [len vis + len hid]. *)
Inductive gslice (A : Type) : Type :=
| GNil
| GSlice (vis hid : list A).
Arguments GNil {A}.
Arguments GSlice {A} vis hid.

Definition vis {A} (s : gslice A) : list A :=
  match s with GNil => [] | GSlice v _ => v end.
Definition hid {A} (s : gslice A) : list A :=
  match s with GNil => [] | GSlice _ h => h end.
Definition is_nil {A} (s : gslice A) : bool :=
  match s with GNil => true | GSlice _ _ => false end.

(** [s[lo:hi]]: the upper bound is checked against the *capacity*, and the
    elements beyond the length become visible. *)
Definition gsub {A} (s : gslice A) (lo hi : Z) : go (list A) :=
  reslice (vis s ++ hid s) lo hi.

Lemma zlen_nonneg {A} (l : list A) : 0 <= zlen l.
Proof. unfold zlen; lia. Qed.
Lemma zlen_app {A} (l1 l2 : list A) : zlen (l1 ++ l2) = zlen l1 + zlen l2.
Proof. unfold zlen; rewrite app_length; lia. Qed.
Lemma zlen_cons {A} (a : A) l : zlen (a :: l) = zlen l + 1.
Proof. unfold zlen; cbn [List.length]; lia. Qed.
Lemma zlen_nil {A} : zlen (@nil A) = 0.
Proof. reflexivity. Qed.

Lemma index_Ret {A} (l : list A) i a :
  index l i = Ret a -> 0 <= i < zlen l /\ nth_error l (Z.to_nat i) = Some a.
Proof.
  unfold index, zlen. destruct (Z.ltb_spec i 0); [discriminate|].
  destruct (nth_error l (Z.to_nat i)) eqn:E; [|discriminate].
  intros H1; injection H1 as <-. split; [|reflexivity].
  assert (nth_error l (Z.to_nat i) <> None) as H2 by congruence.
  apply nth_error_Some in H2. lia.
Qed.

Lemma index_nth {A} (l : list A) i a :
  0 <= i -> nth_error l (Z.to_nat i) = Some a -> index l i = Ret a.
Proof.
  intros Hi H. unfold index. destruct (Z.ltb_spec i 0); [lia|]. now rewrite H.
Qed.

Lemma index_of_nat {A} (l : list A) n a :
  nth_error l n = Some a -> index l (Z.of_nat n) = Ret a.
Proof. intros H. apply index_nth; [lia|]. now rewrite Nat2Z.id. Qed.

Lemma index_out {A} (l : list A) i : zlen l <= i -> index l i = Panic PIndex.
Proof.
  unfold index, zlen. intros H. destruct (Z.ltb_spec i 0); [reflexivity|].
  destruct (nth_error l (Z.to_nat i)) eqn:E; [|reflexivity].
  assert (nth_error l (Z.to_nat i) <> None) as H2 by congruence.
  apply nth_error_Some in H2. lia.
Qed.

Lemma reslice_ok {A} (l : list A) lo hi :
  0 <= lo -> lo <= hi -> hi <= zlen l ->
  reslice l lo hi = Ret (firstn (Z.to_nat (hi - lo)) (skipn (Z.to_nat lo) l)).
Proof.
  intros. unfold reslice.
  rewrite (proj2 (Z.leb_le 0 lo)), (proj2 (Z.leb_le lo hi)), (proj2 (Z.leb_le hi (zlen l))) by assumption.
  reflexivity.
Qed.

Lemma reslice_Ret {A} (l : list A) lo hi r :
  reslice l lo hi = Ret r -> 0 <= lo /\ lo <= hi /\ hi <= zlen l /\
  r = firstn (Z.to_nat (hi - lo)) (skipn (Z.to_nat lo) l).
Proof.
  unfold reslice.
  destruct (Z.leb_spec 0 lo), (Z.leb_spec lo hi), (Z.leb_spec hi (zlen l)); simpl;
    intro H'; inversion H'; auto.
Qed.

Lemma reslice_panic {A} (l : list A) lo hi :
  lo < 0 \/ hi < lo \/ zlen l < hi -> reslice l lo hi = Panic PSlice.
Proof.
  intros H. unfold reslice.
  destruct (Z.leb_spec 0 lo), (Z.leb_spec lo hi), (Z.leb_spec hi (zlen l)); simpl; try reflexivity; lia.
Qed.
