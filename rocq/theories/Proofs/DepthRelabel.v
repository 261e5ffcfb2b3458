(** GetDepth under other price labels. *)
From Coq Require Import Lia.
From Flocq Require Import Core BinarySingleNaN.
From Verif Require Import Go.Outcome Go.Int64 Go.Slice Go.Float64 Go.FloatOrder Go.Num Model.OrderBook Spec.SymmetrySpec.
Open Scope list_scope.
Open Scope Z_scope.

Lemma le_lt_or_eq x y : f64_le x y = (f64_lt x y || f64_eq x y)%bool.
Proof.
  destruct (is_nan x) eqn:Hx; [now rewrite f64_le_nan_l, f64_lt_nan_l, f64_eq_nan_l|].
  destruct (is_nan y) eqn:Hy; [now rewrite f64_le_nan_r, f64_lt_nan_r, f64_eq_nan_r|].
  rewrite f64_le_key, f64_lt_key, f64_eq_key by assumption.
  destruct (Z.leb_spec (key x) (key y)), (Z.ltb_spec (key x) (key y)), (Z.eqb_spec (key x) (key y)); try reflexivity; lia.
Qed.

Lemma index_map {A B} (f : A -> B) l i : index (map f l) i = go_map f (index l i).
Proof.
  unfold index. destruct (i <? 0); [reflexivity|]. rewrite nth_error_map.
  destruct (nth_error l (Z.to_nat i)); reflexivity.
Qed.

Lemma find_map (f : row f64 -> row f64) s t (l : list (row f64)) i : (forall r, In r l -> t (f r) = s r) ->
  find_from t (map f l) i = find_from s l i.
Proof.
  revert i. induction l as [|r l IH]; intros i H; cbn [map find_from]; [reflexivity|].
  rewrite H by (now left). destruct (s r); [reflexivity|]. apply IH. intros x Hx. apply H. now right.
Qed.

Lemma index_In {A} (l : list A) i a : index l i = Ret a -> In a l.
Proof. unfold index. destruct (i <? 0); [discriminate|]. destruct (nth_error l (Z.to_nat i)) eqn:E; intros H; inversion H; subst. now apply nth_error_In in E. Qed.

Lemma relabel_depth g ob p : keeps_order (fun x => book_price ob x \/ x = p) g -> f64_le (g p) (i2f 0) = f64_le p (i2f 0) ->
  get_depth (relabel_book g (fun v => v) ob) (g p) = go_map (relabel_answer g) (get_depth ob p).
Proof.
  intros K Z0. destruct ob as [t la lb d]. unfold get_depth, relabel_book. cbn [asks bids b_time max_depth].
  set (f := relabel_row g (fun v => v)).
  assert (forall r, In r (la ++ lb) -> book_price (mkBook t la lb d) (price r)) as BP.
  { intros r Hr. unfold book_price. cbn [asks bids]. now apply in_map. }
  set (P := fun x => book_price (mkBook t la lb d) x \/ x = p) in K.
  assert (forall r, In r (la ++ lb) -> P (price r)) as PR by (intros r Hr; left; now apply BP).
  assert (P p) as Pp by now right.
  assert (forall x y, P x -> P y -> fle (g x) (g y) = fle x y) as KL.
  { intros x y Hx Hy. change (f64_le (g x) (g y) = f64_le x y). rewrite !le_lt_or_eq. destruct (K x y Hx Hy) as [-> ->]. reflexivity. }
  assert (forall x y, P x -> P y -> flt (g x) (g y) = flt x y) as KT by (intros x y Hx Hy; exact (proj1 (K x y Hx Hy))).
  change (fle (g p) fzero) with (f64_le (g p) (i2f 0)). change (fle p fzero) with (f64_le p (i2f 0)). rewrite Z0.
  destruct (f64_le p (i2f 0)); [reflexivity|].
  assert (forall l : list (row f64), zlen (map f l) = zlen l) as ZL by (intros l; unfold zlen; now rewrite map_length).
  rewrite !ZL, !index_map.
  assert (forall l i r, index l i = Ret r -> incl l (la ++ lb) -> P (price r)) as IN.
  { intros l i r H I. apply PR, I, (index_In l i). exact H. }
  assert (incl la (la ++ lb)) as IA by (intros r Hr; apply in_or_app; now left).
  assert (incl lb (la ++ lb)) as IB by (intros r Hr; apply in_or_app; now right).
  assert (forall r, price (f r) = g (price r)) as PF by reflexivity.
  destruct (index la 0) as [a0|] eqn:E1; [|reflexivity].
  destruct (index la (zlen la - 1)) as [a1|] eqn:E2; [|reflexivity].
  destruct (index lb 0) as [b0|] eqn:E3; [|reflexivity].
  destruct (index lb (zlen lb - 1)) as [b1|] eqn:E4; [|reflexivity].
  cbn [go_map bind]. rewrite !PF, !KL by eauto.
  assert (forall l, incl l (la ++ lb) -> find_from (fun r => flt (g p) (price r)) (map f l) 0 = find_from (fun r => flt p (price r)) l 0) as FA.
  { intros l I. apply (find_map f). intros r Hr. rewrite PF. apply KT; [exact Pp|now apply PR, I]. }
  assert (forall l, incl l (la ++ lb) -> find_from (fun r => flt (price r) (g p)) (map f l) 0 = find_from (fun r => flt (price r) p) l 0) as FB.
  { intros l I. apply (find_map f). intros r Hr. rewrite PF. apply KT; [now apply PR, I|exact Pp]. }
  rewrite (FA la IA), (FB lb IB).
  destruct (fle (price a0) p && fle p (price a1))%bool.
  - destruct (find_from (fun r => flt p (price r)) la 0) as [k|]; [|reflexivity].
    rewrite index_map. destruct (index la (f2i _)); reflexivity.
  - destruct (fle (price b1) p && fle p (price b0))%bool; [|reflexivity].
    destruct (find_from (fun r => flt (price r) p) lb 0) as [k|]; [|reflexivity].
    rewrite index_map. destruct (index lb (f2i _)); reflexivity.
Qed.
