(** Supports C121. *)
From Coq Require Import List Reals Lra Lia.
From Flocq Require Import Core BinarySingleNaN.
From Verif Require Import Go.Outcome Go.Float64 Go.Num Model.Candle Spec.CandleSpec Spec.RsiSpec Spec.RsiShapeSpec Spec.ThinSpec Proofs.RsiShape.
Import ListNotations.
Open Scope list_scope.
Open Scope R_scope.
Local Notation length := List.length.
Local Notation concat := List.concat.

Lemma travelled_nonneg l : 0 <= travelled l.
Proof.
  induction l as [|a [|b l] IH]; [cbn; lra|cbn; lra|]. rewrite travelled_cons. pose proof (Rabs_pos (b - a)). lra.
Qed.
Lemma net_within l : Rabs (net_move l) <= travelled l.
Proof.
  induction l as [|a [|b l] IH].
  - cbn. unfold net_move. cbn. rewrite Rminus_0_r, Rabs_R0. lra.
  - unfold net_move. cbn. rewrite Rminus_diag_eq, Rabs_R0 by reflexivity. lra.
  - rewrite travelled_cons, net_cons. eapply Rle_trans; [apply Rabs_triang|]. lra.
Qed.
Lemma last_app_cons {A} (l : list A) a r d : last (l ++ a :: r) d = last (a :: r) d.
Proof. induction l as [|b l IH]; [reflexivity|]. cbn [app]. rewrite <- IH. destruct (l ++ a :: r) eqn:E; [now destruct l|reflexivity]. Qed.
Lemma thinned_ends (f c : list R) : thinned f c -> hd 0 f = hd 0 c /\ last f 0 = last c 0.
Proof.
  induction 1 as [a|a m b f c H [I1 I2]]; [auto|]. split; [reflexivity|].
  change (a :: m ++ b :: f) with ((a :: m) ++ b :: f). rewrite last_app_cons, I2. reflexivity.
Qed.
Lemma thinned_shorter (f c : list R) : thinned f c -> travelled c <= travelled f.
Proof.
  induction 1 as [a|a m b f c H IH]; [lra|].
  change (a :: m ++ b :: f) with ((a :: m) ++ b :: f). rewrite travelled_app, travelled_cons.
  assert (Rabs (b - a) <= travelled ((a :: m) ++ [b])); [|lra].
  pose proof (net_within ((a :: m) ++ [b])) as N. unfold net_move in N. rewrite last_app_cons in N. exact N.
Qed.
Lemma thinned_map {A B} (g : A -> B) f c : thinned f c -> thinned (map g f) (map g c).
Proof. induction 1 as [a|a m b f c H IH]; cbn [map] in *; [constructor|]. rewrite map_app. cbn [map]. now constructor. Qed.
Lemma thinned_length {A} (f c : list A) : thinned f c -> (length c <= length f)%nat.
Proof. induction 1 as [a|a m b f c H IH]; [auto|]. cbn [length] in *. rewrite app_length. cbn [length]. lia. Qed.

(** The last candle of a group followed by the following groups, thinned to the
    last candles. *)
Lemma groups_thinned {A} (gs : list (list A)) ls l : Forall2 last_is gs ls -> thinned (l :: concat gs) (l :: ls).
Proof.
  intros H. revert l. induction H as [|g k gs ls (r & ->) H IH]; intros l; [constructor|]. cbn [concat]. rewrite <- app_assoc.
  cbn [app]. constructor. apply IH.
Qed.
Lemma net_index_further f c : thinned f c -> 0 < travelled c ->
  (hd 0 f <= last f 0 -> net_index f <= net_index c) /\ (last f 0 <= hd 0 f -> net_index c <= net_index f).
Proof.
  intros H T. destruct (thinned_ends _ _ H) as [E1 E2]. pose proof (thinned_shorter _ _ H) as L.
  assert (net_move c = net_move f) as N by (unfold net_move; now rewrite E1, E2). unfold net_index. rewrite N. unfold net_move.
  assert (/ travelled f <= / travelled c) as I by (apply Rinv_le_contravar; assumption). unfold Rdiv.
  split; intros K.
  - assert (0 <= last f 0 - hd 0 f) as K' by lra. pose proof (Rmult_le_compat_l _ _ _ K' I). lra.
  - assert (0 <= hd 0 f - last f 0) as K' by lra. pose proof (Rmult_le_compat_l _ _ _ K' I). lra.
Qed.
