(** C113: RSI as net move over distance travelled. *)
From Coq Require Import Reals Lra Lia ZArith List.
Import ListNotations.
From Verif Require Import Spec.RsiSpec Spec.RsiShapeSpec Proofs.RSIError.
Open Scope list_scope.
Open Scope R_scope.
Local Notation length := List.length.

Lemma travelled_cons a b l : travelled (a :: b :: l) = Rabs (b - a) + travelled (b :: l). Proof. reflexivity. Qed.
Lemma net_cons a b l : net_move (a :: b :: l) = (b - a) + net_move (b :: l).
Proof. unfold net_move. cbn [hd]. change (last (a :: b :: l) 0) with (last (b :: l) 0). ring. Qed.
Lemma move_parts x : Rmax 0 x + Rmax 0 (- x) = Rabs x /\ Rmax 0 x - Rmax 0 (- x) = x.
Proof.
  destruct (Rle_lt_dec 0 x) as [H|H].
  - rewrite Rmax_right, Rmax_left, Rabs_pos_eq by lra. lra.
  - rewrite Rmax_left, Rmax_right, Rabs_left by lra. lra.
Qed.
Lemma moves_parts l : gains l + losses l = travelled l /\ gains l - losses l = net_move l.
Proof.
  induction l as [|a [|b l] IH]; [cbn; unfold net_move; cbn; lra|unfold net_move; cbn; lra|].
  rewrite gains_cons, losses_cons, travelled_cons, net_cons. destruct IH as [I1 I2].
  destruct (move_parts (b - a)) as [M1 M2]. replace (a - b) with (- (b - a)) by ring. lra.
Qed.
Lemma strength_net l : 0 < gains l + losses l -> strength l = net_index l.
Proof.
  intros H. destruct (moves_parts l) as [P1 P2]. unfold strength, net_index. rewrite <- P1, <- P2. field. lra.
Qed.

Lemma travelled_affine a b l : 0 < a -> travelled (map (fun x => a * x + b) l) = a * travelled l.
Proof.
  intros H. induction l as [|x [|y l] IH]; [cbn; ring|cbn; ring|].
  change (map (fun x => a * x + b) (x :: y :: l)) with ((a * x + b) :: (a * y + b) :: map (fun x => a * x + b) l).
  rewrite !travelled_cons. change ((a * y + b) :: map (fun x => a * x + b) l) with (map (fun x => a * x + b) (y :: l)). rewrite IH.
  replace (a * y + b - (a * x + b)) with (a * (y - x)) by ring. rewrite Rabs_mult, (Rabs_pos_eq a) by lra. ring.
Qed.
Lemma net_affine a b l : net_move (map (fun x => a * x + b) l) = a * net_move l.
Proof.
  induction l as [|x [|y l] IH]; [unfold net_move; cbn; ring|unfold net_move; cbn; ring|].
  change (map (fun x => a * x + b) (x :: y :: l)) with ((a * x + b) :: (a * y + b) :: map (fun x => a * x + b) l).
  rewrite !net_cons. change ((a * y + b) :: map (fun x => a * x + b) l) with (map (fun x => a * x + b) (y :: l)). rewrite IH. ring.
Qed.
Lemma net_index_affine a b l : 0 < a -> 0 < travelled l -> net_index (map (fun x => a * x + b) l) = net_index l.
Proof. intros H T. unfold net_index. rewrite travelled_affine, net_affine by exact H. field. lra. Qed.

Lemma travelled_app l c r : travelled (l ++ c :: r) = travelled (l ++ [c]) + travelled (c :: r).
Proof.
  induction l as [|a l IH]; [cbn [app]; cbn [travelled]; ring|]. destruct l as [|b l].
  - cbn [app]. rewrite !travelled_cons. cbn [travelled]. ring.
  - cbn [app] in IH |- *. rewrite !travelled_cons, IH. ring.
Qed.
Lemma net_app l c r : net_move (l ++ c :: r) = net_move (l ++ [c]) + net_move (c :: r).
Proof.
  induction l as [|a l IH]; [cbn [app]; unfold net_move; cbn; ring|]. destruct l as [|b l].
  - cbn [app]. rewrite !net_cons. unfold net_move at 2. cbn. ring.
  - cbn [app] in IH |- *. rewrite !net_cons, IH. ring.
Qed.
Lemma travelled_rev l : travelled (rev l) = travelled l.
Proof.
  induction l as [|a [|b l] IH]; [reflexivity|reflexivity|]. cbn [rev] in IH |- *. rewrite <- app_assoc. cbn [app].
  rewrite travelled_app. rewrite IH, travelled_cons, travelled_cons. cbn [travelled]. rewrite Rabs_minus_sym. ring.
Qed.
Lemma net_rev l : net_move (rev l) = - net_move l.
Proof.
  induction l as [|a [|b l] IH]; [unfold net_move; cbn; ring|unfold net_move; cbn; ring|]. cbn [rev] in IH |- *. rewrite <- app_assoc. cbn [app].
  rewrite net_app, IH, net_cons, net_cons. unfold net_move at 2. cbn. ring.
Qed.
Lemma net_index_rev l : net_index (rev l) = 100 - net_index l.
Proof. unfold net_index. rewrite travelled_rev, net_rev. unfold Rdiv. ring. Qed.
Lemma travelled_between l a b c r : between a b c -> travelled (l ++ a :: b :: c :: r) = travelled (l ++ a :: c :: r).
Proof.
  intros H. rewrite travelled_app, (travelled_app l a (c :: r)). rewrite !travelled_cons. f_equal.
  destruct H as [H|H]; [rewrite !Rabs_pos_eq by lra; ring|]. rewrite (Rabs_minus_sym b a), (Rabs_minus_sym c b), (Rabs_minus_sym c a), !Rabs_pos_eq by lra. ring.
Qed.
Lemma net_between l a b c r : net_move (l ++ a :: b :: c :: r) = net_move (l ++ a :: c :: r).
Proof. rewrite net_app, (net_app l a (c :: r)), !net_cons. ring. Qed.
Lemma net_index_joined l c r : 0 < travelled (l ++ [c]) -> 0 < travelled (c :: r) ->
  net_index (l ++ c :: r) =
  (travelled (l ++ [c]) * net_index (l ++ [c]) + travelled (c :: r) * net_index (c :: r)) / (travelled (l ++ [c]) + travelled (c :: r)).
Proof. intros H1 H2. unfold net_index. rewrite net_app, travelled_app. field. repeat split; lra. Qed.
