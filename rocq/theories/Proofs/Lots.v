(** Positions in whole lots (for C126). *)
From Coq Require Import Reals Lra Lia ZArith List.
From Flocq Require Import Core BinarySingleNaN.
From Verif Require Import Go.Outcome Go.Float64 Go.FloatReal Go.Num Model.Asset Model.Pair Model.Entities
  Spec.EntitySpec Spec.FrameSpec Spec.TickSpec Spec.LotSpec Proofs.Entities Proofs.Frame Proofs.Ticks.
Import ListNotations.
Open Scope string_scope.
Open Scope list_scope.
Open Scope Z_scope.
Local Notation length := List.length.

Lemma ticks_le e x y a b : ticks e x a -> ticks e y b -> f64_le x y = (a <=? b).
Proof.
  intros (F1 & E1) (F2 & E2). rewrite f64_le_xr, !xr_finite, E1, E2 by (try apply finite_not_nan; assumption).
  pose proof (bpow_gt_0 radix2 e). destruct (Z.leb_spec a b) as [L|L].
  - apply Rle_bool_true. apply IZR_le in L. nra.
  - apply Rle_bool_false. apply IZR_lt in L. nra.
Qed.
Lemma literal_finite : is_finite (f64_const (-1) (-4)) = true.
Proof. vm_compute. reflexivity. Qed.
Lemma ticks_literal e m x z : tolerance e m -> ticks e x z -> f64_lt x (f64_const (-1) (-4)) = (z <? - m).
Proof.
  intros (T1 & T2) (F & E). rewrite f64_lt_xr, !xr_finite, E by (try apply finite_not_nan; auto using literal_finite).
  pose proof (bpow_gt_0 radix2 e) as P. destruct (Z.ltb_spec z (- m)) as [L|L].
  - apply Rlt_bool_true. assert (z <= - (m + 1)) as L' by lia. apply IZR_le in L'. rewrite opp_IZR in L'. nra.
  - apply Rlt_bool_false. apply IZR_le in L. rewrite opp_IZR in L. nra.
Qed.

(** The position [p] is that of the books. *)
Definition kept_by (e : Z) (p : position f64) (b : books) : Prop :=
  ticks e (ps_quantity p) (size b) /\ ps_open p = is_open b /\ ps_trades p = listed b.
Lemma lot_step e m p b t k : tick e -> 0 <= m -> tolerance e m -> kept_by e p b -> ticks e (t_quantity t) k -> Z.abs (size b) + Z.abs k <= 2 ^ 53 ->
  exists b', dealt (ps_pair p) (ps_type p) m b t k b' /\ kept_by e (fst (modify p t)) b' /\
    same_identity p (fst (modify p t)) /\ Z.abs (size b') <= Z.abs (size b) + Z.abs k.
Proof.
  intros He Hm Tol (Q & O & L) Hk B.
  assert (ticks e (rest p t) (size b - k)) as R by (apply ticks_sub; auto; lia).
  pose proof (ticks_literal e m _ _ Tol R) as Lt. pose proof (ticks_le e _ _ _ _ R (ticks_zero e)) as Le.
  destruct (cases p t) as [I|[G|[S|C]]].
  - exists b. rewrite (step_idle p t I). split; [|split; [repeat split; auto; apply Q|split; [repeat split|lia]]].
    apply dealt_refused. destruct I as [I|[(I1 & I2)|I]]; [left; exact I|right; right|right; left; exact I].
    split; [exact I1|]. rewrite Lt in I2. apply Z.ltb_lt in I2. lia.
  - exists (Books (size b + k) (is_open b) (listed b ++ [t_id t])). rewrite (step_grows p t G). destruct G as (G1 & G2).
    split; [now apply dealt_more|]. split; [|split; [repeat split|cbn [size]; lia]].
    split; [|split; [exact O|cbn; now rewrite L]]. cbn. apply ticks_add; auto. lia.
  - exists (Books (size b - k) (is_open b) (listed b ++ [t_id t])). destruct (step_shrinks p t S) as (S1 & (S2 & _) & S3 & S4 & _).
    destruct S as (G1 & G2 & G3 & G4). rewrite Le in G4. apply Z.leb_gt in G4.
    split; [apply dealt_less; auto; lia|]. split; [|split; [exact S1|cbn [size]; lia]].
    split; [rewrite S4; exact R|]. split; [rewrite S2; exact O|]. unfold records in S3. rewrite S3, L. reflexivity.
  - exists (Books (size b) false (listed b ++ [t_id t])). destruct (step_closes p t C) as (S1 & (S2 & _) & S3 & S4 & _).
    destruct C as (G1 & G2 & G3 & G4). rewrite Lt in G3. rewrite Le in G4. apply Z.leb_le in G4. apply Z.ltb_ge in G3.
    split; [apply dealt_out; auto; lia|]. split; [|split; [exact S1|cbn [size]; lia]].
    split; [rewrite S2; exact Q|]. split; [exact S4|]. unfold records in S3. rewrite S3, L. reflexivity.
Qed.
Lemma lot_history e m : tick e -> 0 <= m -> tolerance e m -> forall ts ks p b, kept_by e p b -> Forall2 (fun t k => ticks e (t_quantity t) k) ts ks ->
  Z.abs (size b) + weight ks <= 2 ^ 53 ->
  exists b', dealt_all (ps_pair p) (ps_type p) m b ts ks b' /\ kept_by e (modify_all p ts) b'.
Proof.
  intros He Hm Tol ts ks p b K H. revert p b K. induction H as [|t k ts ks Ht H IH]; intros p b K B.
  - exists b. split; [constructor|exact K].
  - rewrite weight_cons in B. pose proof (weight_pos ks).
    destruct (lot_step e m p b t k He Hm Tol K Ht ltac:(lia)) as (b1 & D & K1 & Id & B1).
    destruct (IH _ _ K1 ltac:(lia)) as (b2 & D2 & K2). destruct Id as (_ & Ty & Pr & _). rewrite Ty, Pr in D2.
    exists b2. split; [econstructor; [exact D|exact D2]|exact K2].
Qed.
Lemma not_both ty a : increases ty a -> reduces ty a -> False.
Proof. intros [(-> & ->)|(-> & ->)] [(A & B)|(A & B)]; discriminate. Qed.
Lemma dealt_once pr ty m b t k b1 b2 : 0 <= m -> dealt pr ty m b t k b1 -> dealt pr ty m b t k b2 -> b1 = b2.
Proof.
  intros Hm [H|H1 H2|H1 H2 H3|H1 H2 H3] [K|K1 K2|K1 K2 K3|K1 K2 K3]; try reflexivity; try lia;
    try (exfalso; now apply (not_both ty (t_action t))); exfalso.
  - destruct H as [H|[(H & _)|(H & _)]]; [contradiction|contradiction|now apply (not_both ty (t_action t))].
  - destruct H as [H|[(_ & H)|(_ & H)]]; [contradiction|contradiction|lia].
  - destruct H as [H|[(_ & H)|(_ & H)]]; [contradiction|contradiction|lia].
  - destruct K as [K|[(K & _)|(K & _)]]; [contradiction|contradiction|now apply (not_both ty (t_action t))].
  - destruct K as [K|[(_ & K)|(_ & K)]]; [contradiction|contradiction|lia].
  - destruct K as [K|[(_ & K)|(_ & K)]]; [contradiction|contradiction|lia].
Qed.
Lemma dealt_all_once pr ty m : 0 <= m -> forall b ts ks b1 b2, dealt_all pr ty m b ts ks b1 -> dealt_all pr ty m b ts ks b2 -> b1 = b2.
Proof.
  intros Hm b ts ks b1 b2 H. revert b2. induction H as [b|b t k b' ts ks b'' D H IH]; intros b2 K; inversion K; subst; [reflexivity|].
  match goal with Q : dealt _ _ _ b t k ?x |- _ => pose proof (dealt_once _ _ _ _ _ _ _ _ Hm D Q); subst x end. now apply IH.
Qed.
(** A lot of at least 2^-13 is more than 0.0001. *)
Lemma eighth : ticks (-13) (f64_div (i2f 1) (i2f 8192)) 1.
Proof.
  assert (exact_int 1) as X by (unfold exact_int; lia). assert (exact_int 8192) as X4 by (unfold exact_int; lia).
  apply (tick_op _ _ (-13) 1 (div_xr _ _ (i2f_finite 1 X) (i2f_finite 8192 X4) ltac:(rewrite i2f_B2R by exact X4; lra)) ltac:(unfold tick; lia) ltac:(lia)).
  rewrite !i2f_B2R by assumption. change (bpow radix2 (-13)) with (/ 8192)%R. lra.
Qed.
Lemma literal_range : (0 <= - B2R (f64_const (-1) (-4)) < bpow radix2 (-13))%R.
Proof.
  split.
  - assert (f64_lt (i2f 0) (f64_const (-1) (-4)) = false) as H by (vm_compute; reflexivity).
    rewrite f64_lt_xr, !xr_finite in H by (try reflexivity; try apply literal_finite; apply finite_not_nan; apply literal_finite).
    rewrite i2f_B2R in H by (unfold exact_int; lia). destruct (Rlt_bool_spec 0 (B2R (f64_const (-1) (-4)))); [discriminate|lra].
  - assert (f64_lt (f64_sub (i2f 0) (f64_div (i2f 1) (i2f 8192))) (f64_const (-1) (-4)) = true) as H by (vm_compute; reflexivity).
    pose proof (ticks_sub (-13) _ _ _ _ ltac:(unfold tick; lia) (ticks_zero (-13)) eighth ltac:(lia)) as (F & E).
    rewrite f64_lt_xr, !xr_finite in H by (try exact F; try apply literal_finite; apply finite_not_nan; try exact F; apply literal_finite).
    rewrite E in H. match type of H with Rlt_bool ?a ?b = true => destruct (Rlt_bool_spec a b) as [K|K]; [|discriminate] end.
    change (IZR (0 - 1)) with (-1)%R in K. lra.
Qed.
Lemma large_lots e : -13 <= e -> tolerance e 0.
Proof.
  intros He. pose proof literal_range as (A & B). split; [lra|]. change (IZR (0 + 1)) with 1%R.
  pose proof (bpow_le radix2 (-13) e He). lra.
Qed.
(** Histories that never run empty on the way. *)
Lemma signed_more ty t k : increases ty (t_action t) -> signed ty t k = k.
Proof. unfold signed. intros [(-> & ->)|(-> & ->)]; reflexivity. Qed.
Lemma signed_less ty t k : reduces ty (t_action t) -> signed ty t k = - k.
Proof. unfold signed. intros [(-> & ->)|(-> & ->)]; reflexivity. Qed.
Lemma books_net pr ty : forall ts ks b b', dealt_all pr ty 0 b ts ks b' -> Forall (fun t => t_pair t = pr /\ (increases ty (t_action t) \/ reduces ty (t_action t))) ts ->
  Forall (fun k => 0 < k) ks -> 0 < size b ->
  (forall n, (n < length ts)%nat -> 0 < size b + net ty (firstn n ts) (firstn n ks)) -> 0 <= size b + net ty ts ks -> is_open b = true ->
  listed b' = listed b ++ map t_id ts /\ is_open b' = (0 <? size b + net ty ts ks) /\
  (is_open b' = true -> size b' = size b + net ty ts ks).
Proof.
  intros ts ks b b' H. induction H as [b|b t k b1 ts ks b' D H IH]; intros F Kp Sp P N O.
  - cbn. rewrite app_nil_r, Z.add_0_r. repeat split; auto. rewrite O. symmetry. now apply Z.ltb_lt.
  - apply Forall_cons_iff in F. destruct F as ((E & Dir) & F). apply Forall_cons_iff in Kp. destruct Kp as (K0 & Kp). cbn [net] in N |- *.
    assert (size b1 = size b + signed ty t k /\ 0 < size b1 /\ is_open b1 = true /\ listed b1 = listed b ++ [t_id t] \/
            ts = [] /\ size b + signed ty t k = 0 /\ is_open b1 = false /\ listed b1 = listed b ++ [t_id t]) as [(Sz & Sp1 & O1 & L1)|(-> & Sz & O1 & L1)].
    { assert (ts = [] \/ 0 < size b + signed ty t k) as Rest.
      { destruct ts as [|t2 ts]; [now left|right]. pose proof (P 1%nat ltac:(cbn; lia)) as P1. cbn [firstn net] in P1. lia. }
      assert (0 <= size b + signed ty t k) as Nn.
      { destruct Rest as [->|R]; [|lia]. destruct ks; cbn [net] in N; lia. }
      destruct Dir as [Up|Down].
      - rewrite (signed_more _ _ _ Up) in *. destruct D as [K|K1 K2|K1 K2 K3|K1 K2 K3]; try (exfalso; now apply (not_both ty (t_action t))).
        + exfalso. destruct K as [K|[(K & _)|(K & _)]]; [contradiction|contradiction|now apply (not_both ty (t_action t))].
        + left. cbn. repeat split; auto. lia.
      - rewrite (signed_less _ _ _ Down) in *. destruct D as [K|K1 K2|K1 K2 K3|K1 K2 K3]; try (exfalso; now apply (not_both ty (t_action t))).
        + exfalso. destruct K as [K|[(_ & K)|(_ & K)]]; [contradiction|contradiction|lia].
        + left. cbn. repeat split; auto; lia.
        + right. cbn. destruct Rest as [->|R]; [|lia]. repeat split; auto. lia. }
    + destruct IH as (I1 & I2 & I3); [exact F|exact Kp|exact Sp1| |lia|exact O1|].
      * intros n Hn. pose proof (P (S n) ltac:(cbn; lia)) as Pn. cbn [firstn net] in Pn. lia.
      * rewrite Sz in I2, I3. rewrite I1, L1, <- app_assoc. split; [reflexivity|].
        replace (size b + signed ty t k + net ty ts ks) with (size b + (signed ty t k + net ty ts ks)) in * by lia.
        split; [exact I2|exact I3].
    + inversion H; subst. cbn. rewrite L1, O1. rewrite Z.add_0_r. replace (0 <? size b + signed ty t k) with false by (symmetry; apply Z.ltb_ge; lia).
      repeat split; auto. discriminate.
Qed.
