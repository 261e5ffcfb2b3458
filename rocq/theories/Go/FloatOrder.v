(** The order of float64 values through an integer key: comparisons of
    non-NaN floats are comparisons of keys. *)
From Coq Require Import ZArith Lia Bool.
From Flocq Require Import Core BinarySingleNaN.
From Verif Require Import Go.Outcome Go.Float64.
Open Scope Z_scope.

Definition key (x : f64) : Z :=
  match x with
  | B754_zero _ => 0
  | B754_nan => 0
  | B754_infinity s => cond_Zopp s (2 ^ 64)
  | B754_finite s m e _ => cond_Zopp s ((e + 1075) * 2 ^ 53 + Zpos m)
  end.

Lemma bounded_range m e :
  SpecFloat.bounded 53 1024 m e = true -> Zpos m < 2 ^ 53 /\ -1074 <= e <= 971.
Proof.
  intros H. split.
  - unfold SpecFloat.bounded in H. apply andb_prop in H as [H1 H2].
    unfold SpecFloat.canonical_mantissa in H1. apply Zeq_bool_eq in H1.
    apply Zle_bool_imp_le in H2.
    rewrite Digits.Zpos_digits2_pos in H1.
    unfold SpecFloat.fexp, SpecFloat.emin in H1.
    assert (Hd : Zdigits radix2 (Zpos m) <= 53) by lia.
    apply (Zpower_gt_Zdigits radix2 53 (Zpos m)) in Hd.
    rewrite Z.abs_eq in Hd by lia. exact Hd.
  - unfold SpecFloat.bounded in H. apply andb_prop in H as [H1 H2].
    unfold SpecFloat.canonical_mantissa in H1. apply Zeq_bool_eq in H1.
    apply Zle_bool_imp_le in H2.
    unfold SpecFloat.fexp, SpecFloat.emin in H1. lia.
Qed.

Lemma key_compare x y :
  is_nan x = false -> is_nan y = false ->
  Bcompare x y = Some (Z.compare (key x) (key y)).
Proof.
  intros Hx Hy.
  destruct x as [sx|sx| |sx mx ex Bx]; try discriminate;
  destruct y as [sy|sy| |sy my ey By]; try discriminate;
  unfold Bcompare, key; cbn [B2SF SpecFloat.SFcompare];
  try (destruct sx); try (destruct sy); cbn [cond_Zopp];
  try reflexivity;
  try (pose proof (bounded_range _ _ Bx)); try (pose proof (bounded_range _ _ By));
  try (f_equal; symmetry; (apply Z.compare_lt_iff || apply Z.compare_gt_iff); nia).
  - destruct (Z.compare_spec ex ey) as [E|E|E]; f_equal.
    + subst ey. change (Pos.compare_cont Eq mx my) with (Pos.compare mx my).
      change (Pos.compare mx my) with (Z.compare (Zpos mx) (Zpos my)).
      rewrite <- Z.compare_antisym.
      symmetry. destruct (Z.compare_spec (Z.pos my) (Z.pos mx));
        [apply Z.compare_eq_iff|apply Z.compare_lt_iff|apply Z.compare_gt_iff]; lia.
    + symmetry; apply Z.compare_gt_iff; nia.
    + symmetry; apply Z.compare_lt_iff; nia.
  - destruct (Z.compare_spec ex ey) as [E|E|E]; f_equal.
    + subst ey. change (Pos.compare_cont Eq mx my) with (Pos.compare mx my).
      change (Pos.compare mx my) with (Z.compare (Zpos mx) (Zpos my)).
      symmetry. destruct (Z.compare_spec (Z.pos mx) (Z.pos my));
        [apply Z.compare_eq_iff|apply Z.compare_lt_iff|apply Z.compare_gt_iff]; lia.
    + symmetry; apply Z.compare_lt_iff; nia.
    + symmetry; apply Z.compare_gt_iff; nia.
Qed.

Lemma f64_lt_key x y : is_nan x = false -> is_nan y = false -> f64_lt x y = (key x <? key y).
Proof.
  intros Hx Hy. pose proof (key_compare x y Hx Hy) as H.
  unfold f64_lt, Bltb, SpecFloat.SFltb. unfold Bcompare in H. rewrite H. unfold Z.ltb. now destruct (key x ?= key y).
Qed.
Lemma f64_le_key x y : is_nan x = false -> is_nan y = false -> f64_le x y = (key x <=? key y).
Proof.
  intros Hx Hy. pose proof (key_compare x y Hx Hy) as H.
  unfold f64_le, Bleb, SpecFloat.SFleb. unfold Bcompare in H. rewrite H. unfold Z.leb. now destruct (key x ?= key y).
Qed.
Lemma f64_eq_key x y : is_nan x = false -> is_nan y = false -> f64_eq x y = (key x =? key y).
Proof.
  intros Hx Hy. pose proof (key_compare x y Hx Hy) as H.
  unfold f64_eq, Beqb, SpecFloat.SFeqb. unfold Bcompare in H. rewrite H. rewrite Z.eqb_compare. now destruct (key x ?= key y).
Qed.

Lemma f64_lt_nan_l x y : is_nan x = true -> f64_lt x y = false.
Proof. destruct x; try discriminate; reflexivity. Qed.
Lemma f64_lt_nan_r x y : is_nan y = true -> f64_lt x y = false.
Proof. destruct y; try discriminate; destruct x; try destruct s; reflexivity. Qed.
Lemma f64_le_nan_l x y : is_nan x = true -> f64_le x y = false.
Proof. destruct x; try discriminate; reflexivity. Qed.
Lemma f64_le_nan_r x y : is_nan y = true -> f64_le x y = false.
Proof. destruct y; try discriminate; destruct x; try destruct s; reflexivity. Qed.
Lemma f64_eq_nan_l x y : is_nan x = true -> f64_eq x y = false.
Proof. destruct x; try discriminate; reflexivity. Qed.
Lemma f64_eq_nan_r x y : is_nan y = true -> f64_eq x y = false.
Proof. destruct y; try discriminate; destruct x; try destruct s; reflexivity. Qed.

(** A comparison that succeeds rules out NaN and orders the keys. *)
Lemma f64_lt_true x y : f64_lt x y = true ->
  is_nan x = false /\ is_nan y = false /\ key x < key y.
Proof.
  intros H. destruct (is_nan x) eqn:Hx; [rewrite f64_lt_nan_l in H by assumption; discriminate|].
  destruct (is_nan y) eqn:Hy; [rewrite f64_lt_nan_r in H by assumption; discriminate|].
  rewrite f64_lt_key in H by assumption. apply Z.ltb_lt in H. auto.
Qed.
Lemma f64_le_true x y : f64_le x y = true ->
  is_nan x = false /\ is_nan y = false /\ key x <= key y.
Proof.
  intros H. destruct (is_nan x) eqn:Hx; [rewrite f64_le_nan_l in H by assumption; discriminate|].
  destruct (is_nan y) eqn:Hy; [rewrite f64_le_nan_r in H by assumption; discriminate|].
  rewrite f64_le_key in H by assumption. apply Z.leb_le in H. auto.
Qed.
Lemma f64_eq_true x y : f64_eq x y = true ->
  is_nan x = false /\ is_nan y = false /\ key x = key y.
Proof.
  intros H. destruct (is_nan x) eqn:Hx; [rewrite f64_eq_nan_l in H by assumption; discriminate|].
  destruct (is_nan y) eqn:Hy; [rewrite f64_eq_nan_r in H by assumption; discriminate|].
  rewrite f64_eq_key in H by assumption. apply Z.eqb_eq in H. auto.
Qed.

Lemma f64_eq_refl x : is_nan x = false -> f64_eq x x = true.
Proof. intros H. rewrite f64_eq_key by assumption. apply Z.eqb_refl. Qed.

(** Equal keys: the same float up to the sign of zero. *)
Lemma key_inj x y : is_nan x = false -> is_nan y = false -> key x = key y ->
  x = y \/ (exists sx sy, x = B754_zero sx /\ y = B754_zero sy).
Proof.
  intros Hx Hy H.
  destruct x as [sx|sx| |sx mx ex Bx]; try discriminate;
  destruct y as [sy|sy| |sy my ey By]; try discriminate;
  unfold key in H;
  try (pose proof (bounded_range _ _ Bx)); try (pose proof (bounded_range _ _ By)).
  - right; eauto.
  - exfalso; destruct sy; cbn in H; lia.
  - exfalso; destruct sy; cbn [cond_Zopp] in H; nia.
  - exfalso; destruct sx; cbn in H; lia.
  - left. destruct sx, sy; cbn in H; try reflexivity; lia.
  - exfalso; destruct sx, sy; cbn [cond_Zopp] in H; nia.
  - exfalso; destruct sx; cbn [cond_Zopp] in H; nia.
  - exfalso; destruct sx, sy; cbn [cond_Zopp] in H; nia.
  - left. assert (sx = sy) by (destruct sx, sy; cbn [cond_Zopp] in H; try reflexivity; nia).
    subst sy. assert (ex = ey) by (destruct sx; cbn [cond_Zopp] in H; nia). subst ey.
    assert (mx = my) by (destruct sx; cbn [cond_Zopp] in H; lia). subst my.
    apply B2SF_inj. reflexivity.
Qed.
