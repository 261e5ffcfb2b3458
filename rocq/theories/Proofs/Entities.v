(** Trades, positions and order requests. *)
From Coq Require Import Reals Lra Lia.
From Flocq Require Import Core BinarySingleNaN.
From Verif Require Import Go.Outcome Go.Int64 Go.Float64 Go.FloatOrder Go.FloatReal Go.Num Model.Asset Model.Pair
  Model.Entities Spec.EntitySpec.
Open Scope string_scope.
Open Scope list_scope.

(** ** Struct equality *)
Lemma asset_eqb_spec a b : asset_eqb a b = true <-> a = b.
Proof.
  unfold asset_eqb. rewrite !andb_true_iff, !String.eqb_eq. destruct a, b; simpl. split; [intros [[-> ->] ->]; reflexivity|].
  intros [= -> -> ->]. auto.
Qed.
Lemma pair_eqb_spec a b : pair_eqb a b = true <-> a = b.
Proof.
  unfold pair_eqb. rewrite andb_true_iff, !asset_eqb_spec. destruct a, b; simpl. split; [intros [-> ->]; reflexivity|].
  intros [= -> ->]. auto.
Qed.
Lemma pair_eqb_false a b : pair_eqb a b = false <-> a <> b.
Proof. rewrite <- not_true_iff_false, pair_eqb_spec. reflexivity. Qed.

(** ** Modify, case by case *)
Section Generic.
Context {F : Type} {N : GoFloat F}.

Lemma modify_other_pair (p : position F) t : ps_pair p <> t_pair t -> modify p t = (p, Some pair_err).
Proof. intros H. unfold modify. apply pair_eqb_false in H. now rewrite H. Qed.
Lemma modify_increase (p : position F) t : ps_pair p = t_pair t -> increases (ps_type p) (t_action t) ->
  modify p t = (pos_add p t, None).
Proof.
  intros H. unfold modify. apply pair_eqb_spec in H. rewrite H. simpl negb. cbv iota.
  intros [[-> ->]|[-> ->]]; reflexivity.
Qed.
Lemma modify_reduce (p : position F) t : ps_pair p = t_pair t -> reduces (ps_type p) (t_action t) ->
  modify p t = (fst (pos_substract p t), None).
Proof.
  intros H. unfold modify. apply pair_eqb_spec in H. rewrite H. simpl negb. cbv iota.
  intros [[-> ->]|[-> ->]]; reflexivity.
Qed.
Lemma modify_unknown (p : position F) t : ps_pair p = t_pair t ->
  ~ increases (ps_type p) (t_action t) -> ~ reduces (ps_type p) (t_action t) -> modify p t = (p, None).
Proof.
  intros H H1 H2. unfold modify. apply pair_eqb_spec in H. rewrite H. simpl negb. cbv iota.
  unfold increases, reduces in *. unfold LongPosition, ShortPosition, BuyAction, SellAction.
  destruct (String.eqb_spec (ps_type p) "long"), (String.eqb_spec (t_action t) "buy"),
    (String.eqb_spec (t_action t) "sell"), (String.eqb_spec (ps_type p) "short"); simpl; try reflexivity; exfalso; tauto.
Qed.
Lemma inc_or_red ty a : increases ty a \/ reduces ty a \/ (~ increases ty a /\ ~ reduces ty a).
Proof.
  unfold increases, reduces.
  destruct (string_dec ty "long"), (string_dec a "buy"), (string_dec a "sell"), (string_dec ty "short"); tauto.
Qed.
Lemma inc_not_red ty a : increases ty a -> reduces ty a -> False.
Proof. intros [[-> ->]|[-> ->]] [[H1 H2]|[H1 H2]]; discriminate. Qed.
Definition pair_dec (a b : pair) : {a = b} + {a <> b}.
Proof. destruct (pair_eqb a b) eqn:E; [left|right]; [now apply pair_eqb_spec|now apply pair_eqb_false]. Defined.

Lemma modify_fixed (p : position F) t :
  let p' := fst (modify p t) in ps_pair p' = ps_pair p /\ ps_type p' = ps_type p /\ ps_id p' = ps_id p /\ ps_open_time p' = ps_open_time p.
Proof.
  cbv zeta. destruct (pair_dec (ps_pair p) (t_pair t)) as [E|E]; [|rewrite modify_other_pair by assumption; auto].
  destruct (inc_or_red (ps_type p) (t_action t)) as [H|[H|[H1 H2]]].
  - rewrite modify_increase by assumption. auto.
  - rewrite modify_reduce by assumption. unfold pos_substract. cbv zeta.
    destruct (_ && _); [auto|]. destruct (fle _ _); auto.
  - rewrite modify_unknown by assumption. auto.
Qed.
Lemma modify_closed (p : position F) t : ps_open p = false -> ps_open (fst (modify p t)) = false.
Proof.
  intros Hc. destruct (pair_dec (ps_pair p) (t_pair t)) as [E|E]; [|now rewrite modify_other_pair by assumption].
  destruct (inc_or_red (ps_type p) (t_action t)) as [H|[H|[H1 H2]]].
  - now rewrite modify_increase by assumption.
  - rewrite modify_reduce by assumption. unfold pos_substract. cbv zeta.
    destruct (_ && _); [assumption|]. destruct (fle _ _); [reflexivity|assumption].
  - now rewrite modify_unknown by assumption.
Qed.
Lemma modify_all_closed (p : position F) ts : ps_open p = false -> ps_open (modify_all p ts) = false.
Proof. revert p. induction ts as [|t ts IH]; intros p H; [assumption|]. simpl. apply IH. now apply modify_closed. Qed.
Lemma modify_all_snoc (p : position F) ts t : modify_all p (ts ++ [t]) = fst (modify (modify_all p ts) t).
Proof. revert p. induction ts as [|x ts IH]; intros p; [reflexivity|]. simpl. apply IH. Qed.

Lemma modify_error_iff (p : position F) t : snd (modify p t) <> None <-> ps_pair p <> t_pair t.
Proof.
  destruct (pair_dec (ps_pair p) (t_pair t)) as [E|E]; [|rewrite modify_other_pair by assumption; split; [auto|discriminate]].
  split; [|contradiction]. intros H. exfalso. apply H.
  destruct (inc_or_red (ps_type p) (t_action t)) as [K|[K|[H1 H2]]].
  - now rewrite modify_increase by assumption.
  - now rewrite modify_reduce by assumption.
  - now rewrite modify_unknown by assumption.
Qed.
End Generic.

(** ** Exact arithmetic *)
Section Exact.
Open Scope R_scope.

Definition invested (ty : string) (c : R) : R := if String.eqb ty "long" then - c else c.

Lemma Rlt_bool_iff x y : Rlt_bool x y = true <-> x < y.
Proof. split; [|apply Rlt_bool_true]. destruct (Rlt_bool_spec x y); [auto|discriminate]. Qed.
Lemma tiny_eq : (IZR (-1) * bpow radix10 (-4) = -0.0001)%R.
Proof. simpl. lra. Qed.

(** The three outcomes of a reducing trade. *)
Lemma substract_cases (p : position R) t :
  let d := ps_quantity p - t_quantity t in
  (d < -0.0001 -> pos_substract p t = (p, Some sub_err)) /\
  (-0.0001 <= d <= 0 ->
     let p' := fst (pos_substract p t) in
     ps_open p' = false /\ ps_quantity p' = ps_quantity p /\ ps_trades p' = (ps_trades p ++ [t_id t])%list /\
     ps_close_price p' = t_price t /\
     ps_profit p' = unrealized_profit p (t_price t)) /\
  (0 < d ->
     let p' := fst (pos_substract p t) in
     ps_open p' = ps_open p /\ ps_quantity p' = d /\ ps_trades p' = (ps_trades p ++ [t_id t])%list /\
     ps_profit p' = ps_profit p /\
     (ps_quantity p <> 0 -> ps_open_price p' * ps_quantity p' = ps_open_price p * ps_quantity p - t_price t * t_quantity t)).
Proof.
  cbv zeta. unfold pos_substract, f0. cbn [fsub flt fle fofZ fconst R_num].
  set (d := ps_quantity p - t_quantity t). pose proof tiny_eq as Te. cbn [fconst R_num] in Te.
  change (fconst (-1) (-4)) with (IZR (-1) * bpow radix10 (-4))%R. rewrite Te.
  split; [|split].
  - intros H. rewrite !Rlt_bool_true by lra. reflexivity.
  - intros H. rewrite (Rlt_bool_false d (-0.0001)) by lra. rewrite andb_false_r. rewrite Rle_bool_true by lra.
    cbn. repeat split; auto.
  - intros H. rewrite (Rlt_bool_false d (-0.0001)) by lra. rewrite andb_false_r. rewrite Rle_bool_false by lra.
    cbn. repeat split; auto. intros Hq. fold d. field. split; [assumption|lra].
Qed.

Lemma add_exact (p : position R) t : ps_quantity p + t_quantity t <> 0 ->
  let p' := pos_add p t in
  ps_open p' = ps_open p /\ ps_quantity p' = ps_quantity p + t_quantity t /\
  ps_trades p' = (ps_trades p ++ [t_id t])%list /\ ps_profit p' = ps_profit p /\
  ps_open_price p' * ps_quantity p' = ps_open_price p * ps_quantity p + t_price t * t_quantity t.
Proof. intros H. cbn. repeat split. now field. Qed.

Lemma average_between (a b q r : R) : 0 < q -> 0 < r -> a <= b ->
  a <= (a * q + b * r) / (q + r) <= b.
Proof.
  intros Hq Hr H. split.
  - apply Rmult_le_reg_r with (q + r); [lra|]. unfold Rdiv. rewrite Rmult_assoc, Rinv_l by lra. nra.
  - apply Rmult_le_reg_r with (q + r); [lra|]. unfold Rdiv. rewrite Rmult_assoc, Rinv_l by lra. nra.
Qed.

Lemma cash_increase ty (t : trade R) : increases ty (t_action t) -> invested ty (cash t) = t_price t * t_quantity t.
Proof. unfold invested, cash. intros [[-> ->]|[-> ->]]; simpl; lra. Qed.
Lemma cash_reduce ty (t : trade R) : reduces ty (t_action t) -> invested ty (cash t) = - (t_price t * t_quantity t).
Proof. unfold invested, cash. intros [[-> ->]|[-> ->]]; simpl; lra. Qed.
Lemma invested_plus ty a b : invested ty (a + b) = invested ty a + invested ty b.
Proof. unfold invested. destruct (String.eqb ty "long"); lra. Qed.
Lemma total_cash_app a b : total_cash (a ++ b) = total_cash a + total_cash b.
Proof. induction a as [|x a IH]; simpl; lra. Qed.

(** Every history that leaves the position open is an [open_history]. *)
Lemma history_open (p : position R) ts :
  0 < ps_quantity p -> List.Forall (fun t => 0 < t_quantity t) ts ->
  ps_open (modify_all p ts) = true ->
  exists kept,
    open_history (ps_pair p) (ps_type p) (ps_quantity p) ts kept (ps_quantity (modify_all p ts)) /\
    0 < ps_quantity (modify_all p ts) /\
    ps_open_price (modify_all p ts) * ps_quantity (modify_all p ts) =
      ps_open_price p * ps_quantity p + invested (ps_type p) (total_cash kept) /\
    ps_trades (modify_all p ts) = (ps_trades p ++ map t_id kept)%list /\
    ps_profit (modify_all p ts) = ps_profit p.
Proof.
  revert p. induction ts as [|t ts IH]; intros p Hq Hts Ho.
  - exists []. simpl. rewrite app_nil_r. unfold invested. repeat split; auto; [constructor|]. destruct (String.eqb _ _); lra.
  - apply List.Forall_cons_iff in Hts. destruct Hts as [Ht Hts]. simpl in Ho |- *.
    destruct (modify_fixed p t) as (Fp & Fty & _ & _).
    destruct (pair_dec (ps_pair p) (t_pair t)) as [E|E].
    + destruct (inc_or_red (ps_type p) (t_action t)) as [H|[H|[H1 H2]]].
      * rewrite modify_increase in * by assumption. cbn [fst] in *.
        destruct (add_exact p t ltac:(lra)) as (_ & Aq & At & Ap & Ai).
        destruct (IH (pos_add p t) ltac:(rewrite Aq; lra) Hts Ho) as (kept & K1 & K2 & K3 & K4 & K5).
        exists (t :: kept). rewrite K3, K4, K5, At, Ap, Ai, Fty, <- app_assoc. cbn [total_cash fold_right].
        fold (total_cash kept). rewrite invested_plus, (cash_increase _ _ H).
        repeat split; [|assumption|lra]. rewrite Fp, Fty, Aq in K1. now apply oh_grow.
      * rewrite modify_reduce in * by assumption. cbn [fst] in *.
        destruct (substract_cases p t) as (C1 & C2 & C3).
        set (d := ps_quantity p - t_quantity t) in *.
        destruct (Rlt_le_dec d (-0.0001)) as [L|L].
        -- rewrite (C1 L) in *. cbn [fst] in *.
           destruct (IH p Hq Hts Ho) as (kept & K1 & K2 & K3 & K4 & K5).
           exists kept. repeat split; auto. apply oh_skip; [|assumption]. right; right. split; [assumption|].
           unfold d in L. lra.
        -- destruct (Rle_lt_dec d 0) as [L'|L'].
           ++ exfalso. destruct (C2 (conj L L')) as (Cl & _). rewrite (modify_all_closed _ ts Cl) in Ho. discriminate.
           ++ destruct (C3 L') as (_ & Aq & At & Ap & Ai). specialize (Ai ltac:(lra)).
              destruct (IH _ ltac:(rewrite Aq; exact L') Hts Ho) as (kept & K1 & K2 & K3 & K4 & K5).
              exists (t :: kept). rewrite K3, K4, K5, At, Ap, Ai, Fty, <- app_assoc. cbn [total_cash fold_right].
              fold (total_cash kept). rewrite invested_plus, (cash_reduce _ _ H).
              repeat split; [|assumption|lra]. rewrite Fp, Fty, Aq in K1. apply oh_shrink; auto. unfold d in L'. lra.
      * rewrite modify_unknown in * by assumption. cbn [fst] in *.
        destruct (IH p Hq Hts Ho) as (kept & K1 & K2 & K3 & K4 & K5).
        exists kept. repeat split; auto. apply oh_skip; auto.
    + rewrite modify_other_pair in * by assumption. cbn [fst] in *.
      destruct (IH p Hq Hts Ho) as (kept & K1 & K2 & K3 & K4 & K5).
      exists kept. repeat split; auto. apply oh_skip; auto.
Qed.

Lemma profit_is_cash id (t0 : trade R) ts t :
  t_action t0 = "buy" \/ t_action t0 = "sell" -> 0 < t_quantity t0 ->
  List.Forall (fun t => 0 < t_quantity t) ts ->
  let p := modify_all (new_position id t0) ts in
  ps_open p = true -> t_pair t = t_pair t0 -> reduces (ps_type p) (t_action t) -> t_quantity t = ps_quantity p ->
  exists kept,
    open_history (t_pair t0) (ps_type p) (t_quantity t0) ts kept (t_quantity t) /\
    let p' := fst (modify p t) in
    ps_open p' = false /\ ps_trades p' = map t_id (t0 :: kept ++ [t]) /\
    ps_profit p' = total_cash (t0 :: kept ++ [t]).
Proof.
  intros Ha Hq Hts p Ho Hp Hr Eq.
  destruct (history_open (new_position id t0) ts Hq Hts Ho) as (kept & K1 & K2 & K3 & K4 & K5).
  fold p in K1, K2, K3, K4, K5.
  assert (Fx : forall q : position R, ps_pair (modify_all q ts) = ps_pair q /\ ps_type (modify_all q ts) = ps_type q).
  { clear. induction ts as [|x ts IH]; intros q; [auto|]. simpl. destruct (modify_fixed q x) as (A & B & _).
    destruct (IH (fst (modify q x))) as [C D]. split; congruence. }
  destruct (Fx (new_position id t0)) as [Fp Fty]. fold p in Fp, Fty.
  exists kept. cbv zeta. rewrite Eq, Fty. split; [exact K1|].
  rewrite modify_reduce by (try assumption; rewrite Fp; symmetry; exact Hp). cbn [fst].
  destruct (substract_cases p t) as (_ & C2 & _). destruct C2 as (C1 & C2 & C3 & C4 & C5); [lra|].
  split; [assumption|]. split. { rewrite C3, K4, <- app_assoc. cbn. now rewrite map_app. }
  rewrite C5. cbn [total_cash fold_right]. fold (total_cash (kept ++ [t])). rewrite total_cash_app.
  cbn [total_cash fold_right]. fold (total_cash kept).
  unfold unrealized_profit. cbn [fmul fsub R_num].
  assert (Hinv : invested (ps_type p) (cash t0) = t_price t0 * t_quantity t0).
  { apply cash_increase. rewrite Fty. cbn. unfold increases. destruct Ha as [-> | ->]; [left|right]; auto. }
  assert (Hcl := cash_reduce _ _ Hr). rewrite Eq in Hcl.
  cbn [ps_open_price ps_quantity new_position] in K3. rewrite <- Fty in K3.
  change LongPosition with "long". unfold invested in *. destruct (String.eqb (ps_type p) "long"); lra.
Qed.
End Exact.

(** ** float64 *)
Lemma below_tiny x : f64_lt x (f64_const (-1) (-4)) = true -> f64_lt x (i2f 0) = true.
Proof.
  intros H. apply f64_lt_true in H. destruct H as (H1 & H2 & H3). rewrite f64_lt_key; [|assumption|reflexivity].
  apply Z.ltb_lt. assert (key (f64_const (-1) (-4)) < key (i2f 0))%Z by (vm_compute; reflexivity). lia.
Qed.

(** The three outcomes of a reducing trade. *)
Lemma substract_f64 (p : position f64) t :
  let d := f64_sub (ps_quantity p) (t_quantity t) in
  (f64_lt d (f64_const (-1) (-4)) = true -> pos_substract p t = (p, Some sub_err)) /\
  (f64_lt d (f64_const (-1) (-4)) = false -> f64_le d (i2f 0) = true ->
     let p' := fst (pos_substract p t) in
     ps_open p' = false /\ ps_quantity p' = ps_quantity p /\ ps_trades p' = ps_trades p ++ [t_id t] /\
     ps_close_price p' = t_price t /\ ps_close_time p' = t_time t /\ ps_open_price p' = ps_open_price p /\
     ps_profit p' = unrealized_profit p (t_price t) /\ snd (pos_substract p t) = None) /\
  (f64_lt d (f64_const (-1) (-4)) = false -> f64_le d (i2f 0) = false ->
     let p' := fst (pos_substract p t) in
     ps_open p' = ps_open p /\ ps_quantity p' = d /\ ps_trades p' = ps_trades p ++ [t_id t] /\
     ps_profit p' = ps_profit p /\ snd (pos_substract p t) = None).
Proof.
  cbv zeta. unfold pos_substract, f0. cbn [fsub flt fle fofZ fconst f64_num].
  set (d := f64_sub (ps_quantity p) (t_quantity t)). split; [|split].
  - intros H. rewrite H, (below_tiny _ H). reflexivity.
  - intros H1 H2. rewrite H1, andb_false_r, H2. cbn. repeat split.
  - intros H1 H2. rewrite H1, andb_false_r, H2. cbn. repeat split.
Qed.

Lemma history_recorded (p : position f64) ts :
  exists kept, recorded (ps_pair p) (ps_type p) (ps_quantity p) ts kept /\
    ps_trades (modify_all p ts) = ps_trades p ++ map t_id kept.
Proof.
  revert p. induction ts as [|t ts IH]; intros p.
  - exists []. simpl. rewrite app_nil_r. split; [constructor|reflexivity].
  - simpl. destruct (modify_fixed p t) as (Fp & Fty & _).
    destruct (IH (fst (modify p t))) as (kept & K1 & K2). rewrite Fp, Fty in K1.
    destruct (pair_dec (ps_pair p) (t_pair t)) as [E|E].
    + destruct (inc_or_red (ps_type p) (t_action t)) as [H|[H|[H1 H2]]].
      * rewrite modify_increase in * by assumption. cbn [fst] in *.
        exists (t :: kept). rewrite K2. split; [|cbn; now rewrite <- app_assoc].
        apply rec_keep with (f64_add (ps_quantity p) (t_quantity t)); [apply te_grow; auto|exact K1].
      * rewrite modify_reduce in * by assumption. cbn [fst] in *.
        destruct (substract_f64 p t) as (C1 & C2 & C3).
        set (d := f64_sub (ps_quantity p) (t_quantity t)) in *.
        destruct (f64_lt d (f64_const (-1) (-4))) eqn:L.
        -- rewrite (C1 eq_refl) in *. cbn [fst] in *. exists kept. split; [|assumption].
           apply rec_skip; [|assumption]. right; right. auto.
        -- exists (t :: kept). destruct (f64_le d (i2f 0)) eqn:L'.
           ++ destruct (C2 eq_refl eq_refl) as (_ & A & B & _). rewrite K2, B, <- app_assoc. split; [|reflexivity].
              rewrite A in K1. eapply rec_keep; [|exact K1]. now apply te_close.
           ++ destruct (C3 eq_refl eq_refl) as (_ & A & B & _). rewrite K2, B, <- app_assoc. split; [|reflexivity].
              rewrite A in K1. eapply rec_keep; [|exact K1]. now apply te_shrink.
      * rewrite modify_unknown in * by assumption. exists kept. split; [|assumption]. apply rec_skip; [|assumption]. right; left; auto.
    + rewrite modify_other_pair in * by assumption. exists kept. split; [|assumption]. apply rec_skip; [|assumption]. left; auto.
Qed.
Lemma effect_exclusive pr ty q t q' : takes_effect pr ty q t q' -> no_effect pr ty q t -> False.
Proof.
  intros H [K|[[K1 K2]|[K1 K2]]]; destruct H; try contradiction; try congruence. eapply inc_not_red; eassumption.
Qed.
Lemma effect_unique pr ty q t q1 q2 : takes_effect pr ty q t q1 -> takes_effect pr ty q t q2 -> q1 = q2.
Proof.
  intros H1 H2. destruct H1; inversion H2; subst; try reflexivity; try congruence;
    exfalso; eapply inc_not_red; eassumption.
Qed.
Lemma recorded_unique pr ty q ts k1 k2 : recorded pr ty q ts k1 -> recorded pr ty q ts k2 -> k1 = k2.
Proof.
  intros H. revert k2. induction H as [q|q t ts kept Hn _ IH|q q' t ts kept Ht _ IH]; intros k2 H2; inversion H2; subst.
  - reflexivity.
  - now apply IH.
  - exfalso. eapply effect_exclusive; eassumption.
  - exfalso. eapply effect_exclusive; eassumption.
  - f_equal. apply IH. match goal with H : takes_effect _ _ _ _ ?q2, K : recorded _ _ ?q2 _ _ |- _ => rewrite (effect_unique _ _ _ _ _ _ Ht H) end. assumption.
Qed.

(** ** Positivity *)
Lemma positive_xr x : gt_zero x <-> is_nan x = false /\ (0 < xr x)%R.
Proof.
  unfold gt_zero. split.
  - intros H. pose proof (f64_lt_true _ _ H) as (H1 & H2 & _). split; [assumption|].
    rewrite f64_lt_xr in H by assumption. rewrite i2f_exact_xr in H by (unfold exact_int; lia).
    destruct (Rlt_bool_spec 0 (xr x)); [assumption|discriminate].
  - intros [H1 H2]. rewrite f64_lt_xr by (try assumption; reflexivity).
    rewrite i2f_exact_xr by (unfold exact_int; lia). now apply Rlt_bool_true.
Qed.
Lemma positive_cases x : gt_zero x -> x = B754_infinity false \/ (is_finite x = true /\ (0 < B2R x)%R).
Proof.
  intros H. apply positive_xr in H. destruct H as [H1 H2].
  destruct x as [s|s| |s m e B]; try discriminate; [cbn in H2; lra| |right; split; [reflexivity|exact H2]].
  destruct s; [|auto]. simpl in H2. pose proof big_pos. lra.
Qed.
Lemma rnd_B2R (x : f64) : rnd (B2R x) = B2R x.
Proof. apply round_generic; [apply valid_rnd_N|]. apply (generic_format_B2R 53 1024). Qed.
Lemma positive_add x y : gt_zero x -> gt_zero y -> gt_zero (f64_add x y).
Proof.
  intros Hx Hy. destruct (positive_cases x Hx) as [-> | [Fx Px]], (positive_cases y Hy) as [-> | [Fy Py]].
  - vm_compute. reflexivity.
  - destruct y; try discriminate; try reflexivity.
  - destruct x; try discriminate; try reflexivity.
  - apply positive_xr. destruct (add_xr x y Fx Fy) as [N ->]. split; [assumption|].
    apply Rlt_le_trans with (sat (B2R x)).
    + rewrite <- xr_finite by assumption. rewrite sat_id by (apply Rabs_le, xr_range). now rewrite xr_finite.
    + apply sat_mono. rewrite <- (rnd_B2R x) at 1. apply rnd_mono. lra.
Qed.
Lemma sub_not_nan x y : is_nan x = false -> is_finite y = true -> is_nan (f64_sub x y) = false.
Proof.
  intros Hx Hy. destruct (is_finite x) eqn:Fx; [now apply (sub_xr x y)|].
  destruct x; try discriminate. destruct y; try discriminate; reflexivity.
Qed.
Lemma history_positive (p : position f64) ts :
  gt_zero (ps_quantity p) ->
  List.Forall (fun t => gt_zero (t_quantity t) /\ is_finite (t_quantity t) = true) ts ->
  gt_zero (ps_quantity (modify_all p ts)).
Proof.
  revert p. induction ts as [|t ts IH]; intros p Hp Hts; [assumption|].
  apply List.Forall_cons_iff in Hts. destruct Hts as [[Ht Ft] Hts]. simpl. apply IH; [|assumption]. clear IH Hts.
  destruct (pair_dec (ps_pair p) (t_pair t)) as [E|E]; [|now rewrite modify_other_pair].
  destruct (inc_or_red (ps_type p) (t_action t)) as [H|[H|[H1 H2]]].
  - rewrite modify_increase by assumption. cbn. now apply positive_add.
  - rewrite modify_reduce by assumption. cbn [fst]. destruct (substract_f64 p t) as (C1 & C2 & C3).
    set (d := f64_sub (ps_quantity p) (t_quantity t)) in *.
    destruct (f64_lt d (f64_const (-1) (-4))) eqn:L; [rewrite C1 by reflexivity; exact Hp|].
    destruct (f64_le d (i2f 0)) eqn:L'.
    + destruct (C2 eq_refl eq_refl) as (_ & -> & _). exact Hp.
    + destruct (C3 eq_refl eq_refl) as (_ & -> & _).
      assert (is_nan d = false) as N by (apply sub_not_nan; [now apply positive_xr|assumption]).
      rewrite f64_le_xr in L' by (try assumption; reflexivity). rewrite i2f_exact_xr in L' by (unfold exact_int; lia).
      apply positive_xr. split; [assumption|]. destruct (Rle_bool_spec (xr d) 0); [discriminate|assumption].
  - now rewrite modify_unknown.
Qed.

(** ** Unrealised profit *)
Lemma sub_self x : is_finite x = true -> f64_sub x x = B754_zero false.
Proof.
  intros Hx. pose proof (Bminus_correct 53 1024 prec53 emax1024 mode_NE x x Hx Hx) as C.
  rewrite rnd_fexp in C. replace (B2R x - B2R x)%R with 0%R in C by lra. rewrite rnd_0 in C.
  rewrite Rabs_R0, Rlt_bool_true in C by apply bpow_gt_0. destruct C as (C1 & C2 & C3).
  rewrite Rcompare_Eq in C3 by reflexivity. change (Bminus mode_NE x x) with (f64_sub x x) in *.
  destruct (f64_sub x x) as [s|s| |s m e B]; try discriminate.
  - simpl in C3. destruct (Bsign x); simpl in C3; now rewrite C3.
  - exfalso. apply (f_equal Rabs) in C1. rewrite Rabs_R0 in C1. simpl in C1.
    rewrite <- F2R_Zabs in C1. assert (0 < F2R (Float radix2 (Z.abs (cond_Zopp s (Z.pos m))) e))%R.
    { apply F2R_gt_0. simpl. destruct s; simpl; lia. } lra.
Qed.

Lemma unrealized_at_open (p : position f64) :
  is_finite (ps_open_price p) = true -> is_finite (ps_quantity p) = true ->
  f64_eq (unrealized_profit p (ps_open_price p)) (i2f 0) = true.
Proof.
  intros Ho Hq. unfold unrealized_profit. cbn [fmul fsub f64_num]. rewrite sub_self by assumption.
  assert (f64_eq (f64_mul (B754_zero false) (ps_quantity p)) (i2f 0) = true) as E.
  { destruct (ps_quantity p); try discriminate; reflexivity. }
  destruct (String.eqb _ _); exact E.
Qed.
Lemma sat_opp r : sat (- r) = (- sat r)%R.
Proof. unfold sat. pose proof big_pos. unfold Rmax, Rmin. repeat destruct (Rle_dec _ _); lra. Qed.
Lemma neg_xr x : xr (f64_neg x) = (- xr x)%R.
Proof.
  destruct x as [s|s| |s m e B]; simpl; try lra; [destruct s; simpl; lra|].
  rewrite <- F2R_Zopp. now destruct s.
Qed.
(** The difference of prices, for long minus for short. *)
Lemma sub_opp x y : is_finite x = true -> is_finite y = true -> xr (f64_sub x y) = (- xr (f64_sub y x))%R.
Proof.
  intros Hx Hy. destruct (sub_xr x y Hx Hy) as [_ ->], (sub_xr y x Hy Hx) as [_ ->].
  replace (B2R x - B2R y)%R with (- (B2R y - B2R x))%R by lra. now rewrite rnd_opp, sat_opp.
Qed.
Lemma finite_xr_lt x : is_finite x = true -> (Rabs (xr x) < big)%R.
Proof. intros H. rewrite xr_finite by assumption. now apply B2R_lt_big. Qed.

Definition with_type (p : position f64) (ty : string) : position f64 :=
  mkPosition (ps_id p) ty (ps_pair p) (ps_open p) (ps_take_profit p) (ps_stop_loss p)
    (ps_open_price p) (ps_close_price p) (ps_quantity p) (ps_profit p) (ps_open_time p) (ps_close_time p)
    (ps_trades p) (ps_execution_id p) (ps_data p).

Lemma unrealized_opposite (p : position f64) c :
  is_finite (ps_open_price p) = true -> is_finite (ps_quantity p) = true -> is_finite c = true ->
  is_finite (f64_sub c (ps_open_price p)) = true ->
  f64_eq (unrealized_profit (with_type p "long") c) (f64_neg (unrealized_profit (with_type p "short") c)) = true.
Proof.
  intros Ho Hq Hc Hd. unfold unrealized_profit, with_type. cbn [ps_type ps_open_price ps_quantity fmul fsub f64_num].
  change (String.eqb "long" LongPosition) with true. change (String.eqb "short" LongPosition) with false. cbv iota.
  assert (is_finite (f64_sub (ps_open_price p) c) = true) as Hd'.
  { apply xr_lt_finite; [now apply sub_xr|]. rewrite sub_opp, Rabs_Ropp by assumption. now apply finite_xr_lt. }
  destruct (mul_xr _ _ Hd Hq) as [N1 E1], (mul_xr _ _ Hd' Hq) as [N2 E2].
  rewrite f64_eq_xr; [|assumption|destruct (f64_mul (f64_sub (ps_open_price p) c) (ps_quantity p)); try discriminate; reflexivity].
  apply Req_bool_true. rewrite neg_xr, E1, E2, <- sat_opp, <- rnd_opp. do 2 f_equal.
  rewrite <- (xr_finite _ Hd), <- (xr_finite _ Hd'), (sub_opp c) by assumption. lra.
Qed.
Lemma unrealized_mono (p : position f64) c1 c2 :
  is_finite (ps_open_price p) = true -> is_finite (ps_quantity p) = true -> (0 <= B2R (ps_quantity p))%R ->
  is_finite c1 = true -> is_finite c2 = true ->
  is_finite (f64_sub c1 (ps_open_price p)) = true -> is_finite (f64_sub c2 (ps_open_price p)) = true ->
  f64_le c1 c2 = true ->
  (ps_type p = "long" -> f64_le (unrealized_profit p c1) (unrealized_profit p c2) = true) /\
  (ps_type p = "short" -> f64_le (unrealized_profit p c2) (unrealized_profit p c1) = true).
Proof.
  intros Ho Hq Pq H1 H2 D1 D2 L.
  rewrite f64_le_xr in L by (now apply finite_not_nan). rewrite !xr_finite in L by assumption.
  assert (B2R c1 <= B2R c2)%R as L' by (destruct (Rle_bool_spec (B2R c1) (B2R c2)); [assumption|discriminate]). clear L.
  assert (forall a b : f64, is_finite a = true -> is_finite b = true -> (B2R a <= B2R b)%R ->
          f64_le (f64_mul a (ps_quantity p)) (f64_mul b (ps_quantity p)) = true) as M.
  { intros a b Fa Fb Lab. destruct (mul_xr _ _ Fa Hq) as [N1 E1], (mul_xr _ _ Fb Hq) as [N2 E2].
    rewrite f64_le_xr by assumption. apply Rle_bool_true. rewrite E1, E2. apply sat_mono, rnd_mono. nra. }
  assert (xr (f64_sub c1 (ps_open_price p)) <= xr (f64_sub c2 (ps_open_price p)))%R as Ld.
  { destruct (sub_xr c1 _ H1 Ho) as [_ ->], (sub_xr c2 _ H2 Ho) as [_ ->]. apply sat_mono, rnd_mono. lra. }
  split; intros Ty; unfold unrealized_profit; rewrite Ty; cbn [fmul fsub f64_num].
  - change (String.eqb "long" LongPosition) with true. cbv iota. apply M; [assumption|assumption|].
    now rewrite <- !xr_finite by assumption.
  - change (String.eqb "short" LongPosition) with false. cbv iota.
    assert (forall c, is_finite c = true -> is_finite (f64_sub c (ps_open_price p)) = true ->
      is_finite (f64_sub (ps_open_price p) c) = true) as Hf.
    { intros c Fc Fd. apply xr_lt_finite; [now apply sub_xr|]. rewrite sub_opp, Rabs_Ropp by assumption. now apply finite_xr_lt. }
    pose proof (Hf _ H1 D1) as F1. pose proof (Hf _ H2 D2) as F2. apply M; [assumption|assumption|].
    rewrite <- !xr_finite by assumption. rewrite (sub_opp _ c1), (sub_opp _ c2) by assumption. lra.
Qed.
