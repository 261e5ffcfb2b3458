(** C111: what Modify writes. *)
From Coq Require Import Reals Lia.
From Verif Require Import Go.Outcome Go.Float64 Go.Num Model.Asset Model.Pair Model.Entities Spec.EntitySpec Spec.FrameSpec
  Proofs.Entities.
Open Scope string_scope.
Open Scope list_scope.

Lemma inc_not_red ty a : increases ty a -> reduces ty a -> False.
Proof. intros [[-> ->]|[-> ->]] [[? ?]|[? ?]]; discriminate. Qed.

Lemma step_idle (p : position f64) t : idle p t -> fst (modify p t) = p.
Proof.
  intros H. destruct (pair_dec (ps_pair p) (t_pair t)) as [E|E]; [|now rewrite modify_other_pair by assumption].
  destruct H as [H|[[H1 H2]|[H1 H2]]]; [now rewrite E in H| |now rewrite modify_unknown by assumption].
  rewrite modify_reduce by assumption. unfold pos_substract. cbv zeta.
  change (fsub (ps_quantity p) (t_quantity t)) with (rest p t). 
  change (flt (rest p t) f0) with (f64_lt (rest p t) (i2f 0)).
  change (flt (rest p t) (fconst (-1) (-4))) with (f64_lt (rest p t) (f64_const (-1) (-4))).
  now rewrite H2, (below_tiny _ H2).
Qed.

Lemma step_grows (p : position f64) t : grows p t -> fst (modify p t) = pos_add p t.
Proof. intros [E H]. now rewrite modify_increase by auto. Qed.

Lemma step_closes (p : position f64) t : closes p t -> let p' := fst (modify p t) in
  same_identity p p' /\ same_holding p p' /\ records p t p' /\
  ps_open p' = false /\ ps_close_price p' = t_price t /\ ps_close_time p' = t_time t /\
  ps_profit p' = (if String.eqb (ps_type p) "long" then f64_mul (f64_sub (t_price t) (ps_open_price p)) (ps_quantity p)
                  else f64_mul (f64_sub (ps_open_price p) (t_price t)) (ps_quantity p)).
Proof.
  intros (E & H & H1 & H2). cbv zeta. rewrite modify_reduce by auto. unfold pos_substract. cbv zeta.
  change (fsub (ps_quantity p) (t_quantity t)) with (rest p t).
  change (flt (rest p t) (fconst (-1) (-4))) with (f64_lt (rest p t) (f64_const (-1) (-4))).
  change (fle (rest p t) f0) with (f64_le (rest p t) (i2f 0)). rewrite H1, H2, andb_false_r.
  repeat split.
Qed.

Lemma step_shrinks (p : position f64) t : shrinks p t -> let p' := fst (modify p t) in
  same_identity p p' /\ same_closing p p' /\ records p t p' /\ ps_quantity p' = rest p t /\
  ps_open_price p' = f64_div (f64_mul (f64_sub (ps_open_price p)
    (f64_mul (t_price t) (f64_div (t_quantity t) (ps_quantity p)))) (ps_quantity p)) (rest p t).
Proof.
  intros (E & H & H1 & H2). cbv zeta. rewrite modify_reduce by auto. unfold pos_substract. cbv zeta.
  change (fsub (ps_quantity p) (t_quantity t)) with (rest p t).
  change (flt (rest p t) (fconst (-1) (-4))) with (f64_lt (rest p t) (f64_const (-1) (-4))).
  change (fle (rest p t) f0) with (f64_le (rest p t) (i2f 0)). rewrite H1, H2, andb_false_r.
  repeat split.
Qed.

Lemma cases (p : position f64) t : idle p t \/ grows p t \/ shrinks p t \/ closes p t.
Proof.
  unfold idle, grows, shrinks, closes, too_large.
  destruct (pair_dec (t_pair t) (ps_pair p)) as [E|E]; [|auto].
  destruct (inc_or_red (ps_type p) (t_action t)) as [H|[H|[H1 H2]]]; [auto| |auto].
  destruct (f64_lt (rest p t) (f64_const (-1) (-4))) eqn:L; [auto|].
  destruct (f64_le (rest p t) (i2f 0)) eqn:M; auto 8.
Qed.

Lemma cases_exclusive (p : position f64) t :
  (idle p t -> ~ grows p t /\ ~ shrinks p t /\ ~ closes p t) /\
  (grows p t -> ~ shrinks p t /\ ~ closes p t) /\ (shrinks p t -> ~ closes p t).
Proof.
  unfold idle, grows, shrinks, closes, too_large. split; [|split].
  - intros [H|[[H L]|[H1 H2]]]; repeat split.
    1-3: now intros [E _].
    + intros [_ I]. now apply (inc_not_red _ _ I).
    + intros (_ & _ & A & _). congruence.
    + intros (_ & _ & A & _). congruence.
    + intros [_ I]. now apply H1.
    + intros (_ & A & _). now apply H2.
    + intros (_ & A & _). now apply H2.
  - intros [_ I]. split; intros (_ & A & _); now apply (inc_not_red _ _ I).
  - intros (_ & _ & _ & A) (_ & _ & _ & B). congruence.
Qed.

Lemma identity_refl p : same_identity p p. Proof. repeat split. Qed.
Lemma closing_refl p : same_closing p p. Proof. repeat split. Qed.
Lemma identity_trans p q r : same_identity p q -> same_identity q r -> same_identity p r.
Proof. unfold same_identity. intuition congruence. Qed.
Lemma closing_trans p q r : same_closing p q -> same_closing q r -> same_closing p r.
Proof. unfold same_closing. intuition congruence. Qed.

Lemma step_identity (p : position f64) t : same_identity p (fst (modify p t)).
Proof.
  destruct (cases p t) as [H|[H|[H|H]]].
  - rewrite step_idle by assumption. apply identity_refl.
  - rewrite step_grows by assumption. repeat split.
  - apply (step_shrinks p t H).
  - apply (step_closes p t H).
Qed.
Lemma step_closing (p : position f64) t : ~ closes p t -> same_closing p (fst (modify p t)).
Proof.
  intros N. destruct (cases p t) as [H|[H|[H|H]]].
  - rewrite step_idle by assumption. apply closing_refl.
  - rewrite step_grows by assumption. repeat split.
  - apply (step_shrinks p t H).
  - contradiction.
Qed.
Lemma closes_dec p t : closes p t \/ ~ closes p t.
Proof.
  destruct (cases_exclusive p t) as (A & B & C).
  destruct (cases p t) as [H|[H|[H|H]]]; [right; apply A|right; apply B|right; apply C|left]; assumption.
Qed.

Lemma history_identity ts : forall p : position f64, same_identity p (modify_all p ts).
Proof.
  induction ts as [|t ts IH]; intros p; [apply identity_refl|].
  cbn [modify_all]. apply (identity_trans _ _ _ (step_identity p t)). apply IH.
Qed.

Lemma history_closing ts : forall p : position f64,
  (same_closing p (modify_all p ts) /\ forall ts1 t ts2, ts = ts1 ++ t :: ts2 -> ~ closes (modify_all p ts1) t) \/
  exists ts1 t ts2, ts = ts1 ++ t :: ts2 /\ closes (modify_all p ts1) t /\
    (forall a u b, ts2 = a ++ u :: b -> ~ closes (modify_all p (ts1 ++ t :: a)) u) /\
    same_closing (modify_all p (ts1 ++ [t])) (modify_all p ts).
Proof.
  induction ts as [|t ts IH]; intros p.
  - left. split; [apply closing_refl|]. intros [|? ?] ? ? E; discriminate.
  - destruct (IH (fst (modify p t))) as [[H1 H2]|(ts1 & u & ts2 & E & H1 & H2 & H3)].
    + destruct (closes_dec p t) as [C|C].
      * right. exists [], t, ts. cbn [app modify_all]. split; [reflexivity|]. split; [exact C|].
        split; [|exact H1]. intros a u b E. exact (H2 a u b E).
      * left. split; [exact (closing_trans _ _ _ (step_closing p t C) H1)|].
        intros [|x ts1] u ts2 E; injection E as -> E; [exact C|]. exact (H2 ts1 u ts2 E).
    + right. exists (t :: ts1), u, ts2. rewrite E. cbn [app modify_all]. rewrite E in H3. auto.
Qed.

Lemma history_open p ts : ps_open (modify_all p ts) = true -> same_closing p (modify_all p ts).
Proof.
  intros H. destruct (history_closing ts p) as [[A _]|(ts1 & t & ts2 & E & C & _ & S)]; [exact A|].
  exfalso. destruct S as (S & _). rewrite S in H. rewrite modify_all_snoc in H.
  destruct (step_closes _ _ C) as (_ & _ & _ & O & _). congruence.
Qed.

Lemma step_reads (p : position f64) t u : same_for_position t u -> modify p u = modify p t.
Proof.
  intros (H1 & H2 & H3 & H4 & H5 & H6). unfold modify, pos_add, pos_substract.
  now rewrite H1, H2, H3, H4, H5, H6.
Qed.

Lemma history_reads ts us : List.Forall2 same_for_position ts us -> forall p : position f64, modify_all p us = modify_all p ts.
Proof.
  induction 1 as [|t u ts us H _ IH]; intros p; [reflexivity|]. cbn [modify_all]. rewrite (step_reads p t u H). apply IH.
Qed.

Lemma new_position_reads id t u : same_for_position t u -> new_position id u = new_position (F := f64) id t.
Proof.
  intros (H1 & H2 & H3 & H4 & H5 & H6). unfold new_position. now rewrite H1, H2, H3, H4, H5, H6.
Qed.
