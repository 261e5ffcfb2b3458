(** Storing and restoring between the steps of a run changes nothing (C100). *)
From Coq Require Import ZArith Lia List String Bool.
From Flocq Require Import Core BinarySingleNaN.
From Verif Require Import Go.Outcome Go.Slice Go.Float64 Go.Num Go.Json Go.JsonInto Model.Pair Model.OrderBook Model.Entities Model.Stored
  Spec.JsonSpec Spec.StoredSpec Spec.SymmetrySpec Spec.IntoSpec Spec.PersistSpec Proofs.JsonValue Proofs.Stored Proofs.Into Proofs.OrderBook Proofs.OrderBookHeap Proofs.Symmetry.
Import ListNotations.
Open Scope list_scope.
Open Scope Z_scope.

(** ** Books *)
Lemma limit_meta (ob ob' : book f64) : limit ob = Ret ob' -> b_time ob' = b_time ob /\ max_depth ob' = max_depth ob.
Proof.
  unfold limit. destruct (limit_side (asks ob) _) as [a|n]; cbn [bind]; [|intros E; discriminate E].
  destruct (limit_side (bids ob) _) as [b|n]; cbn [bind]; intros E; [|discriminate E]. injection E as <-. split; reflexivity.
Qed.
Lemma finish_meta (ob ob' : book f64) e : finish ob = Ret (ob', e) -> b_time ob' = b_time ob /\ max_depth ob' = max_depth ob.
Proof.
  unfold finish. destruct (limit ob) as [x|n] eqn:L; cbn [bind]; intros E; [|discriminate E]. injection E as <- <-. now apply limit_meta.
Qed.
Lemma update_meta u (ob ob' : book f64) e : apply_update u ob = Ret (ob', e) -> b_time ob' = b_time ob /\ max_depth ob' = max_depth ob.
Proof.
  rewrite apply_update_v. unfold v_update. cbv zeta. destruct (String.eqb (u_side u) "ask"); [|destruct (String.eqb (u_side u) "bid")].
  - destruct (negb _).
    + destruct (v_remove _ _ _ _) as [lb|n]; cbn [bind]; [|intros E; discriminate E].
      destruct (v_insert _ _ _) as [la|n]; cbn [bind]; [|intros E; discriminate E]. intros E. apply finish_meta in E. exact E.
    + destruct (find_from _ _ _); intros E; [apply finish_meta in E; exact E|]. injection E as <- <-. split; reflexivity.
  - destruct (negb _).
    + destruct (v_remove _ _ _ _) as [lb|n]; cbn [bind]; [|intros E; discriminate E].
      destruct (v_insert _ _ _) as [la|n]; cbn [bind]; [|intros E; discriminate E]. intros E. apply finish_meta in E. exact E.
    + destruct (find_from _ _ _); intros E; [apply finish_meta in E; exact E|]. injection E as <- <-. split; reflexivity.
  - intros E. injection E as <- <-. split; reflexivity.
Qed.

Lemma f2_diag {A} (P : A -> Prop) l : Forall2 (fun x y => x = y /\ P x) l l <-> Forall P l.
Proof.
  split.
  - induction l as [|a l IH]; intros H; constructor; inversion H; subst; [tauto|auto].
  - intros H. induction H; constructor; auto.
Qed.

Lemma update_keeps_ok u (ob ob' : book f64) e : book_ok ob -> finite_update u -> apply_update u ob = Ret (ob', e) -> book_ok ob'.
Proof.
  intros (H1 & H2 & H3 & H4) [U1 U2] E. destruct (update_meta _ _ _ _ E) as [M1 M2].
  pose proof (update_same (NF := f64_num) (NG := f64_num) (fun x y => x = y) (fun x y => x = y /\ row_ok x)) as K.
  specialize (K (fun a b H => f_equal price (proj1 H))). 
  specialize (K (fun x y x' y' Hx Hy => eq_trans (f_equal (fun z => f64_eq z y) Hx) (f_equal (f64_eq x') Hy)) u u ob ob).
  specialize (K (fun x y x' y' Hx Hy => eq_trans (f_equal (fun z => f64_lt z y) Hx) (f_equal (f64_lt x') Hy))).
  assert (row_ok (new_row u)) as HN.
  { unfold row_ok, new_row. cbn [price volume accum]. constructor; [exact U1|]. constructor; [exact U2|]. constructor; [reflexivity|constructor]. }
  specialize (K (conj eq_refl (conj eq_refl (conj (conj eq_refl HN) eq_refl)))).
  specialize (K (conj eq_refl (conj (proj2 (f2_diag _ _) H3) (conj (proj2 (f2_diag _ _) H4) eq_refl)))).
  rewrite E in K. cbn [grel] in K. destruct K as [K _]. cbn [fst] in K. destruct K as (_ & KA & KB & _).
  unfold book_ok. rewrite M1, M2. repeat split; try apply H1; try apply H2; eapply f2_diag; eassumption.
Qed.

Lemma history_keeps_ok us : forall (ob ob' : book f64), book_ok ob -> Forall finite_update us -> apply_updates us ob = Ret ob' -> book_ok ob'.
Proof.
  induction us as [|u us IH]; intros ob ob' H HU E; cbn [apply_updates] in E; [injection E as <-; exact H|].
  inversion HU; subst. destruct (apply_update u ob) as [[b e]|n] eqn:A; cbn [bind] in E; [|discriminate E].
  eapply IH; [|eassumption|exact E]. eapply update_keeps_ok; eassumption.
Qed.

Lemma book_storable na nb b : int64_ok (b_time b) -> int64_ok (max_depth b) -> marshal book_type (book_val na nb b) <> None -> book_ok b.
Proof.
  intros H1 H2 M. split; [exact H1|]. split; [exact H2|]. apply Forall_app. apply Forall_forall. intros r Hr.
  apply Forall_forall. intros x Hx. unfold finite. destruct (is_finite x) eqn:E; [reflexivity|]. exfalso. apply M.
  apply (book_refused na nb b H1 H2). apply Exists_exists. exists r. split; [exact Hr|]. apply Exists_exists. exists x. split; [exact Hx|].
  unfold finite. rewrite E. intros K. discriminate K.
Qed.
Lemma book_restored_same b b' : int64_ok (b_time b) -> int64_ok (max_depth b) -> book_restored b b' -> b' = b.
Proof.
  intros H1 H2 (na & nb & text & old & v & S & M & U & O).
  assert (book_ok b) as K by (apply (book_storable na nb); [exact H1|exact H2|rewrite M; intros X; discriminate X]).
  destruct (book_replaces na nb b K) as (text' & M' & R). rewrite M in M'. injection M' as <-. destruct (R old S) as (v' & U' & O'). rewrite U in U'. injection U' as <-.
  rewrite O in O'. now injection O'.
Qed.
Lemma book_run_same us ob r : int64_ok (b_time ob) -> int64_ok (max_depth ob) -> (book_run us ob r <-> r = apply_updates us ob).
Proof.
  intros H1 H2. split.
  - intros H. induction H as [b|u us b b' e r A H IH|u us b n A|us b b' r R H IH].
    + reflexivity.
    + destruct (update_meta _ _ _ _ A) as [M1 M2]. rewrite M1, M2 in IH. cbn [apply_updates]. rewrite A. cbn [bind]. now apply IH.
    + cbn [apply_updates]. now rewrite A.
    + apply book_restored_same in R; [|exact H1|exact H2]. subst b'. now apply IH.
  - intros ->. clear H1 H2. revert ob. induction us as [|u us IH]; intros ob; cbn [apply_updates]; [constructor|].
    destruct (apply_update u ob) as [[b e]|n] eqn:A; cbn [bind]; [eapply run_update; [exact A|apply IH]|now constructor].
Qed.
Lemma history_storable us ob b : book_ok ob -> Forall finite_update us -> apply_updates us ob = Ret b -> book_restored b b.
Proof.
  intros H HU E. pose proof (history_keeps_ok _ _ _ H HU E) as K. destruct (book_replaces false false b K) as (text & M & R).
  destruct (R (zero book_type) (shaped_zero _)) as (v & U & O). exists false, false, text, (zero book_type), v. split; [apply shaped_zero|]. auto.
Qed.

(** ** Positions *)
Lemma position_storable z z' nil p : position_texts p -> whole_minutes z -> whole_minutes z' ->
  marshal position_type (position_val z z' nil p) <> None -> position_ok z z' p.
Proof.
  intros (T1 & T2 & T3 & T4 & T5) [Z1 Z2] [Z3 Z4] M.
  assert (clock z (ps_open_time p)) as C1 by (split; [exact Z1|split; [exact Z2|exact T4]]).
  assert (clock z' (ps_close_time p)) as C2 by (split; [exact Z3|split; [exact Z4|exact T5]]).
  pose proof (position_refused z z' nil p C1 C2) as R.
  assert (forall x, In x [co_price (ps_take_profit p); co_price (ps_stop_loss p); ps_open_price p; ps_close_price p; ps_quantity p; ps_profit p] -> finite x) as HF.
  { intros x Hx. unfold finite. destruct (is_finite x) eqn:E; [reflexivity|]. exfalso. apply M, R. left. apply Exists_exists. exists x.
    split; [exact Hx|]. unfold finite. rewrite E. intros K. discriminate K. }
  assert (dated z (ps_open_time p)) as D1.
  { unfold dated in *. destruct (Z_le_dec (-62167219200) (ps_open_time p / 1000000000 + z)), (Z_lt_dec (ps_open_time p / 1000000000 + z) 253402300800);
      try lia; exfalso; apply M, R; right; left; lia. }
  assert (dated z' (ps_close_time p)) as D2.
  { unfold dated in *. destruct (Z_le_dec (-62167219200) (ps_close_time p / 1000000000 + z')), (Z_lt_dec (ps_close_time p / 1000000000 + z') 253402300800);
      try lia; exfalso; apply M, R; right; right; lia. }
  inversion T1 as [|? ? U1 V1]; subst. inversion V1 as [|? ? U2 V2]; subst. inversion V2 as [|? ? U3 V3]; subst. inversion V3 as [|? ? U4 V4]; subst.
  inversion V4 as [|? ? U5 V5]; subst. inversion V5 as [|? ? U6 V6]; subst.
  split; [constructor; [exact U1|constructor; [exact U2|constructor; [exact U3|constructor; [exact U4|constructor]]]]|].
  split; [exact T2|]. split; [split; [apply HF; cbn [In]; tauto|exact U5]|]. split; [split; [apply HF; cbn [In]; tauto|exact U6]|].
  split; [split; [exact Z1|split; [exact Z2|exact D1]]|]. split; [split; [exact Z3|split; [exact Z4|exact D2]]|]. split; [exact T3|].
  constructor; [apply HF; cbn [In]; tauto|constructor; [apply HF; cbn [In]; tauto|constructor; [apply HF; cbn [In]; tauto|constructor; [apply HF; cbn [In]; tauto|constructor]]]].
Qed.
Lemma position_restored_same p p' : position_texts p -> position_restored p p' -> p' = p.
Proof.
  intros T (z & z' & nil & text & old & v & Z1 & Z2 & S & M & U & O).
  assert (position_ok z z' p) as K by (apply (position_storable z z' nil); [exact T|exact Z1|exact Z2|rewrite M; intros X; discriminate X]).
  destruct (position_replaces z z' nil p K) as (text' & M' & R). rewrite M in M'. injection M' as <-. destruct (R old S) as (v' & U' & O'). rewrite U in U'. injection U' as <-.
  rewrite O in O'. now injection O'.
Qed.

Lemma modify_texts p t : position_texts p -> trade_texts t -> position_texts (fst (modify p t)).
Proof.
  intros (T1 & T2 & T3 & T4 & T5) [H1 H2].
  assert (Forall utf8 (ps_trades p ++ [t_id t])) as TT by (apply Forall_app; split; [exact T3|constructor; [exact H1|constructor]]).
  assert (position_texts p) as TP by (unfold position_texts; auto).
  assert (position_texts (pos_add p t)) as TA.
  { unfold pos_add, position_texts. cbn [ps_id ps_type ps_execution_id ps_data ps_take_profit ps_stop_loss ps_pair ps_trades ps_open_time ps_close_time]. auto. }
  assert (position_texts (fst (pos_substract p t))) as TS.
  { unfold pos_substract. destruct (_ && _); [exact TP|]. destruct (fle _ _);
      unfold position_texts; cbn [fst ps_id ps_type ps_execution_id ps_data ps_take_profit ps_stop_loss ps_pair ps_trades ps_open_time ps_close_time]; auto. }
  unfold modify. destruct (negb _); [exact TP|]. destruct (_ && _); [exact TA|]. destruct (_ && _); [exact TS|]. destruct (_ && _); [exact TS|].
  destruct (_ && _); [exact TA|exact TP].
Qed.
Lemma position_run_same ts p q : position_texts p -> Forall trade_texts ts -> (position_run ts p q <-> q = modify_all p ts).
Proof.
  intros T HT. split.
  - intros H. revert T HT. induction H as [p|t ts p q H IH|ts p p' q R H IH]; intros T HT; cbn [modify_all].
    + reflexivity.
    + inversion HT; subst. apply IH; [now apply modify_texts|assumption].
    + apply position_restored_same in R; [|exact T]. subst p'. now apply IH.
  - intros ->. clear T HT. revert p. induction ts as [|t ts IH]; intros p; cbn [modify_all]; constructor. apply IH.
Qed.
