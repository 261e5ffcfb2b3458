(** C112: how the digits are laid out. *)
From Coq Require Import ZArith NArith Lia Lra Bool Reals List String Ascii.
From Flocq Require Import Core BinarySingleNaN.
From Verif Require Import Go.Outcome Go.Int64 Go.Float64 Go.FloatOrder Go.FloatReal Go.Text Go.Num Go.Json
  Spec.DecimalSpec Spec.ShortestSpec Proofs.DecNum Proofs.Lex Proofs.RoundTrip Proofs.Decimal Proofs.JsonText Proofs.Shortest.
Open Scope string_scope.
Open Scope Z_scope.

(** ** Digits *)
Lemma byte_digit c : is_digit c = true -> 48 <= byte c <= 57.
Proof. unfold is_digit, byte. intros H. apply andb_true_iff in H. destruct H as [A B]. apply N.leb_le in A, B. lia. Qed.
Lemma digits_cons c n s m : 48 <= byte c <= 57 -> digits s m -> n = (byte c - 48) * 10 ^ Z.of_nat (String.length s) + m ->
  digits (String c s) n.
Proof.
  intros H D. revert n. induction D as [|s m c' D IH H']; intros n E.
  - replace n with (byte c - 48) by (rewrite E; simpl; lia). now apply digits_one_digit.
  - change (String c (s ++ String c' "")) with (String c s ++ String c' "").
    replace n with (10 * ((byte c - 48) * 10 ^ Z.of_nat (String.length s) + m) + (byte c' - 48)).
    + apply digits_more; [now apply IH|assumption].
    + rewrite E, slen_app. cbn [String.length]. rewrite Nat2Z.inj_add. change (Z.of_nat 1) with 1.
      rewrite Z.pow_add_r by lia. change (10 ^ 1) with 10. ring.
Qed.
Lemma digits_intro s : all_digits s = true -> digits s (Z.of_N (digits_val s 0)).
Proof.
  induction s as [|c s IH]; intros H; [constructor|]. cbn [all_digits] in H. apply andb_true_iff in H. destruct H as [H1 H2].
  pose proof (byte_digit c H1) as B. apply (digits_cons c _ s _ B (IH H2)). cbn [digits_val].
  rewrite digits_val_acc. rewrite N2Z.inj_add, N2Z.inj_mul, N2Z.inj_pow, nat_N_Z. destruct (digit_byte c B) as [_ E].
  rewrite N.mul_0_r, N.add_0_l, E. reflexivity.
Qed.
Lemma digits_bounds s n : digits s n -> 0 <= n < 10 ^ Z.of_nat (String.length s).
Proof.
  intros D. destruct (digits_model s n D) as [A E]. pose proof (digits_val_bound s A) as B.
  apply N2Z.inj_lt in B. rewrite N2Z.inj_pow, nat_N_Z in B. rewrite <- E. split; [lia|exact B].
Qed.

(** ** The pieces *)
Lemma last_digit s : digits_val (s ++ "0") 0 = (10 * digits_val s 0)%N.
Proof. rewrite digits_val_app. cbn [digits_val]. change (digit_val "0") with 0%N. lia. Qed.
Lemma not_trailing s : (digits_val s 0 mod 10 <> 0)%N -> s <> "" /\ forall t, s <> t ++ "0".
Proof.
  intros H. split; [intros ->; now apply H|]. intros t ->. apply H. rewrite last_digit, N.mul_comm. apply N.mod_mul. lia.
Qed.

Section Layout.
Variables (d : N) (e10 : Z).
Hypothesis Hd : (d mod 10 <> 0)%N.
Let ds := dec d.
Let nd := num_digits d.
Let dp := e10 + Z.of_nat nd.
Let r := decR d e10.

Let D0 : (0 < d)%N. Proof. destruct d; [exfalso; now apply Hd|lia]. Qed.
Let Dval : digits_val ds 0 = d.
Proof. unfold ds. rewrite dec_val. lia. Qed.
Let Dlen : String.length ds = nd.
Proof. apply dec_len. Qed.
Let Dnd : (1 <= nd)%nat.
Proof. apply num_digits_pos. Qed.
Let Dfront t : ds <> String "0" t.
Proof. unfold ds. destruct (dec_head d D0) as (c & u & -> & Hc). intros [= -> _]. discriminate Hc. Qed.

Let Dsplit k : (k <= nd)%nat -> substring 0 k ds ++ substring k (nd - k) ds = ds.
Proof. intros H. rewrite <- Dlen. apply substring_split. lia. Qed.
Let Dtail k : (k <= nd)%nat -> String.length (substring k (nd - k) ds) = (nd - k)%nat.
Proof.
  intros H. pose proof (f_equal String.length (Dsplit k H)) as E. rewrite slen_app, substring_len, Dlen in E by lia. lia.
Qed.
Let Dsub i k : all_digits (substring i k ds) = true.
Proof. apply sub_digits. Qed.
Let Dparts k : (k <= nd)%nat ->
  d = (digits_val (substring 0 k ds) 0 * 10 ^ N.of_nat (nd - k) + digits_val (substring k (nd - k) ds) 0)%N.
Proof.
  intros H. rewrite <- Dval at 1. rewrite <- (Dsplit k H) at 1. rewrite digits_val_app, digits_val_acc, Dtail by assumption. reflexivity.
Qed.
Let Dlast k : (k < nd)%nat -> (digits_val (substring k (nd - k) ds) 0 mod 10 <> 0)%N.
Proof.
  intros H K. apply Hd. rewrite (Dparts k) by lia. replace (N.of_nat (nd - k)) with (N.succ (N.of_nat (nd - k - 1))) by lia.
  rewrite N.pow_succ_r', N.add_mod, K, N.add_0_r, N.mod_mod by lia.
  replace (digits_val (substring 0 k ds) 0 * (10 * 10 ^ N.of_nat (nd - k - 1)))%N
    with (digits_val (substring 0 k ds) 0 * 10 ^ N.of_nat (nd - k - 1) * 10)%N by lia.
  apply N.mod_mul. lia.
Qed.

Lemma point_value k : (k <= nd)%nat ->
  (IZR (Z.of_N (digits_val (substring 0 k ds) 0)) + IZR (Z.of_N (digits_val (substring k (nd - k) ds) 0)) / powerRZ 10 (Z.of_nat (nd - k)))%R
  = decR d (- Z.of_nat (nd - k)).
Proof.
  intros H. unfold decR. pose proof (f_equal (fun x => IZR (Z.of_N x)) (Dparts k H)) as Q. cbv beta in Q.
  rewrite N2Z.inj_add, N2Z.inj_mul, N2Z.inj_pow, nat_N_Z, plus_IZR, mult_IZR in Q. rewrite Q.
  rewrite bpow_opp, b10_pow, b10_int by lia. change (Z.of_N 10) with 10.
  assert (IZR (10 ^ Z.of_nat (nd - k)) <> 0%R) by (apply not_0_IZR, Z.pow_nonzero; lia). field. assumption.
Qed.

Lemma layout_plain : plain_text (layout_f d e10) r.
Proof.
  unfold layout_f. fold ds nd dp. destruct (Z.leb_spec dp 0) as [L|L]; [|destruct (Z.leb_spec (Z.of_nat nd) dp) as [M|M]].
  - assert (all_digits (zeros (Z.to_nat (- dp)) ++ ds) = true) as A by (rewrite all_digits_app, zeros_digits; apply dec_digits).
    assert (digits_val (zeros (Z.to_nat (- dp)) ++ ds) 0 = d) as V by (rewrite digits_val_app, zeros_val, N.mul_0_l; exact Dval).
    exists "0", 0, (String "." (zeros (Z.to_nat (- dp)) ++ ds)), (Z.of_N d), (Z.of_nat (String.length (zeros (Z.to_nat (- dp)) ++ ds))).
    split; [reflexivity|]. split; [exact (digits_one_digit "0" ltac:(vm_compute; split; discriminate))|]. split; [now left|].
    split; [constructor; rewrite <- V; now apply digits_intro|]. split.
    + right. eexists. split; [reflexivity|]. apply not_trailing. now rewrite V.
    + rewrite slen_app, zeros_len, Dlen. unfold r, decR. rewrite b10_pow. unfold Rdiv. rewrite <- bpow_opp, Rplus_0_l.
      do 2 f_equal. unfold dp in *. lia.
  - exists (ds ++ zeros (Z.to_nat (dp - Z.of_nat nd))), (Z.of_N (d * 10 ^ N.of_nat (Z.to_nat (dp - Z.of_nat nd)))), "", 0, 0.
    split; [now rewrite sapp_nil_r|]. split.
    { replace (d * 10 ^ N.of_nat (Z.to_nat (dp - Z.of_nat nd)))%N with (digits_val (ds ++ zeros (Z.to_nat (dp - Z.of_nat nd))) 0)
        by (rewrite digits_val_app, zeros_val, Dval; reflexivity).
      apply digits_intro. rewrite all_digits_app, zeros_digits. unfold ds. now rewrite dec_digits. }
    split.
    { right. pose proof Dlen as Dl. pose proof Dfront as Df. destruct ds as [|c u]; [cbn in Dl; lia|]. split; [discriminate|].
      intros t [= -> E]. now apply (Df u). }
    split; [constructor|]. split; [now left|].
    unfold r, decR. replace (dp - Z.of_nat nd) with e10 by (unfold dp; lia).
    rewrite N2Z.inj_mul, N2Z.inj_pow, nat_N_Z, mult_IZR, Z2Nat.id by (unfold dp in M; lia). change (Z.of_N 10) with 10.
    rewrite <- (b10_int e10) by (unfold dp in M; lia). unfold Rdiv. ring.
  - set (k := Z.to_nat dp). assert (0 < k < nd)%nat as K by (unfold k; lia).
    exists (substring 0 k ds), (Z.of_N (digits_val (substring 0 k ds) 0)), (String "." (substring k (nd - k) ds)),
      (Z.of_N (digits_val (substring k (nd - k) ds) 0)), (Z.of_nat (String.length (substring k (nd - k) ds))).
    split; [reflexivity|]. split; [apply digits_intro, Dsub|]. split.
    { right. pose proof (Dsplit k ltac:(lia)) as S. pose proof (substring_len ds k ltac:(lia)) as SL.
      destruct (substring 0 k ds) as [|c u]; [cbn in SL; lia|]. split; [discriminate|].
      intros t [= -> ->]. cbn [append] in S. symmetry in S. now apply Dfront in S. }
    split; [constructor; apply digits_intro, Dsub|]. split.
    + right. eexists. split; [reflexivity|]. apply not_trailing. apply Dlast. lia.
    + rewrite Dtail by lia. rewrite point_value by lia. unfold r, k. f_equal. unfold dp in *. lia.
Qed.

Lemma layout_power (tidy : string -> Prop) ed neg e : digits ed e -> tidy ed -> (neg = true -> 0 < e) ->
  signed_Z neg e = dp - 1 ->
  power_text tidy (substring 0 1 ds ++ (if (nd =? 1)%nat then "" else "." ++ substring 1 (nd - 1) ds) ++ "e" ++ (if neg then "-" else "+") ++ ed) r.
Proof.
  intros He Ht Hn E. pose proof (Dsplit 1 Dnd) as S. pose proof (substring_len ds 1 ltac:(lia)) as SL.
  pose proof (Dsub 0 1) as S1. pose proof (point_value 1 Dnd) as P. pose proof (Dtail 1 Dnd) as Tl.
  destruct (substring 0 1 ds) as [|c [|c' u]] eqn:Q; try (cbn in SL; lia).
  cbn [all_digits] in S1. rewrite andb_true_r in S1. pose proof (byte_digit c S1) as B. destruct (digit_byte c B) as [_ Bv].
  assert (byte c <> 48) as N0.
  { intros K. assert (c = "0"%char) as ->.
    { assert (N_of_ascii c = N_of_ascii "0") as K' by (unfold byte in K; change (N_of_ascii "0") with 48%N; lia).
      rewrite <- (ascii_N_embedding c), K'. reflexivity. }
    cbn [append] in S. symmetry in S. now apply Dfront in S. }
  cbn [digits_val] in P. rewrite N.mul_0_r, N.add_0_l, Bv in P.
  assert (r = (decR d (- Z.of_nat (nd - 1)) * powerRZ 10 (signed_Z neg e))%R) as Er.
  { unfold r, decR. rewrite b10_pow, Rmult_assoc, <- bpow_plus. do 2 f_equal. rewrite E. unfold dp. lia. }
  destruct (Nat.eqb_spec nd 1) as [E1|E1].
  - exists c, "", 0, 0, neg, ed, e. split; [reflexivity|]. split; [lia|]. split; [constructor|]. split; [now left|].
    split; [exact He|]. split; [exact Ht|]. split; [exact Hn|]. rewrite Er, <- P.
    replace (nd - 1)%nat with 0%nat in * by lia. destruct (substring 1 0 ds); [|discriminate Tl].
    cbn [digits_val]. change (Z.of_N 0) with 0. simpl (powerRZ 10 (Z.of_nat 0)). simpl (powerRZ 10 0). reflexivity.
  - exists c, (String "." (substring 1 (nd - 1) ds)), (Z.of_N (digits_val (substring 1 (nd - 1) ds) 0)),
      (Z.of_nat (String.length (substring 1 (nd - 1) ds))), neg, ed, e.
    split; [reflexivity|]. split; [lia|]. split; [constructor; apply digits_intro, Dsub|]. split.
    + right. eexists. split; [reflexivity|]. apply not_trailing. apply Dlast. lia.
    + split; [exact He|]. split; [exact Ht|]. split; [exact Hn|]. rewrite Er, <- P, Tl. reflexivity.
Qed.

Lemma r_range : (powerRZ 10 (dp - 1) <= r < powerRZ 10 dp)%R.
Proof.
  rewrite !b10_pow. unfold r, decR. pose proof (num_digits_bound d) as U. pose proof (num_digits_lower d D0) as L. fold nd in U, L.
  apply N2Z.inj_lt in U. apply N2Z.inj_le in L. rewrite N2Z.inj_pow, nat_N_Z in U, L. change (Z.of_N 10) with 10 in U, L.
  split.
  - replace (dp - 1) with (Z.of_nat (nd - 1) + e10) by (unfold dp; lia). rewrite bpow_plus. apply Rmult_le_compat_r; [apply bpow_ge_0|].
    rewrite b10_int by lia. now apply IZR_le.
  - replace dp with (Z.of_nat nd + e10) by (unfold dp; lia). rewrite bpow_plus. apply Rmult_lt_compat_r; [apply bpow_gt_0|].
    rewrite b10_int by lia. now apply IZR_lt.
Qed.

(** [fmt_exp] writes sign and at least two digits. *)
Lemma exp_two x : exists ed, fmt_exp x = (if x <? 0 then "-" else "+") ++ ed /\ digits ed (Z.abs x) /\ tidy_two ed.
Proof.
  unfold fmt_exp. destruct (N.ltb_spec (Z.abs_N x) 10) as [L|L].
  - exists ("0" ++ dec (Z.abs_N x)). split; [reflexivity|]. split.
    + replace (Z.abs x) with (Z.of_N (digits_val ("0" ++ dec (Z.abs_N x)) 0)).
      * apply digits_intro. apply dec_digits.
      * cbn [append digits_val]. change (10 * 0 + digit_val "0")%N with 0%N. rewrite dec_val. lia.
    + assert (num_digits (Z.abs_N x) = 1)%nat as K.
      { pose proof (num_digits_pos (Z.abs_N x)). pose proof (num_digits_le (Z.abs_N x) 1 ltac:(lia) L). lia. }
      cbn [append]. split; cbn [String.length]; rewrite dec_len, K; [lia|now left].
  - exists (dec (Z.abs_N x)). split; [reflexivity|]. split.
    + replace (Z.abs x) with (Z.of_N (digits_val (dec (Z.abs_N x)) 0)) by (rewrite dec_val; lia). apply digits_intro, dec_digits.
    + assert (2 <= num_digits (Z.abs_N x))%nat as K.
      { destruct (Nat.le_gt_cases 2 (num_digits (Z.abs_N x))) as [|G]; [assumption|exfalso].
        pose proof (num_digits_bound (Z.abs_N x)) as U. replace (num_digits (Z.abs_N x)) with 1%nat in U by (pose proof (num_digits_pos (Z.abs_N x)); lia).
        change (10 ^ N.of_nat 1)%N with 10%N in U. lia. }
      split; [now rewrite dec_len|]. right. intros t E. destruct (dec_head (Z.abs_N x) ltac:(lia)) as (c & u & E' & Hc).
      rewrite E' in E. injection E as -> _. discriminate Hc.
Qed.
Lemma exp_front n : tidy_front (dec n).
Proof.
  destruct (N.eq_dec n 0) as [->|Ne]; [left; reflexivity|right]. destruct (dec_head n ltac:(lia)) as (c & u & -> & Hc).
  split; [discriminate|]. intros t [= -> _]. discriminate Hc.
Qed.

Lemma power_ge (a b : Z) : a <= b -> (powerRZ 10 a <= powerRZ 10 b)%R.
Proof. intros H. rewrite !b10_pow. now apply bpow_le. Qed.

Lemma layout_v : v_text (layout_g d e10) r.
Proof.
  pose proof r_range as [R1 R2]. unfold layout_g. fold ds nd dp.
  assert (power_text tidy_two (substring 0 1 ds ++ (if (nd =? 1)%nat then "" else "." ++ substring 1 (nd - 1) ds) ++ "e" ++ fmt_exp (dp - 1)) r) as P.
  { destruct (exp_two (dp - 1)) as (ed & -> & E1 & E2).
    pose proof (layout_power tidy_two ed (dp - 1 <? 0) (Z.abs (dp - 1)) E1 E2) as K.
    apply K; destruct (Z.ltb_spec (dp - 1) 0); unfold signed_Z; intros; try discriminate; lia. }
  change (("0." ++ zeros (Z.to_nat (- dp)) ++ ds)) with ("0." ++ zeros (Z.to_nat (- dp)) ++ ds).
  unfold v_text, g_threshold.
  destruct (Rlt_dec r (powerRZ 10 (-4))) as [L|L].
  - assert (dp - 1 < -4) as Q.
    { destruct (Z_lt_le_dec (dp - 1) (-4)) as [|G]; [assumption|exfalso]. apply power_ge in G. lra. }
    apply Z.ltb_lt in Q. rewrite Q. exact P.
  - assert (-4 <= dp - 1) as Q.
    { destruct (Z_lt_le_dec (dp - 1) (-4)) as [G|]; [exfalso|assumption]. assert (dp <= -4) as G' by lia. apply power_ge in G'. lra. }
    apply Z.ltb_ge in Q. rewrite Q. cbn [orb].
    destruct (Rlt_dec r (powerRZ 10 6)) as [M|M].
    + assert (dp - 1 < 6) as Q'.
      { destruct (Z_lt_le_dec (dp - 1) 6) as [|G]; [assumption|exfalso]. apply power_ge in G. lra. }
      apply Z.leb_gt in Q'. rewrite Q'. exact layout_plain.
    + assert (6 <= dp - 1) as Q'.
      { destruct (Z_lt_le_dec (dp - 1) 6) as [G|]; [exfalso|assumption]. assert (dp <= 6) as G' by lia. apply power_ge in G'. lra. }
      apply Z.leb_le in Q'. rewrite Q'. exact P.
Qed.

Lemma layout_e_power : 10 <= dp - 1 \/ dp - 1 < 0 -> power_text tidy_front (layout_e d e10) r.
Proof.
  intros H. unfold layout_e. fold ds nd dp.
  replace (e10 + Z.of_nat nd - 1) with (dp - 1) by (unfold dp; lia).
  assert (digits (dec (Z.abs_N (dp - 1))) (Z.abs (dp - 1))) as D.
  { replace (Z.abs (dp - 1)) with (Z.of_N (digits_val (dec (Z.abs_N (dp - 1))) 0)) by (rewrite dec_val; lia). apply digits_intro, dec_digits. }
  pose proof (layout_power tidy_front (dec (Z.abs_N (dp - 1))) (dp - 1 <? 0) (Z.abs (dp - 1)) D (exp_front _)) as K.
  unfold fmt_exp. destruct (Z.ltb_spec (dp - 1) 0) as [L|L]; unfold signed_Z in K.
  - apply K; [intros; lia|lia].
  - destruct (N.ltb_spec (Z.abs_N (dp - 1)) 10); [lia|]. apply K; [discriminate|lia].
Qed.
End Layout.

(** ** The forms of the texts *)
Lemma r_pos d e10 : (0 < d)%N -> (0 < decR d e10)%R.
Proof. intros H. unfold decR. apply Rmult_lt_0_compat; [apply IZR_lt; lia|apply bpow_gt_0]. Qed.
Lemma exact_21 : rnd (powerRZ 10 21) = powerRZ 10 21.
Proof.
  apply round_generic; [apply valid_rnd_N|]. apply generic_format_FLT.
  exists (Defs.Float radix2 (5 ^ 21) 21); [|vm_compute; reflexivity|discriminate].
  unfold F2R. cbn [Defs.Fnum Defs.Fexp]. rewrite b10_pow, b10_int by lia. rewrite <- (IZR_Zpower radix2) by lia.
  rewrite <- mult_IZR. apply f_equal. vm_compute. reflexivity.
Qed.
Lemma exact_11 : rnd (powerRZ 10 11) = powerRZ 10 11.
Proof. rewrite b10_pow, b10_int by lia. apply rnd_int. vm_compute. split; discriminate. Qed.

Lemma dec_one e : (- 20 <= e <= 40)%Z ->
  is_nan (f64_of_dec false 1 e) = false /\ xr (f64_of_dec false 1 e) = sat (nearest (powerRZ 10 e)).
Proof.
  intros _. destruct (f64_of_dec_spec false 1 e) as (A & _ & B). split; [exact A|]. rewrite B. unfold signed, decR.
  rewrite b10_pow, Rmult_1_l. reflexivity.
Qed.

Section Forms.
Variables (s : bool) (m : positive) (e : Z) (B : SpecFloat.bounded 53 1024 m e = true).
Let x : f64 := B754_finite s m e B.
Let v := (IZR (Zpos m) * bpow radix2 e)%R.

Lemma v_text_fmt : exists k r body, fmt_v x = (if s then "-" else "") ++ body /\ 1 <= k <= 17 /\ shortest_for v k r /\ v_text body r.
Proof.
  pose proof (shortest_spec s m e B) as H. cbv zeta in H. unfold fmt_v, x. destruct (shortest s m e (B754_finite s m e B)) as [d e10].
  destruct H as (H1 & H2 & H3). exists (Z.of_nat (num_digits d)), (decR d e10), (layout_g d e10).
  split; [destruct s; reflexivity|]. split; [pose proof (num_digits_pos d); lia|]. split; [exact H3|now apply layout_v].
Qed.

Lemma v_abs : xr (Babs x) = v.
Proof. unfold xr, x, Babs, B2R, v. unfold F2R. cbn. reflexivity. Qed.
Lemma v_below : (v < big)%R.
Proof. rewrite <- v_abs. apply Rabs_def2. rewrite xr_finite by reflexivity. now apply B2R_lt_big. Qed.

Lemma json_text_fmt : exists k r body, json_float x = Some ((if s then "-" else "") ++ body) /\ 1 <= k <= 17 /\
  shortest_for v k r /\ json_text v body r.
Proof.
  pose proof (shortest_spec s m e B) as H. cbv zeta in H. unfold json_float, x. destruct (shortest s m e (B754_finite s m e B)) as [d e10].
  destruct H as (H1 & H2 & H3). fold v in H3. fold x.
  exists (Z.of_nat (num_digits d)), (decR d e10).
  eexists. split; [destruct s; reflexivity|]. split; [pose proof (num_digits_pos d); lia|]. split; [exact H3|].
  assert (nearest (decR d e10) = v) as RA by exact (proj1 H3). rewrite nearest_rnd in RA.
  destruct (dec_one (-6) ltac:(lia)) as [N6 X6]. destruct (dec_one 21 ltac:(lia)) as [N21 X21].
  assert (xr (f64_of_dec false 1 (-6)) = nearest (powerRZ 10 (-6)) /\ (nearest (powerRZ 10 (-6)) <= 1)%R) as [Y6 S6].
  { assert (0 <= nearest (powerRZ 10 (-6)) <= 1)%R as R6.
    { rewrite nearest_rnd. split; [apply rnd_nonneg; rewrite b10_pow; apply bpow_ge_0|].
      rewrite <- (rnd_int 1) by (vm_compute; split; discriminate). apply rnd_mono. rewrite b10_pow. change 1%R with (bpow radix10 0). apply bpow_le. lia. }
    split; [|tauto]. rewrite X6, sat_id; [reflexivity|]. rewrite Rabs_pos_eq by tauto. apply Rle_trans with 1%R; [tauto|].
    change 1%R with (bpow radix2 0). change big with (bpow radix2 1024). apply bpow_le. lia. }
  assert (xr (f64_of_dec false 1 21) = powerRZ 10 21) as Y21.
  { rewrite X21, nearest_rnd, exact_21, sat_id; [reflexivity|]. rewrite b10_pow, Rabs_pos_eq by apply bpow_ge_0.
    rewrite b10_int by lia. change big with (bpow radix2 1024). rewrite <- (IZR_Zpower radix2) by lia. apply IZR_le. vm_compute. discriminate. }
  assert (is_nan (Babs x) = false) as Na by reflexivity.
  rewrite f64_lt_xr, f64_le_xr, v_abs, Y6, Y21 by assumption.
  pose proof (r_range d e10 H1) as [R1 R2]. set (dp := e10 + Z.of_nat (num_digits d)) in *.
  unfold json_text. destruct (Rlt_bool_spec v (nearest (powerRZ 10 (-6)))) as [L|L].
  - destruct (Rlt_dec v (nearest (powerRZ 10 (-6)))) as [_|Q]; [|lra]. cbn [orb]. apply layout_e_power; [exact H1|]. fold dp. right.
    destruct (Z_lt_le_dec (dp - 1) 0) as [|G]; [assumption|exfalso]. apply power_ge in G. change (powerRZ 10 0) with 1%R in G.
    assert (1 <= v)%R; [|lra]. rewrite <- RA. rewrite <- (rnd_int 1) by (vm_compute; split; discriminate). apply rnd_mono. lra.
  - destruct (Rlt_dec v (nearest (powerRZ 10 (-6)))) as [Q|_]; [lra|]. cbn [orb].
    destruct (Rle_bool_spec (powerRZ 10 21) v) as [M|M]; destruct (Rlt_dec v (powerRZ 10 21)) as [Q|Q]; try lra.
    + apply layout_e_power; [exact H1|]. fold dp. left. destruct (Z_lt_le_dec (dp - 1) 10) as [G|]; [exfalso|assumption].
      assert (dp <= 11) as G' by lia. apply power_ge in G'. assert (v <= powerRZ 10 11)%R.
      { rewrite <- RA, <- exact_11. apply rnd_mono. lra. }
      assert (powerRZ 10 11 < powerRZ 10 21)%R by (rewrite !b10_pow; apply bpow_lt; lia). lra.
    + now apply layout_plain.
Qed.
End Forms.

(** ** One text for a number *)
Lemma byte_inj c c' : byte c = byte c' -> c = c'.
Proof. unfold byte. intros H. rewrite <- (ascii_N_embedding c), <- (ascii_N_embedding c'). f_equal. lia. Qed.
Lemma digits_same s n t : digits s n -> digits t n -> String.length s = String.length t -> s = t.
Proof.
  intros D. revert t. induction D as [|s n c D IH H]; intros t D'.
  - destruct t; [reflexivity|discriminate].
  - inversion D' as [E1 E2|t' n' c' D1 H' E1 E2]; subst.
    + rewrite slen_app. cbn [String.length]. lia.
    + rewrite !slen_app. cbn [String.length]. intros L. change (10 * n' + (byte c' - 48) = 10 * n + (byte c - 48)) in E2. assert (n' = n) as -> by lia. rewrite (IH t' D1) by lia.
      do 2 f_equal. apply byte_inj. lia.
Qed.
Lemma digits_front c s n : digits (String c s) n -> c <> "0"%char -> 10 ^ Z.of_nat (String.length s) <= n.
Proof.
  intros D H. destruct (digits_model _ _ D) as [A E]. cbn [all_digits] in A. apply andb_true_iff in A. destruct A as [A1 A2].
  pose proof (byte_digit c A1) as Bc. destruct (digit_byte c Bc) as [_ V]. cbn [digits_val] in E. rewrite digits_val_acc in E.
  rewrite N.mul_0_r, N.add_0_l, N2Z.inj_add, N2Z.inj_mul, N2Z.inj_pow, nat_N_Z, V in E. change (Z.of_N 10) with 10 in E.
  assert (byte c <> 48). { intros K. apply H. apply byte_inj. exact K. }
  pose proof (Z.pow_pos_nonneg 10 (Z.of_nat (String.length s)) ltac:(lia) ltac:(lia)). nia.
Qed.
Lemma pow_len a b n : 10 ^ (a - 1) <= n < 10 ^ b -> 0 <= b -> a <= b.
Proof. intros [H1 H2] Hb. destruct (Z_le_gt_dec a b) as [|G]; [assumption|exfalso]. assert (10 ^ b <= 10 ^ (a - 1)) by (apply Z.pow_le_mono_r; lia). lia. Qed.
Lemma front_len s t n : digits s n -> (forall u, s <> String "0" u) -> s <> "" -> digits t n ->
  (String.length s <= String.length t)%nat.
Proof.
  intros D H Hn D'. destruct s as [|c s]; [now destruct Hn|]. assert (c <> "0"%char) as Hc by (intros ->; now apply (H s)).
  pose proof (digits_front c s n D Hc) as L. pose proof (digits_bounds _ _ D') as [_ U]. cbn [String.length].
  pose proof (pow_len (Z.of_nat (S (String.length s))) (Z.of_nat (String.length t)) n) as K.
  replace (Z.of_nat (S (String.length s)) - 1) with (Z.of_nat (String.length s)) in K by lia. lia.
Qed.
Lemma zero_text : digits "0" 0.
Proof. exact (digits_one_digit "0" ltac:(vm_compute; split; discriminate)). Qed.
Lemma front_unique s t n : digits s n -> digits t n -> tidy_front s -> tidy_front t -> s = t.
Proof.
  assert (forall u, digits "0" n -> digits u n -> u <> "" -> (forall w, u <> String "0" w) -> False) as Z0.
  { intros u D D' N0 H. destruct (digits_model _ _ D) as [_ E]. vm_compute in E. subst n.
    destruct u as [|c u]; [now apply N0|]. assert (c <> "0"%char) as Hc by (intros ->; now apply (H u)).
    pose proof (digits_front c u 0 D' Hc) as L. pose proof (Z.pow_pos_nonneg 10 (Z.of_nat (String.length u)) ltac:(lia) ltac:(lia)). lia. }
  intros D D' [->|[N0 H]] [->|[N0' H']]; [reflexivity|exfalso; eauto|exfalso; eauto|].
  apply (digits_same s n t D D'). apply Nat.le_antisymm; eapply front_len; eauto.
Qed.
Lemma two_unique s t n : digits s n -> digits t n -> tidy_two s -> tidy_two t -> s = t.
Proof.
  intros D D' [L C] [L' C']. apply (digits_same s n t D D').
  assert (s <> "") as N0 by (intros ->; cbn in L; lia). assert (t <> "") as N0' by (intros ->; cbn in L'; lia).
  apply Nat.le_antisymm; [destruct C as [C|C]|destruct C' as [C'|C']]; try lia; eapply front_len; eauto.
Qed.

Lemma fraction_range fr m k : fraction fr m k -> 0 <= k /\ 0 <= m < 10 ^ k.
Proof. intros [|d m' D]; [cbn; lia|]. pose proof (digits_bounds _ _ D). lia. Qed.
Lemma fraction_unit fr m k : fraction fr m k -> (0 <= IZR m / powerRZ 10 k < 1)%R.
Proof.
  intros F. destruct (fraction_range fr m k F) as (K & M1 & M2). rewrite b10_pow, b10_int by assumption.
  assert (0 < IZR (10 ^ k))%R as P by (apply IZR_lt, Z.pow_pos_nonneg; lia).
  split; [apply Rmult_le_pos; [now apply IZR_le|left; now apply Rinv_0_lt_compat]|].
  apply (Rmult_lt_reg_r (IZR (10 ^ k))); [exact P|]. unfold Rdiv. rewrite Rmult_assoc, Rinv_l, Rmult_1_l, Rmult_1_r by lra. now apply IZR_lt.
Qed.
Lemma back_last fr m k : fraction fr m k -> tidy_back fr -> 0 < k -> m mod 10 <> 0.
Proof.
  intros [|d m' D] T K; [lia|]. destruct T as [T|(d' & [= <-] & N0 & T)]; [discriminate|].
  destruct D as [|s n c D H]; [now destruct N0|]. intros Q. apply (T s). do 2 f_equal. apply byte_inj. change (byte "0") with 48.
  replace (10 * n + (byte c - 48)) with (byte c - 48 + n * 10) in Q by lia. rewrite Z.mod_add, Z.mod_small in Q by lia. lia.
Qed.
Lemma back_unique fr m k fr' m' k' : fraction fr m k -> fraction fr' m' k' -> tidy_back fr -> tidy_back fr' ->
  (IZR m / powerRZ 10 k = IZR m' / powerRZ 10 k')%R -> fr = fr'.
Proof.
  assert (forall fr m k fr' m' k', fraction fr m k -> fraction fr' m' k' -> tidy_back fr' ->
    (IZR m / powerRZ 10 k = IZR m' / powerRZ 10 k')%R -> k' <= k) as Le.
  { clear. intros fr m k fr' m' k' F F' T E. destruct (Z_le_gt_dec k' k) as [|G]; [assumption|exfalso].
    destruct (fraction_range _ _ _ F) as (K & _). destruct (fraction_range _ _ _ F') as (K' & _).
    apply (back_last fr' m' k' F' T ltac:(lia)). assert (m' = m * 10 ^ (k' - k)) as ->.
    { apply eq_IZR. rewrite mult_IZR. rewrite <- b10_int by lia. rewrite !b10_pow in E. unfold Rdiv in E. rewrite <- !bpow_opp in E.
      replace (k' - k) with (k' + - k) by lia. rewrite bpow_plus. replace (IZR m * (bpow radix10 k' * bpow radix10 (- k)))%R with (IZR m * bpow radix10 (- k) * bpow radix10 k')%R by ring.
      rewrite E, Rmult_assoc, <- bpow_plus. replace (- k' + k') with 0 by lia. cbn [bpow]. ring. }
    replace (10 ^ (k' - k)) with (10 ^ (k' - k - 1) * 10); [rewrite Z.mul_assoc; apply Z.mod_mul; lia|].
    rewrite Z.mul_comm, <- Z.pow_succ_r by lia. f_equal. lia. }
  intros F F' T T' E. pose proof (Le _ _ _ _ _ _ F F' T' E) as L1. pose proof (Le _ _ _ _ _ _ F' F T (eq_sym E)) as L2.
  assert (k' = k) as -> by lia. assert (m' = m) as ->.
  { apply eq_IZR. rewrite b10_pow in E. pose proof (bpow_gt_0 radix10 k). unfold Rdiv in E. apply Rmult_eq_reg_r in E; [easy|]. apply Rinv_neq_0_compat. lra. }
  destruct F as [|d m D].
  - inversion F' as [|d' m'' D' E1 E2 E3]; [reflexivity|]. exfalso. destruct T' as [T'|(d'' & E' & N0 & _)]; [subst; discriminate|].
    rewrite <- E1 in E'. injection E' as ->. destruct d''; [now apply N0|cbn [String.length] in E3; lia].
  - inversion F' as [E1 E2 E3|d' m'' D' E1 E2 E3].
    + exfalso. destruct T as [T|(d'' & E' & N0 & _)]; [discriminate|]. injection E' as ->. destruct d''; [now apply N0|cbn [String.length] in E3; lia].
    + subst. f_equal. apply (digits_same d m d' D D'). lia.
Qed.

Lemma point_unique n m k n' m' k' fr fr' : fraction fr m k -> fraction fr' m' k' ->
  (IZR n + IZR m / powerRZ 10 k = IZR n' + IZR m' / powerRZ 10 k')%R ->
  n = n' /\ (IZR m / powerRZ 10 k = IZR m' / powerRZ 10 k')%R.
Proof.
  intros F F' E. pose proof (fraction_unit _ _ _ F) as U. pose proof (fraction_unit _ _ _ F') as U'.
  assert (n = n') as <-; [|split; [reflexivity|lra]].
  assert (n < n' + 1) by (apply lt_IZR; rewrite plus_IZR; lra). assert (n' < n + 1) by (apply lt_IZR; rewrite plus_IZR; lra). lia.
Qed.
Theorem plain_unique t t' r : plain_text t r -> plain_text t' r -> t = t'.
Proof.
  intros (ip & n & fr & m & k & -> & D & T & F & Tb & E) (ip' & n' & fr' & m' & k' & -> & D' & T' & F' & Tb' & E').
  rewrite E in E'. destruct (point_unique _ _ _ _ _ _ _ _ F F' E') as [<- Ef]. f_equal; [now apply (front_unique ip ip' n)|].
  now apply (back_unique fr m k fr' m' k').
Qed.
Lemma power_range c fr m k E : 49 <= byte c <= 57 -> fraction fr m k ->
  (powerRZ 10 E <= (IZR (byte c - 48) + IZR m / powerRZ 10 k) * powerRZ 10 E < powerRZ 10 (E + 1))%R.
Proof.
  intros H F. pose proof (fraction_unit _ _ _ F) as U. rewrite (b10_pow E), (b10_pow (E + 1)), bpow_plus. pose proof (bpow_gt_0 radix10 E) as P.
  change (bpow radix10 1) with 10%R. assert (1 <= IZR (byte c - 48) <= 9)%R by (split; apply IZR_le; lia). nra.
Qed.
Theorem power_unique (tidy : string -> Prop) t t' r :
  (forall s u n, digits s n -> digits u n -> tidy s -> tidy u -> s = u) ->
  power_text tidy t r -> power_text tidy t' r -> t = t'.
Proof.
  intros HT (c & fr & m & k & neg & ed & e & -> & H & F & Tb & D & T & Hn & E)
    (c' & fr' & m' & k' & neg' & ed' & e' & -> & H' & F' & Tb' & D' & T' & Hn' & E').
  pose proof (power_range c fr m k (signed_Z neg e) H F) as Q. pose proof (power_range c' fr' m' k' (signed_Z neg' e') H' F') as Q'.
  rewrite <- E in Q. rewrite <- E' in Q'.
  assert (signed_Z neg e = signed_Z neg' e') as Es.
  { rewrite !b10_pow in Q, Q'. assert (signed_Z neg e < signed_Z neg' e' + 1) by (apply (lt_bpow radix10); lra).
    assert (signed_Z neg' e' < signed_Z neg e + 1) by (apply (lt_bpow radix10); lra). lia. }
  rewrite E, <- Es in E'. rewrite (b10_pow (signed_Z neg e)) in E'. apply Rmult_eq_reg_r in E'; [|pose proof (bpow_gt_0 radix10 (signed_Z neg e)); lra].
  destruct (point_unique _ _ _ _ _ _ _ _ F F' E') as [Ec Ef]. assert (c = c') as <- by (apply byte_inj; lia).
  rewrite (back_unique fr m k fr' m' k' F F' Tb Tb' Ef).
  pose proof (digits_bounds _ _ D) as [P _]. pose proof (digits_bounds _ _ D') as [P' _].
  assert (neg = neg' /\ e = e') as [<- <-].
  { destruct neg, neg'; unfold signed_Z in Es; try specialize (Hn eq_refl); try specialize (Hn' eq_refl); split; try reflexivity; lia. }
  now rewrite (HT ed ed' e D D' T T').
Qed.
Theorem v_text_unique t t' r : v_text t r -> v_text t' r -> t = t'.
Proof.
  unfold v_text. destruct (Rlt_dec r (powerRZ 10 (-4))); [|destruct (Rlt_dec r (powerRZ 10 6))];
    [apply power_unique, two_unique|apply plain_unique|apply power_unique, two_unique].
Qed.
Theorem json_text_unique v t t' r : json_text v t r -> json_text v t' r -> t = t'.
Proof.
  unfold json_text. destruct (Rlt_dec v (nearest (powerRZ 10 (-6)))); [|destruct (Rlt_dec v (powerRZ 10 21))];
    [apply power_unique, front_unique|apply plain_unique|apply power_unique, front_unique].
Qed.
