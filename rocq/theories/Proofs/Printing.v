(** Text of integers and floats, and of order books. *)
From Coq Require Import Reals Lra Lia NArith.
From Flocq Require Import Core BinarySingleNaN.
From Verif Require Import Go.Outcome Go.Int64 Go.Slice Go.Float64 Go.FloatOrder Go.FloatReal Go.Text Go.Num Proofs.DecNum Proofs.Lex Proofs.RoundTrip
  Model.Asset Model.Pair Model.Candle Model.CandleFile Model.OrderBook Model.Entities Model.Strings
  Spec.FileSpec Spec.PrintSpec Proofs.FileText.
Open Scope string_scope.
Open Scope list_scope.
Open Scope Z_scope.

Lemma read_digits_val s acc : all_digits s = true -> read_digits (Z.of_N acc) s = Some (Z.of_N (digits_val s acc)).
Proof.
  revert acc. induction s as [|c r IH]; intros acc H; cbn [read_digits digits_val all_digits] in *; [reflexivity|].
  apply andb_true_iff in H as [Hc Hr]. unfold is_digit in Hc. apply andb_true_iff in Hc as [H1 H2].
  apply N.leb_le in H1, H2. unfold digit_val.
  destruct (Z.leb_spec 0 (Z.of_N (N_of_ascii c) - 48)); [|lia].
  destruct (Z.leb_spec (Z.of_N (N_of_ascii c) - 48) 9); [|lia]. cbn [andb].
  rewrite <- IH by assumption. f_equal. lia.
Qed.

Lemma digits_val_lt s acc : all_digits s = true -> (digits_val s acc < (acc + 1) * 10 ^ N.of_nat (String.length s))%N.
Proof.
  revert acc. induction s as [|c r IH]; intros acc H; cbn [digits_val all_digits String.length] in *; [simpl; lia|].
  apply andb_true_iff in H as [Hc Hr]. unfold is_digit in Hc. apply andb_true_iff in Hc as [H1 H2].
  apply N.leb_le in H1, H2. specialize (IH (10 * acc + digit_val c)%N Hr). unfold digit_val in *.
  rewrite Nat2N.inj_succ, N.pow_succ_r'. nia.
Qed.

Lemma dec_no_lead n : no_lead (dec n).
Proof.
  destruct (N.eq_dec n 0) as [->|Hn]; [left; reflexivity|]. right. split; [apply dec_nonempty|].
  intros r E. pose proof (dec_digits n) as D. pose proof (dec_val n 0) as V. pose proof (dec_len n) as L. rewrite E in *.
  pose proof (num_digits_lower n ltac:(lia)) as Lo. simpl in L, D.
  cbn [digits_val] in V. change (10 * 0 + digit_val "0")%N with 0%N in V.
  pose proof (digits_val_lt r 0 D) as Lt. rewrite V in Lt. rewrite <- L in Lo.
  replace (S (String.length r) - 1)%nat with (String.length r) in Lo by lia. lia.
Qed.

Lemma fmt_int_text z : int_text z (fmt_int z).
Proof.
  exists (dec (Z.abs_N z)). unfold fmt_int. split; [destruct (z <? 0); reflexivity|].
  split; [apply dec_no_lead|].
  rewrite (read_digits_val _ 0%N) by apply dec_digits. rewrite dec_val. f_equal. lia.
Qed.

Lemma sapp_nil_r' s : (s ++ "")%string = s. Proof. apply sapp_nil_r. Qed.

(** %.kf *)
Lemma nearestE_tie x : (Rabs (x - IZR (ZnearestE x)) = / 2)%R -> Z.even (ZnearestE x) = true.
Proof.
  intros H.
  assert (x - IZR (Zfloor x) = / 2)%R as E.
  { unfold Znearest in H. pose proof (Zfloor_lb x). pose proof (Zfloor_ub x).
    destruct (Rcompare_spec (x - IZR (Zfloor x)) (/ 2)) as [C|C|C]; [| exact C|].
    - rewrite Rabs_pos_eq in H by lra. lra.
    - rewrite Zceil_floor_neq in H by lra. rewrite plus_IZR in H. rewrite Rabs_left1 in H by lra. lra. }
  unfold Znearest. rewrite Rcompare_Eq by exact E. cbv beta.
  destruct (Z.even (Zfloor x)) eqn:F; cbn [negb]; [exact F|].
  rewrite Zceil_floor_neq by lra. now rewrite Z.even_add, F.
Qed.

Lemma sprintf_f_text k x : decimal_text (S k) x (sprintf_f (S k) x).
Proof.
  assert (K : (0 < 10 ^ Z.of_nat (S k))%Z) by (apply Z.pow_pos_nonneg; lia).
  assert (KR : (0 < IZR (10 ^ Z.of_nat (S k)))%R) by (now apply (IZR_lt 0)).
  assert (KN : Z.of_N (10 ^ N.of_nat (S k)) = 10 ^ Z.of_nat (S k)) by (rewrite N2Z.inj_pow, nat_N_Z; reflexivity).
  assert (forall (s : bool) (n : N) r, s = Bsign x -> (Rabs (IZR (Z.of_N n) / IZR (10 ^ Z.of_nat (S k)) - r) <= / 2 / IZR (10 ^ Z.of_nat (S k)))%R ->
    (Rabs (IZR (Z.of_N n) / IZR (10 ^ Z.of_nat (S k)) - r) = / 2 / IZR (10 ^ Z.of_nat (S k)) -> Z.even (Z.of_N n) = true)%R ->
    r = Rabs (B2R x) ->
    exists ip fp m, (sign_str s ++ dec (n / 10 ^ N.of_nat (S k)) ++ "." ++ fixdig (S k) (n mod 10 ^ N.of_nat (S k)))%string
       = ((if Bsign x then "-" else "") ++ ip ++ "." ++ fp)%string /\
      String.length fp = S k /\ no_lead ip /\ read_digits 0 (ip ++ fp) = Some m /\
      (Rabs (IZR m / IZR (10 ^ Z.of_nat (S k)) - Rabs (B2R x)) <= / 2 / IZR (10 ^ Z.of_nat (S k)))%R /\
      (Rabs (IZR m / IZR (10 ^ Z.of_nat (S k)) - Rabs (B2R x)) = / 2 / IZR (10 ^ Z.of_nat (S k)) -> Z.even m = true)%R) as Main.
  { intros s n r Hs Hr Hv ->. exists (dec (n / 10 ^ N.of_nat (S k))), (fixdig (S k) (n mod 10 ^ N.of_nat (S k))), (Z.of_N n).
    split; [rewrite <- Hs; reflexivity|]. split; [apply fixdig_len|]. split; [apply dec_no_lead|].
    split; [|split; [exact Hr|exact Hv]].
    rewrite (read_digits_val _ 0%N) by (rewrite all_digits_app, dec_digits, fixdig_digits; reflexivity).
    f_equal. f_equal. rewrite digits_val_app, dec_val, fixdig_val, N.mod_mod by (apply N.pow_nonzero; lia).
    rewrite N.mul_0_l, N.add_0_l, N.mul_comm. symmetry. apply N.div_mod. apply N.pow_nonzero. lia. }
  destruct x as [s|[|]| |s m e B]; try reflexivity.
  - apply (Main s 0%N 0%R); [reflexivity| |reflexivity|simpl; now rewrite Rabs_R0].
    simpl (Z.of_N 0). unfold Rdiv at 1. rewrite Rmult_0_l, Rminus_0_r, Rabs_R0.
    apply Rlt_le, Rdiv_lt_0_compat; lra.
  - set (r := (IZR (Z.pos m) * bpow radix2 e)%R).
    assert (Z.of_N (round_ratio (pow2_num m e * 10 ^ N.of_nat (S k)) (pow2_den e)) = ZnearestE (r * IZR (10 ^ Z.of_nat (S k)))) as Q.
    { rewrite round_ratio_spec by apply pow2_den_pos.
      rewrite N2Z.inj_mul, mult_IZR, KN. set (K10 := IZR (10 ^ Z.of_nat (S k))) in *. f_equal.
      unfold r. rewrite <- pow2_value. field. apply not_0_IZR. pose proof (pow2_den_pos e). lia. }
    assert (Rabs (IZR (Z.of_N (round_ratio (pow2_num m e * 10 ^ N.of_nat (S k)) (pow2_den e))) / IZR (10 ^ Z.of_nat (S k)) - r)
            = Rabs (r * IZR (10 ^ Z.of_nat (S k)) - IZR (ZnearestE (r * IZR (10 ^ Z.of_nat (S k))))) / IZR (10 ^ Z.of_nat (S k)))%R as D.
    { rewrite Q. set (K10 := IZR (10 ^ Z.of_nat (S k))) in *.
      replace (IZR (ZnearestE (r * K10)) / K10 - r)%R with ((IZR (ZnearestE (r * K10)) - r * K10) / K10)%R by (field; lra).
      unfold Rdiv. rewrite Rabs_mult, (Rabs_right (/ K10)) by (apply Rle_ge, Rlt_le, Rinv_0_lt_compat; lra).
      now rewrite Rabs_minus_sym. }
    apply (Main s (round_ratio (pow2_num m e * 10 ^ N.of_nat (S k)) (pow2_den e)) r); [reflexivity| | |].
    + rewrite D. unfold Rdiv. apply Rmult_le_compat_r; [apply Rlt_le, Rinv_0_lt_compat; lra|].
      apply (Znearest_half (fun x => negb (Z.even x))).
    + rewrite D. intros H. rewrite Q. apply nearestE_tie.
      apply (Rmult_eq_reg_r (/ IZR (10 ^ Z.of_nat (S k)))); [exact H|]. apply Rgt_not_eq, Rinv_0_lt_compat. lra.
    + rewrite B2R_finite_signed. assert (0 <= r)%R by (apply Rmult_le_pos; [apply (IZR_le 0); lia|apply bpow_ge_0]).
      unfold signed. destruct s; [rewrite Rabs_Ropp|]; fold r; rewrite Rabs_right; lra.
Qed.

(** The text is determined by [decimal_text]. *)
Lemma read_digits_inv s : forall acc n, read_digits acc s = Some n ->
  exists v, 0 <= v < 10 ^ Z.of_nat (String.length s) /\ n = acc * 10 ^ Z.of_nat (String.length s) + v.
Proof.
  induction s as [|c r IH]; intros acc n H.
  - cbn [read_digits] in H. injection H as <-. exists 0. cbn [String.length]. change (10 ^ Z.of_nat 0) with 1. split; lia.
  - cbn [read_digits] in H. destruct ((0 <=? Z.of_N (N_of_ascii c) - 48) && (Z.of_N (N_of_ascii c) - 48 <=? 9)) eqn:E; [|discriminate H].
    apply andb_true_iff in E as [E1 E2]. apply Z.leb_le in E1, E2.
    destruct (IH _ _ H) as [v [B V]]. cbn [String.length]. rewrite Nat2Z.inj_succ, Z.pow_succ_r by lia.
    exists ((Z.of_N (N_of_ascii c) - 48) * 10 ^ Z.of_nat (String.length r) + v). split; [nia|]. rewrite V. lia.
Qed.

Lemma read_digits_inj s : forall t a b n, String.length s = String.length t ->
  read_digits a s = Some n -> read_digits b t = Some n -> s = t /\ a = b.
Proof.
  induction s as [|c s IH]; intros [|c' t] a b n L Hs Ht; cbn [String.length] in L; try discriminate L.
  - cbn [read_digits] in *. split; congruence.
  - cbn [read_digits] in Hs, Ht. set (d := Z.of_N (N_of_ascii c) - 48) in *. set (d' := Z.of_N (N_of_ascii c') - 48) in *.
    destruct ((0 <=? d) && (d <=? 9)) eqn:E; [|discriminate Hs]. destruct ((0 <=? d') && (d' <=? 9)) eqn:E'; [|discriminate Ht].
    apply andb_true_iff in E as [E1 E2]. apply andb_true_iff in E' as [E1' E2'].
    apply Z.leb_le in E1, E2, E1', E2'.
    destruct (IH t _ _ n ltac:(congruence) Hs Ht) as [-> Q].
    assert (d = d') as D by lia. split; [|lia].
    f_equal. rewrite <- (ascii_N_embedding c), <- (ascii_N_embedding c'). f_equal. unfold d, d' in D. lia.
Qed.

Lemma read_digits_app s t a n : read_digits a (s ++ t) = Some n ->
  exists m, read_digits a s = Some m /\ read_digits m t = Some n.
Proof.
  revert a. induction s as [|c s IH]; intros a H; cbn [String.append read_digits] in *; [eauto|].
  destruct ((0 <=? Z.of_N (N_of_ascii c) - 48) && (Z.of_N (N_of_ascii c) - 48 <=? 9)); [|discriminate H]. now apply IH.
Qed.

Lemma no_lead_len s n : no_lead s -> read_digits 0 s = Some n ->
  s = "0" /\ n = 0 \/ (0 < String.length s)%nat /\ 10 ^ (Z.of_nat (String.length s) - 1) <= n < 10 ^ Z.of_nat (String.length s).
Proof.
  intros [->|[N L]] R.
  - left. split; [reflexivity|]. cbn in R. congruence.
  - right. destruct s as [|c s]; [congruence|]. split; [cbn [String.length]; lia|].
    cbn [read_digits] in R. destruct ((0 <=? Z.of_N (N_of_ascii c) - 48) && (Z.of_N (N_of_ascii c) - 48 <=? 9)) eqn:E; [|discriminate R].
    apply andb_true_iff in E as [E1 E2]. apply Z.leb_le in E1, E2.
    destruct (read_digits_inv _ _ _ R) as [v [B V]]. cbn [String.length].
    assert (Z.of_N (N_of_ascii c) - 48 <> 0) as NZ.
    { intros Z0. apply (L s). f_equal. rewrite <- (ascii_N_embedding c). replace (N_of_ascii c) with 48%N by lia. reflexivity. }
    replace (Z.of_nat (S (String.length s)) - 1) with (Z.of_nat (String.length s)) by lia.
    rewrite Nat2Z.inj_succ, Z.pow_succ_r by lia. nia.
Qed.

Lemma no_lead_inj s t n : no_lead s -> no_lead t -> read_digits 0 s = Some n -> read_digits 0 t = Some n -> s = t.
Proof.
  intros Ls Lt Rs Rt. destruct (no_lead_len _ _ Ls Rs) as [[-> ->]|[Ps Bs]], (no_lead_len _ _ Lt Rt) as [[-> Z0]|[Pt Bt]].
  - reflexivity.
  - exfalso. assert (0 < 10 ^ (Z.of_nat (String.length t) - 1)) by (apply Z.pow_pos_nonneg; lia). lia.
  - exfalso. subst n. assert (0 < 10 ^ (Z.of_nat (String.length s) - 1)) by (apply Z.pow_pos_nonneg; lia). lia.
  - apply (read_digits_inj s t 0 0 n); [|assumption|assumption].
    assert (Z.of_nat (String.length s) - 1 < Z.of_nat (String.length t)) by (apply (Z.pow_lt_mono_r_iff 10); lia).
    assert (Z.of_nat (String.length t) - 1 < Z.of_nat (String.length s)) by (apply (Z.pow_lt_mono_r_iff 10); lia). lia.
Qed.

Lemma nearest_unique K r a b : (0 < K)%R ->
  (Rabs (IZR a / K - r) <= / 2 / K)%R -> (Rabs (IZR a / K - r) = / 2 / K -> Z.even a = true)%R ->
  (Rabs (IZR b / K - r) <= / 2 / K)%R -> (Rabs (IZR b / K - r) = / 2 / K -> Z.even b = true)%R -> a = b.
Proof.
  intros HK.
  assert (forall z, Rabs (IZR z / K - r) = Rabs (IZR z - r * K) / K)%R as S.
  { intros z. replace (IZR z / K - r)%R with ((IZR z - r * K) / K)%R by (field; lra).
    unfold Rdiv. rewrite Rabs_mult, (Rabs_right (/ K)) by (apply Rle_ge, Rlt_le, Rinv_0_lt_compat; lra). reflexivity. }
  assert (0 < / K)%R as IK by (apply Rinv_0_lt_compat; lra).
  assert (forall z, Rabs (IZR z / K - r) <= / 2 / K -> Rabs (IZR z - r * K) <= / 2)%R as Q1.
  { intros z H. rewrite S in H. apply (Rmult_le_reg_r (/ K)); assumption. }
  assert (forall z, Rabs (IZR z - r * K) = / 2 -> Rabs (IZR z / K - r) = / 2 / K)%R as Q2.
  { intros z H. rewrite S, H. reflexivity. }
  assert (forall a b, (a < b)%Z -> Rabs (IZR a / K - r) <= / 2 / K -> Rabs (IZR b / K - r) <= / 2 / K ->
    (Rabs (IZR a / K - r) = / 2 / K -> Z.even a = true) -> (Rabs (IZR b / K - r) = / 2 / K -> Z.even b = true) -> False)%R as Main.
  { clear a b. intros a b L Ha Hb Ea Eb. apply Q1 in Ha, Hb. apply Rabs_le_inv in Ha, Hb.
    assert (b = a + 1)%Z as ->.
    { apply Z.le_antisymm; [|lia]. apply le_IZR. rewrite plus_IZR. apply Rnot_lt_le. intros X.
      lra. }
    rewrite plus_IZR in Hb.
    assert (Z.even a = true) as E1 by (apply Ea, Q2; rewrite Rabs_left1; lra).
    assert (Z.even (a + 1) = true) as E2 by (apply Eb, Q2; rewrite plus_IZR, Rabs_pos_eq; lra).
    rewrite Z.even_add, E1 in E2. discriminate E2. }
  intros Ha Ea Hb Eb. destruct (Z.lt_trichotomy a b) as [L|[E|L]]; [|exact E|]; exfalso; eauto.
Qed.

Lemma decimal_text_unique k x s t : decimal_text k x s -> decimal_text k x t -> s = t.
Proof.
  assert (K : (0 < 10 ^ Z.of_nat k)%Z) by (apply Z.pow_pos_nonneg; lia).
  assert (KR : (0 < IZR (10 ^ Z.of_nat k))%R) by (now apply (IZR_lt 0)).
  assert (forall r (sg : string) ip fp n ip' fp' n',
    String.length fp = k -> no_lead ip -> read_digits 0 (ip ++ fp) = Some n ->
    (Rabs (IZR n / IZR (10 ^ Z.of_nat k) - r) <= / 2 / IZR (10 ^ Z.of_nat k))%R ->
    (Rabs (IZR n / IZR (10 ^ Z.of_nat k) - r) = / 2 / IZR (10 ^ Z.of_nat k) -> Z.even n = true)%R ->
    String.length fp' = k -> no_lead ip' -> read_digits 0 (ip' ++ fp') = Some n' ->
    (Rabs (IZR n' / IZR (10 ^ Z.of_nat k) - r) <= / 2 / IZR (10 ^ Z.of_nat k))%R ->
    (Rabs (IZR n' / IZR (10 ^ Z.of_nat k) - r) = / 2 / IZR (10 ^ Z.of_nat k) -> Z.even n' = true)%R ->
    (sg ++ ip ++ "." ++ fp)%string = (sg ++ ip' ++ "." ++ fp')%string) as Main.
  { intros r sg ip fp n ip' fp' n' L N R B E L' N' R' B' E'.
    assert (n = n') as <- by (eapply nearest_unique; eassumption).
    destruct (read_digits_app _ _ _ _ R) as [m [Ri Rf]]. destruct (read_digits_app _ _ _ _ R') as [m' [Ri' Rf']].
    destruct (read_digits_inj fp fp' m m' n ltac:(congruence) Rf Rf') as [-> ->].
    now rewrite (no_lead_inj ip ip' m' N N' Ri Ri'). }
  destruct x as [sg|[|]| |sg m e B]; cbn [decimal_text]; try congruence.
  - intros (ip & fp & n & -> & H1 & H2 & H3 & H4 & H5) (ip' & fp' & n' & -> & H1' & H2' & H3' & H4' & H5').
    eapply Main; eassumption.
  - intros (ip & fp & n & -> & H1 & H2 & H3 & H4 & H5) (ip' & fp' & n' & -> & H1' & H2' & H3' & H4' & H5').
    eapply Main; eassumption.
Qed.

(** ** Newlines *)
Lemma newlines_app a b : newlines (a ++ b) = (newlines a + newlines b)%nat.
Proof. induction a as [|c r IH]; cbn [String.append newlines]; [reflexivity|]. rewrite IH. lia. Qed.
Lemma newlines_without s : without newline s <-> newlines s = 0%nat.
Proof.
  induction s as [|c r IH]; cbn [without newlines]; [tauto|]. destruct (Ascii.eqb_spec c newline) as [->|N].
  - split; [intros [H _]; congruence|discriminate].
  - rewrite Nat.add_0_l, <- IH. tauto.
Qed.
Lemma newlines_all s : str_all numchar s = true -> newlines s = 0%nat.
Proof. intros H. apply newlines_without. eapply without_all; [exact H|reflexivity]. Qed.
Lemma fmt_int_newlines z : newlines (fmt_int z) = 0%nat.
Proof. apply newlines_all, fmt_int_chars. Qed.
Lemma fmt_v_newlines x : newlines (fmt_v x) = 0%nat.
Proof. apply newlines_all, fmt_v_chars. Qed.
Lemma numchar_digits s : all_digits s = true -> str_all numchar s = true.
Proof. intros H. now apply plain_numchar, plain_digits. Qed.
Lemma str_all_app p a b : str_all p (a ++ b) = str_all p a && str_all p b.
Proof. induction a as [|c r IH]; cbn [String.append str_all]; [reflexivity|]. rewrite IH. now rewrite andb_assoc. Qed.
Lemma sprintf_f_newlines k x : newlines (sprintf_f k x) = 0%nat.
Proof.
  apply newlines_all.
  assert (forall s n, str_all numchar (sign_str s ++ dec (n / 10 ^ N.of_nat k) ++
    match k with O => "" | S _ => "." ++ fixdig k (n mod 10 ^ N.of_nat k) end) = true) as Main.
  { intros s n. rewrite !str_all_app. rewrite (numchar_digits (dec _)) by apply dec_digits.
    assert (str_all numchar (sign_str s) = true) as -> by (destruct s; reflexivity).
    destruct k as [|k']; [reflexivity|]. rewrite str_all_app, (numchar_digits (fixdig _ _)) by apply fixdig_digits. reflexivity. }
  destruct x as [s|[|]| |s m e B]; try reflexivity; apply Main.
Qed.

(** ** Reading back an order book *)
Lemma run_split a b c c' r r' : str_all numchar a = true -> str_all numchar b = true ->
  numchar c = false -> numchar c' = false ->
  (a ++ String c r)%string = (b ++ String c' r')%string -> a = b /\ c = c' /\ r = r'.
Proof.
  revert b. induction a as [|x a IH]; intros [|y b] Ha Hb Hc Hc' E; cbn [String.append str_all] in *.
  - injection E as -> ->. auto.
  - injection E as -> _. apply andb_true_iff in Hb as [Hb _]. congruence.
  - injection E as -> _. apply andb_true_iff in Ha as [Ha _]. congruence.
  - injection E as -> E. apply andb_true_iff in Ha as [_ Ha]. apply andb_true_iff in Hb as [_ Hb].
    destruct (IH b Ha Hb Hc Hc' E) as (-> & -> & ->). auto.
Qed.
Lemma fmt_v_inj x y : fmt_v x = fmt_v y -> x = y.
Proof. intros H. pose proof (parse_fmt_v x) as P. rewrite H, parse_fmt_v in P. congruence. Qed.
Lemma int_text_inj z z' s : int_text z s -> int_text z' s -> z = z'.
Proof.
  intros (d & E & N & R) (d' & E' & N' & R'). subst s.
  assert (forall w r, no_lead w -> read_digits 0 w = r -> r <> None -> forall u, w <> String "-" u) as NM.
  { intros w r _ H1 H2 u ->. apply H2. rewrite <- H1. reflexivity. }
  assert (Hd : forall u, d <> String "-" u) by (apply (NM d (Some (Z.abs z))); [assumption..|discriminate]).
  assert (Hd' : forall u, d' <> String "-" u) by (apply (NM d' (Some (Z.abs z'))); [assumption..|discriminate]).
  destruct (Z.ltb_spec z 0), (Z.ltb_spec z' 0); cbn [String.append] in E'.
  - injection E' as ->. assert (Z.abs z = Z.abs z') by congruence. lia.
  - now destruct (Hd' d).
  - now destruct (Hd d').
  - subst d'. assert (Z.abs z = Z.abs z') by congruence. lia.
Qed.
Lemma fmt_int_inj z z' : fmt_int z = fmt_int z' -> z = z'.
Proof. intros H. apply (int_text_inj z z' (fmt_int z)); [apply fmt_int_text|rewrite H; apply fmt_int_text]. Qed.

Lemma show_row_eq r : show_row r = ("{" ++ fmt_v (price r) ++ " " ++ fmt_v (volume r) ++ " " ++ fmt_v (accum r) ++ "}")%string.
Proof.
  unfold show_row, show_struct. cbn [spaced]. rewrite !sapp_assoc. cbn [String.append]. now rewrite ?sapp_assoc.
Qed.
Lemma show_row_app r t : (show_row r ++ t)%string =
  String "{" (fmt_v (price r) ++ String " " (fmt_v (volume r) ++ String " " (fmt_v (accum r) ++ String "}" t)))%string.
Proof. rewrite show_row_eq. cbn [String.append]. rewrite !sapp_assoc. cbn [String.append]. rewrite !sapp_assoc. cbn [String.append]. now rewrite ?sapp_assoc. Qed.
Lemma show_row_inj r r' t t' : (show_row r ++ t)%string = (show_row r' ++ t')%string -> r = r' /\ t = t'.
Proof.
  rewrite !show_row_app. intros H. injection H as H.
  apply run_split in H as (P & _ & H); [|apply fmt_v_chars|apply fmt_v_chars|reflexivity..].
  apply run_split in H as (V & _ & H); [|apply fmt_v_chars|apply fmt_v_chars|reflexivity..].
  apply run_split in H as (A & _ & H); [|apply fmt_v_chars|apply fmt_v_chars|reflexivity..].
  apply fmt_v_inj in P, V, A. destruct r as [p v a], r' as [p' v' a']. cbn [OrderBook.price OrderBook.volume accum] in *. subst. auto.
Qed.
Lemma rows_inj l l' r r' :
  (spaced (map show_row l) ++ String "]" r)%string = (spaced (map show_row l') ++ String "]" r')%string -> l = l' /\ r = r'.
Proof.
  revert l'. induction l as [|x l IH]; intros [|y l'] H; cbn [map spaced] in H.
  - injection H as H. auto.
  - exfalso. destruct (map show_row l'); cbn [String.append] in H; rewrite ?sapp_assoc, show_row_app in H; discriminate.
  - exfalso. destruct (map show_row l); cbn [String.append] in H; rewrite ?sapp_assoc, show_row_app in H; discriminate.
  - destruct l as [|x2 l], l' as [|y2 l']; cbn [map] in H.
    + apply show_row_inj in H as [-> H]. injection H as ->. auto.
    + rewrite sapp_assoc in H. apply show_row_inj in H as [-> H]. discriminate.
    + rewrite sapp_assoc in H. apply show_row_inj in H as [-> H]. discriminate.
    + rewrite !sapp_assoc in H. apply show_row_inj in H as [-> H]. cbn [String.append] in H. injection H as H.
      destruct (IH (y2 :: l') H) as [E ->]. split; [congruence|reflexivity].
Qed.
Lemma book_string_eq ob : book_string ob =
  ("Time: " ++ fmt_int (b_time ob) ++ String "," (" Asks: [" ++ spaced (map show_row (asks ob)) ++ String "]" (", Bids: [" ++
    spaced (map show_row (bids ob)) ++ String "]" nl)))%string.
Proof.
  unfold book_string, show_slice. cbn. rewrite !sapp_assoc. reflexivity.
Qed.
Lemma book_string_inj ob ob' : book_string ob = book_string ob' ->
  b_time ob = b_time ob' /\ asks ob = asks ob' /\ bids ob = bids ob'.
Proof.
  rewrite !book_string_eq. intros H. cbn [String.append] in H. injection H as H.
  apply run_split in H as (T & _ & H); [|apply fmt_int_chars|apply fmt_int_chars|reflexivity..].
  injection H as H. apply rows_inj in H as [A H]. injection H as H. apply rows_inj in H as [B _].
  apply fmt_int_inj in T. auto.
Qed.

(** ** Print *)
Lemma row_line_show r : row_line r (show_row r).
Proof.
  exists (fmt_v (price r)), (fmt_v (volume r)), (fmt_v (accum r)). rewrite show_row_eq. split; [reflexivity|].
  assert (forall x, without " " (fmt_v x)) by (intros x; eapply without_all; [apply fmt_v_chars|reflexivity]).
  repeat split; auto using parse_fmt_v.
Qed.
Lemma print_asks_eq l i k : (i + k = List.length l)%nat ->
  print_asks l (zlen l) (Z.of_nat i) k = Ret (text_of (map show_row (rev (firstn k l))) "").
Proof.
  revert i. induction k as [|k IH]; intros i H; cbn [print_asks]; [reflexivity|].
  destruct (nth_error l k) as [r|] eqn:E; [|apply nth_error_None in E; lia].
  replace (zlen l - 1 - Z.of_nat i) with (Z.of_nat k) by (unfold zlen; lia).
  rewrite (index_of_nat _ _ _ E), bind_ret. replace (Z.of_nat i + 1) with (Z.of_nat (S i)) by lia.
  rewrite IH by lia. rewrite bind_ret.
  assert (firstn (S k) l = firstn k l ++ [r]) as ->.
  { clear -E. revert k E. induction l as [|x l IH]; intros [|k] E; cbn in E |- *; try congruence. f_equal. now apply IH. }
  rewrite rev_app_distr. cbn [rev app map text_of]. unfold println. rewrite sapp_assoc. reflexivity.
Qed.
Lemma print_bids_eq l t : (print_bids l ++ t)%string = text_of (map show_row l) t.
Proof.
  induction l as [|r l IH]; cbn [print_bids map text_of]; [reflexivity|]. unfold println. rewrite !sapp_assoc, IH. reflexivity.
Qed.
Lemma text_of_app l1 l2 t : text_of (l1 ++ l2) t = (text_of l1 "" ++ text_of l2 t)%string.
Proof. induction l1 as [|x l IH]; cbn [app text_of]; [reflexivity|]. rewrite IH, sapp_assoc. reflexivity. Qed.
Lemma book_print_eq ob : book_print ob = Ret (text_of
  (["======= OrderBook ======="] ++ map show_row (rev (asks ob)) ++ ["-------------------------"] ++ map show_row (bids ob)) "").
Proof.
  unfold book_print. pose proof (print_asks_eq (asks ob) 0 (List.length (asks ob)) eq_refl) as H.
  change (Z.of_nat 0) with 0 in H. rewrite H, bind_ret, firstn_all. f_equal.
  rewrite !text_of_app. rewrite <- (print_bids_eq (bids ob)), sapp_nil_r. unfold println. cbn [text_of]. rewrite ?sapp_assoc. reflexivity.
Qed.

(** The IDs of a position's whole history. *)
Lemma pos_substract_id p t : ps_id (fst (@pos_substract f64 f64_num p t)) = ps_id p.
Proof.
  unfold pos_substract. destruct (_ && _); [reflexivity|]. destruct (fle _ _); reflexivity.
Qed.
Lemma modify_id p t : ps_id (fst (@modify f64 f64_num p t)) = ps_id p.
Proof.
  unfold modify. destruct (negb (pair_eqb (ps_pair p) (t_pair t))); [reflexivity|].
  repeat match goal with |- context [if ?b then _ else _] => destruct b end;
    cbn [fst]; try reflexivity; try apply pos_substract_id.
Qed.
Lemma modify_all_id ts p : ps_id (@modify_all f64 f64_num p ts) = ps_id p.
Proof.
  revert p. induction ts as [|t ts IH]; intros p; cbn [modify_all]; [reflexivity|]. rewrite IH. apply modify_id.
Qed.
