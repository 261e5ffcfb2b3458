(** Decimal texts are read as the nearest machine number (C91). *)
From Coq Require Import ZArith NArith Lia Lra Bool Reals List String Ascii.
From Flocq Require Import Core BinarySingleNaN.
From Verif Require Import Go.Outcome Go.Int64 Go.Float64 Go.FloatOrder Go.FloatReal Go.FloatError Go.FloatScale Go.Text Go.Num Proofs.DecNum Proofs.Lex Spec.DecimalSpec.
Open Scope string_scope.
Open Scope Z_scope.

(** *** Digits *)
Lemma digit_byte c : 48 <= byte c <= 57 -> is_digit c = true /\ Z.of_N (digit_val c) = byte c - 48.
Proof.
  unfold byte, is_digit, digit_val. intros H. split; [|lia].
  apply andb_true_iff. split; apply N.leb_le; lia.
Qed.
Lemma digits_model s n : digits s n -> all_digits s = true /\ Z.of_N (digits_val s 0) = n.
Proof.
  induction 1 as [|s n c _ [IH1 IH2] Hc]; [split; reflexivity|]. destruct (digit_byte c Hc) as [D1 D2].
  rewrite all_digits_app, IH1, digits_val_app. cbn [all_digits digits_val]. rewrite D1. split; [reflexivity|]. lia.
Qed.
Lemma digits_val_acc s acc : (digits_val s acc = acc * 10 ^ N.of_nat (String.length s) + digits_val s 0)%N.
Proof.
  revert acc. induction s as [|c r IH]; intros acc; cbn [digits_val String.length].
  - simpl. lia.
  - rewrite IH, (IH (10 * 0 + digit_val c)%N). rewrite Nat2N.inj_succ, N.pow_succ_r'. ring.
Qed.
Lemma digits_val_bound s : all_digits s = true -> (digits_val s 0 < 10 ^ N.of_nat (String.length s))%N.
Proof.
  induction s as [|c r IH]; intros H; cbn [digits_val String.length]; [simpl; lia|].
  cbn [all_digits] in H. apply andb_true_iff in H as [H1 H2]. specialize (IH H2).
  rewrite digits_val_acc. rewrite Nat2N.inj_succ, N.pow_succ_r'.
  assert (digit_val c <= 9)%N as D.
  { unfold is_digit in H1. apply andb_true_iff in H1 as [H0 H1]. apply N.leb_le in H0, H1. unfold digit_val. lia. }
  set (P := (10 ^ N.of_nat (String.length r))%N) in *. nia.
Qed.

(** *** ParseFloat of a sign and a decimal without one *)
Definition num_char (c : ascii) : bool :=
  is_digit c || Ascii.eqb c "." || Ascii.eqb c "e" || Ascii.eqb c "E" || Ascii.eqb c "+" || Ascii.eqb c "-".
Lemma num_char_cases c : num_char c = true -> is_digit c = true \/ In c ["."; "e"; "E"; "+"; "-"]%char.
Proof.
  unfold num_char. intros H. repeat (apply orb_true_iff in H as [H|H]); try (apply Ascii.eqb_eq in H; subst); simpl; auto 10.
Qed.
Lemma num_char_not c c' : num_char c = true -> num_char c' = false -> Ascii.eqb c c' = false.
Proof. intros H1 H2. destruct (Ascii.eqb_spec c c'); [congruence|reflexivity]. Qed.
Lemma num_char_lower c c' : num_char c = true -> num_char c' = false -> Ascii.eqb (lower c) c' = false.
Proof.
  intros H1 H2. destruct (num_char_cases c H1) as [D|I].
  - rewrite is_digit_lower by assumption. now apply num_char_not.
  - assert (lower c = c \/ lower c = "e"%char) as [-> | ->].
    { simpl in I. destruct I as [<-|[<-|[<-|[<-|[<-|[]]]]]]; cbv; auto. }
    + now apply num_char_not.
    + destruct (Ascii.eqb_spec "e" c') as [<-|]; [discriminate H2|reflexivity].
Qed.
Lemma strip_us_num t : str_all num_char t = true -> strip_us t = t.
Proof.
  induction t as [|c r IH]; [reflexivity|]. cbn [str_all strip_us]. intros H. apply andb_true_iff in H as [H1 H2].
  rewrite (num_char_not c "_") by auto. now rewrite IH.
Qed.
Lemma us_loop_num h saw t : saw <> 2%nat -> str_all num_char t = true -> us_loop h saw t = true.
Proof.
  revert saw. induction t as [|c r IH]; intros saw Hs; cbn [str_all us_loop]; intros H.
  - now destruct (Nat.eqb_spec saw 2).
  - apply andb_true_iff in H as [H1 H2]. destruct (_ || _); [apply IH; auto; lia|].
    rewrite (num_char_not c "_") by auto. destruct (Nat.eqb_spec saw 2); [congruence|]. apply IH; auto; lia.
Qed.
(** A number starts with a digit or a dot. *)
Definition starts (t : string) : bool :=
  match t with String c _ => is_digit c || Ascii.eqb c "." | EmptyString => false end.
Lemma special_num c r : is_digit c || Ascii.eqb c "." = true -> parse_special (String c r) = None.
Proof.
  intros H. unfold parse_special. cbn [lower_str].
  assert (lower c = c) as -> by (apply orb_true_iff in H as [H|H]; [now apply is_digit_lower|apply Ascii.eqb_eq in H; now subst]).
  rewrite !eqb_head by (intros ->; discriminate). reflexivity.
Qed.
Lemma special_signed sg c r : sg = "+"%char \/ sg = "-"%char -> is_digit c || Ascii.eqb c "." = true -> parse_special (String sg (String c r)) = None.
Proof.
  intros Hs H. unfold parse_special. cbn [lower_str].
  assert (lower c = c) as -> by (apply orb_true_iff in H as [H|H]; [now apply is_digit_lower|apply Ascii.eqb_eq in H; now subst]).
  assert (forall x y, String.eqb (String x (String c (lower_str r))) (String y "inf") = false) as K1.
  { intros x y. cbn [String.eqb]. destruct (Ascii.eqb x y); [|reflexivity]. destruct (Ascii.eqb_spec c "i") as [->|_]; [discriminate H|reflexivity]. }
  assert (forall x y, String.eqb (String x (String c (lower_str r))) (String y "infinity") = false) as K2.
  { intros x y. cbn [String.eqb]. destruct (Ascii.eqb x y); [|reflexivity]. destruct (Ascii.eqb_spec c "i") as [->|_]; [discriminate H|reflexivity]. }
  destruct Hs as [-> | ->]; (change (lower "+") with "+"%char || change (lower "-") with "-"%char);
    rewrite (eqb_head _ _ "n"), (eqb_head _ _ "i"), (eqb_head _ _ "i") by discriminate; rewrite !K1, !K2; reflexivity.
Qed.
Lemma sign_take sg neg t : sign sg neg -> starts t = true -> take_sign (sg ++ t) = (neg, t) /\ parse_special (sg ++ t) = None.
Proof.
  intros S H. destruct t as [|c r]; [discriminate|]. cbn [starts] in H. destruct S; cbn [append].
  - split; [|now apply special_num]. cbn [take_sign]. destruct (Ascii.eqb_spec c "+") as [->|_]; [discriminate|].
    destruct (Ascii.eqb_spec c "-") as [->|_]; [discriminate|reflexivity].
  - split; [reflexivity|]. apply special_signed; auto.
  - split; [reflexivity|]. apply special_signed; auto.
Qed.
Definition finish (x : f64) : f64 + parse_err := match x with B754_infinity _ => inr PRange | _ => inl x end.
Lemma parse_num sg neg t d fr rest e :
  sign sg neg -> starts t = true -> str_all num_char t = true ->
  scan_mant t false false 0%N 0 = (true, d, fr, rest) -> parse_exp rest = Some e ->
  parse_float (sg ++ t) = finish (f64_of_dec neg d (e - fr)).
Proof.
  intros S H1 HP H2 H3. destruct (sign_take sg neg t S H1) as [HT HS]. unfold parse_float. rewrite HS.
  assert (str_all num_char (sg ++ t) = true) as HA by (rewrite str_all_app, HP; destruct S; reflexivity).
  assert (underscore_ok (sg ++ t) = true) as ->.
  { unfold underscore_ok. rewrite HT. destruct t as [|c [|c1 r0]].
    - discriminate H1.
    - now apply us_loop_num.
    - pose proof HP as HP'. cbn [str_all] in HP'. apply andb_true_iff in HP' as [_ HP']. apply andb_true_iff in HP' as [HP1 _].
      rewrite !(num_char_lower c1) by auto. rewrite andb_false_r. now apply us_loop_num. }
  rewrite strip_us_num by assumption. unfold parse_number. rewrite HT.
  assert (parse_decimal neg t = finish (f64_of_dec neg d (e - fr))) as E.
  { unfold parse_decimal. rewrite H2, H3. reflexivity. }
  destruct t as [|c0 [|c1 [|c2 r0]]]; try exact E.
  cbn [str_all] in HP. apply andb_true_iff in HP as [_ HP]. apply andb_true_iff in HP as [HP1 _].
  rewrite (num_char_lower c1) by auto. rewrite andb_false_r. exact E.
Qed.

(** *** Exponents *)
Lemma scan_exp_sat s acc : all_digits s = true ->
  scan_exp s acc = (fst (scan_exp s acc), "") /\
  (((digits_val s acc < 10000)%N /\ fst (scan_exp s acc) = digits_val s acc) \/
   (10000 <= digits_val s acc)%N /\ (10000 <= fst (scan_exp s acc))%N).
Proof.
  revert acc. induction s as [|c r IH]; intros acc H; cbn [all_digits scan_exp digits_val] in *.
  - split; [reflexivity|]. cbn [fst]. destruct (N.lt_ge_cases acc 10000); auto.
  - apply andb_true_iff in H as [H1 H2]. rewrite H1. destruct (N.ltb_spec acc 10000) as [L|L]; [now apply IH|].
    destruct (IH acc H2) as [I1 I2]. split; [exact I1|]. right.
    pose proof (digits_val_mono r (10 * acc + digit_val c)). pose proof (digits_val_mono r acc). split; [lia|].
    destruct I2 as [[I2 _]|[_ I2]]; lia.
Qed.
(** The exponent read: the one written, or one as large. *)
Lemma exponent_read ex e : exponent ex e -> exists e', parse_exp ex = Some e' /\ (e' = e \/ (10000 <= e /\ 10000 <= e') \/ (e <= -10000 /\ e' <= -10000)).
Proof.
  intros H. destruct H as [|c sg neg d e Hc Hs Hd Hn]; [exists 0; split; auto|].
  destruct (digits_model d e Hd) as [D1 D2]. destruct (scan_exp_sat d 0 D1) as [S1 S2].
  set (x := fst (scan_exp d 0)) in *.
  exists (if neg then - Z.of_N x else Z.of_N x). split.
  - unfold parse_exp. replace (Ascii.eqb c "e" || Ascii.eqb c "E") with true by (destruct Hc as [-> | ->]; reflexivity).
    destruct d as [|c0 d]; [congruence|]. assert (is_digit c0 = true) as D0 by (cbn [all_digits] in D1; now apply andb_true_iff in D1).
    destruct Hs; cbn [append].
    + destruct (Ascii.eqb_spec c0 "+") as [->|_]; [discriminate|]. destruct (Ascii.eqb_spec c0 "-") as [->|_]; [discriminate|].
      cbn [starts_digit]. rewrite D0, S1. reflexivity.
    + change (Ascii.eqb "+" "+") with true. cbv iota. cbn [starts_digit]. rewrite D0, S1. reflexivity.
    + change (Ascii.eqb "-" "+") with false. change (Ascii.eqb "-" "-") with true. cbv iota. cbn [starts_digit]. rewrite D0, S1. reflexivity.
  - unfold signed_Z. destruct S2 as [[_ ->]|[S2 S3]]; [left; destruct neg; lia|right]. destruct neg; [right|left]; lia.
Qed.
Lemma exponent_chars ex e : exponent ex e -> str_all num_char ex = true.
Proof.
  intros [|c sg neg d e' Hc Hs Hd Hn]; [reflexivity|]. cbn [str_all]. rewrite str_all_app.
  assert (num_char c = true) as -> by (destruct Hc as [-> | ->]; reflexivity).
  destruct (digits_model d e' Hd) as [D1 _]. rewrite all_digits_str in D1.
  rewrite (str_all_impl is_digit num_char d); [destruct Hs; reflexivity| |assumption]. intros x Hx. unfold num_char. now rewrite Hx.
Qed.
Lemma scan_mant_exp ex e sd sg d fr : exponent ex e -> scan_mant ex sd sg d fr = (sg, d, fr, ex).
Proof. intros [|c s neg x e' Hc Hs Hd Hn]; [reflexivity|]. destruct Hc as [-> | ->]; reflexivity. Qed.

(** *** Very large and very small decimals *)
Lemma pow10_lower k : 0 <= k -> (bpow radix2 (3 * k) <= bpow radix10 k)%R.
Proof.
  intros H. rewrite <- !IZR_Zpower by lia. apply IZR_le. cbn [radix_val radix2 radix10].
  change (Zpower 2 (3 * k)) with (2 ^ (3 * k)). rewrite Z.pow_mul_r by lia. apply Z.pow_le_mono_l. lia.
Qed.
Lemma sat_huge r : (bpow radix10 1000 <= r)%R -> sat (rnd r) = big.
Proof.
  intros H. apply sat_hi. assert (rnd (bpow radix2 1024) = big) as <- by (apply (rnd_pow 1024); lia).
  apply rnd_mono. eapply Rle_trans; [|exact H]. eapply Rle_trans; [|apply pow10_lower; lia]. apply bpow_le. lia.
Qed.
Lemma sat_tiny r : (0 <= r <= bpow radix10 (-1000))%R -> sat (rnd r) = 0%R.
Proof.
  intros H. assert (rnd r = 0%R) as ->; [|apply sat_id; rewrite Rabs_R0; apply Rlt_le, big_pos].
  apply Rle_antisym; [|now apply rnd_nonneg].
  rewrite <- rnd_0. destruct (Req_dec r 0) as [->|N]; [lra|].
  assert (rnd r = 0%R) as ->; [|rewrite rnd_0; lra].
  assert (r <= bpow radix2 (-2000))%R as L.
  { eapply Rle_trans; [apply H|]. rewrite (bpow_opp radix10 1000 : bpow radix10 (-1000) = _).
    eapply Rle_trans; [apply Rinv_le; [apply bpow_gt_0|apply (pow10_lower 1000); lia]|]. rewrite <- bpow_opp. apply bpow_le. lia. }
  unfold rnd. apply round_N_small_pos with (mag radix2 r).
  - destruct (mag radix2 r) as [x Hx]. simpl. specialize (Hx N). rewrite Rabs_pos_eq in Hx by lra. exact Hx.
  - assert (mag radix2 r <= -1999) as M.
    { apply mag_le_bpow; [exact N|]. rewrite Rabs_pos_eq by lra. eapply Rle_lt_trans; [exact L|]. apply bpow_lt. lia. }
    unfold fexp64, FLT_exp. lia.
Qed.

(** The exponent read makes no difference in a short text. *)
Lemma same_dec neg d e e' k : (d < 10 ^ 9000)%N -> 0 <= k < 9000 ->
  (e' = e \/ (10000 <= e /\ 10000 <= e') \/ (e <= -10000 /\ e' <= -10000)) ->
  f64_of_dec neg d (e' - k) = f64_of_dec neg d (e - k).
Proof.
  intros Hd Hk H. destruct H as [-> |H]; [reflexivity|].
  destruct (N.eq_dec d 0) as [->|Nz]; [reflexivity|].
  destruct (f64_of_dec_spec neg d (e' - k)) as (A & B & C). destruct (f64_of_dec_spec neg d (e - k)) as (A' & B' & C').
  apply xr_sign_inj; auto; [|now rewrite B, B']. rewrite C, C'.
  assert (forall x, xr (f64_of_dec neg d x) = sat (rnd (signed neg (decR d x)))) as _ by (intros x; apply f64_of_dec_spec).
  assert (forall x, sat (rnd (signed neg x)) = signed neg (sat (rnd x))) as Sg.
  { intros x. destruct neg; cbn [signed]; [|reflexivity]. rewrite rnd_opp. unfold sat.
    pose proof big_pos. unfold Rmax, Rmin. repeat destruct Rle_dec; lra. }
  rewrite !Sg. f_equal. destruct H as [[H1 H2]|[H1 H2]].
  - assert (forall x, 10000 <= x -> sat (rnd (decR d (x - k))) = big) as K; [|now rewrite !K].
    intros x Hx. apply sat_huge. unfold decR. rewrite <- (Rmult_1_l (bpow radix10 1000)).
    apply Rmult_le_compat; [lra|apply bpow_ge_0|apply (IZR_le 1); lia|apply bpow_le; lia].
  - assert (forall x, x <= -10000 -> sat (rnd (decR d (x - k))) = 0%R) as K; [|now rewrite !K].
    intros x Hx. apply sat_tiny. split; [apply decR_nonneg|]. unfold decR.
    replace (-1000) with (9000 + -10000) by reflexivity. rewrite bpow_plus.
    apply Rmult_le_compat; [apply (IZR_le 0); lia|apply bpow_ge_0| |apply bpow_le; lia].
    rewrite <- IZR_Zpower by lia. apply IZR_le. change (Zpower radix10 9000) with (10 ^ 9000)%Z.
    apply N2Z.inj_lt in Hd. rewrite N2Z.inj_pow in Hd. apply Z.lt_le_incl. exact Hd.
Qed.

(** *** The number read *)
Theorem decimal_read t neg r : short t -> decimal t neg r ->
  exists x : f64, parse_float t = finish x /\ is_nan x = false /\ Bsign x = neg /\ xr x = sat (nearest r).
Proof.
  intros Sh (sg & ip & n & fr & m & k & ex & e & -> & Hs & Hi & Hf & He & Hp & ->).
  destruct (digits_model ip n Hi) as [I1 I2].
  destruct (exponent_read ex e He) as (e' & E1 & E2).
  assert (exists f, all_digits f = true /\ Z.of_N (digits_val f 0) = m /\ k = Z.of_nat (String.length f) /\
     (forall sg0 d, scan_mant (fr ++ ex) false sg0 d 0 = (sg0 || nonempty f, digits_val f d, k, ex)) /\
     str_all num_char fr = true /\ (String.length f <= String.length fr)%nat /\ (ip = "" -> starts (fr ++ ex) = true)) as (f & F1 & F2 & F3 & F4 & F5 & F6 & F7).
  { destruct Hf as [|f m Hf].
    - exists "". split; [reflexivity|]. split; [reflexivity|]. split; [reflexivity|]. split.
      + intros sg0 d. cbn [append digits_val]. rewrite orb_false_r. now apply (scan_mant_exp ex e).
      + split; [reflexivity|]. split; [apply le_n|]. intros ->. destruct Hp as [Hp|Hp]; [congruence|lia].
    - destruct (digits_model f m Hf) as [D1 D2]. exists f. split; [exact D1|]. split; [exact D2|]. split; [reflexivity|]. split; [|split; [|split]].
      + intros sg0 d. change (String "." f ++ ex) with ("." ++ (f ++ ex)). rewrite scan_mant_dot, scan_mant_digits by assumption. now apply (scan_mant_exp ex e).
      + cbn [str_all]. change (num_char ".") with true. rewrite all_digits_str in D1. apply (str_all_impl is_digit); [|assumption].
        intros x Hx. unfold num_char. now rewrite Hx.
      + cbn [String.length]. apply le_S, le_n.
      + intros _. reflexivity. }
  set (D := digits_val f (digits_val ip 0)).
  assert (nonempty ip || nonempty f = true) as NE.
  { destruct Hp as [Hp|Hp]; [now rewrite nonempty_true|]. rewrite (nonempty_true f); [apply orb_true_r|]. intros ->. cbn in F3. lia. }
  assert (parse_float (sg ++ ip ++ fr ++ ex) = finish (f64_of_dec neg D (e' - k))) as P.
  { apply (parse_num sg neg (ip ++ fr ++ ex) D k ex e' Hs).
    - destruct ip as [|c ip]; [now apply F7|]. cbn [append starts]. cbn [all_digits] in I1. apply andb_true_iff in I1 as [-> _]. reflexivity.
    - rewrite !str_all_app, F5, (exponent_chars ex e He). rewrite all_digits_str in I1.
      rewrite (str_all_impl is_digit num_char ip); [reflexivity| |assumption]. intros x Hx. unfold num_char. now rewrite Hx.
    - rewrite scan_mant_digits by assumption. rewrite F4. rewrite orb_false_l, NE. reflexivity.
    - exact E1. }
  assert (D = digits_val (ip ++ f) 0) as ED by (unfold D; now rewrite digits_val_app).
  unfold short in Sh. rewrite !slen_app in Sh.
  rewrite (same_dec neg D e e' k) in P; [| |lia|exact E2].
  2:{ rewrite ED. eapply N.lt_le_trans; [apply digits_val_bound; now rewrite all_digits_app, I1, F1|].
      apply N.pow_le_mono_r; [lia|]. rewrite slen_app. lia. }
  exists (f64_of_dec neg D (e - k)). split; [exact P|]. destruct (f64_of_dec_spec neg D (e - k)) as (A & B & C).
  split; [exact A|]. split; [exact B|]. rewrite C. unfold nearest. change (FLT_exp (-1074) 53) with fexp64. f_equal. unfold rnd. f_equal.
  enough (decR D (e - k) = (IZR n + IZR m / powerRZ 10 k) * powerRZ 10 e)%R as -> by reflexivity.
  unfold decR, D. rewrite digits_val_acc. rewrite N2Z.inj_add, N2Z.inj_mul, N2Z.inj_pow, I2, F2, nat_N_Z, <- F3, plus_IZR, mult_IZR.
  change (Z.of_N 10) with (radix_val radix10). change (Z.pow (radix_val radix10) k) with (Zpower radix10 k). rewrite IZR_Zpower by lia.
  change 10%R with (IZR (radix_val radix10)). rewrite <- !bpow_powerRZ. unfold Zminus. rewrite bpow_plus, bpow_opp.
  pose proof (bpow_gt_0 radix10 k). field. lra.
Qed.
Lemma two1024 : powerRZ 2 1024 = big.
Proof. change 2%R with (IZR (radix_val radix2)). rewrite <- bpow_powerRZ. reflexivity. Qed.
Theorem decimal_in_range t neg r : short t -> decimal t neg r -> in_range r -> exists x, parse_float t = inl x /\ is_nearest x neg r.
Proof.
  intros S D I. destruct (decimal_read t neg r S D) as (x & P & N & Sg & V). unfold in_range in I. rewrite two1024 in I.
  rewrite sat_id in V by lra. assert (is_finite x = true) as F by (apply xr_lt_finite; [assumption|now rewrite V]).
  exists x. split; [rewrite P; destruct x; (reflexivity || discriminate F)|]. split; [exact F|]. split; [exact Sg|]. now rewrite <- xr_finite.
Qed.
Theorem decimal_too_large t neg r : short t -> decimal t neg r -> ~ in_range r -> parse_float t = inr PRange.
Proof.
  intros S D I. destruct (decimal_read t neg r S D) as (x & P & N & Sg & V). unfold in_range in I. rewrite two1024 in I.
  rewrite P. destruct (is_finite x) eqn:F.
  - exfalso. apply I. rewrite xr_finite in V by assumption. pose proof (B2R_lt_big x F) as L. pose proof big_pos.
    rewrite V in L. unfold sat, Rmax, Rmin in L. apply Rabs_def2 in L. apply Rabs_def1; repeat destruct Rle_dec; lra.
  - destruct x; try discriminate. reflexivity.
Qed.
Theorem decimal_same t t' neg r : short t -> short t' -> decimal t neg r -> decimal t' neg r -> parse_float t = parse_float t'.
Proof.
  intros S S' D D'. destruct (decimal_read t neg r S D) as (x & P & N & Sg & V). destruct (decimal_read t' neg r S' D') as (x' & P' & N' & Sg' & V').
  rewrite P, P'. f_equal. apply xr_sign_inj; congruence.
Qed.
Theorem decimal_order t t' neg neg' r r' x x' : short t -> short t' -> decimal t neg r -> decimal t' neg' r' -> (r <= r')%R ->
  parse_float t = inl x -> parse_float t' = inl x' -> (B2R x <= B2R x')%R.
Proof.
  intros S S' D D' L E E'. destruct (decimal_read t neg r S D) as (y & P & N & Sg & V). destruct (decimal_read t' neg' r' S' D') as (y' & P' & N' & Sg' & V').
  assert (y = x /\ is_finite x = true) as [-> F]. { rewrite P in E. destruct y; cbn [finish] in E; try discriminate; injection E as <-; auto. }
  assert (y' = x' /\ is_finite x' = true) as [-> F']. { rewrite P' in E'. destruct y'; cbn [finish] in E'; try discriminate; injection E' as <-; auto. }
  rewrite <- !xr_finite by assumption. rewrite V, V'. apply sat_mono. apply (rnd_mono r r' L).
Qed.
(** No finite machine number is nearer. *)
Theorem nearest_closest x neg r : is_nearest x neg r -> forall y : f64, is_finite y = true -> (Rabs (B2R x - r) <= Rabs (B2R y - r))%R.
Proof.
  intros (_ & _ & ->) y F. unfold nearest.
  pose proof (round_N_pt radix2 (FLT_exp (-1074) 53) (fun x => negb (Z.even x)) r) as [_ H]. apply H.
  exact (generic_format_B2R 53 1024 y).
Qed.

(** *** Whole numbers *)
Theorem integer_read bits t z : 0 < bits -> integer t z ->
  parse_int bits t = if (- 2 ^ (bits - 1) <=? z) && (z <? 2 ^ (bits - 1)) then inl z else inr PRange.
Proof.
  intros Hb (sg & neg & d & n & -> & Hs & Hd & Hn & ->). destruct (digits_model d n Hd) as [D1 D2].
  assert (take_sign (sg ++ d) = (neg, d)) as T.
  { destruct d as [|c d]; [congruence|]. cbn [all_digits] in D1. apply andb_true_iff in D1 as [D0 _].
    apply (sign_take sg neg (String c d) Hs). cbn [starts]. now rewrite D0. }
  unfold parse_int. rewrite T, D1, D2. replace (String.eqb d "") with false by (destruct d; [congruence|reflexivity]). cbn [negb andb].
  assert (0 <= n) by (rewrite <- D2; apply N2Z.is_nonneg). assert (0 < 2 ^ (bits - 1)) by (apply Z.pow_pos_nonneg; lia).
  unfold signed_Z. destruct neg.
  - destruct (Z.leb_spec n (2 ^ (bits - 1))), (Z.leb_spec (- 2 ^ (bits - 1)) (- n)), (Z.ltb_spec (- n) (2 ^ (bits - 1))); cbn [andb]; try lia; reflexivity.
  - destruct (Z.ltb_spec n (2 ^ (bits - 1))), (Z.leb_spec (- 2 ^ (bits - 1)) n); cbn [andb]; try lia; reflexivity.
Qed.

(** *** Exponents of six digits are cut *)
Lemma digits_zeros k : digits (zeros k) 0.
Proof.
  assert (forall k s, zeros k ++ String "0" s = String "0" (zeros k ++ s)) as K.
  { clear. induction k as [|k IH]; intros s; cbn [zeros append]; [reflexivity|now rewrite IH]. }
  induction k as [|k IH]; [constructor|]. cbn [zeros]. pose proof (digits_more (zeros k) 0 "0" IH) as D.
  rewrite K, sapp_nil_r in D. apply D. vm_compute. split; congruence.
Qed.
Definition long_one (k : nat) : string := "0." ++ (zeros k ++ "1") ++ "e100000".
Lemma digits_one_digit c : 48 <= byte c <= 57 -> digits (String c "") (byte c - 48).
Proof. intros H. exact (digits_more "" 0 c digits_none H). Qed.
Lemma long_one_value k : Z.of_nat k = 99999 -> decimal (long_one k) false 1%R.
Proof.
  intros H. exists "", "0", 0, (String "." (zeros k ++ "1")), 1, (Z.of_nat (String.length (zeros k ++ "1"))), "e100000", 100000.
  split; [reflexivity|]. split; [constructor|]. split; [exact (digits_one_digit "0" ltac:(vm_compute; split; congruence))|].
  split; [|split; [|split]].
  - constructor. exact (digits_more (zeros k) 0 "1" (digits_zeros k) ltac:(vm_compute; split; congruence)).
  - apply (exponent_some "e" "" false "100000" 100000); [auto|constructor| |discriminate].
    pose proof (digits_more "" 0 "1" digits_none ltac:(vm_compute; split; congruence)) as D.
    do 5 (pose proof (digits_more _ _ "0" D ltac:(vm_compute; split; congruence)) as D'; clear D; rename D' into D). exact D.
  - left. discriminate.
  - rewrite slen_app, zeros_len. cbn [String.length]. rewrite Nat2Z.inj_add, H. change (99999 + Z.of_nat 1) with 100000. cbn [signed_R].
    assert (powerRZ 10 100000 <> 0)%R by (apply powerRZ_NOR; lra). field. assumption.
Qed.
Lemma long_one_read k : Z.of_nat k = 99999 -> exists x, parse_float (long_one k) = inl x /\ B2R x = 0%R.
Proof.
  intros H.
  assert (parse_float (long_one k) = finish (f64_of_dec false 1 (10000 - 100000))) as P.
  { assert (long_one k = "" ++ ("0." ++ (zeros k ++ "1") ++ "e100000")) as -> by reflexivity.
    assert (all_digits (zeros k ++ "1") = true) as AD by (now rewrite all_digits_app, zeros_digits).
    eapply (parse_num "" false _ 1 100000 "e100000" 10000).
    - constructor.
    - reflexivity.
    - change (str_all num_char ((zeros k ++ "1") ++ "e100000") = true). rewrite str_all_app. apply andb_true_iff. split; [|reflexivity].
      rewrite all_digits_str in AD. apply (str_all_impl is_digit); [|exact AD]. intros x Hx. unfold num_char. now rewrite Hx.
    - change (scan_mant ((zeros k ++ "1") ++ "e100000") true true 0 0 = (true, 1%N, 100000, "e100000")).
      rewrite scan_mant_digits by assumption. rewrite orb_true_l, slen_app, zeros_len, Nat2Z.inj_add, H.
      rewrite digits_val_app, zeros_val, N.mul_0_l. reflexivity.
    - reflexivity. }
  destruct (f64_of_dec_spec false 1 (10000 - 100000)) as (A & B & C).
  assert (xr (f64_of_dec false 1 (10000 - 100000)) = 0%R) as V.
  { rewrite C. cbn [signed]. apply sat_tiny. split; [apply decR_nonneg|]. unfold decR. cbn [Z.of_N]. rewrite Rmult_1_l. apply bpow_le. lia. }
  revert P A V. generalize (f64_of_dec false 1 (10000 - 100000)). intros x P A V.
  assert (is_finite x = true) as F by (apply xr_lt_finite; [assumption|rewrite V, Rabs_R0; apply big_pos]).
  exists x. split; [rewrite P; destruct x; (reflexivity || discriminate F)|]. now rewrite <- xr_finite.
Qed.

(** Numbers up to 2^1023 are in range. *)
Lemma in_range_small r : (Rabs r <= powerRZ 2 1023)%R -> in_range r.
Proof.
  intros H. unfold in_range. rewrite two1024. change 2%R with (IZR (radix_val radix2)) in H. rewrite <- bpow_powerRZ in H.
  change (Rabs (rnd r) < big)%R. assert (rnd (bpow radix2 1023) = bpow radix2 1023) as E by (apply (rnd_pow 1023); lia).
  assert (bpow radix2 1023 < big)%R as L by exact (bpow_lt radix2 1023 1024 ltac:(lia)).
  destruct (Rabs_le_inv _ _ H) as [H1 H2]. apply rnd_mono in H1, H2. rewrite rnd_opp in H1. rewrite E in *. apply Rabs_def1; lra.
Qed.
(** How far the number read may be from the one written. *)
Lemma nearest_error x neg r : is_nearest x neg r -> (Rabs (B2R x - r) <= powerRZ 2 (-53) * Rabs r + powerRZ 2 (-1075))%R.
Proof.
  intros (_ & _ & ->). change 2%R with (IZR (radix_val radix2)). rewrite <- !bpow_powerRZ. exact (rnd_err r).
Qed.
