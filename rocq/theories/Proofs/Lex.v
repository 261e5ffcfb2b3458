(** Reading back the decimal texts of Go/Text.v. *)
From Coq Require Import ZArith NArith Lia Lra Bool Reals List String Ascii.
From Flocq Require Import Core BinarySingleNaN.
From Verif Require Import Go.Outcome Go.Int64 Go.Float64 Go.FloatOrder Go.FloatReal Go.Text Go.Num Proofs.DecNum.
Open Scope string_scope.
Open Scope Z_scope.

(** ** Strings *)

Lemma sapp_assoc (a b c : string) : (a ++ b) ++ c = a ++ (b ++ c).
Proof. induction a; simpl; congruence. Qed.
Lemma sapp_nil_r (a : string) : a ++ "" = a.
Proof. induction a; simpl; congruence. Qed.
Lemma slen_app (a b : string) : String.length (a ++ b) = (String.length a + String.length b)%nat.
Proof. induction a; simpl; congruence. Qed.

Fixpoint str_all (p : ascii -> bool) (s : string) : bool :=
  match s with
  | EmptyString => true
  | String c r => p c && str_all p r
  end.
Lemma str_all_app p a b : str_all p (a ++ b) = str_all p a && str_all p b.
Proof. induction a; simpl; [reflexivity|]. rewrite IHa. apply andb_assoc. Qed.
Lemma str_all_impl (p q : ascii -> bool) s :
  (forall c, p c = true -> q c = true) -> str_all p s = true -> str_all q s = true.
Proof.
  intros H. induction s as [|c r IH]; simpl; [auto|].
  intros E. apply andb_true_iff in E as [E1 E2]. rewrite H, IH; auto.
Qed.

Lemma all_digits_str s : all_digits s = str_all is_digit s.
Proof. induction s; simpl; congruence. Qed.
Lemma all_digits_app a b : all_digits (a ++ b) = all_digits a && all_digits b.
Proof. rewrite !all_digits_str. apply str_all_app. Qed.

Lemma substring_0_app a b : substring 0 (String.length a) (a ++ b) = a.
Proof. induction a; simpl; [now destruct b|congruence]. Qed.
Lemma substring_skip a b k : substring (String.length a) k (a ++ b) = substring 0 k b.
Proof. induction a; simpl; [reflexivity|assumption]. Qed.
Lemma substring_full s : substring 0 (String.length s) s = s.
Proof. rewrite <- (sapp_nil_r s) at 2. apply substring_0_app. Qed.
Lemma substring_split s k : (k <= String.length s)%nat ->
  substring 0 k s ++ substring k (String.length s - k) s = s.
Proof.
  revert k. induction s as [|c r IH]; intros k H; simpl in *.
  - destruct k; [reflexivity|lia].
  - destruct k as [|k]; simpl; [now rewrite substring_full|].
    f_equal. apply IH. lia.
Qed.
Lemma substring_len s k : (k <= String.length s)%nat -> String.length (substring 0 k s) = k.
Proof.
  revert k. induction s as [|c r IH]; intros k H; simpl in *.
  - destruct k; [reflexivity|lia].
  - destruct k as [|k]; simpl; [reflexivity|]. rewrite IH; lia.
Qed.
Lemma str_all_substring p s i k : str_all p s = true -> str_all p (substring i k s) = true.
Proof.
  revert i k. induction s as [|c r IH]; intros i k H; simpl in *.
  - destruct i, k; reflexivity.
  - apply andb_true_iff in H as [H1 H2]. destruct i as [|i].
    + destruct k as [|k]; simpl; [reflexivity|]. rewrite H1. simpl. now apply IH.
    + now apply IH.
Qed.

(** ** Digits *)

Lemma digit_char_ok d : (d < 10)%N -> is_digit (digit_char d) = true /\ digit_val (digit_char d) = d.
Proof.
  intros H. unfold is_digit, digit_val, digit_char.
  rewrite N_ascii_embedding by lia. split; [|lia].
  apply andb_true_iff. split; apply N.leb_le; lia.
Qed.

Lemma fixdig_digits k n : all_digits (fixdig k n) = true.
Proof.
  revert n. induction k as [|k IH]; intros n; [reflexivity|].
  simpl fixdig. rewrite all_digits_app, IH. simpl.
  rewrite (proj1 (digit_char_ok (n mod 10) ltac:(apply N.mod_lt; lia))). reflexivity.
Qed.
Lemma fixdig_len k n : String.length (fixdig k n) = k.
Proof. revert n. induction k as [|k IH]; intros n; [reflexivity|]. simpl. rewrite slen_app, IH. simpl. lia. Qed.

Lemma digits_val_app a b acc : digits_val (a ++ b) acc = digits_val b (digits_val a acc).
Proof. revert acc. induction a; intros acc; simpl; auto. Qed.

Lemma fixdig_val k n acc :
  digits_val (fixdig k n) acc = (acc * 10 ^ N.of_nat k + n mod 10 ^ N.of_nat k)%N.
Proof.
  revert n acc. induction k as [|k IH]; intros n acc.
  - simpl. rewrite N.mod_1_r. lia.
  - simpl fixdig. rewrite digits_val_app, IH. cbn [digits_val].
    rewrite (proj2 (digit_char_ok (n mod 10) ltac:(apply N.mod_lt; lia))).
    rewrite Nat2N.inj_succ, N.pow_succ_r'.
    rewrite N.mod_mul_r by (try apply N.pow_nonzero; lia).
    generalize ((n / 10) mod 10 ^ N.of_nat k)%N (n mod 10)%N (10 ^ N.of_nat k)%N. intros. ring.
Qed.

Lemma ndig_pos f n : (1 <= ndig f n)%nat.
Proof. destruct f; simpl; [lia|]. destruct (n <? 10)%N; lia. Qed.
Lemma ndig_bound f n : (n < 2 ^ N.of_nat f)%N -> (n < 10 ^ N.of_nat (ndig f n))%N.
Proof.
  revert n. induction f as [|f IH]; intros n H.
  - simpl in *. lia.
  - simpl ndig. destruct (N.ltb_spec n 10) as [L|L]; [simpl; lia|].
    rewrite Nat2N.inj_succ, N.pow_succ_r' in *.
    assert (n / 10 < 2 ^ N.of_nat f)%N as H1.
    { apply N.div_lt_upper_bound; lia. }
    specialize (IH _ H1).
    pose proof (N.div_mod n 10 ltac:(lia)). pose proof (N.mod_lt n 10 ltac:(lia)). lia.
Qed.
Lemma ndig_lower f n : (0 < n)%N -> (10 ^ N.of_nat (ndig f n - 1) <= n)%N.
Proof.
  revert n. induction f as [|f IH]; intros n H; [simpl; lia|].
  simpl ndig. destruct (N.ltb_spec n 10) as [L|L]; [simpl; lia|].
  assert (0 < n / 10)%N as H1 by (apply N.div_str_pos; lia).
  specialize (IH _ H1). pose proof (ndig_pos f (n / 10)%N) as P.
  replace (S (ndig f (n / 10)) - 1)%nat with (S (ndig f (n / 10) - 1)) by lia.
  rewrite Nat2N.inj_succ, N.pow_succ_r'.
  pose proof (N.div_mod n 10 ltac:(lia)) as DM.
  set (PP := (10 ^ _)%N) in *. clearbody PP. set (q := (n / 10)%N) in *. clearbody q.
  set (r := (n mod 10)%N) in *. clearbody r. lia.
Qed.
Lemma size_nat_bound n : (n < 2 ^ N.of_nat (N.size_nat n))%N.
Proof.
  replace (N.of_nat (N.size_nat n)) with (N.size n); [apply N.size_gt|].
  destruct n as [|p]; [reflexivity|]. simpl.
  induction p as [p IH|p IH|]; simpl; try reflexivity;
    (rewrite Pos.succ_of_nat || idtac).
  all: simpl in *; destruct (Pos.size_nat p) eqn:E; [destruct p; discriminate|]; simpl in *; injection IH as IH; rewrite IH; reflexivity.
Qed.
Lemma num_digits_pos n : (1 <= num_digits n)%nat.
Proof. apply ndig_pos. Qed.
Lemma num_digits_bound n : (n < 10 ^ N.of_nat (num_digits n))%N.
Proof. apply ndig_bound, size_nat_bound. Qed.
Lemma num_digits_lower n : (0 < n)%N -> (10 ^ N.of_nat (num_digits n - 1) <= n)%N.
Proof. apply ndig_lower. Qed.

Lemma dec_digits n : all_digits (dec n) = true.
Proof. apply fixdig_digits. Qed.
Lemma dec_len n : String.length (dec n) = num_digits n.
Proof. apply fixdig_len. Qed.
Lemma dec_val n acc : digits_val (dec n) acc = (acc * 10 ^ N.of_nat (num_digits n) + n)%N.
Proof. unfold dec. rewrite fixdig_val, N.mod_small; [reflexivity|apply num_digits_bound]. Qed.
Lemma dec_nonempty n : dec n <> "".
Proof. intros H. pose proof (dec_len n) as L. rewrite H in L. pose proof (num_digits_pos n). simpl in L. lia. Qed.

Lemma zeros_digits k : all_digits (zeros k) = true.
Proof. induction k; simpl; auto. Qed.
Lemma zeros_len k : String.length (zeros k) = k.
Proof. induction k; simpl; auto. Qed.
Lemma zeros_val k acc : digits_val (zeros k) acc = (acc * 10 ^ N.of_nat k)%N.
Proof.
  revert acc. induction k as [|k IH]; intros acc; [simpl; lia|].
  simpl zeros. cbn [digits_val]. change (digit_val "0") with 0%N. rewrite IH.
  rewrite Nat2N.inj_succ, N.pow_succ_r'. ring.
Qed.

(** ** Scanning *)

Definition nonempty (s : string) : bool := negb (String.eqb s "").

Lemma is_digit_not_dot c : is_digit c = true -> Ascii.eqb c "." = false.
Proof. intros H. destruct (Ascii.eqb_spec c "."); [subst; discriminate|reflexivity]. Qed.

Lemma scan_mant_digits s r sd sg d fr : all_digits s = true ->
  scan_mant (s ++ r) sd sg d fr =
  scan_mant r sd (sg || nonempty s) (digits_val s d)
    (if sd then fr + Z.of_nat (String.length s) else fr).
Proof.
  revert sg d fr. induction s as [|c t IH]; intros sg d fr H.
  - simpl. rewrite orb_false_r. destruct sd; [now rewrite Z.add_0_r|reflexivity].
  - simpl in H. apply andb_true_iff in H as [H1 H2]. simpl append. cbn [scan_mant].
    rewrite (is_digit_not_dot c H1), H1, IH by assumption.
    rewrite orb_true_l. change (nonempty (String c t)) with true. rewrite orb_true_r.
    cbn [digits_val String.length]. destruct sd; [|reflexivity].
    replace (fr + 1 + Z.of_nat (String.length t)) with (fr + Z.of_nat (S (String.length t))) by lia. reflexivity.
Qed.

Lemma scan_mant_dot r sg d fr : scan_mant ("." ++ r) false sg d fr = scan_mant r true sg d fr.
Proof. reflexivity. Qed.

(** The exponent mark ends the mantissa. *)
Lemma scan_mant_e r sd sg d fr : scan_mant ("e" ++ r) sd sg d fr = (sg, d, fr, "e" ++ r).
Proof. reflexivity. Qed.
Lemma scan_mant_nil sd sg d fr : scan_mant "" sd sg d fr = (sg, d, fr, "").
Proof. reflexivity. Qed.

Lemma digits_val_mono s acc : (acc <= digits_val s acc)%N.
Proof.
  revert acc. induction s as [|c r IH]; intros acc; cbn [digits_val]; [lia|].
  specialize (IH (10 * acc + digit_val c)%N). lia.
Qed.
Lemma scan_exp_digits s acc : all_digits s = true -> (digits_val s acc < 10000)%N ->
  scan_exp s acc = (digits_val s acc, "").
Proof.
  revert acc. induction s as [|c r IH]; intros acc H L; cbn [all_digits scan_exp digits_val] in *; [reflexivity|].
  apply andb_true_iff in H as [H1 H2]. rewrite H1.
  pose proof (digits_val_mono r (10 * acc + digit_val c)) as M.
  destruct (N.ltb_spec acc 10000); [apply IH; auto|lia].
Qed.

Lemma fmt_exp_parse x : - 10000 < x < 10000 -> parse_exp ("e" ++ fmt_exp x) = Some x.
Proof.
  intros H. unfold fmt_exp. set (a := Z.abs_N x).
  set (t := if (a <? 10)%N then "0" ++ dec a else dec a).
  assert (all_digits t = true /\ digits_val t 0 = a /\ starts_digit t = true) as (T1 & T2 & T3).
  { pose proof (dec_digits a) as D1. pose proof (dec_val a 0) as D2. pose proof (dec_nonempty a) as D3.
    unfold t. destruct (a <? 10)%N.
    - change (digits_val ("0" ++ dec a) 0) with (digits_val (dec a) 0).
      split; [exact D1|split; [rewrite D2; lia|reflexivity]].
    - split; [exact D1|split; [rewrite D2; lia|]]. destruct (dec a); [congruence|].
      simpl in D1 |- *. now apply andb_true_iff in D1 as [-> _]. }
  simpl append. unfold parse_exp. cbn [Ascii.eqb].
  destruct (Z.ltb_spec x 0) as [L|L]; simpl append; cbn; rewrite T3;
    rewrite scan_exp_digits by (try assumption; rewrite T2; lia); cbn [String.eqb];
    rewrite T2; f_equal; lia.
Qed.

(** ** Specials *)

Lemma is_digit_lower c : is_digit c = true -> lower c = c.
Proof.
  intros H. unfold is_digit in H. apply andb_true_iff in H as [H1 H2].
  apply N.leb_le in H1, H2. unfold lower.
  destruct (N.leb_spec 65 (N_of_ascii c)); [lia|reflexivity].
Qed.
Lemma eqb_head c r c' r' : c <> c' -> String.eqb (String c r) (String c' r') = false.
Proof. intros H. simpl. destruct (Ascii.eqb_spec c c'); [contradiction|reflexivity]. Qed.

Lemma special_digit c r : is_digit c = true -> parse_special (String c r) = None.
Proof.
  intros H. unfold parse_special. cbn [lower_str]. rewrite (is_digit_lower c H).
  rewrite !eqb_head by (intros ->; discriminate). reflexivity.
Qed.
Lemma special_neg_digit c r : is_digit c = true -> parse_special (String "-" (String c r)) = None.
Proof.
  intros H. unfold parse_special. cbn [lower_str]. rewrite (is_digit_lower c H).
  change (lower "-") with "-"%char.
  rewrite (eqb_head "-" _ "n") by discriminate. rewrite (eqb_head "-" _ "i") by discriminate.
  rewrite (eqb_head "-" _ "i") by discriminate.
  rewrite !(eqb_head "-" _ "+") by discriminate.
  cbn [orb].
  change (String.eqb (String "-" (String c (lower_str r))) "-inf") with
    (String.eqb (String c (lower_str r)) "inf").
  change (String.eqb (String "-" (String c (lower_str r))) "-infinity") with
    (String.eqb (String c (lower_str r)) "infinity").
  rewrite !eqb_head by (intros ->; discriminate). reflexivity.
Qed.

(** ** A sign and a number *)

Definition not_inf (x : f64) : bool := match x with B754_infinity _ => false | _ => true end.

(** Characters of formatted numbers. *)
Definition plain (c : ascii) : bool :=
  is_digit c || Ascii.eqb c "." || Ascii.eqb c "e" || Ascii.eqb c "+" || Ascii.eqb c "-".

Lemma plain_not c c' : plain c = true -> plain c' = false -> Ascii.eqb c c' = false.
Proof. intros H1 H2. destruct (Ascii.eqb_spec c c'); [congruence|reflexivity]. Qed.
Lemma plain_lower c : plain c = true -> lower c = c.
Proof.
  intros H. unfold plain in H.
  destruct (is_digit c) eqn:E; [now apply is_digit_lower|]. simpl in H.
  repeat (apply orb_true_iff in H as [H|H]); apply Ascii.eqb_eq in H; subst; reflexivity.
Qed.
Lemma strip_us_plain t : str_all plain t = true -> strip_us t = t.
Proof.
  induction t as [|c r IH]; [reflexivity|]. simpl. intros H. apply andb_true_iff in H as [H1 H2].
  rewrite (plain_not c "_") by auto. now rewrite IH.
Qed.
Lemma us_loop_plain h saw t : saw <> 2%nat -> str_all plain t = true -> us_loop h saw t = true.
Proof.
  revert saw. induction t as [|c r IH]; intros saw Hs; simpl; intros H.
  - now destruct (Nat.eqb_spec saw 2).
  - apply andb_true_iff in H as [H1 H2]. destruct (_ || _); [apply IH; auto; lia|].
    rewrite (plain_not c "_") by auto. destruct (Nat.eqb_spec saw 2); [congruence|]. apply IH; auto; lia.
Qed.
Lemma plain_digits t : all_digits t = true -> str_all plain t = true.
Proof. rewrite all_digits_str. apply str_all_impl. intros c H. unfold plain. now rewrite H. Qed.
Lemma plain_sign s t : str_all plain t = true -> str_all plain (sign_str s ++ t) = true.
Proof. destruct s; simpl; auto. Qed.

(** ParseFloat of a signed text starting with a digit. *)
Lemma parse_signed s t d fr rest e :
  starts_digit t = true -> str_all plain t = true ->
  scan_mant t false false 0%N 0 = (true, d, fr, rest) ->
  parse_exp rest = Some e ->
  not_inf (f64_of_dec s d (e - fr)) = true ->
  parse_float (sign_str s ++ t) = inl (f64_of_dec s d (e - fr)).
Proof.
  intros H1 HP H2 H3 H4. destruct t as [|c r]; [discriminate|]. simpl in H1.
  unfold parse_float.
  assert (parse_special (sign_str s ++ String c r) = None) as ->.
  { destruct s; [now apply special_neg_digit|now apply special_digit]. }
  assert (take_sign (sign_str s ++ String c r) = (s, String c r)) as HT.
  { destruct s; [reflexivity|]. simpl.
    destruct (Ascii.eqb_spec c "+"); [subst; discriminate|].
    destruct (Ascii.eqb_spec c "-"); [subst; discriminate|]. reflexivity. }
  assert (underscore_ok (sign_str s ++ String c r) = true) as ->.
  { unfold underscore_ok. rewrite HT. destruct r as [|c1 r0].
    - now apply us_loop_plain.
    - pose proof HP as HP'. simpl in HP'. apply andb_true_iff in HP' as [_ HP'].
      apply andb_true_iff in HP' as [HP1 _]. rewrite (plain_lower c1) by assumption.
      rewrite (plain_not c1 "b"), (plain_not c1 "o"), (plain_not c1 "x") by auto.
      rewrite andb_false_r. now apply us_loop_plain. }
  rewrite strip_us_plain by now apply plain_sign.
  unfold parse_number. rewrite HT.
  assert (forall r', parse_decimal s (String c r) = r' ->
    match r with
    | String c1 (String c2 r0) =>
        if Ascii.eqb c "0" && Ascii.eqb (lower c1) "x" then parse_hex s (String c2 r0) else parse_decimal s (String c r)
    | _ => parse_decimal s (String c r)
    end = r') as K.
  { intros r' <-. simpl in HP. apply andb_true_iff in HP as [_ HP]. destruct r as [|c1 [|c2 r0]]; try reflexivity.
    simpl in HP. apply andb_true_iff in HP as [HP _]. rewrite (plain_lower c1), (plain_not c1 "x") by auto.
    now rewrite andb_false_r. }
  match goal with |- match r with _ => _ end = ?x => idtac | _ => idtac end.
  enough (parse_decimal s (String c r) = inl (f64_of_dec s d (e - fr))) as E.
  { pose proof (K _ E) as K'. destruct r as [|c1 [|c2 r0]]; exact K'. }
  unfold parse_decimal. rewrite H2, H3. destruct (f64_of_dec s d (e - fr)); try reflexivity. discriminate.
Qed.

Lemma starts_digit_app a b : all_digits a = true -> a <> "" -> starts_digit (a ++ b) = true.
Proof. destruct a as [|c r]; [congruence|]. simpl. intros H _. now apply andb_true_iff in H as [-> _]. Qed.
Lemma nonempty_true a : a <> "" -> nonempty a = true.
Proof. destruct a; [congruence|reflexivity]. Qed.

Lemma plain_sub t i k : all_digits t = true -> str_all plain (substring i k t) = true.
Proof. intros H. apply str_all_substring. now apply plain_digits. Qed.
Lemma plain_exp x : str_all plain (fmt_exp x) = true.
Proof.
  unfold fmt_exp. rewrite str_all_app. destruct (x <? 0); simpl; destruct (_ <? 10)%N; simpl;
    apply plain_digits, dec_digits.
Qed.
Lemma plain_layout d e10 : str_all plain (layout_g d e10) = true.
Proof.
  unfold layout_g. pose proof (dec_digits d) as D. pose proof (plain_digits _ D) as P.
  destruct (_ || _); [|destruct (_ <=? 0); [|destruct (_ <=? _)]].
  - rewrite !str_all_app, plain_sub, plain_exp by assumption. destruct (_ =? 1)%nat; [reflexivity|].
    rewrite str_all_app, plain_sub by assumption. reflexivity.
  - rewrite !str_all_app, P, (plain_digits _ (zeros_digits _)). reflexivity.
  - rewrite !str_all_app, P, (plain_digits _ (zeros_digits _)). reflexivity.
  - rewrite !str_all_app, !plain_sub by assumption. reflexivity.
Qed.
Lemma plain_fixed prec q n : str_all plain (dec q ++ match prec with O => "" | _ => "." ++ fixdig prec n end) = true.
Proof.
  rewrite str_all_app, (plain_digits _ (dec_digits _)). destruct prec as [|k]; [reflexivity|].
  rewrite str_all_app, (plain_digits _ (fixdig_digits _ _)). reflexivity.
Qed.

(** Reading the output of %.<prec>f. *)
Lemma parse_fixed s prec n :
  not_inf (f64_of_dec s n (- Z.of_nat prec)) = true ->
  parse_float (sign_str s ++ dec (n / 10 ^ N.of_nat prec)%N ++
    match prec with O => "" | _ => "." ++ fixdig prec (n mod 10 ^ N.of_nat prec)%N end)
  = inl (f64_of_dec s n (- Z.of_nat prec)).
Proof.
  intros H. set (q := (n / 10 ^ N.of_nat prec)%N).
  pose proof (plain_fixed prec q (n mod 10 ^ N.of_nat prec)%N) as HP.
  pose proof (dec_digits q) as D1. pose proof (dec_nonempty q) as D3. pose proof (dec_val q 0) as D2.
  destruct prec as [|k].
  - assert (q = n) as En by (unfold q; simpl; apply N.div_1_r).
    replace (- Z.of_nat 0) with (0 - 0) in * by reflexivity.
    rewrite sapp_nil_r in HP |- *.
    apply parse_signed with (rest := ""); auto.
    + rewrite <- (sapp_nil_r (dec q)). now apply starts_digit_app.
    + rewrite <- (sapp_nil_r (dec q)), scan_mant_digits, scan_mant_nil, D2, nonempty_true by assumption.
      rewrite En. reflexivity.
  - set (f := fixdig (S k) (n mod 10 ^ N.of_nat (S k))%N).
    assert (digits_val f q = n) as Hv.
    { unfold f. rewrite fixdig_val, N.mod_mod by (apply N.pow_nonzero; lia).
      unfold q. rewrite N.mul_comm. symmetry. apply N.div_mod. apply N.pow_nonzero; lia. }
    assert (String.length f = S k) as Hl by apply fixdig_len.
    assert (all_digits f = true) as Hd by apply fixdig_digits.
    replace (- Z.of_nat (S k)) with (0 - Z.of_nat (S k)) in * by lia.
    apply parse_signed with (rest := ""); auto.
    + now apply starts_digit_app.
    + rewrite scan_mant_digits by assumption. rewrite scan_mant_dot.
      rewrite D2, N.mul_0_l, N.add_0_l.
      rewrite <- (sapp_nil_r f), scan_mant_digits, scan_mant_nil, Hv, Hl, nonempty_true by assumption.
      reflexivity.
Qed.

(** Reading the %v layout. *)
Lemma parse_layout s d e10 : (0 < d)%N ->
  - 9999 < e10 + Z.of_nat (num_digits d) < 10000 ->
  not_inf (f64_of_dec s d e10) = true ->
  parse_float (sign_str s ++ layout_g d e10) = inl (f64_of_dec s d e10).
Proof.
  intros Hd Hb Hi.
  pose proof (dec_digits d) as D1. pose proof (dec_nonempty d) as D3. pose proof (dec_val d 0) as D2.
  pose proof (dec_len d) as D4. pose proof (num_digits_pos d) as D5.
  rewrite N.mul_0_l, N.add_0_l in D2.
  pose proof (plain_layout d e10) as HP.
  unfold layout_g in HP |- *. set (nd := num_digits d) in *. set (ds := dec d) in *.
  set (dp := e10 + Z.of_nat nd) in *.
  assert (forall i k, all_digits (substring i k ds) = true) as Dsub.
  { intros i k. rewrite all_digits_str. apply str_all_substring. now rewrite <- all_digits_str. }
  assert (forall k, (k <= nd)%nat -> digits_val (substring k (nd - k) ds) (digits_val (substring 0 k ds) 0) = d) as Dv.
  { intros k Hk. rewrite <- digits_val_app. rewrite <- D4, substring_split by lia. exact D2. }
  assert (forall k, (k <= nd)%nat -> String.length (substring k (nd - k) ds) = (nd - k)%nat) as Dl.
  { intros k Hk. pose proof (f_equal String.length (substring_split ds k ltac:(lia))) as E.
    rewrite slen_app, substring_len, D4 in E by lia. lia. }
  assert (forall k, (0 < k <= nd)%nat -> substring 0 k ds <> "") as Dn.
  { intros k Hk E. pose proof (substring_len ds k ltac:(lia)) as L. rewrite E in L. simpl in L. lia. }
  destruct ((dp - 1 <? -4) || (g_threshold <=? dp - 1)) in HP |- *.
  - (* scientific *)
    replace e10 with ((dp - 1) - (Z.of_nat nd - 1)) in Hi |- * by (unfold dp; lia).
    apply parse_signed with (rest := "e" ++ fmt_exp (dp - 1)); auto.
    + apply starts_digit_app; [apply Dsub|apply Dn; lia].
    + rewrite scan_mant_digits by apply Dsub.
      destruct (Nat.eqb_spec nd 1) as [E|E].
      * change ("" ++ ?x) with x. rewrite scan_mant_e. rewrite nonempty_true by (apply Dn; lia).
        specialize (Dv 1%nat ltac:(lia)). specialize (Dl 1%nat ltac:(lia)). rewrite E in Dl, Dv |- *.
        change (1 - 1)%nat with 0%nat in Dl, Dv.
        destruct (substring 1 0 ds); [|discriminate Dl]. cbn [digits_val] in Dv.
        rewrite Dv. reflexivity.
      * rewrite sapp_assoc, scan_mant_dot, scan_mant_digits by apply Dsub. rewrite scan_mant_e.
        rewrite Dv by lia. rewrite Dl by lia. rewrite nonempty_true by (apply Dn; lia).
        replace (0 + Z.of_nat (nd - 1)) with (Z.of_nat nd - 1) by lia. reflexivity.
    + apply fmt_exp_parse. lia.
  - revert HP. destruct (Z.leb_spec dp 0) as [L|L]; [|destruct (Z.leb_spec (Z.of_nat nd) dp) as [L2|L2]]; intros HP.
    + (* 0.000ddd *)
      replace e10 with (0 - (- dp + Z.of_nat nd)) in Hi |- * by (unfold dp; lia).
      apply parse_signed with (rest := ""); auto.
      change ("0." ++ ?x) with ("0" ++ ("." ++ x)).
      rewrite (scan_mant_digits "0"), scan_mant_dot, scan_mant_digits by (reflexivity || apply zeros_digits).
      rewrite <- (sapp_nil_r ds), scan_mant_digits, scan_mant_nil by assumption.
      rewrite zeros_val, zeros_len, D4, (nonempty_true ds) by assumption.
      change (digits_val "0" 0) with 0%N. rewrite N.mul_0_l, D2, orb_true_r.
      replace (0 + Z.of_nat (Z.to_nat (- dp)) + Z.of_nat nd) with (- dp + Z.of_nat nd) by lia. reflexivity.
    + (* ddd000 *)
      assert (0 <= e10) as He by (unfold dp in L2; lia).
      assert (f64_of_dec s (d * 10 ^ N.of_nat (Z.to_nat e10))%N (0 - 0) = f64_of_dec s d e10) as Ef.
      { apply f64_of_dec_eq. unfold decR. rewrite N2Z.inj_mul, N2Z.inj_pow, mult_IZR, nat_N_Z, Z2Nat.id by assumption.
        change (IZR (Z.of_N 10 ^ e10)) with (IZR (Zpower radix10 e10)). rewrite IZR_Zpower by assumption.
        change (0 - 0) with 0. simpl (bpow radix10 0). ring. }
      rewrite <- Ef in Hi |- *.
      replace (dp - Z.of_nat nd) with e10 in HP |- * by (unfold dp; lia).
      apply parse_signed with (rest := ""); auto.
      * now apply starts_digit_app.
      * rewrite scan_mant_digits by assumption.
        rewrite <- (sapp_nil_r (zeros _)), scan_mant_digits, scan_mant_nil by apply zeros_digits.
        rewrite zeros_val, D2, (nonempty_true ds) by assumption. reflexivity.
    + (* dd.ddd *)
      replace e10 with (0 - (Z.of_nat nd - dp)) in Hi |- * by (unfold dp; lia).
      apply parse_signed with (rest := ""); auto.
      * apply starts_digit_app; [apply Dsub|apply Dn; lia].
      * rewrite scan_mant_digits, scan_mant_dot by apply Dsub.
        rewrite <- (sapp_nil_r (substring (Z.to_nat dp) _ _)), scan_mant_digits, scan_mant_nil by apply Dsub.
        rewrite Dv, Dl by lia. rewrite nonempty_true by (apply Dn; lia).
        replace (0 + Z.of_nat (nd - Z.to_nat dp)) with (Z.of_nat nd - dp) by lia. reflexivity.
Qed.
