(** Strings and numbers written and read back (C83). *)
From Coq Require Import Lia ZArith NArith Reals List Bool String Ascii.
Import ListNotations.
From Flocq Require Import Core BinarySingleNaN.
From Verif Require Import Go.Outcome Go.Int64 Go.Float64 Go.FloatReal Go.Text Go.Num Go.Json Spec.JsonSpec
  Proofs.DecNum Proofs.Lex Proofs.RoundTrip Proofs.FileText Proofs.JsonTime.
Open Scope string_scope.
Open Scope list_scope.
Open Scope Z_scope.

(** *** Strings *)
Lemma escape_ascii c r : (code c < 128)%N -> escape (String c r) = (escape_byte c ++ escape r)%string.
Proof. intros H. cbn [escape]. now rewrite (proj2 (N.ltb_lt _ _) H). Qed.
Lemma unquote_byte c r : (code c < 128)%N -> unquote (escape_byte c ++ r) = String c (unquote r).
Proof. destruct c as [[] [] [] [] [] [] [] []]; intros H; try reflexivity; vm_compute in H; discriminate. Qed.
Lemma scan_byte c r u v : (code c < 128)%N -> scan_str r = Some (u, v) ->
  scan_str (escape_byte c ++ r) = Some ((escape_byte c ++ u)%string, v).
Proof.
  intros H E. revert H. destruct c as [[] [] [] [] [] [] [] []]; intros H;
    try (vm_compute in H; discriminate); cbn -[scan_str]; 
    cbn [scan_str Ascii.eqb Bool.eqb hex_digit]; rewrite ?E; try reflexivity.
Qed.
Lemma scan_high c r u v : (128 <= code c)%N -> scan_str r = Some (u, v) -> scan_str (String c r) = Some (String c u, v).
Proof.
  intros H E. cbn [scan_str]. destruct (Ascii.eqb_spec c quote) as [->|_]; [vm_compute in H; congruence|].
  destruct (Ascii.eqb_spec c backslash) as [->|_]; [vm_compute in H; congruence|].
  destruct (N.ltb_spec (code c) 32); [lia|]. now rewrite E.
Qed.

Lemma rune_cases c r : (128 <= code c)%N ->
  rune_size (String c r) = 0%nat \/
  (exists c1 t, r = String c1 t /\ rune_size (String c r) = 2%nat /\ (128 <= code c1)%N) \/
  (exists c1 c2 t, r = String c1 (String c2 t) /\ rune_size (String c r) = 3%nat /\ (128 <= code c1)%N /\ (128 <= code c2)%N) \/
  (exists c1 c2 c3 t, r = String c1 (String c2 (String c3 t)) /\ rune_size (String c r) = 4%nat /\
     (128 <= code c1)%N /\ (128 <= code c2)%N /\ (128 <= code c3)%N).
Proof.
  intros H.
  assert (forall a b x, within a b x = true -> (a <= code x)%N) as W.
  { intros a b x K. unfold within in K. apply andb_true_iff in K. destruct K as [K _]. now apply N.leb_le. }
  unfold rune_size. destruct (N.ltb_spec (code c) 128); [lia|].
  destruct r as [|c1 r1]; [auto|]. destruct (within 194 223 c).
  - destruct (cont c1) eqn:E; [|auto]. right. left. exists c1, r1. split; [reflexivity|]. split; [reflexivity|]. now apply W in E.
  - destruct r1 as [|c2 r2]; [auto|]. destruct (within 224 239 c).
    + destruct ((if (code c =? 224)%N then within 160 191 c1 else if (code c =? 237)%N then within 128 159 c1 else cont c1) && cont c2) eqn:E; [|auto].
      right. right. left. exists c1, c2, r2. split; [reflexivity|]. split; [reflexivity|].
      apply andb_true_iff in E. destruct E as [E1 E2]. apply W in E2. split; [|assumption].
      destruct (code c =? 224)%N; [apply W in E1; lia|]. destruct (code c =? 237)%N; apply W in E1; lia.
    + destruct r2 as [|c3 r3]; [auto|]. destruct (within 240 244 c); [|auto].
      destruct ((if (code c =? 240)%N then within 144 191 c1 else if (code c =? 244)%N then within 128 143 c1 else cont c1) && cont c2 && cont c3) eqn:E; [|auto].
      right. right. right. exists c1, c2, c3, r3. split; [reflexivity|]. split; [reflexivity|].
      apply andb_true_iff in E. destruct E as [E E3]. apply andb_true_iff in E. destruct E as [E1 E2]. apply W in E2, E3.
      split; [|auto]. destruct (code c =? 240)%N; [apply W in E1; lia|]. destruct (code c =? 244)%N; apply W in E1; lia.
Qed.

(** The writer's text is always one string literal. *)
Theorem scan_escape s r : scan_str (escape s ++ String quote r) = Some (escape s, r).
Proof.
  remember (String.length s) as n eqn:En. assert (String.length s <= n)%nat as L by lia. clear En. revert s L.
  induction n as [|n IH]; intros s L.
  { destruct s; [reflexivity|cbn in L; lia]. }
  destruct s as [|c s]; [reflexivity|]. cbn [String.length] in L.
  destruct (N.lt_ge_cases (code c) 128) as [A|A].
  - rewrite escape_ascii by assumption. rewrite sapp_assoc. apply scan_byte; [assumption|]. apply IH. lia.
  - pose proof (rune_cases c s A) as R.
    cbn [escape]. destruct (N.ltb_spec (code c) 128); [lia|].
    destruct R as [R|[(c1 & t & -> & R & B1)|[(c1 & c2 & t & -> & R & B1 & B2)|(c1 & c2 & c3 & t & -> & R & B1 & B2 & B3)]]]; rewrite R; cbn [String.length] in L.
    + cbn [append]. cbn [scan_str Ascii.eqb Bool.eqb]. 
      change (hex_digit "f" && hex_digit "f" && hex_digit "f" && hex_digit "d") with true. cbv iota.
      rewrite IH by lia. reflexivity.
    + cbn [append]. do 2 (apply scan_high; [assumption|]). apply IH. lia.
    + destruct (_ && _) eqn:E.
      * apply andb_true_iff in E. destruct E as [_ E]. cbn [append].
        assert (c2 = chr 168 \/ c2 = chr 169) as K.
        { apply orb_true_iff in E. unfold code in E. destruct E as [E|E]; apply N.eqb_eq in E; rewrite <- (ascii_N_embedding c2), E; auto. }
        cbn [scan_str Ascii.eqb Bool.eqb].
        assert (hex_digit "2" && hex_digit "0" && hex_digit "2" && hex_digit (hex_char (code c2 mod 16)) = true) as ->
          by (destruct K as [-> | ->]; reflexivity).
        rewrite IH by lia. reflexivity.
      * cbn [append]. do 3 (apply scan_high; [assumption|]). apply IH. lia.
    + cbn [append]. do 4 (apply scan_high; [assumption|]). apply IH. lia.
Qed.

Lemma within_true a b c : (a <= code c <= b)%N -> within a b c = true.
Proof. intros [H1 H2]. unfold within. now rewrite (proj2 (N.leb_le _ _) H1), (proj2 (N.leb_le _ _) H2). Qed.
Lemma within_false a b c : (code c < a \/ b < code c)%N -> within a b c = false.
Proof. intros H. unfold within. destruct (N.leb_spec a (code c)); [|reflexivity]. destruct (N.leb_spec (code c) b); [lia|reflexivity]. Qed.
Lemma size2 c0 c1 r : (194 <= code c0 <= 223)%N -> (128 <= code c1 <= 191)%N -> rune_size (String c0 (String c1 r)) = 2%nat.
Proof.
  intros H0 H1. cbn [rune_size]. destruct (N.ltb_spec (code c0) 128); [lia|]. rewrite within_true by assumption. unfold cont.
  now rewrite within_true.
Qed.
Lemma size3 c0 c1 c2 r : (224 <= code c0 <= 239)%N -> (128 <= code c1 <= 191)%N -> (128 <= code c2 <= 191)%N ->
  (code c0 = 224 -> 160 <= code c1)%N -> (code c0 = 237 -> code c1 <= 159)%N -> rune_size (String c0 (String c1 (String c2 r))) = 3%nat.
Proof.
  intros H0 H1 H2 K1 K2. cbn [rune_size]. destruct (N.ltb_spec (code c0) 128); [lia|]. rewrite within_false by lia.
  rewrite within_true by assumption. unfold cont.
  destruct (N.eqb_spec (code c0) 224); [rewrite !within_true by lia; reflexivity|].
  destruct (N.eqb_spec (code c0) 237); rewrite !within_true by lia; reflexivity.
Qed.
Lemma size4 c0 c1 c2 c3 r : (240 <= code c0 <= 244)%N -> (128 <= code c1 <= 191)%N -> (128 <= code c2 <= 191)%N -> (128 <= code c3 <= 191)%N ->
  (code c0 = 240 -> 144 <= code c1)%N -> (code c0 = 244 -> code c1 <= 143)%N -> rune_size (String c0 (String c1 (String c2 (String c3 r)))) = 4%nat.
Proof.
  intros H0 H1 H2 H3 K1 K2. cbn [rune_size]. destruct (N.ltb_spec (code c0) 128); [lia|]. rewrite !(within_false _ _ c0) by lia.
  rewrite (within_true 240) by assumption. unfold cont.
  destruct (N.eqb_spec (code c0) 240); [rewrite !within_true by lia; reflexivity|].
  destruct (N.eqb_spec (code c0) 244); rewrite !within_true by lia; reflexivity.
Qed.
Lemma high_not_backslash c : (128 <= code c)%N -> Ascii.eqb c backslash = false.
Proof. intros H. destruct (Ascii.eqb_spec c backslash) as [->|_]; [vm_compute in H; congruence|reflexivity]. Qed.

(** Valid UTF-8 survives. *)
Theorem unquote_escape s : utf8 s -> unquote (escape s) = s.
Proof.
  induction 1 as [|c s A _ IH|c0 c1 s A B _ IH|c0 c1 c2 s A B C K1 K2 _ IH|c0 c1 c2 c3 s A B C D K1 K2 _ IH].
  - reflexivity.
  - rewrite escape_ascii by exact A. rewrite unquote_byte by exact A. now rewrite IH.
  - cbn [escape]. destruct (N.ltb_spec (code c0) 128); [unfold code in *; lia|]. rewrite size2 by assumption.
    cbn [unquote]. rewrite high_not_backslash by (unfold code in *; lia). destruct (N.ltb_spec (code c0) 128); [lia|]. rewrite size2 by assumption. now rewrite IH.
  - cbn [escape]. destruct (N.ltb_spec (code c0) 128); [unfold code in *; lia|]. rewrite size3 by assumption.
    destruct (_ && _) eqn:E.
    + apply andb_true_iff in E. destruct E as [E E2]. apply andb_true_iff in E. destruct E as [E0 E1].
      apply N.eqb_eq in E0, E1. unfold code in E0, E1, E2.
      assert (c0 = chr 226) as -> by (rewrite <- (ascii_N_embedding c0), E0; reflexivity).
      assert (c1 = chr 128) as -> by (rewrite <- (ascii_N_embedding c1), E1; reflexivity).
      assert (c2 = chr 168 \/ c2 = chr 169) as [-> | ->]
        by (apply orb_true_iff in E2; destruct E2 as [E2|E2]; apply N.eqb_eq in E2; rewrite <- (ascii_N_embedding c2), E2; auto).
      * transitivity (String (chr 226) (String (chr 128) (String (chr 168) (unquote (escape s))))); [reflexivity|now rewrite IH].
      * transitivity (String (chr 226) (String (chr 128) (String (chr 169) (unquote (escape s))))); [reflexivity|now rewrite IH].
    + cbn [unquote]. rewrite high_not_backslash by (unfold code in *; lia). destruct (N.ltb_spec (code c0) 128); [lia|]. rewrite size3 by assumption. now rewrite IH.
  - cbn [escape]. destruct (N.ltb_spec (code c0) 128); [unfold code in *; lia|]. rewrite size4 by assumption.
    cbn [unquote]. rewrite high_not_backslash by (unfold code in *; lia). destruct (N.ltb_spec (code c0) 128); [lia|]. rewrite size4 by assumption. now rewrite IH.
Qed.
(** Text without escapes is read as it stands. *)
Lemma unquote_plain s : str_all plain_byte s = true -> unquote s = s.
Proof.
  induction s as [|c s IH]; [reflexivity|]. cbn [str_all]. intros H. apply andb_true_iff in H. destruct H as [P H].
  unfold plain_byte in P. repeat (apply andb_true_iff in P; destruct P as [P ?]). cbn [unquote].
  rewrite (proj1 (negb_true_iff _) H2). rewrite H0. now rewrite IH.
Qed.

(** *** Numbers *)
Definition num_end (r : string) : Prop :=
  match r with
  | String c _ => is_digit c = false /\ Ascii.eqb c "." = false /\ Ascii.eqb c "e" = false /\ Ascii.eqb c "E" = false
  | EmptyString => True
  end.
Lemma span_app d r : all_digits d = true -> starts_digit r = false -> span_digits (d ++ r) = (d, r).
Proof.
  intros H Z0. induction d as [|c d IH]; cbn [append].
  - destruct r as [|c z]; [reflexivity|]. cbn in Z0. cbn [span_digits]. now rewrite Z0.
  - cbn in H. apply andb_true_iff in H. destruct H as [H1 H]. cbn [span_digits]. rewrite H1, IH by assumption. reflexivity.
Qed.
Lemma num_end_digit r : num_end r -> starts_digit r = false.
Proof. destruct r; [reflexivity|]. now intros [H _]. Qed.
(** Integer part, fraction, exponent. *)
Definition int_ok (ip : string) : bool :=
  match ip with
  | EmptyString => false
  | String c r => all_digits ip && negb (Ascii.eqb c "0" && negb (String.eqb r ""))
  end.
Definition frac_ok (fr : string) : Prop := fr = "" \/ exists d, fr = String "." d /\ all_digits d = true /\ d <> "".
Definition exp_ok (ex : string) : Prop :=
  ex = "" \/ exists sg d, (sg = "+" \/ sg = "-")%char /\ ex = String "e" (String sg d) /\ all_digits d = true /\ d <> "".
Lemma eqb_nil_false s : s <> "" -> String.eqb s "" = false.
Proof. destruct s; [congruence|reflexivity]. Qed.
Lemma lex_exp_ok ex r : exp_ok ex -> num_end r -> lex_exp (ex ++ r) = Some (ex, r).
Proof.
  intros [->|(sg & d & Hs & -> & Hd & Hn)] E.
  - cbn [append]. destruct r as [|c r]; [reflexivity|]. destruct E as (_ & _ & E1 & E2). cbn [lex_exp]. now rewrite E1, E2.
  - cbn [append lex_exp]. change (Ascii.eqb "e" "e" || Ascii.eqb "e" "E") with true. cbv iota.
    replace (Ascii.eqb sg "+" || Ascii.eqb sg "-") with true by (destruct Hs as [-> | ->]; reflexivity).
    rewrite span_app by (assumption || now apply num_end_digit). rewrite eqb_nil_false by assumption. reflexivity.
Qed.
Lemma exp_app_digit ex r : exp_ok ex -> num_end r -> starts_digit (ex ++ r) = false.
Proof. intros [->|(sg & d & Hs & -> & Hd & Hn)] E; [now apply num_end_digit|reflexivity]. Qed.
Lemma lex_frac_ok fr ex r : frac_ok fr -> exp_ok ex -> num_end r -> lex_frac (fr ++ ex ++ r) = Some (fr, (ex ++ r)%string).
Proof.
  intros [->|(d & -> & Hd & Hn)] X E.
  - cbn [append]. destruct X as [->|(sg & d & Hs & -> & Hd & Hn)]; cbn [append]; [|reflexivity].
    destruct r as [|c r]; [reflexivity|]. destruct E as (_ & E1 & _ & _). cbn [lex_frac]. now rewrite E1.
  - cbn [append lex_frac]. change (Ascii.eqb "." ".") with true. cbv iota.
    rewrite span_app by (assumption || now apply exp_app_digit). rewrite eqb_nil_false by assumption. reflexivity.
Qed.
Lemma lex_ok s ip fr ex r : int_ok ip = true -> frac_ok fr -> exp_ok ex -> num_end r ->
  lex_num ((sign_str s ++ ip ++ fr ++ ex) ++ r) = Some ((sign_str s ++ ip ++ fr ++ ex)%string, r).
Proof.
  intros I F X E. destruct ip as [|c ip]; [discriminate|]. cbn [int_ok] in I. apply andb_true_iff in I. destruct I as [ID IZ].
  apply negb_true_iff in IZ.
  assert (starts_digit (fr ++ ex ++ r) = false) as SD.
  { destruct F as [->|(d & -> & Hd & Hn)]; [cbn [append]; now apply exp_app_digit|reflexivity]. }
  assert (is_digit c = true) as Hc by (cbn in ID; now apply andb_true_iff in ID).
  assert ((match (sign_str s ++ String c ip ++ fr ++ ex) ++ r with
    | String c r0 => if Ascii.eqb c "-" then ("-", r0) else ("", String c r0)
    | EmptyString => ("", ((sign_str s ++ String c ip ++ fr ++ ex) ++ r)%string)
    end)%string = (sign_str s, (String c ip ++ fr ++ ex ++ r)%string)) as E1.
  { destruct s; cbn [sign_str append].
    - change (Ascii.eqb "-" "-") with true. cbv iota. now rewrite !sapp_assoc.
    - destruct (Ascii.eqb_spec c "-") as [->|_]; [discriminate Hc|]. now rewrite !sapp_assoc. }
  unfold lex_num. revert E1. destruct ((sign_str s ++ String c ip ++ fr ++ ex) ++ r)%string as [|q t] eqn:Q.
  { destruct s; discriminate Q. }
  intros E1. rewrite E1. rewrite span_app by assumption. rewrite IZ. rewrite lex_frac_ok, lex_exp_ok by assumption. reflexivity.
Qed.

(** A literal the reader takes whole. *)
Definition numeral (t : string) : Prop :=
  (exists c r, t = String c r /\ (is_digit c = true \/ c = "-"%char)) /\ forall r, num_end r -> lex_num (t ++ r) = Some (t, r).
Lemma numeral_ok s ip fr ex : int_ok ip = true -> frac_ok fr -> exp_ok ex -> numeral (sign_str s ++ ip ++ fr ++ ex)%string.
Proof.
  intros I F X. split; [|intros r E; now apply lex_ok].
  destruct ip as [|c ip]; [discriminate|]. cbn [int_ok] in I. apply andb_true_iff in I. destruct I as [ID _].
  cbn in ID. apply andb_true_iff in ID. destruct ID as [ID _]. destruct s; cbn [sign_str append]; eauto.
Qed.
Lemma digits_val_lt s : all_digits s = true -> (digits_val s 0 < 10 ^ N.of_nat (String.length s))%N.
Proof.
  assert (forall s acc, all_digits s = true -> (digits_val s acc < (acc + 1) * 10 ^ N.of_nat (String.length s))%N) as K.
  { clear s. induction s as [|c s IH]; intros acc H; [cbn; lia|]. cbn [all_digits] in H. apply andb_true_iff in H. destruct H as [H1 H2].
    cbn [digits_val String.length]. rewrite Nat2N.inj_succ, N.pow_succ_r'. specialize (IH (10 * acc + digit_val c)%N H2).
    assert (digit_val c <= 9)%N by (unfold is_digit in H1; apply andb_true_iff in H1; destruct H1 as [_ H1]; apply N.leb_le in H1; unfold digit_val; lia).
    eapply N.lt_le_trans; [exact IH|]. rewrite N.mul_assoc. apply N.mul_le_mono_r. lia. }
  intros H. specialize (K s 0%N H). lia.
Qed.
(** No leading zero. *)
Lemma dec_head d : (0 < d)%N -> exists c r, dec d = String c r /\ Ascii.eqb c "0" = false.
Proof.
  intros H. pose proof (dec_digits d) as D1. pose proof (dec_len d) as D2. pose proof (dec_val d 0) as D3. pose proof (num_digits_lower d H) as D4.
  destruct (dec d) as [|c r] eqn:E; [exfalso; now apply (dec_nonempty d)|]. exists c, r. split; [reflexivity|].
  destruct (Ascii.eqb_spec c "0") as [->|_]; [|reflexivity]. exfalso.
  cbn [digits_val] in D3. change (digit_val "0") with 0%N in D3. change (10 * 0 + 0)%N with 0%N in D3.
  cbn [all_digits] in D1. apply andb_true_iff in D1. destruct D1 as [_ D1]. pose proof (digits_val_lt r D1) as L.
  cbn [String.length] in D2. replace (num_digits d - 1)%nat with (String.length r) in D4 by lia. lia.
Qed.
Lemma int_ok_dec d : int_ok (dec d) = true.
Proof.
  destruct (N.eq_dec d 0) as [->|N]; [reflexivity|]. destruct (dec_head d ltac:(lia)) as (c & r & E & Hc).
  pose proof (dec_digits d) as D. rewrite E in *. cbn [int_ok]. rewrite D, Hc. reflexivity.
Qed.
Lemma int_ok_app d t : (0 < d)%N -> all_digits t = true -> int_ok (dec d ++ t) = true.
Proof.
  intros H T. destruct (dec_head d H) as (c & r & E & Hc). pose proof (dec_digits d) as D. rewrite E in *. cbn [append int_ok].
  rewrite Hc. change (String c (r ++ t)) with (String c r ++ t)%string. rewrite all_digits_app, D, T. reflexivity.
Qed.
Lemma int_ok_sub d k : (0 < d)%N -> (0 < k <= num_digits d)%nat -> int_ok (substring 0 k (dec d)) = true.
Proof.
  intros H K. destruct (dec_head d H) as (c & r & E & Hc). pose proof (dec_digits d) as D. rewrite E in *.
  assert (all_digits (substring 0 k (String c r)) = true) as A by (rewrite all_digits_str in *; now apply str_all_substring).
  destruct k as [|k]; [lia|]. cbn [substring] in *. cbn [int_ok]. rewrite A, Hc. reflexivity.
Qed.
Lemma sub_digits d i k : all_digits (substring i k (dec d)) = true.
Proof. rewrite all_digits_str. apply str_all_substring. rewrite <- all_digits_str. apply dec_digits. Qed.
Lemma sub_tail_nonempty d k : (k < num_digits d)%nat -> substring k (num_digits d - k) (dec d) <> "".
Proof.
  intros K E. pose proof (f_equal String.length (substring_split (dec d) k ltac:(rewrite dec_len; lia))) as L.
  rewrite dec_len in L. rewrite E, slen_app, substring_len in L by (rewrite dec_len; lia). cbn in L. lia.
Qed.

Theorem fmt_int_numeral z : numeral (fmt_int z).
Proof.
  unfold fmt_int. pose proof (numeral_ok (z <? 0) (dec (Z.abs_N z)) "" "" (int_ok_dec _) (or_introl eq_refl) (or_introl eq_refl)) as K.
  rewrite !sapp_nil_r in K. destruct (z <? 0); exact K.
Qed.

Lemma layout_f_numeral s d e10 : (0 < d)%N -> numeral (sign_str s ++ layout_f d e10)%string.
Proof.
  intros H. unfold layout_f. set (nd := num_digits d). set (dp := e10 + Z.of_nat nd).
  destruct (Z.leb_spec dp 0) as [L|L]; [|destruct (Z.leb_spec (Z.of_nat nd) dp) as [L2|L2]].
  - set (z := zeros (Z.to_nat (- dp))).
    pose proof (numeral_ok s "0" ("." ++ z ++ dec d) "" eq_refl) as K. rewrite sapp_nil_r in K. apply K; [|now left].
    right. exists (z ++ dec d)%string. split; [reflexivity|]. split; [rewrite all_digits_app, dec_digits; unfold z; now rewrite zeros_digits|].
    intros E. apply (dec_nonempty d). destruct z; [exact E|discriminate E].
  - pose proof (numeral_ok s (dec d ++ zeros (Z.to_nat (dp - Z.of_nat nd))) "" "") as K. cbn [append] in K. rewrite sapp_nil_r in K.
    apply K; [|now left|now left]. apply int_ok_app; [assumption|apply zeros_digits].
  - pose proof (numeral_ok s (substring 0 (Z.to_nat dp) (dec d)) ("." ++ substring (Z.to_nat dp) (nd - Z.to_nat dp) (dec d)) "") as K.
    rewrite sapp_nil_r in K. apply K; [|right|now left].
    + apply int_ok_sub; [assumption|fold nd; lia].
    + eexists. split; [reflexivity|]. split; [apply sub_digits|]. apply sub_tail_nonempty. fold nd. lia.
Qed.
Lemma layout_e_numeral s d e10 : (0 < d)%N -> numeral (sign_str s ++ layout_e d e10)%string.
Proof.
  intros H. unfold layout_e. set (nd := num_digits d). set (x := e10 + Z.of_nat nd - 1). pose proof (num_digits_pos d) as P. fold nd in P.
  apply numeral_ok.
  - apply int_ok_sub; [assumption|fold nd; lia].
  - destruct (Nat.eqb_spec nd 1) as [E|E]; [now left|right]. eexists. split; [reflexivity|]. split; [apply sub_digits|]. apply sub_tail_nonempty. fold nd. lia.
  - right. destruct (Z.ltb_spec x 0) as [L|L].
    + exists "-"%char, (dec (Z.abs_N x)). split; [now right|]. split; [reflexivity|]. split; [apply dec_digits|apply dec_nonempty].
    + exists "+"%char, (if (Z.abs_N x <? 10)%N then "0" ++ dec (Z.abs_N x) else dec (Z.abs_N x))%string. split; [now left|].
      unfold fmt_exp. destruct (Z.ltb_spec x 0); [lia|]. split; [reflexivity|]. destruct (_ <? 10)%N.
      * split; [cbn [append all_digits]; now rewrite dec_digits|discriminate].
      * split; [apply dec_digits|apply dec_nonempty].
Qed.

(** Reading the exponent the JSON writer leaves. *)
Lemma short_exp_parse x : - 10000 < x < 10000 ->
  parse_exp ("e" ++ (if (x <? 0)%Z then "-" ++ dec (Z.abs_N x) else fmt_exp x))%string = Some x.
Proof.
  intros H. destruct (Z.ltb_spec x 0) as [L|L]; [|now apply fmt_exp_parse].
  set (a := Z.abs_N x). pose proof (dec_digits a) as D1. pose proof (dec_val a 0) as D2. pose proof (dec_nonempty a) as D3.
  assert (starts_digit (dec a) = true) as T3 by (rewrite <- (sapp_nil_r (dec a)); now apply starts_digit_app).
  simpl append. unfold parse_exp. cbn. rewrite T3.
  rewrite scan_exp_digits by (try assumption; rewrite D2; lia). cbn [String.eqb]. rewrite D2. f_equal. lia.
Qed.

Lemma plain_layout_e d e10 : str_all plain (layout_e d e10) = true.
Proof.
  unfold layout_e. pose proof (dec_digits d) as D. rewrite !str_all_app, plain_sub by assumption.
  assert (str_all plain (if (num_digits d =? 1)%nat then "" else "." ++ substring 1 (num_digits d - 1) (dec d))%string = true) as ->.
  { destruct (_ =? 1)%nat; [reflexivity|]. rewrite str_all_app, plain_sub by assumption. reflexivity. }
  destruct (_ <? 0); [|rewrite plain_exp; reflexivity]. rewrite str_all_app, (plain_digits _ (dec_digits _)). reflexivity.
Qed.
Lemma plain_layout_f d e10 : str_all plain (layout_f d e10) = true.
Proof.
  unfold layout_f. pose proof (dec_digits d) as D. pose proof (plain_digits _ D) as P.
  destruct (_ <=? 0); [|destruct (_ <=? _)].
  - rewrite !str_all_app, P, (plain_digits _ (zeros_digits _)). reflexivity.
  - rewrite !str_all_app, P, (plain_digits _ (zeros_digits _)). reflexivity.
  - rewrite !str_all_app, !plain_sub by assumption. reflexivity.
Qed.
Section Layouts.
Variables (s : bool) (d : N) (e10 : Z).
Hypothesis Hd : (0 < d)%N.
Hypothesis Hb : - 9999 < e10 + Z.of_nat (num_digits d) < 10000.
Hypothesis Hi : not_inf (f64_of_dec s d e10) = true.
Let nd := num_digits d.
Let ds := dec d.
Let dp := e10 + Z.of_nat nd.
Let D2 : digits_val ds 0 = d.
Proof. unfold ds. rewrite dec_val. lia. Qed.
Let Dv k : (k <= nd)%nat -> digits_val (substring k (nd - k) ds) (digits_val (substring 0 k ds) 0) = d.
Proof.
  intros Hk. rewrite <- digits_val_app. unfold nd, ds in *. rewrite <- (dec_len d), substring_split by (rewrite dec_len; lia). exact D2.
Qed.
Let Dl k : (k <= nd)%nat -> String.length (substring k (nd - k) ds) = (nd - k)%nat.
Proof.
  intros Hk. unfold nd, ds in *. pose proof (f_equal String.length (substring_split (dec d) k ltac:(rewrite dec_len; lia))) as E.
  rewrite slen_app, substring_len, dec_len in E by (rewrite dec_len; lia). lia.
Qed.
Let Dn k : (0 < k <= nd)%nat -> substring 0 k ds <> "".
Proof. intros Hk E. unfold nd, ds in *. pose proof (substring_len (dec d) k ltac:(rewrite dec_len; lia)) as L. rewrite E in L. simpl in L. lia. Qed.

Lemma parse_layout_e : parse_float (sign_str s ++ layout_e d e10)%string = inl (f64_of_dec s d e10).
Proof.
  pose proof (plain_layout_e d e10) as HP. pose proof (num_digits_pos d) as D5.
  unfold layout_e in HP |- *. fold nd ds. fold nd ds in HP, D5. fold dp. fold dp in HP.
  assert (parse_float (sign_str s ++ substring 0 1 ds ++ (if (nd =? 1)%nat then "" else "." ++ substring 1 (nd - 1) ds) ++
     "e" ++ (if (dp - 1 <? 0)%Z then "-" ++ dec (Z.abs_N (dp - 1)) else fmt_exp (dp - 1)))%string = inl (f64_of_dec s d ((dp - 1) - (Z.of_nat nd - 1)))) as K.
  { apply parse_signed with (rest := ("e" ++ (if (dp - 1 <? 0)%Z then "-" ++ dec (Z.abs_N (dp - 1)) else fmt_exp (dp - 1)))%string).
    + apply starts_digit_app; [apply sub_digits|apply Dn; lia].
    + exact HP.
    + rewrite scan_mant_digits by apply sub_digits.
      destruct (Nat.eqb_spec nd 1) as [E|E].
      * change ("" ++ ?x)%string with x. rewrite scan_mant_e. rewrite nonempty_true by (apply Dn; lia).
        pose proof (Dv 1%nat ltac:(lia)) as Dv1. pose proof (Dl 1%nat ltac:(lia)) as Dl1. rewrite E in Dl1, Dv1.
        change (1 - 1)%nat with 0%nat in Dl1, Dv1.
        destruct (substring 1 0 ds); [|discriminate Dl1]. cbn [digits_val] in Dv1.
        rewrite Dv1, E. reflexivity.
      * rewrite sapp_assoc, scan_mant_dot, scan_mant_digits by apply sub_digits. rewrite scan_mant_e.
        rewrite Dv by lia. rewrite Dl by lia. rewrite nonempty_true by (apply Dn; lia).
        replace (0 + Z.of_nat (nd - 1)) with (Z.of_nat nd - 1) by lia. reflexivity.
    + apply short_exp_parse. unfold dp, nd. lia.
    + replace (dp - 1 - (Z.of_nat nd - 1)) with e10 by (unfold dp; lia). exact Hi. }
  rewrite K. do 2 f_equal. unfold dp. lia.
Qed.
Lemma parse_layout_f : parse_float (sign_str s ++ layout_f d e10)%string = inl (f64_of_dec s d e10).
Proof.
  pose proof (dec_digits d) as D1. pose proof (dec_nonempty d) as D3. pose proof (dec_len d) as D4. pose proof (num_digits_pos d) as D5.
  pose proof (plain_layout_f d e10) as HP. unfold layout_f in HP |- *. fold nd ds. fold nd ds in HP, D5. fold nd ds in D4. fold ds in D1. fold ds in D3. fold dp. fold dp in HP.
  revert HP. destruct (Z.leb_spec dp 0) as [L|L]; [|destruct (Z.leb_spec (Z.of_nat nd) dp) as [L2|L2]]; intros HP.
  - replace e10 with (0 - (- dp + Z.of_nat nd)) in Hi |- * by (unfold dp; lia).
    apply parse_signed with (rest := ""); auto.
    change ("0." ++ ?x)%string with ("0" ++ ("." ++ x))%string.
    rewrite (scan_mant_digits "0"), scan_mant_dot, scan_mant_digits by (reflexivity || apply zeros_digits).
    rewrite <- (sapp_nil_r ds), scan_mant_digits, scan_mant_nil by assumption.
    rewrite zeros_val, zeros_len, D4, (nonempty_true ds) by assumption.
    change (digits_val "0" 0) with 0%N. rewrite N.mul_0_l, D2, orb_true_r.
    replace (0 + Z.of_nat (Z.to_nat (- dp)) + Z.of_nat nd) with (- dp + Z.of_nat nd) by lia. reflexivity.
  - assert (0 <= e10) as He by (unfold dp in L2; lia).
    assert (f64_of_dec s (d * 10 ^ N.of_nat (Z.to_nat e10))%N (0 - 0) = f64_of_dec s d e10) as Ef.
    { apply f64_of_dec_eq. unfold decR. rewrite N2Z.inj_mul, N2Z.inj_pow, mult_IZR, nat_N_Z, Z2Nat.id by assumption.
      change (IZR (Z.of_N 10 ^ e10)) with (IZR (Zpower radix10 e10)). rewrite IZR_Zpower by assumption.
      change (0 - 0) with 0. simpl (bpow radix10 0). ring. }
    rewrite <- Ef in Hi |- *.
    replace (dp - Z.of_nat nd) with e10 in HP |- * by (unfold dp; lia).
    apply parse_signed with (rest := ""); auto.
    * now apply starts_digit_app.
    * rewrite scan_mant_digits by assumption.
      rewrite <- (sapp_nil_r (zeros _)), scan_mant_digits, scan_mant_nil by apply zeros_digits.
      rewrite zeros_val, D2, (nonempty_true ds) by assumption. reflexivity.
  - replace e10 with (0 - (Z.of_nat nd - dp)) in Hi |- * by (unfold dp; lia).
    apply parse_signed with (rest := ""); auto.
    * apply starts_digit_app; [apply sub_digits|apply Dn; lia].
    * rewrite scan_mant_digits, scan_mant_dot by apply sub_digits.
      rewrite <- (sapp_nil_r (substring (Z.to_nat dp) _ _)), scan_mant_digits, scan_mant_nil by apply sub_digits.
      rewrite Dv, Dl by lia. rewrite nonempty_true by (apply Dn; lia).
      replace (0 + Z.of_nat (nd - Z.to_nat dp)) with (Z.of_nat nd - dp) by lia. reflexivity.
Qed.
End Layouts.

(** Every finite float64 is written as one number literal that reads back to
    it; NaN and the infinities are refused. *)
Theorem json_float_back (x : f64) : is_finite x = true -> exists t, json_float x = Some t /\ numeral t /\ parse_float t = inl x.
Proof.
  destruct x as [s|s| |s m e B]; try discriminate; intros _.
  - eexists. split; [reflexivity|]. split.
    + pose proof (numeral_ok s "0" "" "" eq_refl (or_introl eq_refl) (or_introl eq_refl)) as K. exact K.
    + destruct s; reflexivity.
  - unfold json_float. pose proof (shortest_bounds s m e B) as H.
    set (x := B754_finite s m e B : f64) in *. destruct (shortest s m e x) as [d e10]. destruct H as (H1 & H2 & P).
    eexists. split; [reflexivity|]. assert (not_inf (f64_of_dec s d e10) = true) as NI by (rewrite H1; reflexivity).
    destruct (_ || _); split.
    + now apply layout_e_numeral.
    + rewrite parse_layout_e by (assumption || lia). now rewrite H1.
    + now apply layout_f_numeral.
    + rewrite parse_layout_f by (assumption || lia). now rewrite H1.
Qed.
Theorem json_float_none (x : f64) : json_float x = None <-> is_finite x = false.
Proof.
  destruct x as [s|s| |s m e B]; cbn [json_float is_finite]; try (split; congruence).
  destruct (shortest _ _ _ _). split; congruence.
Qed.
