(** Which texts ParseFloat takes and what they mean (C115). *)
From Coq Require Import ZArith NArith Lia Lra Bool Reals List String Ascii.
From Flocq Require Import Core BinarySingleNaN.
From Verif Require Import Go.Outcome Go.Int64 Go.Float64 Go.FloatOrder Go.FloatReal Go.FloatError Go.FloatScale Go.Text Go.Num Proofs.DecNum Proofs.Lex
  Proofs.Decimal Model.Candle Model.CandleFile Spec.FileSpec Spec.DecimalSpec Spec.JsonReadSpec Spec.NumberSpec Proofs.JsonDenote Proofs.JsonStrict.
Import ListNotations.
Open Scope string_scope.
Open Scope Z_scope.

(** *** Special names *)
Lemma lower_model s : lower_str s = in_lower_case s.
Proof. induction s as [|c s IH]; [reflexivity|]. cbn [lower_str in_lower_case]. now rewrite lower_case_model, IH. Qed.
Lemma lower_app a b : in_lower_case (a ++ b) = (in_lower_case a ++ in_lower_case b)%string.
Proof. induction a as [|c a IH]; [reflexivity|]. cbn [append in_lower_case]. now rewrite IH. Qed.
Lemma lower_sign c : lower_case c = "+"%char \/ lower_case c = "-"%char -> c = lower_case c.
Proof. destruct c as [[] [] [] [] [] [] [] []]; vm_compute; intros [H|H]; first [reflexivity|discriminate H]. Qed.
Lemma special_iff t x : parse_special t = Some x <-> special t x.
Proof.
  unfold parse_special. rewrite lower_model. split.
  - destruct (String.eqb_spec (in_lower_case t) "nan") as [E|N0]; [intros [= <-]; now constructor|].
    destruct (String.eqb_spec (in_lower_case t) "inf") as [E|N1]; [intros [= <-]; apply (special_inf "" t false); [constructor|rewrite E; cbn; auto]|].
    destruct (String.eqb_spec (in_lower_case t) "infinity") as [E|N2]; [intros [= <-]; apply (special_inf "" t false); [constructor|rewrite E; cbn; auto]|].
    assert (forall p w, p = "+"%char \/ p = "-"%char -> in_lower_case t = String p w -> exists s, t = String p s /\ in_lower_case s = w) as G.
    { intros p w Hp H. destruct t as [|c s]; [discriminate H|]. change (String (lower_case c) (in_lower_case s) = String p w) in H.
      assert (lower_case c = p /\ in_lower_case s = w) as [A B] by (injection H; auto). exists s. split; [|exact B]. f_equal.
      rewrite <- A. apply lower_sign. rewrite A. exact Hp. }
    destruct (String.eqb_spec (in_lower_case t) "+inf") as [E|N3].
    { intros [= <-]. destruct (G "+"%char "inf" (or_introl eq_refl) E) as (s & -> & Es). apply (special_inf "+" s false); [constructor|rewrite Es; cbn; auto]. }
    destruct (String.eqb_spec (in_lower_case t) "+infinity") as [E|N4].
    { intros [= <-]. destruct (G "+"%char "infinity" (or_introl eq_refl) E) as (s & -> & Es). apply (special_inf "+" s false); [constructor|rewrite Es; cbn; auto]. }
    cbn [orb].
    destruct (String.eqb_spec (in_lower_case t) "-inf") as [E|N5].
    { intros [= <-]. destruct (G "-"%char "inf" (or_intror eq_refl) E) as (s & -> & Es). apply (special_inf "-" s true); [constructor|rewrite Es; cbn; auto]. }
    destruct (String.eqb_spec (in_lower_case t) "-infinity") as [E|N6].
    { intros [= <-]. destruct (G "-"%char "infinity" (or_intror eq_refl) E) as (s & -> & Es). apply (special_inf "-" s true); [constructor|rewrite Es; cbn; auto]. }
    discriminate.
  - intros [s E|sg s neg Hs Hi]; [rewrite E; reflexivity|]. rewrite lower_app. destruct Hi as [E|[E|[]]]; rewrite <- E; destruct Hs; reflexivity.
Qed.

(** *** Underscores *)
Lemma bare_model s : strip_us s = bare s.
Proof. induction s as [|c s IH]; [reflexivity|]. cbn [strip_us bare]. now rewrite IH. Qed.
Lemma bare_app a b : bare (a ++ b) = (bare a ++ bare b)%string.
Proof. induction a as [|c a IH]; [reflexivity|]. cbn [append bare]. destruct (Ascii.eqb c "_"); [exact IH|]. cbn [append]. now rewrite IH. Qed.
Lemma digit_iff c : is_digit c = true <-> decimal_digit c.
Proof.
  unfold is_digit, decimal_digit, byte. rewrite andb_true_iff, !N.leb_le. lia.
Qed.
Lemma hex_val_iff c v : hex_val c = Some v <-> hex_digit c (Z.of_N v).
Proof.
  split.
  - unfold hex_val. destruct (is_digit c) eqn:D.
    + intros [= <-]. unfold digit_val. apply digit_iff in D. replace (Z.of_N (N_of_ascii c - 48)) with (byte c - 48); [now constructor|].
      unfold decimal_digit, byte in *. lia.
    + unfold lower. destruct (((65 <=? N_of_ascii c) && (N_of_ascii c <=? 90))%N) eqn:U.
      * apply andb_true_iff in U as [U1 U2]. apply N.leb_le in U1, U2. rewrite N_ascii_embedding by lia.
        destruct (((97 <=? N_of_ascii c + 32) && (N_of_ascii c + 32 <=? 102))%N) eqn:W; [|discriminate].
        apply andb_true_iff in W as [W1 W2]. apply N.leb_le in W1, W2. intros [= <-].
        replace (Z.of_N (N_of_ascii c + 32 - 87)) with (byte c - 55) by (unfold byte; lia). apply hex_capital. unfold byte; lia.
      * destruct (((97 <=? N_of_ascii c) && (N_of_ascii c <=? 102))%N) eqn:W; [|discriminate].
        apply andb_true_iff in W as [W1 W2]. apply N.leb_le in W1, W2. intros [= <-].
        replace (Z.of_N (N_of_ascii c - 87)) with (byte c - 87) by (unfold byte; lia). apply hex_small. unfold byte; lia.
  - intros H. unfold hex_val. inversion H as [c0 B E1 E2|c0 B E1 E2|c0 B E1 E2]; subst c0.
    + rewrite (proj2 (digit_iff c) B). f_equal. unfold digit_val, byte in *. lia.
    + assert (is_digit c = false) as ->. { apply not_true_iff_false. rewrite digit_iff. unfold decimal_digit. lia. }
      unfold lower, byte in *. destruct (N.leb_spec 65 (N_of_ascii c)); [|lia]. destruct (N.leb_spec (N_of_ascii c) 90); [lia|]. cbn [andb].
      destruct (N.leb_spec 97 (N_of_ascii c)); [|lia]. destruct (N.leb_spec (N_of_ascii c) 102); [|lia]. cbn [andb]. f_equal. lia.
    + assert (is_digit c = false) as ->. { apply not_true_iff_false. rewrite digit_iff. unfold decimal_digit. lia. }
      unfold lower, byte in *. destruct (N.leb_spec 65 (N_of_ascii c)); [|lia]. destruct (N.leb_spec (N_of_ascii c) 90); [|lia]. cbn [andb].
      rewrite N_ascii_embedding by lia.
      destruct (N.leb_spec 97 (N_of_ascii c + 32)); [|lia]. destruct (N.leb_spec (N_of_ascii c + 32) 102); [|lia]. cbn [andb]. f_equal. lia.
Qed.
Lemma hex_val_some c : hexadecimal_digit c <-> exists v, hex_val c = Some v.
Proof.
  split; intros [v H].
  - assert (0 <= v) as P by (inversion H; lia). exists (Z.to_N v). apply hex_val_iff. now rewrite Z2N.id.
  - apply hex_val_iff in H. now exists (Z.of_N v).
Qed.

Definition dig (hex : bool) (c : ascii) : bool := is_digit c || (hex && match hex_val c with Some _ => true | None => false end).
Definition digP (hex : bool) : ascii -> Prop := if hex then hexadecimal_digit else decimal_digit.
Lemma dig_iff hex c : dig hex c = true <-> digP hex c.
Proof.
  unfold dig, digP. destruct hex; cbn [andb].
  - rewrite orb_true_iff. rewrite hex_val_some. split.
    + intros [H|H]; [exists (digit_val c); unfold hex_val; now rewrite H|]. destruct (hex_val c) as [v|]; [now exists v|discriminate].
    + intros [v H]. right. now rewrite H.
  - rewrite orb_false_r. apply digit_iff.
Qed.
Lemma dig_not_us hex : dig hex "_" = false.
Proof. destruct hex; reflexivity. Qed.
Lemma us_step hex saw c r : us_loop hex saw (String c r) =
  if dig hex c then us_loop hex 1 r else if Ascii.eqb c "_" then (saw =? 1)%nat && us_loop hex 2 r else negb (saw =? 2)%nat && us_loop hex 3 r.
Proof. reflexivity. Qed.

Definition begins (hex : bool) (s : string) : Prop := exists c r, s = String c r /\ digP hex c.
Definition sep (hex : bool) (front : Prop) (s : string) : Prop := separated (digP hex) front s.
Lemma sep_cons hex front c s : c <> "_"%char -> (sep hex front (String c s) <-> sep hex (digP hex c) s).
Proof.
  intros N. split; intros H a b E.
  - assert (String c s = (String c a ++ String "_" b)%string) as E' by (cbn [append]; now rewrite E).
    destruct (H (String c a) b E') as [[[A _]|(a' & c' & A & D)] B]; [discriminate A|].
    split; [|exact B]. destruct a' as [|x a']; cbn [append] in A.
    + injection A as -> ->. left. auto.
    + injection A as -> ->. right. eauto.
  - destruct a as [|x a]; cbn [append] in E; [injection E; intros; congruence|]. injection E as <- ->.
    destruct (H a b eq_refl) as [[[-> D]|(a' & c' & -> & D)] B]; (split; [|exact B]); right.
    + exists "", c. auto.
    + exists (String c a'), c'. auto.
Qed.
Lemma sep_us hex front s : sep hex front (String "_" s) <-> front /\ begins hex s /\ sep hex False s.
Proof.
  split.
  - intros H. destruct (H "" s eq_refl) as [[[_ F]|(a' & c0 & A & _)] (c & b & -> & D)].
    2:{ destruct a'; discriminate A. }
    split; [exact F|]. split; [now exists c, b|]. intros a b' E.
    assert (String "_" (String c b) = (String "_" a ++ String "_" b')%string) as E' by (cbn [append]; now rewrite E).
    destruct (H (String "_" a) b' E') as [[[A _]|(a' & c' & A & D')] B]; [discriminate A|].
    split; [|exact B]. destruct a' as [|x a']; cbn [append] in A; injection A as A1 A2; subst.
    + apply dig_iff in D'. rewrite dig_not_us in D'. discriminate D'.
    + right. eauto.
  - intros (F & (c & r & -> & D) & H) a b E. destruct a as [|x a]; cbn [append] in E.
    + injection E as <-. split; [left; auto|eauto].
    + injection E as <- E. destruct (H a b E) as [[[_ []]|(a' & c' & -> & D')] B]. split; [|exact B]. right. exists (String "_" a'), c'. auto.
Qed.
Lemma us_iff hex s : forall saw, us_loop hex saw s = true <-> (saw = 2%nat -> begins hex s) /\ sep hex (saw = 1%nat) s.
Proof.
  induction s as [|c s IH]; intros saw.
  - cbn [us_loop]. rewrite negb_true_iff, Nat.eqb_neq. split.
    + intros H. split; [intros; contradiction|]. intros [|] b E; discriminate E.
    + intros [H _] E. destruct (H E) as (c & r & X & _). discriminate X.
  - rewrite us_step. destruct (dig hex c) eqn:D.
    + rewrite IH. assert (c <> "_"%char) as N by (intros ->; rewrite dig_not_us in D; discriminate D). rewrite (sep_cons hex _ c s N).
      apply dig_iff in D. split.
      * intros [_ H]. split; [intros _; now exists c, s|]. intros a b E. destruct (H a b E) as [[[A _]|A] B]; auto.
      * intros [_ H]. split; [discriminate|]. intros a b E. destruct (H a b E) as [[[A _]|A] B]; auto.
    + assert (~ digP hex c) as ND by (rewrite <- dig_iff; congruence). destruct (Ascii.eqb_spec c "_") as [->|N].
      * rewrite andb_true_iff, Nat.eqb_eq, IH, sep_us. split.
        -- intros (-> & H & K). split; [discriminate|]. split; [reflexivity|]. split; [now apply H|]. intros a b E. destruct (K a b E) as [[[_ A]|A] B]; [discriminate A|auto].
        -- intros (H & -> & G & K). split; [reflexivity|]. split; [auto|]. intros a b E. destruct (K a b E) as [[[_ []]|A] B]; auto.
      * rewrite andb_true_iff, negb_true_iff, Nat.eqb_neq, IH, (sep_cons hex _ c s N). split.
        -- intros (H & _ & K). split; [intros; contradiction|]. intros a b E. destruct (K a b E) as [[[_ A]|A] B]; [discriminate A|auto].
        -- intros (H & K). split; [|split; [discriminate|]].
           ++ intros E. destruct (H E) as (x & r & [= <- _] & D'). contradiction.
           ++ intros a b E. destruct (K a b E) as [[[_ A]|A] B]; [contradiction|auto].
Qed.
Lemma us_false s : us_loop false 0 s = true <-> separated decimal_digit False s.
Proof.
  rewrite us_iff. unfold sep. cbn [digP]. split.
  - intros [_ H] a b E. destruct (H a b E) as [[[_ A]|A] B]; [discriminate A|auto].
  - intros H. split; [discriminate|]. intros a b E. destruct (H a b E) as [[[_ []]|A] B]; auto.
Qed.
Lemma us_true s : us_loop true 1 s = true <-> separated hexadecimal_digit True s.
Proof.
  rewrite us_iff. unfold sep. cbn [digP]. split.
  - intros [_ H] a b E. destruct (H a b E) as [[[-> A]|A] B]; auto.
  - intros H. split; [discriminate|]. intros a b E. destruct (H a b E) as [[[-> _]|A] B]; auto.
Qed.

(** *** Decimal numbers *)
Lemma digits_chars d n : digits d n -> str_all num_char d = true.
Proof.
  intros H. destruct (digits_model d n H) as [D _]. rewrite all_digits_str in D. apply (str_all_impl is_digit); [|exact D].
  intros x Hx. unfold num_char. now rewrite Hx.
Qed.
Lemma decimal_shape p neg r : decimal p neg r -> exists sg body, p = (sg ++ body)%string /\ sign sg neg /\ starts body = true /\ str_all num_char body = true.
Proof.
  intros (sg & ip & n & fr & m & k & ex & e & -> & Hs & Hi & Hf & He & Hp & _). exists sg, (ip ++ fr ++ ex). split; [reflexivity|]. split; [exact Hs|].
  split.
  - destruct ip as [|c ip].
    + destruct Hf as [|f m Hf]; [destruct Hp as [Hp|Hp]; [congruence|lia]|reflexivity].
    + destruct (digits_model _ n Hi) as [D _]. cbn [all_digits] in D. apply andb_true_iff in D as [D _]. cbn [append starts]. now rewrite D.
  - rewrite !str_all_app, (digits_chars _ _ Hi), (exponent_chars _ _ He). destruct Hf as [|f m Hf]; [reflexivity|]. cbn [str_all].
    now rewrite (digits_chars _ _ Hf).
Qed.
Lemma sep_first t : separated decimal_digit False t -> forall s, t <> String "_" s.
Proof. intros H s ->. destruct (H "" s eq_refl) as [[[_ []]|(a' & c & A & _)] _]. destruct a'; discriminate A. Qed.
Lemma sep_tail c s : c <> "_"%char -> ~ decimal_digit c -> separated decimal_digit False (String c s) -> separated decimal_digit False s.
Proof.
  intros N D H. apply (sep_cons false False c s N) in H. intros a b E. destruct (H a b E) as [[[_ A]|A] B]; [contradiction|auto].
Qed.
Lemma bare_head t c s : (forall s', t <> String "_" s') -> bare t = String c s -> exists t', t = String c t' /\ bare t' = s.
Proof.
  intros N. destruct t as [|x t]; [discriminate|]. cbn [bare]. destruct (Ascii.eqb_spec x "_") as [->|Nx]; [now destruct (N t)|].
  intros [= -> <-]. eauto.
Qed.
(** Behind the sign. *)
Lemma decimal_body t sg neg body : separated decimal_digit False t -> bare t = (sg ++ body)%string -> sign sg neg -> starts body = true ->
  exists u, t = (sg ++ u)%string /\ bare u = body /\ separated decimal_digit False u /\ starts u = true.
Proof.
  intros S E Hs Hb.
  assert (forall u, separated decimal_digit False u -> bare u = body -> starts u = true) as G.
  { intros u Su Eu. destruct body as [|c b]; [discriminate Hb|]. destruct (bare_head u c b (sep_first u Su) Eu) as (u' & -> & _). exact Hb. }
  destruct Hs; cbn [append] in *.
  - exists t. auto.
  - destruct (bare_head t _ _ (sep_first t S) E) as (u & -> & Eu). apply sep_tail in S; [|discriminate|vm_compute; intuition discriminate]. exists u. auto.
  - destruct (bare_head t _ _ (sep_first t S) E) as (u & -> & Eu). apply sep_tail in S; [|discriminate|vm_compute; intuition discriminate]. exists u. auto.
Qed.
Lemma decimal_number_parse t neg r : decimal_number t neg r -> parse_float t = parse_number (bare t).
Proof.
  intros [S D]. destruct (decimal_shape _ _ _ D) as (sg & body & E & Hs & Hb & Hc).
  destruct (decimal_body t sg neg body S E Hs Hb) as (u & -> & Eu & Su & Hu).
  destruct (sign_take sg neg u Hs Hu) as [T P]. unfold parse_float. rewrite P, bare_model.
  enough (underscore_ok (sg ++ u) = true) as -> by reflexivity.
  unfold underscore_ok. rewrite T. apply us_false in Su. destruct u as [|c0 [|c1 u]]; try exact Su.
  destruct (Ascii.eqb_spec c0 "0") as [->|_]; [|exact Su].
  destruct (Ascii.eqb_spec c1 "_") as [->|N1]; [exact Su|].
  assert (num_char c1 = true) as K.
  { rewrite <- Eu in Hc. cbn [bare] in Hc. change (Ascii.eqb "0" "_") with false in Hc. cbv iota in Hc.
    destruct (Ascii.eqb_spec c1 "_"); [contradiction|]. cbn [str_all] in Hc. apply andb_true_iff in Hc as [_ Hc]. now apply andb_true_iff in Hc as [Hc _]. }
  rewrite !(num_char_lower c1) by (exact K || reflexivity). exact Su.
Qed.
Lemma bare_num p : str_all num_char p = true -> bare p = p.
Proof. intros H. rewrite <- bare_model. now apply strip_us_num. Qed.
Lemma chars_separated p dg fr : str_all num_char p = true -> separated dg fr p.
Proof.
  intros H a b ->. rewrite str_all_app in H. apply andb_true_iff in H as [_ H]. cbn [str_all] in H. discriminate H.
Qed.
Lemma decimal_chars p neg r : decimal p neg r -> str_all num_char p = true.
Proof.
  intros D. destruct (decimal_shape _ _ _ D) as (sg & body & -> & Hs & _ & Hc). rewrite str_all_app, Hc. destruct Hs; reflexivity.
Qed.
Lemma decimal_number_float t neg r : decimal_number t neg r -> parse_float t = parse_float (bare t).
Proof.
  intros H. rewrite (decimal_number_parse _ _ _ H). destruct H as [_ D]. pose proof (decimal_chars _ _ _ D) as C.
  rewrite (decimal_number_parse (bare t) neg r); [now rewrite (bare_num _ C)|]. split; [now apply chars_separated|]. now rewrite (bare_num _ C).
Qed.
Lemma bare_len t : (String.length (bare t) <= String.length t)%nat.
Proof. induction t as [|c t IH]; [apply le_n|]. cbn [bare]. destruct (Ascii.eqb c "_"); cbn [String.length]; lia. Qed.
Theorem decimal_number_read t neg r : short t -> decimal_number t neg r ->
  exists x : f64, parse_float t = finish x /\ is_nan x = false /\ Bsign x = neg /\ xr x = sat (nearest r).
Proof.
  intros S H. rewrite (decimal_number_float _ _ _ H). apply decimal_read; [|apply H]. unfold short in *. pose proof (bare_len t). lia.
Qed.

(** *** Hexadecimal numbers *)
Lemma hex_digit_val c v : hex_digit c v -> exists w, hex_val c = Some w /\ Z.of_N w = v.
Proof.
  intros H. assert (0 <= v) as P by (inversion H; lia). exists (Z.to_N v). rewrite Z2N.id by exact P. split; [|reflexivity].
  apply hex_val_iff. now rewrite Z2N.id.
Qed.
Lemma hex_not_dot c w : hex_val c = Some w -> Ascii.eqb c "." = false.
Proof. intros H. destruct (Ascii.eqb_spec c "."); [subst; discriminate H|reflexivity]. Qed.
Lemma hex_digits_bound s n : hex_digits s n -> 0 <= n < 16 ^ Z.of_nat (String.length s).
Proof.
  induction 1 as [|s n c v _ IH Hc]; [cbn; lia|]. rewrite slen_app. cbn [String.length]. rewrite Nat2Z.inj_add. cbn [Z.of_nat].
  rewrite Z.pow_add_r by lia. change (16 ^ Z.pos (Pos.of_succ_nat 0)) with 16. assert (0 <= v < 16) by (inversion Hc; lia). nia.
Qed.
Lemma scan_hex_digits s n : hex_digits s n -> forall r sd sg d fr,
  scan_hex (s ++ r) sd sg d fr = scan_hex r sd (sg || nonempty s) (d * 16 ^ N.of_nat (String.length s) + Z.to_N n)%N
    (if sd then fr + Z.of_nat (String.length s) else fr).
Proof.
  induction 1 as [|s n c v Hs IH Hc]; intros r sd sg d fr.
  - cbn [append String.length]. change (16 ^ N.of_nat 0)%N with 1%N. rewrite N.mul_1_r, N.add_0_r, orb_false_r, Z.add_0_r. now destruct sd.
  - rewrite sapp_assoc, IH. cbn [append scan_hex]. destruct (hex_digit_val c v Hc) as (w & E & W). rewrite (hex_not_dot c w E), E.
    pose proof (hex_digits_bound s n Hs) as B.
    assert (nonempty (s ++ String c "") = true) as -> by (apply nonempty_true; destruct s; discriminate). rewrite orb_true_r.
    rewrite slen_app. cbn [String.length]. f_equal.
    + rewrite Nat2N.inj_add, N.pow_add_r. change (16 ^ N.of_nat 1)%N with 16%N. rewrite <- W. rewrite Z2N.inj_add by lia. rewrite Z2N.inj_mul by lia.
      change (Z.to_N 16) with 16%N. rewrite N2Z.id. lia.
    + destruct sd; lia.
Qed.
Lemma power_exponent ex e : power_of_two ex e -> exists c r, ex = String c r /\ (c = "p" \/ c = "P")%char /\ exponent (String "e" r) e.
Proof.
  intros [c sg neg d e' Hc Hs Hd Hn]. exists c, (sg ++ d). split; [reflexivity|]. split; [exact Hc|]. apply exponent_some; auto.
Qed.
Definition binR (d : N) (e : Z) : R := (IZR (Z.of_N d) * bpow radix2 e)%R.
Lemma f64_of_bin_spec s d e : is_nan (f64_of_bin s d e) = false /\ Bsign (f64_of_bin s d e) = s /\ xr (f64_of_bin s d e) = sat (rnd (signed s (binR d e))).
Proof.
  assert (forall q, bpow radix2 (Zpos q) = IZR (Zpos (2 ^ q))) as P2.
  { intros q. rewrite <- IZR_Zpower by lia. f_equal. cbn [radix_val radix2]. rewrite Pos2Z.inj_pow. reflexivity. }
  unfold f64_of_bin, binR. destruct d as [|p].
  - split; [reflexivity|split; [reflexivity|]]. cbn [Z.of_N]. rewrite Rmult_0_l.
    assert (signed s 0 = 0%R) as -> by (destruct s; cbn [signed]; lra).
    rewrite rnd_0, sat_id; [reflexivity|]. rewrite Rabs_R0. apply Rlt_le, big_pos.
  - destruct e as [|q|q].
    + destruct (f64_of_ratio_spec s p 1) as (H1 & H2 & H3). rewrite H3. split; [exact H1|split; [exact H2|]].
      do 2 f_equal. simpl. unfold Rdiv. now rewrite Rinv_1.
    + destruct (f64_of_ratio_spec s (p * 2 ^ q) 1) as (H1 & H2 & H3). rewrite H3. split; [exact H1|split; [exact H2|]].
      do 3 f_equal. rewrite P2, Pos2Z.inj_mul, mult_IZR. simpl. field.
    + destruct (f64_of_ratio_spec s p (2 ^ q)) as (H1 & H2 & H3). rewrite H3. split; [exact H1|split; [exact H2|]].
      do 3 f_equal. change (Zneg q) with (- Zpos q). rewrite bpow_opp, P2. reflexivity.
Qed.
Lemma sat_huge2 r : (bpow radix2 1024 <= r)%R -> sat (rnd r) = big.
Proof.
  intros H. apply sat_hi. assert (rnd (bpow radix2 1024) = big) as <- by (apply (rnd_pow 1024); lia). now apply rnd_mono.
Qed.
Lemma sat_tiny2 r : (0 <= r <= bpow radix2 (-1100))%R -> sat (rnd r) = 0%R.
Proof.
  intros H. assert (rnd r = 0%R) as ->; [|apply sat_id; rewrite Rabs_R0; apply Rlt_le, big_pos].
  destruct (Req_dec r 0) as [->|N]; [apply rnd_0|].
  unfold rnd. apply round_N_small_pos with (mag radix2 r).
  - destruct (mag radix2 r) as [x Hx]. simpl. specialize (Hx N). rewrite Rabs_pos_eq in Hx by lra. exact Hx.
  - assert (mag radix2 r <= -1099) as M.
    { apply mag_le_bpow; [exact N|]. rewrite Rabs_pos_eq by lra. eapply Rle_lt_trans; [apply H|]. apply bpow_lt. lia. }
    unfold fexp64, FLT_exp. lia.
Qed.
Lemma same_bin neg d e e' k : Z.of_N d < 2 ^ 8800 -> 0 <= k <= 8800 ->
  (e' = e \/ (10000 <= e /\ 10000 <= e') \/ (e <= -10000 /\ e' <= -10000)) ->
  f64_of_bin neg d (e' - k) = f64_of_bin neg d (e - k).
Proof.
  intros Hd Hk H. destruct H as [-> |H]; [reflexivity|].
  destruct (N.eq_dec d 0) as [->|Nz]; [reflexivity|].
  destruct (f64_of_bin_spec neg d (e' - k)) as (A & B & C). destruct (f64_of_bin_spec neg d (e - k)) as (A' & B' & C').
  apply xr_sign_inj; auto; [|now rewrite B, B']. rewrite C, C'.
  assert (forall x, sat (rnd (signed neg x)) = signed neg (sat (rnd x))) as Sg.
  { intros x. destruct neg; cbn [signed]; [|reflexivity]. rewrite rnd_opp. unfold sat.
    pose proof big_pos. unfold Rmax, Rmin. repeat destruct Rle_dec; lra. }
  rewrite !Sg. f_equal. destruct H as [[H1 H2]|[H1 H2]].
  - assert (forall x, 10000 <= x -> sat (rnd (binR d (x - k))) = big) as K; [|now rewrite !K].
    intros x Hx. apply sat_huge2. unfold binR. rewrite <- (Rmult_1_l (bpow radix2 1024)).
    apply Rmult_le_compat; [lra|apply bpow_ge_0|apply (IZR_le 1); lia|apply bpow_le; lia].
  - assert (forall x, x <= -10000 -> sat (rnd (binR d (x - k))) = 0%R) as K; [|now rewrite !K].
    intros x Hx. apply sat_tiny2. unfold binR. split; [apply Rmult_le_pos; [apply (IZR_le 0); lia|apply bpow_ge_0]|].
    apply Rle_trans with (bpow radix2 8800 * bpow radix2 (-10000))%R; [|rewrite <- bpow_plus; apply bpow_le; lia].
    apply Rmult_le_compat; [apply (IZR_le 0); lia|apply bpow_ge_0| |apply bpow_le; lia].
    rewrite <- IZR_Zpower by lia. apply IZR_le. change (Zpower radix2 8800) with (2 ^ 8800)%Z. lia.
Qed.
Lemma scan_hex_stop c r sd sg d fr : c = "p"%char \/ c = "P"%char -> scan_hex (String c r) sd sg d fr = (sg, d, fr, String c r).
Proof. intros [-> | ->]; reflexivity. Qed.

(** [k] is the number of digits after the point. *)
Lemma hex_scan ip n fr m k ex c r : hex_digits ip n -> hex_fraction fr m k -> ex = String c r -> (c = "p" \/ c = "P")%char -> (ip <> "" \/ 0 < k) ->
  exists D, scan_hex (ip ++ fr ++ ex) false false 0%N 0 = (true, D, k, ex) /\ Z.of_N D = n * 16 ^ k + m /\
    0 <= k /\ Z.of_nat (String.length ip) + k <= Z.of_nat (String.length (ip ++ fr)) /\ 0 <= n < 16 ^ Z.of_nat (String.length ip) /\ 0 <= m < 16 ^ k.
Proof.
  intros Hi Hf -> Hc Hp. pose proof (hex_digits_bound ip n Hi) as B. rewrite (scan_hex_digits ip n Hi). cbn [orb]. rewrite N.mul_0_l, N.add_0_l.
  destruct Hf as [|f m Hf].
  - cbn [append]. rewrite (scan_hex_stop c r) by exact Hc. rewrite nonempty_true by (destruct Hp as [Hp|Hp]; [exact Hp|lia]).
    exists (Z.to_N n). split; [reflexivity|]. rewrite Z2N.id by lia. rewrite slen_app. cbn [String.length]. change (16 ^ 0) with 1. lia.
  - pose proof (hex_digits_bound f m Hf) as B'. cbn [append scan_hex]. change (Ascii.eqb "." ".") with true. cbv iota.
    rewrite (scan_hex_digits f m Hf), (scan_hex_stop c r) by exact Hc.
    assert (nonempty ip || nonempty f = true) as ->.
    { destruct Hp as [Hp|Hp]; [now rewrite nonempty_true|]. rewrite (nonempty_true f); [apply orb_true_r|]. intros ->. cbn in Hp. lia. }
    eexists. split; [reflexivity|]. split.
    + rewrite N2Z.inj_add, N2Z.inj_mul, N2Z.inj_pow, nat_N_Z, !Z2N.id by lia. reflexivity.
    + rewrite slen_app. cbn [String.length]. lia.
Qed.
Lemma hex_body_read h r neg : Z.of_nat (String.length h) < 2200 -> hex_body h r ->
  exists x : f64, parse_hex neg h = finish x /\ is_nan x = false /\ Bsign x = neg /\ xr x = sat (nearest (signed_R neg r)).
Proof.
  intros L (ip & n & fr & m & k & ex & e & -> & Hi & Hf & He & Hp & ->).
  destruct (power_exponent ex e He) as (c & rr & -> & Hc & Hx). destruct (exponent_read _ _ Hx) as (e' & E1 & E2).
  destruct (hex_scan ip n fr m k (String c rr) c rr Hi Hf eq_refl Hc Hp) as (D & S & V & K0 & K1 & N1 & M1).
  assert (parse_hex neg (ip ++ fr ++ String c rr) = finish (f64_of_bin neg D (e' - 4 * k))) as P.
  { unfold parse_hex. rewrite S. replace (true && (Ascii.eqb c "p" || Ascii.eqb c "P")) with true by (destruct Hc as [-> | ->]; reflexivity).
    rewrite E1. reflexivity. }
  assert (Z.of_nat (String.length ip) + k < 2200) as KL.
  { rewrite !slen_app in L. rewrite slen_app in K1. lia. }
  rewrite (same_bin neg D e e' (4 * k)) in P; [| |lia|exact E2].
  2:{ rewrite V. apply Z.lt_le_trans with (16 ^ (Z.of_nat (String.length ip) + k)).
      - rewrite Z.pow_add_r by lia. nia.
      - change 16 with (2 ^ 4). rewrite <- Z.pow_mul_r by lia. apply Z.pow_le_mono_r; lia. }
  exists (f64_of_bin neg D (e - 4 * k)). split; [exact P|]. destruct (f64_of_bin_spec neg D (e - 4 * k)) as (A & B & C).
  split; [exact A|]. split; [exact B|]. rewrite C. unfold nearest. change (FLT_exp (-1074) 53) with fexp64. f_equal. unfold rnd. f_equal.
  enough (binR D (e - 4 * k) = (IZR n + IZR m / powerRZ 16 k) * powerRZ 2 e)%R as -> by reflexivity.
  unfold binR. rewrite V, plus_IZR, mult_IZR. change 2%R with (IZR (radix_val radix2)). rewrite <- bpow_powerRZ. unfold Zminus. rewrite bpow_plus, bpow_opp.
  assert (powerRZ 16 k = bpow radix2 (4 * k) /\ IZR (16 ^ k) = bpow radix2 (4 * k)) as [-> ->].
  { assert (IZR (16 ^ k) = bpow radix2 (4 * k)) as E.
    { rewrite <- IZR_Zpower by lia. f_equal. cbn [radix_val radix2]. change (Zpower 2 (4 * k)) with (2 ^ (4 * k)). now rewrite Z.pow_mul_r by lia. }
    split; [|exact E]. rewrite <- E. assert (k = Z.of_nat (Z.to_nat k)) as -> by lia. rewrite <- pow_powerRZ, pow_IZR. reflexivity. }
  pose proof (bpow_gt_0 radix2 (4 * k)). field. lra.
Qed.
Lemma hex_chars_x x : small_or_capital_x x -> lower x = "x"%char /\ x <> "_"%char.
Proof. intros [-> | ->]; split; (reflexivity || discriminate). Qed.
Lemma hex_body_nonempty h r : hex_body h r -> h <> "".
Proof.
  intros (ip & n & fr & m & k & ex & e & -> & _ & _ & He & _). destruct (power_exponent ex e He) as (c & rr & -> & _).
  intros E. apply (f_equal String.length) in E. rewrite !slen_app in E. cbn in E. lia.
Qed.
Lemma bare_sign sg neg s : sign sg neg -> bare (sg ++ s) = (sg ++ bare s)%string.
Proof. intros []; reflexivity. Qed.
Lemma hexadecimal_parse sg neg x h r : sign sg neg -> small_or_capital_x x -> separated hexadecimal_digit True h -> hex_body (bare h) r ->
  parse_float (sg ++ "0" ++ String x h) = parse_hex neg (bare h).
Proof.
  intros Hs Hx S H. destruct (hex_chars_x x Hx) as [Lx Nx].
  destruct (sign_take sg neg ("0" ++ String x h) Hs eq_refl) as [T P]. unfold parse_float. rewrite P.
  assert (underscore_ok (sg ++ "0" ++ String x h) = true) as ->.
  { unfold underscore_ok. rewrite T. cbn [append]. rewrite Lx. change (us_loop true 1 h = true). now apply us_true. }
  rewrite bare_model, (bare_sign sg neg) by exact Hs. cbn [append bare]. change (Ascii.eqb "0" "_") with false.
  destruct (Ascii.eqb_spec x "_"); [contradiction|]. cbv iota.
  destruct (sign_take sg neg (String "0" (String x (bare h))) Hs eq_refl) as [T' _]. unfold parse_number. rewrite T'.
  pose proof (hex_body_nonempty _ _ H) as N. destruct (bare h) as [|c2 r']; [congruence|]. rewrite Lx. reflexivity.
Qed.
Theorem hexadecimal_read t neg r : brief t -> hexadecimal_number t neg r ->
  exists x : f64, parse_float t = finish x /\ is_nan x = false /\ Bsign x = neg /\ xr x = sat (nearest r).
Proof.
  intros L (sg & x & h & r' & -> & Hs & Hx & S & H & ->). rewrite (hexadecimal_parse sg neg x h r' Hs Hx S H). apply hex_body_read; [|exact H].
  unfold brief in L. rewrite !slen_app in L. cbn [String.length] in L. pose proof (bare_len h). lia.
Qed.

(** *** Nothing else *)
Lemma scan_mant_inv_dot s : forall sg d fr sg' d' fr' rest, scan_mant s true sg d fr = (sg', d', fr', rest) ->
  exists ds, s = (ds ++ rest)%string /\ all_digits ds = true /\ sg' = sg || nonempty ds.
Proof.
  induction s as [|c s IH]; intros sg d fr sg' d' fr' rest; cbn [scan_mant].
  - intros [= <- _ _ <-]. exists "". rewrite orb_false_r. auto.
  - destruct (Ascii.eqb c "."); [intros [= <- _ _ <-]; exists ""; rewrite orb_false_r; auto|].
    destruct (is_digit c) eqn:D; [|intros [= <- _ _ <-]; exists ""; rewrite orb_false_r; auto].
    intros H. destruct (IH _ _ _ _ _ _ _ H) as (ds & -> & A & ->). exists (String c ds). split; [reflexivity|]. cbn [all_digits]. rewrite D, A.
    split; [reflexivity|]. rewrite (nonempty_true (String c ds)) by discriminate. now rewrite orb_true_r.
Qed.
Lemma scan_mant_inv s : forall sg d fr sg' d' fr' rest, scan_mant s false sg d fr = (sg', d', fr', rest) ->
  exists ip f k m, s = (ip ++ f ++ rest)%string /\ all_digits ip = true /\ fraction f m k /\ sg' = sg || nonempty ip || (0 <? k).
Proof.
  induction s as [|c s IH]; intros sg d fr sg' d' fr' rest; cbn [scan_mant].
  - intros [= <- _ _ <-]. exists "", "", 0, 0. rewrite !orb_false_r. split; [reflexivity|]. split; [reflexivity|]. split; [constructor|reflexivity].
  - destruct (Ascii.eqb_spec c ".") as [->|_].
    + intros H. destruct (scan_mant_inv_dot _ _ _ _ _ _ _ _ H) as (ds & -> & A & ->).
      exists "", (String "." ds), (Z.of_nat (String.length ds)), (Z.of_N (digits_val ds 0)). split; [reflexivity|]. split; [reflexivity|].
      split; [constructor; now apply digits_of|]. cbn [orb]. rewrite orb_false_r. f_equal. destruct ds; [reflexivity|]. rewrite nonempty_true by discriminate.
      symmetry. apply Z.ltb_lt. cbn [String.length]. lia.
    + destruct (is_digit c) eqn:D.
      * intros H. destruct (IH _ _ _ _ _ _ _ H) as (ip & f & k & m & -> & A & F & ->). exists (String c ip), f, k, m. split; [reflexivity|].
        cbn [all_digits]. rewrite D, A. split; [reflexivity|]. split; [exact F|]. rewrite (nonempty_true (String c ip)) by discriminate.
        now rewrite orb_true_r, !orb_true_l.
      * intros [= <- _ _ <-]. exists "", "", 0, 0. rewrite !orb_false_r. split; [reflexivity|]. split; [reflexivity|]. split; [constructor|reflexivity].
Qed.
Lemma scan_exp_inv s : forall e x rest, scan_exp s e = (x, rest) -> exists ds, s = (ds ++ rest)%string /\ all_digits ds = true /\
  (starts_digit s = true -> ds <> "").
Proof.
  induction s as [|c s IH]; intros e x rest; cbn [scan_exp].
  - intros [= <- <-]. exists "". cbn. repeat split. discriminate.
  - destruct (is_digit c) eqn:D.
    + intros H. destruct (IH _ _ _ H) as (ds & -> & A & _). exists (String c ds). cbn [all_digits]. rewrite D, A. repeat split. discriminate.
    + intros [= <- <-]. exists "". cbn [starts_digit]. rewrite D. repeat split. discriminate.
Qed.
Lemma parse_exp_inv s e : parse_exp s = Some e -> s = "" \/ exists c sg neg d n, s = String c (sg ++ d)%string /\ (c = "e" \/ c = "E")%char /\ sign sg neg /\ digits d n /\ d <> "".
Proof.
  unfold parse_exp. destruct s as [|c r]; [auto|]. destruct (Ascii.eqb c "e" || Ascii.eqb c "E") eqn:C; [|discriminate]. intros H. right.
  assert (c = "e" \/ c = "E")%char as C' by (apply orb_true_iff in C as [C|C]; apply Ascii.eqb_eq in C; auto).
  assert (exists sg neg r', r = (sg ++ r')%string /\ sign sg neg /\
    (if starts_digit r' then let '(e, rest) := scan_exp r' 0 in if String.eqb rest "" then Some (if neg then - Z.of_N e else Z.of_N e) else None else None) = Some e) as (sg & neg & r' & -> & Hs & H').
  { destruct r as [|c' r'']; [discriminate H|].
    destruct (Ascii.eqb_spec c' "+") as [->|]; [exists "+", false, r''; repeat split; [constructor|exact H]|].
    destruct (Ascii.eqb_spec c' "-") as [->|]; [exists "-", true, r''; repeat split; [constructor|exact H]|].
    exists "", false, (String c' r''). repeat split; [constructor|exact H]. }
  destruct (starts_digit r') eqn:St; [|discriminate H']. destruct (scan_exp r' 0) as [x rest] eqn:Sc. destruct (String.eqb_spec rest "") as [->|]; [|discriminate H'].
  destruct (scan_exp_inv _ _ _ _ Sc) as (ds & -> & A & N). rewrite sapp_nil_r in *. exists c, sg, neg, ds, (Z.of_N (digits_val ds 0)). split; [reflexivity|]. split; [exact C'|].
  split; [exact Hs|]. split; [now apply digits_of|auto].
Qed.
Lemma parse_decimal_inv sg neg b : sign sg neg -> parse_decimal neg b <> inr PSyntax -> exists r, decimal (sg ++ b) neg r.
Proof.
  intros Hs. unfold parse_decimal. destruct (scan_mant b false false 0%N 0) as [[[sw d] fr] rest] eqn:S. destruct (scan_mant_inv _ _ _ _ _ _ _ _ S) as (ip & f & k & m & -> & A & F & ->).
  cbn [orb]. destruct (nonempty ip || (0 <? k)) eqn:N; [|congruence]. destruct (parse_exp rest) as [e|] eqn:E; [|congruence]. intros _.
  assert (exists e', exponent rest e') as [e' He].
  { destruct (parse_exp_inv _ _ E) as [-> |(c & sg' & neg' & ds & n & -> & C & Hs' & Hd & Nd)]; [exists 0; constructor|]. eexists. eapply exponent_some; eassumption. }
  eexists. exists sg, ip, (Z.of_N (digits_val ip 0)), f, m, k, rest, e'. split; [reflexivity|]. split; [exact Hs|]. split; [now apply digits_of|]. split; [exact F|].
  split; [exact He|]. split; [|reflexivity]. apply orb_true_iff in N as [N|N]; [left; intros ->; discriminate N|right; now apply Z.ltb_lt].
Qed.
Fixpoint all_hex (s : string) : bool := match s with EmptyString => true | String c r => match hex_val c with Some _ => all_hex r | None => false end end.
Lemma hex_digits_of d : all_hex d = true -> exists n, hex_digits d n.
Proof.
  assert (forall d p n, hex_digits p n -> all_hex d = true -> exists z, hex_digits (p ++ d) z) as G; [|intros A; exact (G d "" 0 hex_none A)].
  clear. induction d as [|c d IH]; intros p n H A; [exists n; now rewrite sapp_nil_r|]. cbn [all_hex] in A. destruct (hex_val c) as [v|] eqn:V; [|discriminate A].
  apply hex_val_iff in V. change (String c d) with (String c "" ++ d)%string. rewrite <- sapp_assoc. exact (IH _ _ (hex_more p n c _ H V) A).
Qed.
Lemma scan_hex_inv_dot s : forall sg d fr sg' d' fr' rest, scan_hex s true sg d fr = (sg', d', fr', rest) ->
  exists ds, s = (ds ++ rest)%string /\ all_hex ds = true /\ sg' = sg || nonempty ds.
Proof.
  induction s as [|c s IH]; intros sg d fr sg' d' fr' rest; cbn [scan_hex].
  - intros [= <- _ _ <-]. exists "". rewrite orb_false_r. auto.
  - destruct (Ascii.eqb c "."); [intros [= <- _ _ <-]; exists ""; rewrite orb_false_r; auto|].
    destruct (hex_val c) as [v|] eqn:D; [|intros [= <- _ _ <-]; exists ""; rewrite orb_false_r; auto].
    intros H. destruct (IH _ _ _ _ _ _ _ H) as (ds & -> & A & ->). exists (String c ds). split; [reflexivity|]. cbn [all_hex]. rewrite D, A.
    split; [reflexivity|]. rewrite (nonempty_true (String c ds)) by discriminate. now rewrite orb_true_r.
Qed.
Lemma scan_hex_inv s : forall sg d fr sg' d' fr' rest, scan_hex s false sg d fr = (sg', d', fr', rest) ->
  exists ip f k m, s = (ip ++ f ++ rest)%string /\ all_hex ip = true /\ hex_fraction f m k /\ sg' = sg || nonempty ip || (0 <? k).
Proof.
  induction s as [|c s IH]; intros sg d fr sg' d' fr' rest; cbn [scan_hex].
  - intros [= <- _ _ <-]. exists "", "", 0, 0. rewrite !orb_false_r. split; [reflexivity|]. split; [reflexivity|]. split; [constructor|reflexivity].
  - destruct (Ascii.eqb_spec c ".") as [->|_].
    + intros H. destruct (scan_hex_inv_dot _ _ _ _ _ _ _ _ H) as (ds & -> & A & ->). destruct (hex_digits_of ds A) as [n Hn].
      exists "", (String "." ds), (Z.of_nat (String.length ds)), n. split; [reflexivity|]. split; [reflexivity|].
      split; [now constructor|]. cbn [orb]. rewrite orb_false_r. f_equal. destruct ds; [reflexivity|]. rewrite nonempty_true by discriminate.
      symmetry. apply Z.ltb_lt. cbn [String.length]. lia.
    + destruct (hex_val c) as [v|] eqn:D.
      * intros H. destruct (IH _ _ _ _ _ _ _ H) as (ip & f & k & m & -> & A & F & ->). exists (String c ip), f, k, m. split; [reflexivity|].
        cbn [all_hex]. rewrite D, A. split; [reflexivity|]. split; [exact F|]. rewrite (nonempty_true (String c ip)) by discriminate.
        now rewrite orb_true_r, !orb_true_l.
      * intros [= <- _ _ <-]. exists "", "", 0, 0. rewrite !orb_false_r. split; [reflexivity|]. split; [reflexivity|]. split; [constructor|reflexivity].
Qed.
Lemma parse_hex_inv neg h : parse_hex neg h <> inr PSyntax -> exists r, hex_body h r.
Proof.
  unfold parse_hex. destruct (scan_hex h false false 0%N 0) as [[[sw d] fr] rest] eqn:S. destruct (scan_hex_inv _ _ _ _ _ _ _ _ S) as (ip & f & k & m & -> & A & F & ->).
  destruct rest as [|c r']; [congruence|]. cbn [orb]. destruct ((nonempty ip || (0 <? k)) && (Ascii.eqb c "p" || Ascii.eqb c "P")) eqn:N; [|congruence].
  apply andb_true_iff in N as [N C]. destruct (parse_exp (String "e" r')) as [e|] eqn:E; [|congruence]. intros _.
  destruct (parse_exp_inv _ _ E) as [X|(c' & sg' & neg' & ds & n & X & _ & Hs' & Hd & Nd)]; [discriminate X|]. injection X as _ ->.
  destruct (hex_digits_of ip A) as [n' Hn]. eexists. exists ip, n', f, m, k, (String c (sg' ++ ds)), (signed_Z neg' n). split; [reflexivity|]. split; [exact Hn|]. split; [exact F|].
  split; [constructor; auto; apply orb_true_iff in C as [C|C]; apply Ascii.eqb_eq in C; auto|]. split; [|reflexivity].
  apply orb_true_iff in N as [N|N]; [left; intros ->; discriminate N|right; now apply Z.ltb_lt].
Qed.
Lemma take_sign_inv t neg u : take_sign t = (neg, u) -> exists sg, t = (sg ++ u)%string /\ sign sg neg /\
  (sg = "" -> forall c r, u = String c r -> Ascii.eqb c "+" = false /\ Ascii.eqb c "-" = false).
Proof.
  destruct t as [|c r]; cbn [take_sign].
  - intros [= <- <-]. exists "". split; [reflexivity|]. split; [constructor|]. intros _ c r Q. discriminate Q.
  - destruct (Ascii.eqb c "+") eqn:P; [intros [= <- <-]; apply Ascii.eqb_eq in P; subst c; exists "+"; split; [reflexivity|]; split; [constructor|intros Q; discriminate Q]|].
    destruct (Ascii.eqb c "-") eqn:M; [intros [= <- <-]; apply Ascii.eqb_eq in M; subst c; exists "-"; split; [reflexivity|]; split; [constructor|intros Q; discriminate Q]|].
    intros [= <- <-]. exists "". split; [reflexivity|]. split; [constructor|]. intros _ c' r' [= <- _]. auto.
Qed.
Lemma lower_x c : Ascii.eqb (lower c) "x" = true -> small_or_capital_x c.
Proof. unfold small_or_capital_x. destruct c as [[] [] [] [] [] [] [] []]; vm_compute; intros H; first [discriminate H|auto]. Qed.
Lemma lower_bo c : Ascii.eqb (lower c) "b" || Ascii.eqb (lower c) "o" = true -> Ascii.eqb (lower c) "x" = false /\
  (forall r, parse_exp (String c r) = None) /\ is_digit c = false /\ Ascii.eqb c "." = false /\ Ascii.eqb c "_" = false.
Proof. destruct c as [[] [] [] [] [] [] [] []]; vm_compute; intros H; first [discriminate H|auto]. Qed.
Lemma take_bare sg neg u : sign sg neg -> (sg = "" -> forall c r, u = String c r -> Ascii.eqb c "+" = false /\ Ascii.eqb c "-" = false) ->
  (forall s, u <> String "_" s) -> take_sign (sg ++ bare u) = (neg, bare u).
Proof.
  intros Hs N F. destruct Hs; cbn [append take_sign]; [|reflexivity|reflexivity]. destruct u as [|c r]; [reflexivity|]. cbn [bare].
  destruct (Ascii.eqb_spec c "_") as [->|_]; [now destruct (F r)|]. destruct (N eq_refl c r eq_refl) as [P M]. cbn [take_sign]. now rewrite P, M.
Qed.
Theorem only_numbers t : parse_float t <> inr PSyntax -> (exists x, special t x) \/ exists neg r, number t neg r.
Proof.
  unfold parse_float. destruct (parse_special t) as [x|] eqn:P; [intros _; left; exists x; now apply special_iff|]. clear P.
  destruct (underscore_ok t) eqn:U; [|congruence]. rewrite bare_model. intros H. right. unfold underscore_ok in U.
  destruct (take_sign t) as [neg u] eqn:T. destruct (take_sign_inv t neg u T) as (sg & -> & Hs & Ns). clear T. rewrite (bare_sign sg neg) in H by exact Hs.
  assert (us_loop false 0 u = true -> (forall c r, u = String "0" (String c r) -> Ascii.eqb (lower c) "x" = false) -> exists neg r, number (sg ++ u) neg r) as Dec.
  { intros U0 Nx. pose proof (proj1 (us_false u) U0) as S. unfold parse_number in H. rewrite (take_bare sg neg u Hs Ns (sep_first u S)) in H.
    assert (parse_decimal neg (bare u) <> inr PSyntax) as Hd.
    { destruct (bare u) as [|c0 [|c1 [|c2 r]]] eqn:B; try exact H. destruct (Ascii.eqb_spec c0 "0") as [->|]; [|exact H]. cbn [andb] in H.
      destruct (Ascii.eqb (lower c1) "x") eqn:X; [|exact H]. exfalso.
      destruct (bare_head u _ _ (sep_first u S) B) as (u' & -> & B').
      destruct u' as [|x u']; [discriminate B'|]. cbn [bare] in B'. destruct (Ascii.eqb_spec x "_") as [->|].
      - destruct (S "0" u' eq_refl) as [_ (c & b & -> & D)]. cbn [bare] in B'. destruct (Ascii.eqb_spec c "_") as [->|]; [vm_compute in D; intuition discriminate|].
        injection B' as -> _. apply lower_x in X as [-> | ->]; vm_compute in D; intuition discriminate.
      - injection B' as -> _. specialize (Nx c1 u' eq_refl). congruence. }
    destruct (parse_decimal_inv sg neg (bare u) Hs Hd) as [r D]. exists neg, r. left. split; [|rewrite (bare_sign sg neg) by exact Hs; exact D].
    destruct Hs; cbn [append]; [exact S| |]; apply (sep_cons false); try discriminate; intros a b E; destruct (S a b E) as [[[_ []]|A] B]; auto. }
  destruct u as [|c0 [|c1 u]]; [apply Dec; [exact U|discriminate]|apply Dec; [exact U|discriminate]|].
  destruct (Ascii.eqb_spec c0 "0") as [->|N0]; [|apply Dec; [exact U|intros c r [= -> _]; contradiction]]. cbn [andb] in U.
  destruct (Ascii.eqb (lower c1) "x") eqn:X.
  - rewrite orb_true_r in U. pose proof (lower_x c1 X) as Hx. destruct (hex_chars_x c1 Hx) as [Lx Nx]. cbn [bare] in H.
    change (Ascii.eqb "0" "_") with false in H. destruct (Ascii.eqb_spec c1 "_"); [contradiction|]. cbv iota in H.
    destruct (sign_take sg neg (String "0" (String c1 (bare u))) Hs eq_refl) as [T' _]. unfold parse_number in H. rewrite T' in H.
    destruct (bare u) as [|c2 r'] eqn:B.
    + exfalso. apply H. destruct Hx as [-> | ->]; reflexivity.
    + rewrite X in H. change (parse_hex neg (String c2 r') <> inr PSyntax) in H.
      destruct (parse_hex_inv neg _ H) as [r Hb]. exists neg, (signed_R neg r). right. exists sg, c1, u, r. split; [reflexivity|]. split; [exact Hs|]. split; [exact Hx|].
      split; [now apply us_true|]. rewrite B. split; [exact Hb|reflexivity].
  - rewrite orb_false_r in U. destruct (Ascii.eqb (lower c1) "b" || Ascii.eqb (lower c1) "o") eqn:BO.
    + exfalso. apply H. destruct (lower_bo c1 BO) as (_ & Ex & Dg & Dt & Us). cbn [bare]. change (Ascii.eqb "0" "_") with false. rewrite Us. cbv iota.
      destruct (sign_take sg neg (String "0" (String c1 (bare u))) Hs eq_refl) as [T' _]. unfold parse_number. rewrite T'.
      assert (parse_decimal neg (String "0" (String c1 (bare u))) = inr PSyntax) as E.
      { unfold parse_decimal. cbn [scan_mant]. change (Ascii.eqb "0" ".") with false. change (is_digit "0") with true. cbv iota. rewrite Dt, Dg, Ex. reflexivity. }
      destruct (bare u); [exact E|]. rewrite X. exact E.
    + apply Dec; [exact U|]. intros c r [= <- _]. exact X.
Qed.
Lemma numbers_taken t neg r : number t neg r -> parse_special t = None /\ parse_float t <> inr PSyntax.
Proof.
  assert (forall x : f64, finish x <> inr PSyntax) as F by (intros [| | |]; discriminate). intros [H|H].
  - split.
    + destruct H as [S D]. destruct (decimal_shape _ _ _ D) as (sg & body & E & Hs & Hb & Hc).
      destruct (decimal_body t sg neg body S E Hs Hb) as (u & -> & Eu & Su & Hu). now destruct (sign_take sg neg u Hs Hu).
    + rewrite (decimal_number_float _ _ _ H). destruct H as [_ D]. revert D. generalize (bare t) as p. clear. intros p D.
      destruct D as (sg & ip & n & fr & m & k & ex & e & -> & Hs & Hi & Hf & He & Hp & _).
      assert (exists D', parse_float (sg ++ ip ++ fr ++ ex) = finish D') as [D' ->]; [|destruct D'; discriminate].
      destruct (exponent_read ex e He) as (e' & E1 & E2). destruct (digits_model ip n Hi) as [I1 I2].
      assert (decimal (sg ++ ip ++ fr ++ ex) neg (signed_R neg ((IZR n + IZR m / powerRZ 10 k) * powerRZ 10 e))) as D.
      { exists sg, ip, n, fr, m, k, ex, e. auto 10. }
      destruct (decimal_shape _ _ _ D) as (_ & _ & _ & _ & _ & _).
      assert (exists d f, scan_mant (ip ++ fr ++ ex) false false 0%N 0 = (true, d, f, ex)) as (d & f & Sc).
      { rewrite scan_mant_digits by exact I1. destruct Hf as [|ds m Hd].
        - cbn [append]. rewrite (scan_mant_exp ex e) by exact He. rewrite nonempty_true; [cbn [orb]; eauto|]. destruct Hp as [Hp|Hp]; [exact Hp|lia].
        - destruct (digits_model ds m Hd) as [D1 _]. change (String "." ds ++ ex) with ("." ++ (ds ++ ex)). rewrite scan_mant_dot, scan_mant_digits by exact D1.
          rewrite (scan_mant_exp ex e) by exact He. replace (false || nonempty ip || nonempty ds) with true; [eauto|]. cbn [orb].
          destruct Hp as [Hp|Hp]; [now rewrite nonempty_true|]. rewrite (nonempty_true ds); [now rewrite orb_true_r|]. intros ->. cbn in Hp. lia. }
      exists (f64_of_dec neg d (e' - f)). apply (parse_num sg neg (ip ++ fr ++ ex) d f ex e' Hs); [| |exact Sc|exact E1].
      * destruct ip as [|c ip].
        -- destruct Hf as [|ds m Hd]; [destruct Hp as [Hp|Hp]; [congruence|lia]|reflexivity].
        -- cbn [all_digits] in I1. apply andb_true_iff in I1 as [I1 _]. cbn [append starts]. now rewrite I1.
      * rewrite !str_all_app, (digits_chars _ _ Hi), (exponent_chars _ _ He). destruct Hf as [|ds m Hd]; [reflexivity|]. cbn [str_all]. now rewrite (digits_chars _ _ Hd).
  - destruct H as (sg & x & h & r' & -> & Hs & Hx & S & H & ->). split; [now destruct (sign_take sg neg ("0" ++ String x h) Hs eq_refl)|].
    rewrite (hexadecimal_parse sg neg x h r' Hs Hx S H). destruct H as (ip & n & fr & m & k & ex & e & -> & Hi & Hf & He & Hp & _).
    destruct (power_exponent ex e He) as (c & rr & -> & Hc & Hex). destruct (exponent_read _ _ Hex) as (e' & E1 & E2).
    destruct (hex_scan ip n fr m k (String c rr) c rr Hi Hf eq_refl Hc Hp) as (D & Sc & _). unfold parse_hex. rewrite Sc.
    replace (true && (Ascii.eqb c "p" || Ascii.eqb c "P")) with true by (destruct Hc as [-> | ->]; reflexivity). rewrite E1. apply F.
Qed.

(** *** The three outcomes *)
Theorem accepted t : parse_float t <> inr PSyntax <-> (exists x, special t x) \/ exists neg r, number t neg r.
Proof.
  split; [apply only_numbers|]. intros [[x H]|(neg & r & H)]; [|now apply numbers_taken in H].
  apply special_iff in H. unfold parse_float. rewrite H. discriminate.
Qed.
Lemma number_read t neg r : brief t -> number t neg r ->
  exists x : f64, parse_float t = finish x /\ is_nan x = false /\ Bsign x = neg /\ xr x = sat (nearest r).
Proof. intros L [H|H]; [apply decimal_number_read; [unfold brief, short in *; lia|exact H]|now apply hexadecimal_read]. Qed.
Lemma read_in_range t neg r (x : f64) : parse_float t = finish x -> is_nan x = false -> Bsign x = neg -> xr x = sat (nearest r) ->
  (in_range r -> parse_float t = inl x /\ is_nearest x neg r) /\ (~ in_range r -> parse_float t = inr PRange).
Proof.
  intros P N Sg V. unfold in_range. rewrite two1024. split; intros I.
  - rewrite sat_id in V by lra. assert (is_finite x = true) as F by (apply xr_lt_finite; [assumption|now rewrite V]).
    split; [rewrite P; destruct x as [| | |]; try discriminate F; reflexivity|]. split; [exact F|]. split; [exact Sg|]. now rewrite <- V, xr_finite.
  - rewrite P. destruct (is_finite x) eqn:F.
    + exfalso. apply I. rewrite xr_finite in V by assumption. pose proof (B2R_lt_big x F) as L. pose proof big_pos.
      rewrite V in L. unfold sat, Rmax, Rmin in L. apply Rabs_def2 in L. apply Rabs_def1; repeat destruct Rle_dec; lra.
    + destruct x as [| | |]; try discriminate; reflexivity.
Qed.
Lemma nearest_same (x y : f64) neg r : is_nearest x neg r -> is_nearest y neg r -> x = y.
Proof. intros (F & S & V) (F' & S' & V'). apply B2R_Bsign_inj; auto; congruence. Qed.
Lemma in_range_dec r : in_range r \/ ~ in_range r.
Proof. unfold in_range. destruct (Rlt_dec (Rabs (nearest r)) (powerRZ 2 1024)); auto. Qed.
Theorem read_value t x : brief t -> (parse_float t = inl x <-> special t x \/ exists neg r, number t neg r /\ in_range r /\ is_nearest x neg r).
Proof.
  intros L. split.
  - intros E. assert (parse_float t <> inr PSyntax) as A by (rewrite E; discriminate). destruct (only_numbers t A) as [[y H]|(neg & r & H)].
    + left. apply special_iff in H as H'. unfold parse_float in E. rewrite H' in E. now injection E as <-.
    + right. exists neg, r. split; [exact H|]. destruct (number_read t neg r L H) as (y & P & N & Sg & V). destruct (read_in_range t neg r y P N Sg V) as [I1 I2].
      destruct (in_range_dec r) as [I|I]; [|rewrite (I2 I) in E; discriminate E]. destruct (I1 I) as [E' Ny]. rewrite E' in E. injection E as <-. auto.
  - intros [H|(neg & r & H & I & Nx)].
    + apply special_iff in H. unfold parse_float. now rewrite H.
    + destruct (number_read t neg r L H) as (y & P & N & Sg & V). destruct (read_in_range t neg r y P N Sg V) as [I1 _].
      destruct (I1 I) as [E Ny]. rewrite E. f_equal. now apply (nearest_same y x neg r).
Qed.
Theorem read_too_large t : brief t -> (parse_float t = inr PRange <-> exists neg r, number t neg r /\ ~ in_range r).
Proof.
  intros L. split.
  - intros E. assert (parse_float t <> inr PSyntax) as A by (rewrite E; discriminate). destruct (only_numbers t A) as [[y H]|(neg & r & H)].
    + apply special_iff in H. unfold parse_float in E. rewrite H in E. discriminate E.
    + exists neg, r. split; [exact H|]. intros I. destruct (number_read t neg r L H) as (y & P & N & Sg & V). destruct (read_in_range t neg r y P N Sg V) as [I1 _].
      destruct (I1 I) as [E' _]. congruence.
  - intros (neg & r & H & I). destruct (number_read t neg r L H) as (y & P & N & Sg & V). now apply (read_in_range t neg r y P N Sg V).
Qed.
Theorem long_decimal t neg r : short t -> decimal_number t neg r ->
  (in_range r -> exists x, parse_float t = inl x /\ is_nearest x neg r) /\ (~ in_range r -> parse_float t = inr PRange).
Proof.
  intros L H. destruct (decimal_number_read t neg r L H) as (y & P & N & Sg & V). destruct (read_in_range t neg r y P N Sg V) as [I1 I2]. split; [|exact I2].
  intros I. exists y. auto.
Qed.

(** *** Whole numbers and lines *)
Lemma whole_iff w z : parse_int 32 w = inl z <-> whole32 w z.
Proof.
  unfold whole32. change (- 2 ^ 31) with (- 2 ^ (32 - 1)). change (2 ^ 31) with (2 ^ (32 - 1)). split.
  - intros H. assert (exists y, integer w y) as [y Hy].
    { unfold parse_int in H. destruct (take_sign w) as [neg r] eqn:T. destruct (take_sign_inv w neg r T) as (sg & -> & Hs & _).
      destruct (negb (String.eqb r "") && all_digits r) eqn:A; [|discriminate H]. apply andb_true_iff in A as [A1 A2].
      exists (signed_Z neg (Z.of_N (digits_val r 0))), sg, neg, r, (Z.of_N (digits_val r 0)). split; [reflexivity|]. split; [exact Hs|]. split; [now apply digits_of|].
      split; [intros ->; discriminate A1|reflexivity]. }
    rewrite (integer_read 32 w y ltac:(lia) Hy) in H. destruct ((- 2 ^ (32 - 1) <=? y) && (y <? 2 ^ (32 - 1))) eqn:B; [|discriminate H].
    injection H as <-. apply andb_true_iff in B as [B1 B2]. apply Z.leb_le in B1. apply Z.ltb_lt in B2. auto.
  - intros [I [B1 B2]]. rewrite (integer_read 32 w z ltac:(lia) I). apply Z.leb_le in B1. apply Z.ltb_lt in B2. now rewrite B1, B2.
Qed.
Lemma float_iff w x : brief w -> (parse_float w = inl x <-> means w x).
Proof. exact (read_value w x). Qed.
Lemma field_iff i w : brief w -> (field_ok i w <-> readable i w).
Proof.
  intros B. destruct i as [|i]; cbn [field_ok readable].
  - split; intros [z H]; exists z; now apply whole_iff.
  - split; intros [x H]; exists x; now apply float_iff.
Qed.
Lemma joined_brief ws : forall w, In w ws -> (String.length w <= String.length (joined ws))%nat.
Proof.
  induction ws as [|x ws IH]; intros w H; [destruct H|]. destruct ws as [|y ws].
  - destruct H as [->|[]]. apply le_n.
  - change (joined (x :: y :: ws)) with (x ++ String " " (joined (y :: ws)))%string. rewrite slen_app. cbn [String.length]. destruct H as [->|H]; [lia|].
    apply IH in H. lia.
Qed.
Lemma framed_brief t ws : brief t -> framed t ws -> forall w, In w ws -> brief w.
Proof.
  intros B (a & b & -> & _) w H. unfold brief in *. cbn [String.length] in B. rewrite slen_app in B. apply joined_brief in H. lia.
Qed.
Lemma line_means_iff t c : brief t -> (FileSpec.reads t c <-> line_means t c).
Proof.
  intros B. split.
  - intros (a & b & w0 & w1 & w2 & w3 & w4 & w5 & more & E & F & H0 & H1 & H2 & H3 & H4 & H5).
    assert (framed t ([w0; w1; w2; w3; w4; w5] ++ more)) as Fr by (exists a, b; auto). pose proof (framed_brief t _ B Fr) as Bw.
    exists w0, w1, w2, w3, w4, w5, more. split; [exact Fr|]. split; [now apply whole_iff|].
    repeat split; apply float_iff; try assumption; apply Bw; apply in_or_app; left; cbn; auto 10.
  - intros (w0 & w1 & w2 & w3 & w4 & w5 & more & Fr & H0 & H1 & H2 & H3 & H4 & H5). pose proof (framed_brief t _ B Fr) as Bw. destruct Fr as (a & b & E & F).
    exists a, b, w0, w1, w2, w3, w4, w5, more. split; [exact E|]. split; [exact F|]. split; [now apply whole_iff|].
    repeat split; apply float_iff; try assumption; apply Bw; apply in_or_app; left; cbn; auto 10.
Qed.
Lemma line_bad_iff t : brief t -> (rejected t <-> line_bad t).
Proof.
  intros B. split.
  - intros (a & b & ws & i & w & E & F & L & N & Nr & K). assert (framed t ws) as Fr by (exists a, b; auto). pose proof (framed_brief t _ B Fr) as Bw.
    exists ws, i, w. split; [exact Fr|]. split; [exact L|]. split; [exact N|]. split; [rewrite <- field_iff; [exact Nr|]; apply Bw; eapply nth_error_In; eassumption|].
    intros j u Lj Nj. apply field_iff; [apply Bw; eapply nth_error_In; eassumption|]. eapply K; eassumption.
  - intros (ws & i & w & Fr & L & N & Nr & K). pose proof (framed_brief t _ B Fr) as Bw. destruct Fr as (a & b & E & F).
    exists a, b, ws, i, w. split; [exact E|]. split; [exact F|]. split; [exact L|]. split; [exact N|]. split; [rewrite field_iff; [exact Nr|]; apply Bw; eapply nth_error_In; eassumption|].
    intros j u Lj Nj. apply field_iff; [apply Bw; eapply nth_error_In; eassumption|]. eapply K; eassumption.
Qed.
Lemma line_short_iff t : brief t -> (crashes t <-> line_short t).
Proof.
  intros B. split; (intros [H|H]; [left; exact H|right]).
  - destruct H as (a & b & ws & E & F & L & K). assert (framed t ws) as Fr by (exists a, b; auto). pose proof (framed_brief t _ B Fr) as Bw.
    exists ws. split; [exact Fr|]. split; [exact L|]. intros j u Nj. apply field_iff; [apply Bw; eapply nth_error_In; eassumption|]. eapply K; eassumption.
  - destruct H as (ws & Fr & L & K). pose proof (framed_brief t _ B Fr) as Bw. destruct Fr as (a & b & E & F).
    exists a, b, ws. split; [exact E|]. split; [exact F|]. split; [exact L|]. intros j u Nj. apply field_iff; [apply Bw; eapply nth_error_In; eassumption|]. eapply K; eassumption.
Qed.
Lemma drop_cr_shorn l t : drop_cr l = t <-> shorn l t.
Proof.
  unfold shorn. revert t. induction l as [|c l IH]; intros t.
  - split; [intros <-; right; split; [reflexivity|]; intros [|? t'] E; discriminate E|]. intros [E|[<- _]]; [destruct t; discriminate E|reflexivity].
  - destruct l as [|c' l].
    + cbn [drop_cr]. destruct (Ascii.eqb_spec c cr) as [->|N].
      * split; [intros <-; left; reflexivity|]. intros [E|[_ E]]; [|now destruct (E "")].
        destruct t as [|x [|y t]]; [reflexivity| |]; discriminate E.
      * split.
        -- intros <-. right. split; [reflexivity|]. intros [|x t'] E; [injection E as E; contradiction|]. destruct t'; discriminate E.
        -- intros [E|[<- _]]; [|reflexivity]. exfalso. destruct t as [|x t]; [injection E as E; contradiction|]. destruct t; discriminate E.
    + change (drop_cr (String c (String c' l))) with (String c (drop_cr (String c' l))). split.
      * intros <-. destruct (proj1 (IH _) eq_refl) as [E|[E N]].
        -- left. cbn [append]. now rewrite <- E.
        -- right. split; [now rewrite <- E|]. intros [|x t'] E'; [discriminate E'|]. cbn [append] in E'. injection E' as _ E'. now apply (N t').
      * intros [E|[<- N]].
        -- destruct t as [|x t]; [discriminate E|]. cbn [append] in E. injection E as <- E. f_equal. apply IH. now left.
        -- f_equal. apply IH. right. split; [reflexivity|]. intros t' E. apply (N (String c t')). cbn [append]. now rewrite E.
Qed.
