(** JSON texts of any origin (C92). *)
From Coq Require Import Lia ZArith NArith List Bool Sorted Permutation String Ascii Reals.
Import ListNotations.
From Flocq Require Import Core BinarySingleNaN.
From Verif Require Import Go.Outcome Go.Int64 Go.Float64 Go.Text Go.Json Spec.JsonSpec Spec.DecimalSpec Spec.JsonReadSpec Proofs.Lex Proofs.FileText
  Proofs.JsonTime Proofs.JsonText Proofs.JsonTree Proofs.JsonValue Proofs.Decimal.
Open Scope string_scope.
Open Scope list_scope.
Open Scope Z_scope.

(** *** Strings *)
Lemma byte_code c : byte c = Z.of_N (code c). Proof. reflexivity. Qed.
Lemma byte_range c : 0 <= byte c < 256.
Proof. rewrite byte_code. unfold code. pose proof (N_ascii_bounded c). lia. Qed.
Lemma chr_of c n : Z.of_N n = byte c -> chr n = c.
Proof. intros H. unfold chr. rewrite byte_code in H. unfold code in H. apply N2Z.inj in H. rewrite H. apply ascii_N_embedding. Qed.
Lemma not_char c d : byte c <> byte d -> Ascii.eqb c d = false.
Proof. intros H. destruct (Ascii.eqb_spec c d); [subst; congruence|reflexivity]. Qed.

Lemma div_split a b m : (0 <= b < m)%Z -> (a * m + b) / m = a /\ (a * m + b) mod m = b.
Proof. intros H. split; [rewrite Z.div_add_l by lia; rewrite Z.div_small by lia; lia|]. rewrite Z.add_comm, Z.mod_add, Z.mod_small by lia. reflexivity. Qed.
Lemma encode_point u n : code_point u n -> encode_rune (Z.to_N n) = u.
Proof.
  intros H. destruct H as [c H|c0 c1 n E F1 R|c0 c1 c2 n E F1 F2 R S|c0 c1 c2 c3 n E F1 F2 F3 R]; unfold encode_rune, follows in *.
  - pose proof (byte_range c). destruct (N.ltb_spec (Z.to_N (byte c)) 128); [|lia]. f_equal. apply chr_of. lia.
  - pose proof (byte_range c0). destruct (N.ltb_spec (Z.to_N n) 128); [lia|]. destruct (N.ltb_spec (Z.to_N n) 2048); [|lia].
    destruct (div_split (byte c0 - 192) (byte c1 - 128) 64) as [D M]; [lia|]. rewrite <- E in D, M.
    f_equal; [|f_equal]; apply chr_of; rewrite N2Z.inj_add, ?N2Z.inj_div, ?N2Z.inj_mod, Z2N.id by lia; change (Z.of_N 64) with 64; rewrite ?D, ?M; cbn [Z.of_N]; lia.
  - pose proof (byte_range c0). destruct (N.ltb_spec (Z.to_N n) 128); [lia|]. destruct (N.ltb_spec (Z.to_N n) 2048); [lia|]. destruct (N.ltb_spec (Z.to_N n) 65536); [|lia].
    destruct (div_split ((byte c0 - 224) * 64 + (byte c1 - 128)) (byte c2 - 128) 64) as [D M]; [lia|].
    destruct (div_split (byte c0 - 224) (byte c1 - 128) 64) as [D' M']; [lia|].
    replace (((byte c0 - 224) * 64 + (byte c1 - 128)) * 64 + (byte c2 - 128)) with n in D, M by lia.
    assert (n / 4096 = byte c0 - 224) as D2 by (change 4096 with (64 * 64); rewrite <- Z.div_div by lia; now rewrite D, D').
    f_equal; [|f_equal; [|f_equal]]; apply chr_of; rewrite N2Z.inj_add, ?N2Z.inj_mod, ?N2Z.inj_div, Z2N.id by lia;
      change (Z.of_N 64) with 64; change (Z.of_N 4096) with 4096; rewrite ?D2, ?D, ?M, ?M'; cbn [Z.of_N]; lia.
  - pose proof (byte_range c0). destruct (N.ltb_spec (Z.to_N n) 128); [lia|]. destruct (N.ltb_spec (Z.to_N n) 2048); [lia|]. destruct (N.ltb_spec (Z.to_N n) 65536); [lia|].
    destruct (div_split (((byte c0 - 240) * 64 + (byte c1 - 128)) * 64 + (byte c2 - 128)) (byte c3 - 128) 64) as [D M]; [lia|].
    destruct (div_split ((byte c0 - 240) * 64 + (byte c1 - 128)) (byte c2 - 128) 64) as [D' M']; [lia|].
    destruct (div_split (byte c0 - 240) (byte c1 - 128) 64) as [D'' M'']; [lia|].
    replace ((((byte c0 - 240) * 64 + (byte c1 - 128)) * 64 + (byte c2 - 128)) * 64 + (byte c3 - 128)) with n in D, M by lia.
    assert (n / 4096 = (byte c0 - 240) * 64 + (byte c1 - 128)) as D2 by (change 4096 with (64 * 64); rewrite <- Z.div_div by lia; now rewrite D, D').
    assert (n / 262144 = byte c0 - 240) as D3 by (change 262144 with (4096 * 64); rewrite <- Z.div_div by lia; now rewrite D2, D'').
    f_equal; [|f_equal; [|f_equal; [|f_equal]]]; apply chr_of; rewrite N2Z.inj_add, ?N2Z.inj_mod, ?N2Z.inj_div, Z2N.id by lia;
      change (Z.of_N 64) with 64; change (Z.of_N 4096) with 4096; change (Z.of_N 262144) with 262144; rewrite ?D3, ?D2, ?D, ?M, ?M', ?M''; cbn [Z.of_N]; lia.
Qed.
Lemma hex_model c n : JsonReadSpec.hex c n -> hex_digit c = true /\ Z.of_N (hex_num c) = n /\ byte c < 128 /\ 0 <= n < 16.
Proof.
  intros H. unfold JsonReadSpec.hex in H. pose proof (byte_range c) as B. rewrite !byte_code in *. unfold hex_digit, hex_num, hex_val, is_digit, digit_val, lower. unfold code in *.
  set (x := N_of_ascii c) in *.
  destruct H as [[R ->]|[[R ->]|[R ->]]].
  - destruct (N.leb_spec 48 x); [|lia]. destruct (N.leb_spec x 57); [|lia]. cbn [andb]. repeat split; lia.
  - destruct (N.leb_spec 48 x); [|lia]. destruct (N.leb_spec x 57); [lia|]. cbn [andb].
    destruct (N.leb_spec 65 x); [|lia]. destruct (N.leb_spec x 90); [lia|]. cbn [andb]. fold x.
    destruct (N.leb_spec 97 x); [|lia]. destruct (N.leb_spec x 102); [|lia]. cbn [andb]. repeat split; lia.
  - destruct (N.leb_spec 48 x); [|lia]. destruct (N.leb_spec x 57); [lia|]. cbn [andb].
    destruct (N.leb_spec 65 x); [|lia]. destruct (N.leb_spec x 90); [|lia]. cbn [andb]. rewrite N_ascii_embedding by lia.
    destruct (N.leb_spec 97 (x + 32)); [|lia]. destruct (N.leb_spec (x + 32) 102); [|lia]. cbn [andb]. repeat split; lia.
Qed.

Lemma scan_plain c r t rest : 32 <= byte c -> c <> quote -> c <> backslash -> scan_str r = Some (t, rest) -> scan_str (String c r) = Some (String c t, rest).
Proof.
  intros H N1 N2 E. cbn [scan_str]. destruct (Ascii.eqb_spec c quote); [congruence|]. destruct (Ascii.eqb_spec c backslash); [congruence|].
  rewrite byte_code in H. destruct (N.ltb_spec (code c) 32); [lia|]. now rewrite E.
Qed.
Lemma scan_high c r t rest : 128 <= byte c -> scan_str r = Some (t, rest) -> scan_str (String c r) = Some (String c t, rest).
Proof.
  intros H. apply scan_plain; [lia| |]; intros ->; vm_compute in H; congruence.
Qed.
(** The bytes of a code point beyond ASCII. *)
Lemma point_bytes u n : code_point u n -> 128 <= n ->
  (exists c0 c1, u = String c0 (String c1 "") /\ 194 <= byte c0 <= 223 /\ follows c1) \/
  (exists c0 c1 c2, u = String c0 (String c1 (String c2 "")) /\ 224 <= byte c0 <= 239 /\ follows c1 /\ follows c2 /\
     (byte c0 = 224 -> 160 <= byte c1) /\ (byte c0 = 237 -> byte c1 <= 159)) \/
  (exists c0 c1 c2 c3, u = String c0 (String c1 (String c2 (String c3 ""))) /\ 240 <= byte c0 <= 244 /\ follows c1 /\ follows c2 /\ follows c3 /\
     (byte c0 = 240 -> 144 <= byte c1) /\ (byte c0 = 244 -> byte c1 <= 143)).
Proof.
  intros H N. unfold follows in *. destruct H as [c H|c0 c1 n E F1 R|c0 c1 c2 n E F1 F2 R S|c0 c1 c2 c3 n E F1 F2 F3 R]; unfold follows in *.
  - lia.
  - left. exists c0, c1. split; [reflexivity|]. lia.
  - right; left. exists c0, c1, c2. split; [reflexivity|]. lia.
  - right; right. exists c0, c1, c2, c3. split; [reflexivity|]. lia.
Qed.
Lemma scan_point u n r t rest : code_point u n -> 128 <= n -> scan_str r = Some (t, rest) -> scan_str (u ++ r) = Some ((u ++ t)%string, rest).
Proof.
  intros H N E. unfold follows in *. destruct (point_bytes u n H N) as [(c0 & c1 & -> & R & F)|[(c0 & c1 & c2 & -> & R & F1 & F2 & _)|(c0 & c1 & c2 & c3 & -> & R & F1 & F2 & F3 & _)]];
    unfold follows in *; cbn [append]; repeat apply scan_high; (lia || exact E).
Qed.
Lemma scan_escaped x n r t rest : escaped x n -> scan_str r = Some (t, rest) -> scan_str (x ++ r) = Some ((x ++ t)%string, rest).
Proof.
  intros [a b c d n0 n1 n2 n3 Ha Hb Hc Hd] E. cbn [append scan_str].
  change (Ascii.eqb "\" quote) with false. change (Ascii.eqb "\" backslash) with true. change (Ascii.eqb "u" "u") with true. cbv iota.
  rewrite (proj1 (hex_model _ _ Ha)), (proj1 (hex_model _ _ Hb)), (proj1 (hex_model _ _ Hc)), (proj1 (hex_model _ _ Hd)). cbn [andb]. now rewrite E.
Qed.
Theorem contents_literal raw s : contents raw s -> literal raw.
Proof.
  induction 1 as [|c raw s R N1 N2 H IH|u n raw s P R H IH|e c raw s I H IH|x u n raw s X P H IH|x y hi lo u raw s X Y R1 R2 P H IH]; intros r.
  - reflexivity.
  - cbn [append]. apply scan_plain; [lia|exact N1|exact N2|]. apply IH.
  - rewrite sapp_assoc. apply (scan_point u n); [assumption|assumption|]. apply IH.
  - cbn [append scan_str]. change (Ascii.eqb "\" quote) with false. change (Ascii.eqb "\" backslash) with true. cbv iota.
    assert (Ascii.eqb e "u" = false /\ (Ascii.eqb e "b" || Ascii.eqb e "f" || Ascii.eqb e "n" || Ascii.eqb e "r" || Ascii.eqb e "t"
                    || Ascii.eqb e backslash || Ascii.eqb e "/" || Ascii.eqb e quote) = true) as [E1 E2].
    { cbn [In] in I. repeat (destruct I as [I|I]; [injection I as <- <-; split; reflexivity|]). destruct I. }
    rewrite E1, E2, IH. reflexivity.
  - rewrite sapp_assoc. apply (scan_escaped x n); [assumption|]. apply IH.
  - rewrite !sapp_assoc. apply (scan_escaped x hi); [assumption|]. apply (scan_escaped y lo); [assumption|]. apply IH.
Qed.
Lemma unquote_point u n r : code_point u n -> 128 <= n -> unquote (u ++ r) = (u ++ unquote r)%string.
Proof.
  intros H N. destruct (point_bytes u n H N) as [(c0 & c1 & -> & R & F)|[(c0 & c1 & c2 & -> & R & F1 & F2 & K1 & K2)|(c0 & c1 & c2 & c3 & -> & R & F1 & F2 & F3 & K1 & K2)]];
    unfold follows in *; rewrite !byte_code in *; cbn [append unquote]; rewrite high_not_backslash by lia; destruct (N.ltb_spec (code c0) 128); try lia.
  - rewrite size2 by lia. reflexivity.
  - rewrite size3 by lia. reflexivity.
  - rewrite size4 by lia. reflexivity.
Qed.
Lemma hex4_model a b c d n0 n1 n2 n3 : JsonReadSpec.hex a n0 -> JsonReadSpec.hex b n1 -> JsonReadSpec.hex c n2 -> JsonReadSpec.hex d n3 ->
  Z.of_N (hex4 a b c d) = ((n0 * 16 + n1) * 16 + n2) * 16 + n3.
Proof.
  intros Ha Hb Hc Hd. apply hex_model in Ha, Hb, Hc, Hd. unfold hex4. lia.
Qed.
Lemma point_not_surrogate u n : code_point u n -> 0 <= n /\ ~ 55296 <= n < 57344.
Proof. intros [c H|c0 c1 m E F1 R|c0 c1 c2 m E F1 F2 R S|c0 c1 c2 c3 m E F1 F2 F3 R]; [pose proof (byte_range c)|..]; lia. Qed.
Lemma unquote_u h1 h2 h3 h4 r5 : unquote (String "\" (String "u" (String h1 (String h2 (String h3 (String h4 r5)))))) =
  if surrogate (hex4 h1 h2 h3 h4) then
    match r5 with
    | String b1 (String u1 (String g1 (String g2 (String g3 (String g4 r11))))) =>
        if Ascii.eqb b1 backslash && Ascii.eqb u1 "u" then
          match join_surrogates (hex4 h1 h2 h3 h4) (hex4 g1 g2 g3 g4) with
          | Some x => (encode_rune x ++ unquote r11)%string
          | None => (replacement ++ unquote r5)%string
          end
        else (replacement ++ unquote r5)%string
    | _ => (replacement ++ unquote r5)%string
    end
  else (encode_rune (hex4 h1 h2 h3 h4) ++ unquote r5)%string.
Proof. reflexivity. Qed.
Theorem contents_unquote raw s : contents raw s -> unquote raw = s.
Proof.
  induction 1 as [|c raw s R N1 N2 H IH|u n raw s P R H IH|e c raw s I H IH|x u n raw s X P H IH|x y hi lo u raw s X Y R1 R2 P H IH].
  - reflexivity.
  - cbn [unquote]. destruct (Ascii.eqb_spec c backslash) as [->|_]; [destruct (N2 eq_refl)|]. rewrite byte_code in R. destruct (N.ltb_spec (code c) 128); [|lia]. now rewrite IH.
  - rewrite (unquote_point u n) by assumption. now rewrite IH.
  - cbn [In] in I. repeat (destruct I as [I|I]; [injection I as <- <-; cbn; now rewrite IH|]). destruct I.
  - destruct (point_not_surrogate u n P) as [P0 P1]. destruct X as [a b c d n0 n1 n2 n3 Ha Hb Hc Hd]. pose proof (hex4_model _ _ _ _ _ _ _ _ Ha Hb Hc Hd) as E.
    cbn [append]. rewrite unquote_u. unfold surrogate. destruct (N.leb_spec 55296 (hex4 a b c d)), (N.ltb_spec (hex4 a b c d) 57344); cbn [andb]; try lia;
      rewrite IH; f_equal; rewrite <- (encode_point _ _ P); f_equal; lia.
  - destruct X as [a b c d n0 n1 n2 n3 Ha Hb Hc Hd]. pose proof (hex4_model _ _ _ _ _ _ _ _ Ha Hb Hc Hd) as E.
    destruct Y as [a' b' c' d' m0 m1 m2 m3 Ha' Hb' Hc' Hd']. pose proof (hex4_model _ _ _ _ _ _ _ _ Ha' Hb' Hc' Hd') as E'.
    cbn [append]. rewrite unquote_u. change (Ascii.eqb "\" backslash) with true. change (Ascii.eqb "u" "u") with true. cbn [andb].
    rewrite <- E in R1, P. rewrite <- E' in R2, P. clear E E'. set (h := hex4 a b c d) in *. set (l := hex4 a' b' c' d') in *.
    unfold surrogate, join_surrogates. destruct (N.leb_spec 55296 h); [|lia]. destruct (N.ltb_spec h 57344); [|lia]. cbn [andb].
    destruct (N.ltb_spec h 56320); [|lia]. destruct (N.leb_spec 56320 l); [|lia]. destruct (N.ltb_spec l 57344); [|lia]. cbn [andb].
    rewrite IH. f_equal. rewrite <- (encode_point _ _ P). f_equal. lia.
Qed.
