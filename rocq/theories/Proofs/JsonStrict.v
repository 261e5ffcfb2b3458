(** Only texts of the JSON grammar are accepted, and no tree that clashes with
    the type (C93). *)
From Coq Require Import Lia ZArith NArith List Bool String Ascii Reals.
Import ListNotations.
From Verif Require Import Go.Outcome Go.Float64 Go.Text Go.Json Model.Date Spec.DateSpec Spec.JsonSpec Spec.DecimalSpec Spec.JsonReadSpec Proofs.Lex Proofs.Date Proofs.JsonTime
  Proofs.JsonText Proofs.JsonTree Proofs.JsonValue Proofs.Decimal Proofs.JsonRead Proofs.JsonGrammar Proofs.JsonMoment Proofs.JsonDenote.
Import Spec.JsonReadSpec.
Open Scope string_scope.
Open Scope list_scope.
Open Scope Z_scope.

(** *** Strings *)
Theorem loose_literal raw : loose raw -> literal raw.
Proof.
  intros H r. induction H as [|c raw H1 H2 H3 _ IH|e raw H _ IH|x n raw H _ IH].
  - reflexivity.
  - cbn [append]. now apply scan_plain.
  - cbn [In] in H. repeat (destruct H as [<-|H]; [cbn; now rewrite IH|]). destruct H.
  - rewrite sapp_assoc. now apply (scan_escaped x n).
Qed.
Lemma hex_spec c : hex_digit c = true -> exists n, JsonReadSpec.hex c n.
Proof.
  intros H. assert (48 <= byte c <= 57 \/ 97 <= byte c <= 102 \/ 65 <= byte c <= 70) as K.
  { destruct c as [[] [] [] [] [] [] [] []]; vm_compute in H |- *; try discriminate H; try (left; split; congruence); right; try (left; split; congruence); right; split; congruence. }
  unfold JsonReadSpec.hex. destruct K as [K|[K|K]]; eexists; [left|right; left|right; right]; (split; [exact K|reflexivity]).
Qed.
Lemma scan_inv s raw r : scan_str s = Some (raw, r) -> s = (raw ++ String quote r)%string /\ loose raw.
Proof.
  remember (String.length s) as n eqn:En. assert (String.length s <= n)%nat as L by lia. clear En. revert s raw r L.
  induction n as [|n IH]; intros s raw r L; [destruct s; [discriminate|cbn in L; lia]|].
  destruct s as [|c s]; [discriminate|]. cbn [String.length] in L. cbn [scan_str].
  destruct (Ascii.eqb_spec c quote) as [->|Nq]; [intros [= <- <-]; split; [reflexivity|constructor]|].
  destruct (Ascii.eqb_spec c backslash) as [->|Nb].
  - destruct s as [|e s]; [discriminate|]. cbn [String.length] in L. destruct (Ascii.eqb_spec e "u") as [->|Nu].
    + destruct s as [|h1 [|h2 [|h3 [|h4 s]]]]; try discriminate. cbn [String.length] in L.
      destruct (hex_digit h1) eqn:H1; [|discriminate]. destruct (hex_digit h2) eqn:H2; [|discriminate].
      destruct (hex_digit h3) eqn:H3; [|discriminate]. destruct (hex_digit h4) eqn:H4; [|discriminate]. cbn [andb].
      destruct (scan_str s) as [[t rest]|] eqn:E; [|discriminate]. intros [= <- <-]. destruct (IH s t rest ltac:(lia) E) as [-> Lo].
      split; [reflexivity|]. destruct (hex_spec h1 H1) as [n1 X1]. destruct (hex_spec h2 H2) as [n2 X2]. destruct (hex_spec h3 H3) as [n3 X3]. destruct (hex_spec h4 H4) as [n4 X4].
      exact (loose_escape _ _ t (escaped_intro h1 h2 h3 h4 n1 n2 n3 n4 X1 X2 X3 X4) Lo).
    + destruct (_ || _) eqn:O; [|discriminate]. destruct (scan_str s) as [[t rest]|] eqn:E; [|discriminate]. intros [= <- <-].
      destruct (IH s t rest ltac:(lia) E) as [-> Lo]. split; [reflexivity|]. apply loose_short; [|exact Lo]. cbn [In].
      repeat (apply orb_true_iff in O as [O|O]); apply Ascii.eqb_eq in O; subst e; tauto.
  - destruct (N.ltb_spec (code c) 32) as [|Ge]; [discriminate|]. destruct (scan_str s) as [[t rest]|] eqn:E; [|discriminate]. intros [= <- <-].
    destruct (IH s t rest ltac:(lia) E) as [-> Lo]. split; [reflexivity|]. apply loose_byte; [rewrite byte_code; lia|exact Nq|exact Nb|exact Lo].
Qed.
Lemma contents_loose raw s : contents raw s -> loose raw.
Proof. intros H. apply contents_literal in H. specialize (H ""). now apply scan_inv in H. Qed.

(** *** Numbers *)
Lemma digits_of d : all_digits d = true -> digits d (Z.of_N (digits_val d 0)).
Proof.
  assert (forall p n d, digits p n -> all_digits d = true -> exists z, digits (p ++ d) z) as G.
  { intros p n d0 H. revert d0 p n H. induction d0 as [|c d0 IH]; intros p n H A; [exists n; now rewrite sapp_nil_r|].
    cbn [all_digits] in A. apply andb_true_iff in A as [A1 A2]. change (String c d0) with (String c "" ++ d0)%string. rewrite <- sapp_assoc.
    assert (48 <= byte c <= 57) as B. { unfold is_digit in A1. apply andb_true_iff in A1 as [B1 B2]. apply N.leb_le in B1, B2. unfold byte. lia. }
    exact (IH _ _ (digits_more p n c H B) A2). }
  intros A. destruct (G "" 0 d digits_none A) as [z D]. cbn [append] in D. destruct (digits_model d z D) as [_ ->]. exact D.
Qed.
Lemma span_inv s d r : span_digits s = (d, r) -> s = (d ++ r)%string /\ all_digits d = true.
Proof.
  revert d r. induction s as [|c s IH]; intros d r; cbn [span_digits]; [intros [= <- <-]; split; reflexivity|].
  destruct (is_digit c) eqn:D.
  - destruct (span_digits s) as [d' r'] eqn:E. intros [= <- <-]. destruct (IH d' r' eq_refl) as [-> A]. split; [reflexivity|]. cbn [all_digits]. now rewrite D.
  - intros [= <- <-]. split; reflexivity.
Qed.
Lemma frac_inv s fr r : lex_frac s = Some (fr, r) -> s = (fr ++ r)%string /\ fr <> "." /\ exists m k, fraction fr m k.
Proof.
  destruct s as [|c s]; cbn [lex_frac]; [intros [= <- <-]; split; [reflexivity|split; [discriminate|exists 0, 0; constructor]]|].
  destruct (Ascii.eqb_spec c ".") as [->|_].
  - destruct (span_digits s) as [d r'] eqn:E. apply span_inv in E as [-> A]. destruct (String.eqb_spec d "") as [->|N]; [discriminate|]. intros [= <- <-].
    split; [reflexivity|]. split; [congruence|]. exists (Z.of_N (digits_val d 0)), (Z.of_nat (String.length d)). constructor. now apply digits_of.
  - intros [= <- <-]. split; [reflexivity|split; [discriminate|exists 0, 0; constructor]].
Qed.
Lemma exp_inv s ex r : lex_exp s = Some (ex, r) -> s = (ex ++ r)%string /\ exists e, exponent ex e.
Proof.
  destruct s as [|c s]; cbn [lex_exp]; [intros [= <- <-]; split; [reflexivity|exists 0; constructor]|].
  destruct (Ascii.eqb c "e" || Ascii.eqb c "E") eqn:C; [|intros [= <- <-]; split; [reflexivity|exists 0; constructor]].
  assert (c = "e"%char \/ c = "E"%char) as C' by (apply orb_true_iff in C as [C|C]; apply Ascii.eqb_eq in C; auto). clear C.
  assert (forall sg neg t, sign sg neg -> s = (sg ++ t)%string ->
    (let '(d, r') := span_digits t in if String.eqb d "" then None else Some (String c (sg ++ d)%string, r')) = Some (ex, r) ->
    String c s = (ex ++ r)%string /\ exists e, exponent ex e) as G.
  { intros sg neg t Sg -> H. destruct (span_digits t) as [d r'] eqn:E. apply span_inv in E as [-> A]. destruct (String.eqb_spec d "") as [->|N]; [discriminate|].
    injection H as <- <-. split; [cbn [append]; now rewrite sapp_assoc|]. exists (signed_Z neg (Z.of_N (digits_val d 0))). constructor; [exact C'|exact Sg|now apply digits_of|exact N]. }
  destruct s as [|c' s]; [apply (G "" false ""); [constructor|reflexivity]|].
  destruct (Ascii.eqb_spec c' "+") as [->|Np]; [apply (G "+" false s); [constructor|reflexivity]|].
  destruct (Ascii.eqb_spec c' "-") as [->|Nm]; [apply (G "-" true s); [constructor|reflexivity]|].
  apply (G "" false (String c' s)); [constructor|reflexivity].
Qed.
Lemma num_inv s t r : lex_num s = Some (t, r) -> s = (t ++ r)%string /\ number t.
Proof.
  assert (forall sg s1, (sg = "" \/ sg = "-") -> s = (sg ++ s1)%string ->
    (let '(ip, s2) := span_digits s1 in
     match ip with
     | EmptyString => None
     | String c r0 =>
         if Ascii.eqb c "0" && negb (String.eqb r0 "") then None
         else match lex_frac s2 with
              | None => None
              | Some (fr, s3) => match lex_exp s3 with None => None | Some (ex, s4) => Some ((sg ++ ip ++ fr ++ ex)%string, s4) end
              end
     end) = Some (t, r) -> s = (t ++ r)%string /\ number t) as G.
  { intros sg s1 Sg -> H. destruct (span_digits s1) as [ip s2] eqn:E. apply span_inv in E as [-> A]. destruct ip as [|c ip]; [discriminate|].
    destruct (Ascii.eqb c "0" && negb (String.eqb ip "")) eqn:Zr; [discriminate|].
    destruct (lex_frac s2) as [[fr s3]|] eqn:Ef; [|discriminate]. apply frac_inv in Ef as (-> & Nf & m & k & Hf).
    destruct (lex_exp s3) as [[ex s4]|] eqn:Ee; [|discriminate]. apply exp_inv in Ee as (-> & e & He). injection H as <- <-.
    split; [rewrite !sapp_assoc; cbn [append]; now rewrite !sapp_assoc|]. exists sg, (String c ip), (Z.of_N (digits_val (String c ip) 0)), fr, m, k, ex, e.
    split; [reflexivity|]. split; [exact Sg|]. split; [now apply digits_of|]. split; [discriminate|]. split; [|split; [exact Hf|split; [exact Nf|exact He]]].
    apply andb_false_iff in Zr as [Zr|Zr].
    - right. intros r0 [= -> _]. discriminate Zr.
    - apply negb_false_iff, String.eqb_eq in Zr. subst ip. destruct (Ascii.eqb_spec c "0") as [->|N]; [now left|right]. intros r0 [= -> _]. now apply N. }
  unfold lex_num. destruct s as [|c s]; [apply (G "" ""); [now left|reflexivity]|].
  destruct (Ascii.eqb_spec c "-") as [->|_]; [apply (G "-" s); [now right|reflexivity]|apply (G "" (String c s)); [now left|reflexivity]].
Qed.

(** *** Texts *)
Lemma skip_inv s : exists a, s = (a ++ skip_ws s)%string /\ blank a.
Proof.
  induction s as [|c s (a & E & B)]; [exists ""; split; [reflexivity|constructor]|]. cbn [skip_ws]. destruct (is_ws c) eqn:W.
  - exists (String c a). split; [cbn [append]; congruence|]. constructor; [|exact B]. unfold is_ws in W. cbn [In].
    repeat (apply orb_true_iff in W as [W|W]); apply Ascii.eqb_eq in W; subst c; tauto.
  - exists "". split; [reflexivity|constructor].
Qed.
Lemma strip_inv p s r : strip_prefix p s = Some r -> s = (p ++ r)%string.
Proof.
  revert s. induction p as [|c p IH]; intros s; cbn [strip_prefix]; [intros [= ->]; reflexivity|]. destruct s as [|c' s]; [discriminate|].
  destruct (Ascii.eqb_spec c c') as [<-|_]; [|discriminate]. intros H. cbn [append]. now rewrite <- (IH s H).
Qed.
Definition reads (val : string -> option (json * string)) : Prop :=
  forall s j r, val s = Some (j, r) -> exists a x, s = (a ++ x ++ r)%string /\ blank a /\ text loose j x.
Lemma elements_inv val k : reads val -> forall s l r, elements val k s = Some (l, r) -> exists e, s = (e ++ String "]" r)%string /\ elements_text loose l e.
Proof.
  intros V. induction k as [|k IH]; intros s l r; cbn [elements]; [discriminate|].
  destruct (val s) as [[j r1]|] eqn:E; [|discriminate]. apply V in E as (a & x & -> & A & T). destruct (skip_inv r1) as (b & Eb & B).
  destruct (skip_ws r1) as [|c r2]; [discriminate|]. subst r1.
  destruct (Ascii.eqb_spec c "]") as [->|_].
  - intros [= <- <-]. exists (a ++ x ++ b)%string. split; [now rewrite !sapp_assoc|now constructor].
  - destruct (Ascii.eqb_spec c ",") as [->|_]; [|discriminate]. destruct (elements val k r2) as [[l' r'']|] eqn:E; [|discriminate]. intros [= <- <-].
    destruct (IH _ _ _ E) as (e & -> & Te). exists (a ++ x ++ b ++ "," ++ e)%string. split; [now rewrite !sapp_assoc|now constructor].
Qed.
Lemma members_inv val k : reads val -> forall s l r, members val k s = Some (l, r) -> exists e, s = (e ++ String "}" r)%string /\ members_text loose l e.
Proof.
  intros V. induction k as [|k IH]; intros s l r; cbn [members]; [discriminate|].
  destruct (skip_inv s) as (a & Ea & A). destruct (skip_ws s) as [|q r0]; [discriminate|]. destruct (Ascii.eqb_spec q quote) as [->|_]; [|discriminate].
  destruct (scan_str r0) as [[raw r1]|] eqn:E; [|discriminate]. apply scan_inv in E as [-> Lo]. destruct (skip_inv r1) as (b & Eb & B).
  destruct (skip_ws r1) as [|col r2]; [discriminate|]. subst r1. destruct (Ascii.eqb_spec col ":") as [->|_]; [|discriminate].
  destruct (val r2) as [[j r3]|] eqn:E; [|discriminate]. apply V in E as (c & x & -> & C & T). destruct (skip_inv r3) as (d & Ed & D).
  destruct (skip_ws r3) as [|c' r4]; [discriminate|]. subst r3.
  assert (member_text loose (raw, j) (a ++ in_quotes raw ++ b ++ ":" ++ c ++ x ++ d)) as M by (constructor; assumption).
  assert (forall z, s = (a ++ String quote (raw ++ String quote (b ++ String ":" (c ++ x ++ d ++ z))))%string ->
    s = ((a ++ in_quotes raw ++ b ++ ":" ++ c ++ x ++ d) ++ z)%string) as Q.
  { intros z ->. rewrite !sapp_assoc. f_equal. change (in_quotes raw) with (quoted raw). rewrite quoted_app. reflexivity. }
  destruct (Ascii.eqb_spec c' "}") as [->|_].
  - intros [= <- <-]. eexists. split; [exact (Q _ Ea)|now constructor].
  - destruct (Ascii.eqb_spec c' ",") as [->|_]; [|discriminate]. destruct (members val k r4) as [[l' r'']|] eqn:E; [|discriminate]. intros [= <- <-].
    destruct (IH _ _ _ E) as (e & -> & Te). exists ((a ++ in_quotes raw ++ b ++ ":" ++ c ++ x ++ d) ++ "," ++ e)%string.
    split; [rewrite (Q _ Ea), !sapp_assoc; reflexivity|now constructor].
Qed.
Lemma value_inv n : reads (value n).
Proof.
  induction n as [|n IH]; intros s j r; cbn [value]; [discriminate|]. destruct (skip_inv s) as (a & Ea & A). revert Ea. generalize (skip_ws s). intros s0 ->.
  destruct s0 as [|c r0]; [discriminate|].
  assert ((exists x, String c r0 = (x ++ r)%string /\ text loose j x) -> exists a' x, (a ++ String c r0)%string = (a' ++ x ++ r)%string /\ blank a' /\ text loose j x) as G.
  { intros (x & -> & T). exists a, x. auto. }
  destruct (Ascii.eqb_spec c "{") as [->|_].
  { destruct (skip_inv r0) as (b & Eb & B). destruct (skip_ws r0) as [|c' r']; [discriminate|]. destruct (Ascii.eqb_spec c' "}") as [->|_].
    - intros [= <- <-]. apply G. exists ("{" ++ b ++ "}")%string. split; [rewrite Eb; cbn [append]; now rewrite sapp_assoc|now constructor].
    - destruct (members (value n) (S (String.length r0)) r0) as [[l r'']|] eqn:E; [|discriminate]. intros [= <- <-].
      apply (members_inv _ _ IH) in E as (e & -> & T). apply G. exists ("{" ++ e ++ "}")%string. split; [cbn [append]; now rewrite sapp_assoc|now constructor]. }
  destruct (Ascii.eqb_spec c "[") as [->|_].
  { destruct (skip_inv r0) as (b & Eb & B). destruct (skip_ws r0) as [|c' r']; [discriminate|]. destruct (Ascii.eqb_spec c' "]") as [->|_].
    - intros [= <- <-]. apply G. exists ("[" ++ b ++ "]")%string. split; [rewrite Eb; cbn [append]; now rewrite sapp_assoc|now constructor].
    - destruct (elements (value n) (S (String.length r0)) r0) as [[l r'']|] eqn:E; [|discriminate]. intros [= <- <-].
      apply (elements_inv _ _ IH) in E as (e & -> & T). apply G. exists ("[" ++ e ++ "]")%string. split; [cbn [append]; now rewrite sapp_assoc|now constructor]. }
  destruct (Ascii.eqb_spec c quote) as [->|_].
  { destruct (scan_str r0) as [[raw r']|] eqn:E; [|discriminate]. intros [= <- <-]. apply scan_inv in E as [-> Lo]. apply G. exists (in_quotes raw).
    split; [change (in_quotes raw) with (quoted raw); now rewrite quoted_app|now constructor]. }
  destruct (strip_prefix "null" (String c r0)) as [r'|] eqn:E.
  { intros [= <- <-]. apply strip_inv in E. apply G. exists "null". split; [exact E|constructor]. } clear E.
  destruct (strip_prefix "true" (String c r0)) as [r'|] eqn:E.
  { intros [= <- <-]. apply strip_inv in E. apply G. exists "true". split; [exact E|constructor]. } clear E.
  destruct (strip_prefix "false" (String c r0)) as [r'|] eqn:E.
  { intros [= <- <-]. apply strip_inv in E. apply G. exists "false". split; [exact E|constructor]. } clear E.
  destruct (lex_num (String c r0)) as [[t r']|] eqn:E; [|discriminate]. intros [= <- <-]. apply num_inv in E as [E N]. apply G. exists t. split; [exact E|now constructor].
Qed.
Theorem parse_iff s j : parse_json s = Some j <-> loose_document j s.
Proof.
  split; [|exact (whole_read loose loose_literal j s)]. unfold parse_json. destruct (value (S (String.length s)) s) as [[j' r]|] eqn:E; [|discriminate].
  destruct (String.eqb_spec (skip_ws r) "") as [Er|]; [|discriminate]. intros [= ->]. apply value_inv in E as (a & x & -> & A & T).
  destruct (skip_inv r) as (b & Eb & B). rewrite Er, sapp_nil_r in Eb. subst r. exists a, x, b. auto.
Qed.
Lemma document_loose j s : document j s -> loose_document j s.
Proof. intros D. apply parse_iff. now apply document_read. Qed.

(** *** Times *)
Lemma moment_loose raw off i : moment raw off i -> loose_moment raw off i.
Proof.
  intros (y & mo & d & n & h & mi & s & f & ns & z & E & D & Hh & Hm & Hs & F & Z & Ei).
  exists y, mo, d, n, h, (two h), mi, s, f, ns, z. split; [exact E|]. split; [exact D|]. split; [now constructor|]. split; [exact Hm|]. split; [exact Hs|].
  split; [|split; [|exact Ei]].
  - destruct F as [|f k Df N]; [constructor|]. constructor; [now left|exact Df|exact N].
  - destruct Z as [|a b Ha Hb|a b Ha Hb]; constructor; lia.
Qed.
Lemma loose_zone_shape z off : loose_zone z off -> z = "Z" /\ off = 0 \/
  exists neg h m, 0 <= h <= 24 /\ 0 <= m < 60 /\ off = (if neg : bool then -1 else 1) * (h * 3600 + m * 60) /\
    z = String (if neg then "-" else "+")%char (two h ++ String ":" (two m)).
Proof.
  intros [|h m Hh Hm|h m Hh Hm]; [auto|right; exists false, h, m|right; exists true, h, m]; (split; [exact Hh|]); (split; [exact Hm|]); (split; [lia|reflexivity]).
Qed.
Lemma loose_zone_read z off : loose_zone z off -> get_zone z = Some (off, "").
Proof.
  intros H. destruct (loose_zone_shape z off H) as [[-> ->]|(neg & hh & mm & B1 & B2 & -> & ->)]; [reflexivity|].
  cbn [get_zone]. replace (Ascii.eqb (if neg then "-" else "+")%char "Z") with false by (now destruct neg).
  replace (Ascii.eqb (if neg then "-" else "+")%char "+" || Ascii.eqb (if neg then "-" else "+")%char "-") with true by (now destruct neg).
  rewrite getnum_two by lia. cbn [lit Ascii.eqb Bool.eqb].
  rewrite <- (sapp_nil_r (two mm)), getnum_two by lia.
  replace ((hh <=? 24) && (mm <? 60)) with true by (symmetry; apply andb_true_iff; split; [apply Z.leb_le|apply Z.ltb_lt]; lia).
  destruct neg; reflexivity.
Qed.
Lemma loose_zone_starts z off : loose_zone z off -> exists c r, z = String c r /\ is_digit c = false /\ c <> "."%char /\ c <> ","%char.
Proof.
  intros H. destruct (loose_zone_shape z off H) as [[-> ->]|(neg & hh & mm & B1 & B2 & -> & ->)]; [|destruct neg];
    eexists _, _; (split; [reflexivity|]); (split; [reflexivity|]); split; discriminate.
Qed.
Definition signless (c : ascii) : bool := negb (Ascii.eqb c "Z" || Ascii.eqb c "+" || Ascii.eqb c "-").
Lemma signless_digits d : all_digits d = true -> str_all signless d = true.
Proof.
  intros H. rewrite all_digits_str in H. revert H. apply str_all_impl. intros c Hc. unfold signless.
  destruct (Ascii.eqb_spec c "Z") as [->|_]; [discriminate Hc|]. destruct (Ascii.eqb_spec c "+") as [->|_]; [discriminate Hc|].
  destruct (Ascii.eqb_spec c "-") as [->|_]; [discriminate Hc|]. reflexivity.
Qed.
Lemma two_signless n : 0 <= n <= 99 -> str_all signless (two n) = true.
Proof.
  intros H. apply signless_digits. unfold two. cbn [all_digits].
  assert (0 <= n / 10 <= 9) as H1 by (split; [apply Z.div_pos; lia|apply Z.lt_succ_r, Z.div_lt_upper_bound; lia]).
  pose proof (Z.mod_pos_bound n 10 ltac:(lia)) as H2. destruct (digit_ok (n / 10) H1) as [-> _]. destruct (digit_ok (n mod 10) ltac:(lia)) as [-> _]. reflexivity.
Qed.
Lemma loose_zone_found p s z off : loose_zone z off -> str_all signless s = true -> (5 <= String.length s)%nat -> zone_of_text (p ++ s ++ z) = off.
Proof.
  intros H C L. unfold zone_of_text. pose proof (loose_zone_read z off H) as G.
  destruct (loose_zone_shape z off H) as [[-> ->]|(neg & hh & mm & B1 & B2 & EO & E)].
  - rewrite last_bytes_app by (rewrite slen_app; cbn [String.length]; lia).
    unfold last_bytes. rewrite slen_app. cbn [String.length]. replace (String.length s + 1 - 6)%nat with (String.length s - 5)%nat by lia.
    destruct s as [|c0 s]; [cbn in L; lia|].
    assert (exists i, String.length (String c0 s) - 5 = i /\ (i < String.length (String c0 s)))%nat as (i & -> & Hi) by (eexists; split; [reflexivity|cbn [String.length] in *; lia]).
    assert (exists c r, substring i 6 (String c0 s ++ "Z") = String c r /\ signless c = true) as (c & r & -> & K).
    { clear L. revert i Hi C. generalize (String c0 s). intros u. induction u as [|c u IH]; intros i Hi C; [cbn in Hi; lia|].
      cbn [str_all] in C. apply andb_true_iff in C. destruct C as [C1 C2]. destruct i as [|i].
      - eexists _, _. split; [cbn; reflexivity|assumption].
      - cbn [append substring]. apply IH; [cbn [String.length] in Hi; lia|assumption]. }
    cbn [get_zone]. destruct (Ascii.eqb_spec c "Z") as [->|_]; [discriminate K|].
    destruct (Ascii.eqb_spec c "+") as [->|_]; [discriminate K|]. destruct (Ascii.eqb_spec c "-") as [->|_]; [discriminate K|]. reflexivity.
  - rewrite <- sapp_assoc, last_bytes_app by (rewrite E; cbn; lia).
    assert (last_bytes 6 z = z) as -> by (rewrite E; unfold last_bytes, two; reflexivity).
    now rewrite G.
Qed.
Lemma loose_part_model f ns z : loose_part f ns -> (exists c r, z = String c r /\ is_digit c = false /\ c <> "."%char /\ c <> ","%char) ->
  exists g, skip_fraction (f ++ z) = (g, z) /\ nanos g = ns.
Proof.
  intros H (c & r & -> & Hd & Hp & Hc). destruct H as [|p f k Ip D N].
  - exists "". split; [|reflexivity]. cbn [append skip_fraction]. destruct r as [|c' r]; [reflexivity|].
    destruct (Ascii.eqb_spec c "."); [contradiction|]. destruct (Ascii.eqb_spec c ","); [contradiction|]. reflexivity.
  - destruct (digits_model f k D) as [A V]. exists f. split.
    + destruct f as [|d0 t]; [congruence|]. change (String p (String d0 t) ++ String c r)%string with (String p (String d0 (t ++ String c r))).
      cbn [skip_fraction]. pose proof A as A'. cbn [all_digits] in A'. apply andb_true_iff in A'. destruct A' as [A1 A2]. rewrite A1.
      replace (Ascii.eqb p "." || Ascii.eqb p ",") with true by (cbn [In] in Ip; destruct Ip as [<-|[<-|[]]]; reflexivity). cbn [andb].
      change (String d0 (t ++ String c r)) with (String d0 t ++ String c r)%string. now apply take_digits_app.
    + unfold nanos. rewrite pad_value by assumption. rewrite N2Z.inj_div, N2Z.inj_mul, !N2Z.inj_pow, V. rewrite !nat_N_Z. reflexivity.
Qed.
Lemma hour_read h ht r : hour_text h ht -> getnum (ht ++ String ":" r) false = Some (h, String ":" r) /\ 0 <= h < 24 /\ str_all signless ht = true.
Proof.
  intros [h' B|h' B].
  - split; [apply getnum_two_any; lia|]. split; [exact B|]. apply two_signless. lia.
  - destruct (digit_ok h' ltac:(lia)) as [E1 E2]. split; [|split; [lia|]].
    + cbn [append getnum]. rewrite E1, E2. change (is_digit ":") with false. reflexivity.
    + apply signless_digits. cbn [all_digits]. now rewrite E1.
Qed.
Lemma span_take s d r : take_digits s = (d, r) -> s = (d ++ r)%string /\ all_digits d = true.
Proof.
  revert d r. induction s as [|c s IH]; intros d r; cbn [take_digits]; [intros [= <- <-]; split; reflexivity|].
  destruct (is_digit c) eqn:D.
  - destruct (take_digits s) as [d' r'] eqn:E. intros [= <- <-]. destruct (IH d' r' eq_refl) as [-> A]. split; [reflexivity|]. cbn [all_digits]. now rewrite D.
  - intros [= <- <-]. split; reflexivity.
Qed.
Lemma fraction_inv s fr r : skip_fraction s = (fr, r) -> exists f ns, s = (f ++ r)%string /\ loose_part f ns.
Proof.
  unfold skip_fraction. destruct s as [|p [|c s]]; [intros [= <- <-]; exists "", 0; split; [reflexivity|constructor]|intros [= <- <-]; exists "", 0; split; [reflexivity|constructor]|].
  destruct ((Ascii.eqb p "." || Ascii.eqb p ",") && is_digit c) eqn:E; [|intros [= <- <-]; exists "", 0; split; [reflexivity|constructor]].
  apply andb_true_iff in E as [Ep Ec]. intros H. destruct fr as [|c0 fr].
  { exfalso. cbn [take_digits] in H. rewrite Ec in H. destruct (take_digits s); discriminate H. }
  apply span_take in H as [-> A]. eexists (String p (String c0 fr)), _. split; [reflexivity|]. refine (loose_part_some p (String c0 fr) _ _ (digits_of _ A) _); [|discriminate].
  cbn [In]. apply orb_true_iff in Ep as [Ep|Ep]; apply Ascii.eqb_eq in Ep; subst p; auto.
Qed.
Lemma zone_inv s off : get_zone s = Some (off, "") -> loose_zone s off.
Proof.
  destruct s as [|c s]; cbn [get_zone]; [discriminate|]. destruct (Ascii.eqb_spec c "Z") as [->|_]; [intros [= <- ->]; constructor|].
  destruct (Ascii.eqb c "+" || Ascii.eqb c "-") eqn:S; [|discriminate].
  destruct (getnum s true) as [[hh r1]|] eqn:G1; [|discriminate]. apply getnum_inv in G1 as [H1 ->].
  destruct (lit ":" r1) as [r2|] eqn:L; [|discriminate]. apply lit_inv in L. subst r1.
  destruct (getnum r2 true) as [[mm r3]|] eqn:G2; [|discriminate]. apply getnum_inv in G2 as [H2 ->].
  destruct ((hh <=? 24) && (mm <? 60)) eqn:B; [|discriminate]. apply andb_true_iff in B as [B1 B2]. apply Z.leb_le in B1. apply Z.ltb_lt in B2.
  intros H. assert (off = (if Ascii.eqb c "-" then -1 else 1) * (hh * 3600 + mm * 60) /\ r3 = "") as [-> ->] by (split; congruence).
  rewrite sapp_nil_r. apply orb_true_iff in S as [S|S]; apply Ascii.eqb_eq in S; subst c.
  - change (Ascii.eqb "+" "-") with false. cbv iota. rewrite Z.mul_1_l. refine (loose_zone_east hh mm _ _); lia.
  - change (Ascii.eqb "-" "-") with true. cbv iota. replace (-1 * (hh * 3600 + mm * 60)) with (- (hh * 3600 + mm * 60)) by lia. refine (loose_zone_west hh mm _ _); lia.
Qed.
Lemma hour_inv s h r : getnum s false = Some (h, r) -> h < 24 -> exists ht, s = (ht ++ r)%string /\ hour_text h ht.
Proof.
  intros H B. destruct s as [|c s]; [discriminate|]. cbn [getnum] in H. destruct (is_digit c) eqn:D; [|discriminate].
  assert (forall z, Some (Z.of_N (digit_val c), z) = Some (h, r) -> z = r /\ hour_text h (String c "")) as One.
  { intros z E. assert (Z.of_N (digit_val c) = h /\ z = r) as [<- <-] by (split; congruence). split; [reflexivity|].
    destruct (is_digit_inv c D) as [B1 B2]. assert (c = digit (Z.of_N (digit_val c))) as E'.
    { exact B2. }
    replace (String c "") with (String (digit (Z.of_N (digit_val c))) "") by (rewrite <- E'; reflexivity). constructor. lia. }
  destruct s as [|c' s]; [destruct (One _ H) as [<- X]; exists (String c ""); auto|].
  destruct (is_digit c') eqn:D'; [|destruct (One _ H) as [<- X]; exists (String c ""); auto].
  assert (getnum (String c (String c' s)) true = Some (h, r)) as G by (cbn [getnum]; rewrite D, D'; exact H). apply getnum_inv in G as [G ->].
  exists (two h). split; [reflexivity|]. constructor. lia.
Qed.
Theorem time_iff raw off i : read_time raw = Some (off, i) <-> loose_moment raw off i.
Proof.
  assert (forall off' i', loose_moment raw off' i' -> read_time raw = Some (off', i')) as F.
  { intros off' i' (y & mo & d & n & h & ht & mi & s & f & ns & z & -> & D & Hh & Hm & Hs & F & Z & ->).
    destruct (day_number_model _ _ _ _ D) as [V _]. apply valid_date_spec in V as (By & Bm & Bd).
    assert (d <= 31) as Hd' by (clear -Bm Bd; unfold days_in in Bd; revert Bd; destruct (is_leap y); intros Bd; months mo; calc; lia).
    destruct (loose_part_model f ns z F (loose_zone_starts z off' Z)) as (g & Eg & En).
    destruct (hour_read h ht (two mi ++ ":" ++ two s ++ f ++ z) Hh) as (Gh & Bh & Sh).
    assert (parse_rfc3339 (date_text y mo d ++ "T" ++ ht ++ ":" ++ two mi ++ ":" ++ two s ++ f ++ z) = Some (date_unix y mo d h mi s - off', g)) as P.
    { unfold date_text. rewrite !sapp_assoc. unfold parse_rfc3339.
      rewrite get_year_text by assumption. cbn [append]. rewrite lit_same. rewrite getnum_two by lia.
      destruct (Z.leb_spec mo 0); [lia|]. destruct (Z.ltb_spec 12 mo); [lia|]. cbn [orb]. rewrite lit_same. rewrite getnum_two by lia.
      rewrite lit_same. change (String ":" (two s ++ f ++ z)) with (":" ++ two s ++ f ++ z)%string. rewrite Gh. destruct (Z.leb_spec 24 h); [lia|].
      rewrite lit_same. rewrite getnum_two by lia. destruct (Z.leb_spec 60 mi); [lia|].
      cbn [append]. rewrite lit_same. rewrite getnum_two by lia. destruct (Z.leb_spec 60 s); [lia|].
      rewrite Eg. rewrite (loose_zone_read z off' Z). change (negb (String.eqb "" "")) with false. cbv iota.
      destruct (Z.ltb_spec d 1); [lia|]. destruct (Z.ltb_spec (days_in mo y) d); [lia|]. reflexivity. }
    unfold read_time. rewrite P, En. rewrite (date_unix_of _ _ _ n) by assumption.
    assert (zone_of_text (date_text y mo d ++ "T" ++ ht ++ ":" ++ two mi ++ ":" ++ two s ++ f ++ z) = off') as ->.
    { pose proof (loose_zone_found (date_text y mo d ++ "T") (ht ++ ":" ++ two mi ++ ":" ++ two s ++ f) z off' Z) as K.
      rewrite !sapp_assoc in K. apply K.
      - rewrite !str_all_app. rewrite Sh, !two_signless by lia. cbn [str_all]. change (signless ":") with true. cbn [andb].
        destruct F as [|p f k Ip Df N]; [reflexivity|]. cbn [str_all]. replace (signless p) with true by (cbn [In] in Ip; destruct Ip as [<-|[<-|[]]]; reflexivity). cbn [andb].
        apply signless_digits. now destruct (digits_model f k Df).
      - rewrite !slen_app. cbn [String.length two]. lia. }
    reflexivity. }
  split; [|apply F]. intros R.
  cut (exists off' i', loose_moment raw off' i').
  { intros (off' & i' & M). pose proof (F _ _ M) as E. rewrite R in E. injection E as <- <-. exact M. }
  clear F. unfold read_time in R. destruct (parse_rfc3339 raw) as [[t fr]|] eqn:E; [|discriminate]. clear R. revert E. unfold parse_rfc3339.
  destruct (get_year raw) as [[y s1]|] eqn:E1; [|discriminate]. apply get_year_inv in E1. destruct E1 as [Hy ->].
  destruct (lit "-" s1) as [s2|] eqn:E2; [|discriminate]. apply lit_inv in E2. subst s1.
  destruct (getnum s2 true) as [[m s3]|] eqn:E3; [|discriminate]. apply getnum_inv in E3. destruct E3 as [Hm ->].
  destruct ((m <=? 0) || (12 <? m))%bool eqn:Em; [discriminate|]. apply orb_false_iff in Em. destruct Em as [Em1 Em2].
  apply Z.leb_gt in Em1. apply Z.ltb_ge in Em2.
  destruct (lit "-" s3) as [s4|] eqn:E4; [|discriminate]. apply lit_inv in E4. subst s3.
  destruct (getnum s4 true) as [[d s5]|] eqn:E5; [|discriminate]. apply getnum_inv in E5. destruct E5 as [Hd ->].
  destruct (lit "T" s5) as [rest|] eqn:E6; [|discriminate]. apply lit_inv in E6. subst s5.
  destruct (getnum rest false) as [[hh s6]|] eqn:E7; [|discriminate]. destruct (Z.leb_spec 24 hh) as [|Bh]; [discriminate|]. apply hour_inv in E7 as (ht & -> & Hh); [|exact Bh].
  destruct (lit ":" s6) as [s7|] eqn:E8; [|discriminate]. apply lit_inv in E8. subst s6.
  destruct (getnum s7 true) as [[mm s8]|] eqn:E9; [|discriminate]. apply getnum_inv in E9. destruct E9 as [Hmm ->]. destruct (Z.leb_spec 60 mm) as [|Bm]; [discriminate|].
  destruct (lit ":" s8) as [s9|] eqn:E10; [|discriminate]. apply lit_inv in E10. subst s8.
  destruct (getnum s9 true) as [[ss s10]|] eqn:E11; [|discriminate]. apply getnum_inv in E11. destruct E11 as [Hss ->]. destruct (Z.leb_spec 60 ss) as [|Bs]; [discriminate|].
  destruct (skip_fraction s10) as [fr' s11] eqn:Ef. apply fraction_inv in Ef as (f & ns & -> & Pf).
  destruct (get_zone s11) as [[off' s12]|] eqn:E12; [|discriminate]. destruct (String.eqb_spec s12 "") as [->|]; [|discriminate]. apply zone_inv in E12.
  change (negb true) with false. cbv iota. destruct ((d <? 1) || (days_in m y <? d))%bool eqn:Ed; [discriminate|]. apply orb_false_iff in Ed. destruct Ed as [Ed1 Ed2].
  apply Z.ltb_ge in Ed1, Ed2. intros _. destruct (date_numbered y m d) as [n Dn]; [apply valid_date_spec; lia|].
  eexists off', _, y, m, d, n, hh, ht, mm, ss, f, ns, s11. split; [|split; [exact Dn|split; [exact Hh|split; [lia|split; [lia|split; [exact Pf|split; [exact E12|reflexivity]]]]]]].
  unfold date_text. rewrite !sapp_assoc. reflexivity.
Qed.

(** *** Clashes *)
Lemma alike_fold k n : all_ascii n -> alike k n -> fold_name k = in_lower_case n.
Proof.
  intros A H. induction H as [|c c' k n E H IH|c k n E H IH|c k n E H IH]; [reflexivity|..]; destruct A as [Ac A]; specialize (IH A).
  - assert (byte c < 128) as Bc.
    { unfold lower_case in E. destruct (Z_lt_le_dec (byte c) 128) as [|G]; [assumption|exfalso].
      replace ((65 <=? byte c) && (byte c <=? 90)) with false in E by (symmetry; apply andb_false_iff; right; apply Z.leb_gt; lia).
      destruct ((65 <=? byte c') && (byte c' <=? 90)) eqn:K; [|subst c; lia]. apply andb_true_iff in K as [K1 K2]. apply Z.leb_le in K1, K2.
      subst c. unfold byte in G at 1. rewrite N_ascii_embedding in G by lia. lia. }
    change (in_lower_case (String c' n)) with (String (lower_case c') (in_lower_case n)). rewrite <- IH, <- E, <- lower_case_model. cbn [fold_name].
    rewrite byte_code in Bc. assert (forall k, (128 <= k)%N -> (code c =? k)%N = false) as N by (intros q Hq; apply N.eqb_neq; lia).
    rewrite !N by lia. cbn [andb]. destruct k as [|c1 [|c2 r]]; reflexivity.
  - change (in_lower_case (String c n)) with (String (lower_case c) (in_lower_case n)). rewrite E, <- IH. reflexivity.
  - change (in_lower_case (String c n)) with (String (lower_case c) (in_lower_case n)). rewrite E, <- IH. reflexivity.
Qed.
Lemma field_alike pre n post k : NoDup (map in_lower_case (pre ++ n :: post)) -> Forall all_ascii (pre ++ n :: post) -> alike k n ->
  field_index (pre ++ n :: post) k = Some (List.length pre).
Proof.
  intros Nd A E. assert (forall m, In m pre -> in_lower_case m <> in_lower_case n) as D.
  { intros m I C. rewrite map_app in Nd. cbn [map] in Nd. apply NoDup_remove in Nd. destruct Nd as [_ Nd]. apply Nd, in_or_app. left. rewrite <- C. now apply in_map. }
  assert (all_ascii n) as An by (rewrite Forall_forall in A; apply A, in_elt). apply alike_fold in E; [|exact An].
  unfold field_index. destruct (index_of (fun n => String.eqb n k) (pre ++ n :: post)) as [i|] eqn:X.
  - apply index_of_some in X. destruct X as (pre' & n' & post' & Ea & <- & En). apply String.eqb_eq in En. subst n'. f_equal.
    assert (in_lower_case k = in_lower_case n) as E' by (rewrite <- E; symmetry; apply fold_ascii; rewrite Forall_forall in A; apply A; rewrite Ea; apply in_elt).
    apply (proj1 (NoDup_nth_error (map in_lower_case (pre ++ n :: post))) Nd).
    + rewrite Ea, map_length, app_length. cbn. lia.
    + rewrite Ea at 1. rewrite !map_app. cbn [map]. rewrite !nth_error_app2 by (rewrite map_length; lia). rewrite !map_length, !Nat.sub_diag. cbn. now rewrite E'.
  - apply index_of_found.
    + apply String.eqb_eq. now rewrite E, fold_ascii.
    + apply Forall_forall. intros m I. apply String.eqb_neq. rewrite E, fold_ascii by (rewrite Forall_forall in A; apply A, in_or_app; now left). now apply D.
Qed.
Lemma parse_int_inv w z : parse_int 64 w = inl z -> integer w z /\ int64_ok z.
Proof.
  unfold parse_int. destruct (take_sign w) as [neg r] eqn:T. destruct (String.eqb_spec r "") as [->|Nr]; [discriminate|]. cbn [negb andb].
  destruct (all_digits r) eqn:A; [|discriminate].
  assert (exists sg, w = (sg ++ r)%string /\ sign sg neg) as (sg & -> & Sg).
  { unfold take_sign in T. destruct w as [|c w]; [injection T as <- <-; exists ""; split; [reflexivity|constructor]|].
    destruct (Ascii.eqb_spec c "+") as [->|_]; [injection T as <- <-; exists "+"; split; [reflexivity|constructor]|].
    destruct (Ascii.eqb_spec c "-") as [->|_]; [injection T as <- <-; exists "-"; split; [reflexivity|constructor]|].
    injection T as <- <-. exists "". split; [reflexivity|constructor]. }
  change (64 - 1) with 63. intros H. pose proof (N2Z.is_nonneg (digits_val r 0)) as P.
  assert (z = signed_Z neg (Z.of_N (digits_val r 0)) /\ int64_ok z) as [-> R].
  { unfold int64_ok. destruct neg.
    - destruct (Z.leb_spec (Z.of_N (digits_val r 0)) (2 ^ 63)); [|discriminate]. injection H as <-. split; [reflexivity|lia].
    - destruct (Z.ltb_spec (Z.of_N (digits_val r 0)) (2 ^ 63)); [|discriminate]. injection H as <-. split; [reflexivity|lia]. }
  split; [|exact R]. exists sg, neg, r, (Z.of_N (digits_val r 0)). split; [reflexivity|]. split; [exact Sg|]. split; [now apply digits_of|]. split; [exact Nr|reflexivity].
Qed.
Lemma set_field_none D pre n t post vs : (forall v, D t v = None) -> set_field D (pre ++ (n, t) :: post) vs (List.length pre) = None.
Proof.
  intros H. revert vs. induction pre as [|[n' t'] pre IH]; intros [|v vs]; cbn [app List.length set_field]; try reflexivity.
  - now rewrite H.
  - now rewrite IH.
Qed.
Lemma struct_fold_none fs ms : struct_fold fs ms None = None.
Proof. unfold struct_fold. induction ms as [|m ms IH]; [reflexivity|exact IH]. Qed.
Lemma struct_fold_clash fs ms pre n t post : fs = pre ++ (n, t) :: post -> NoDup (map (fun f => in_lower_case (fst f)) fs) -> Forall (fun f => all_ascii (fst f)) fs ->
  Exists (fun m => (exists k, contents (fst m) k /\ alike k n) /\ forall v, decode t v (snd m) = None) ms -> forall vs, struct_fold fs ms (Some vs) = None.
Proof.
  intros Ef Nd A X. induction X as [m ms ((k & C & Al) & Dn)|m ms _ IH]; intros vs; unfold struct_fold; cbn [fold_left].
  - rewrite (contents_unquote _ _ C).
    assert (field_index (map fst fs) k = Some (List.length pre)) as ->.
    { rewrite Ef, map_app. cbn [map]. rewrite <- (map_length (@fst string gotype) pre). apply field_alike; [| |exact Al].
      - rewrite Ef in Nd. rewrite <- map_map in Nd. now rewrite map_app in Nd.
      - rewrite Ef in A. rewrite <- Forall_map in A. now rewrite map_app in A. }
    pose proof (set_field_none (fun t' v => decode t' v (snd m)) pre n t post vs Dn) as SF. rewrite <- Ef in SF. rewrite SF. apply struct_fold_none.
  - destruct (field_index (map fst fs) (unquote (fst m))) as [i|]; [|apply IH].
    destruct (set_field _ fs vs i) as [vs'|]; [apply IH|apply struct_fold_none].
Qed.
Lemma map_fold_none t ms : map_fold t ms None = None.
Proof. unfold map_fold. induction ms as [|m ms IH]; [reflexivity|exact IH]. Qed.
Lemma map_fold_clash t ms : Exists (fun m => decode t (zero t) (snd m) = None) ms -> forall m0, map_fold t ms (Some m0) = None.
Proof.
  intros X. induction X as [m ms E|m ms _ IH]; intros m0; unfold map_fold; cbn [fold_left].
  - rewrite E. apply map_fold_none.
  - destruct (decode t (zero t) (snd m)); [apply IH|apply map_fold_none].
Qed.
Definition clash_fields (ms : list (string * json)) : list (string * gotype) -> Prop :=
  fix fields (fs : list (string * gotype)) : Prop :=
    match fs with
    | [] => False
    | (n, t') :: fs' => Exists (fun m => (exists k, contents (fst m) k /\ alike k n) /\ clash t' (snd m)) ms \/ fields fs'
    end.
Lemma clash_somewhere ms fs : clash_fields ms fs -> exists pre n t post, fs = pre ++ (n, t) :: post /\
  Exists (fun m => (exists k, contents (fst m) k /\ alike k n) /\ clash t (snd m)) ms.
Proof.
  induction fs as [|[n t] fs IH]; [contradiction|]. intros [H|H]; [exists [], n, t, fs; auto|].
  destruct (IH H) as (pre & n' & t' & post & -> & X). exists ((n, t) :: pre), n', t', post. auto.
Qed.
Lemma cased_at fs pre n t post : fs = pre ++ (n, t) :: post -> cased_fields fs -> well_cased t.
Proof. intros ->. induction pre as [|[n' t'] pre IH]; cbn [app]; intros (_ & H1 & H2); [exact H1|now apply IH]. Qed.

Theorem clash_decode t : forall j, well_cased t -> clash t j -> forall old, decode t old j = None.
Proof.
  induction t as [ | | | | |t IH|t IH|t IH|fs IH] using gotype_rec'; intros j W [Nj C] old.
  - destruct j; try reflexivity; [congruence|]. exfalso. apply C. now eexists.
  - destruct j; try reflexivity; [congruence|]. cbn [decode]. destruct (parse_int 64 t) as [z|] eqn:E; [|reflexivity]. exfalso. apply C.
    apply parse_int_inv in E as [E1 E2]. exists t, z. auto.
  - destruct C as [C|(w & neg & r & -> & D & S & R)].
    + destruct j; try reflexivity; [congruence|]. exfalso. apply C. now eexists.
    + cbn [decode]. now rewrite (decimal_too_large w neg r S D R).
  - destruct j; try reflexivity; [congruence|]. exfalso. apply C. now eexists.
  - destruct j as [| | |raw| |]; try reflexivity; [congruence|]. cbn [decode]. destruct (read_time raw) as [[off i]|] eqn:E; [|reflexivity].
    exfalso. apply C. exists raw, off, i. split; [reflexivity|]. now apply time_iff.
  - cbn [decode]. rewrite (IH j W C). destruct j; try reflexivity. congruence.
  - destruct C as [C|(l & -> & X)].
    + destruct j; try reflexivity; [congruence|]. exfalso. apply C. now eexists.
    + cbn [decode]. cbv zeta. rewrite (proj2 (all_some_none _)); [reflexivity|]. apply Exists_map. set (olds := match old with VSlice (Some vs) => vs | _ => [] end). clearbody olds.
      generalize 0%nat. clear -X IH W. induction X as [j l Cj|j l _ IHX]; intros k; cbn [List.length seq combine].
      * apply Exists_cons_hd. cbn [fst snd]. now apply IH.
      * apply Exists_cons_tl. apply IHX.
  - destruct C as [C|(ms & -> & X)].
    + destruct j; try reflexivity; [congruence|]. exfalso. apply C. now eexists.
    + cbn [decode]. cbv zeta. set (m0 := match old with VMap (Some m) => m | _ => [] end). clearbody m0.
      change (option_map (fun m => VMap (Some m)) (map_fold t ms (Some m0)) = None). rewrite map_fold_clash; [reflexivity|].
      eapply Exists_impl; [|exact X]. cbv beta. intros m Cm. now apply IH.
  - destruct C as [C|(ms & -> & X)].
    + destruct j; try reflexivity; [congruence|]. exfalso. apply C. now eexists.
    + cbn [decode]. cbv zeta. set (vs0 := match old with VStruct vs => vs | _ => map (fun f => zero (snd f)) fs end). clearbody vs0.
      change (option_map VStruct (struct_fold fs ms (Some vs0)) = None). destruct W as [Nd Cf].
      apply clash_somewhere in X as (pre & n & t & post & Ef & X).
      rewrite (struct_fold_clash fs ms pre n t post Ef Nd (cased_ascii fs Cf)); [reflexivity|].
      eapply Exists_impl; [|exact X]. cbv beta. intros m [K Cm]. split; [exact K|]. intros v.
      rewrite Forall_forall in IH. refine (IH (n, t) _ (snd m) (cased_at fs pre n t post Ef Cf) Cm v). rewrite Ef. apply in_elt.
Qed.
