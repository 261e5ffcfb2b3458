(** RFC 3339 times are read as the instants they name (C92). *)
From Coq Require Import Lia ZArith NArith List Bool String Ascii.
Import ListNotations.
From Verif Require Import Go.Outcome Go.Text Go.Json Model.Date Spec.DateSpec Spec.JsonSpec Spec.DecimalSpec Spec.JsonReadSpec Proofs.Lex
  Proofs.Date Proofs.JsonTime Proofs.JsonText Proofs.Decimal.
Import Spec.JsonReadSpec.
Open Scope string_scope.
Open Scope list_scope.
Open Scope Z_scope.

Lemma day_number_model y m d n : day_number y m d n ->
  valid_date y m d /\ days_since_epoch y + year_day y m d = n + (days_since_epoch 1970 + year_day 1970 1 1).
Proof.
  induction 1 as [|y m d n y' m' d' _ [V IH] N V'|y m d n y' m' d' _ [V IH] N V'].
  - split; [|lia]. apply valid_date_spec. vm_compute. repeat split; congruence.
  - split; [exact V'|]. apply valid_date_spec in V. rewrite (year_day_next y m d y' m' d'); [lia|lia|lia|exact N].
  - split; [exact V'|]. apply valid_date_spec in V'. rewrite (year_day_next y m d y' m' d') in IH; [lia|lia|lia|exact N].
Qed.
Lemma date_unix_of y m d n h mi s : day_number y m d n -> date_unix y m d h mi s = n * 86400 + h * 3600 + mi * 60 + s.
Proof.
  intros D. destruct (day_number_model y m d n D) as [_ E]. pose proof (date_unix_day y m d) as U.
  assert (date_unix y m d h mi s = date_unix y m d 0 0 0 + h * 3600 + mi * 60 + s) as -> by (unfold date_unix; cbv zeta; lia).
  rewrite U, E. assert ((days_since_epoch 1970 + year_day 1970 1 1) * 86400 + absolute_to_unix = 0) by (vm_compute; reflexivity). lia.
Qed.

(** Fractions of a second *)
Lemma digits_val_bound s acc : all_digits s = true ->
  (acc * 10 ^ N.of_nat (String.length s) <= digits_val s acc < (acc + 1) * 10 ^ N.of_nat (String.length s))%N.
Proof.
  revert acc. induction s as [|c s IH]; intros acc; [cbn; lia|]. cbn [all_digits]. intros H. apply andb_true_iff in H as [Hc Hs].
  cbn [digits_val String.length]. specialize (IH (10 * acc + digit_val c)%N Hs). rewrite Nat2N.inj_succ, N.pow_succ_r'.
  destruct (is_digit_inv c Hc) as [B _]. set (p := (10 ^ N.of_nat (String.length s))%N) in *.
  assert (digit_val c <= 9)%N as B' by lia. pose proof (N.mul_le_mono_r _ _ p B').
  clearbody p. clear - IH H. rewrite N.mul_add_distr_r in IH. rewrite !N.mul_add_distr_r in IH. rewrite N.mul_add_distr_r. lia.
Qed.
Lemma pad_value k s acc : all_digits s = true ->
  digits_val (pad_digits k s) acc = (digits_val s acc * 10 ^ N.of_nat k / 10 ^ N.of_nat (String.length s))%N.
Proof.
  revert s acc. induction k as [|k IH]; intros s acc H.
  - cbn [pad_digits digits_val]. rewrite N.mul_1_r. pose proof (digits_val_bound s acc H) as B.
    assert (10 ^ N.of_nat (String.length s) <> 0)%N as P by (apply N.pow_nonzero; lia).
    apply (N.div_unique _ _ _ (digits_val s acc - 10 ^ N.of_nat (String.length s) * acc)); lia.
  - destruct s as [|c s].
    + cbn [pad_digits digits_val String.length]. rewrite N.div_1_r, pad_empty. change (digit_val "0") with 0%N. rewrite digits_val_zeros.
      rewrite Nat2N.inj_succ, N.pow_succ_r'. lia.
    + cbn [all_digits] in H. apply andb_true_iff in H as [_ H]. cbn [pad_digits digits_val String.length]. rewrite IH by assumption.
      rewrite !Nat2N.inj_succ, !N.pow_succ_r'. rewrite (N.mul_comm _ (10 * _)), <- N.mul_assoc, N.div_mul_cancel_l by (lia || (apply N.pow_nonzero; lia)).
      f_equal. lia.
Qed.
Lemma part_model f ns z : part_second f ns -> (exists c r, z = String c r /\ is_digit c = false /\ c <> "."%char /\ c <> ","%char) ->
  exists g, skip_fraction (f ++ z) = (g, z) /\ nanos g = ns.
Proof.
  intros H (c & r & -> & Hd & Hp & Hc). destruct H as [|f k D N].
  - exists "". split; [|reflexivity]. cbn [append skip_fraction]. destruct r as [|c' r]; [reflexivity|].
    destruct (Ascii.eqb_spec c "."); [contradiction|]. destruct (Ascii.eqb_spec c ","); [contradiction|]. reflexivity.
  - destruct (digits_model f k D) as [A V]. exists f. split.
    + destruct f as [|d0 t]; [congruence|]. change (String "." (String d0 t) ++ String c r)%string with (String "." (String d0 (t ++ String c r))).
      cbn [skip_fraction]. pose proof A as A'. cbn [all_digits] in A'. apply andb_true_iff in A'. destruct A' as [A1 A2]. rewrite A1.
      change (Ascii.eqb "." "." || Ascii.eqb "." ",") with true. cbn [andb].
      change (String d0 (t ++ String c r)) with (String d0 t ++ String c r)%string. now apply take_digits_app.
    + unfold nanos. rewrite pad_value by assumption. rewrite N2Z.inj_div, N2Z.inj_mul, !N2Z.inj_pow, V. rewrite !nat_N_Z. reflexivity.
Qed.

(** Zones *)
Lemma zone_shape z off : zone z off -> z = "Z" /\ off = 0 \/
  exists neg h m, 0 <= h < 24 /\ 0 <= m < 60 /\ off = (if neg : bool then -1 else 1) * (h * 3600 + m * 60) /\
    z = String (if neg then "-" else "+")%char (two h ++ String ":" (two m)).
Proof.
  intros [|h m Hh Hm|h m Hh Hm]; [auto|right; exists false, h, m|right; exists true, h, m]; (split; [exact Hh|]); (split; [exact Hm|]); (split; [lia|reflexivity]).
Qed.
Lemma zone_read z off : zone z off -> get_zone z = Some (off, "").
Proof.
  intros H. destruct (zone_shape z off H) as [[-> ->]|(neg & hh & mm & B1 & B2 & -> & ->)]; [reflexivity|].
  cbn [get_zone]. replace (Ascii.eqb (if neg then "-" else "+")%char "Z") with false by (now destruct neg).
  replace (Ascii.eqb (if neg then "-" else "+")%char "+" || Ascii.eqb (if neg then "-" else "+")%char "-") with true by (now destruct neg).
  rewrite getnum_two by lia. cbn [lit Ascii.eqb Bool.eqb].
  rewrite <- (sapp_nil_r (two mm)), getnum_two by lia.
  replace ((hh <=? 24) && (mm <? 60)) with true by (symmetry; apply andb_true_iff; split; [apply Z.leb_le|apply Z.ltb_lt]; lia).
  destruct neg; reflexivity.
Qed.
Lemma zone_starts z off : zone z off -> exists c r, z = String c r /\ is_digit c = false /\ c <> "."%char /\ c <> ","%char.
Proof.
  intros H. destruct (zone_shape z off H) as [[-> ->]|(neg & hh & mm & B1 & B2 & -> & ->)]; [|destruct neg];
    eexists _, _; (split; [reflexivity|]); (split; [reflexivity|]); split; discriminate.
Qed.
Lemma zone_found p s z off : zone z off -> str_all clockish s = true -> (5 <= String.length s)%nat -> zone_of_text (p ++ s ++ z) = off.
Proof.
  intros H C L. unfold zone_of_text. pose proof (zone_read z off H) as G.
  destruct (zone_shape z off H) as [[-> ->]|(neg & hh & mm & B1 & B2 & EO & E)].
  - rewrite last_bytes_app by (rewrite slen_app; cbn [String.length]; lia).
    unfold last_bytes. rewrite slen_app. cbn [String.length]. replace (String.length s + 1 - 6)%nat with (String.length s - 5)%nat by lia.
    destruct s as [|c0 s]; [cbn in L; lia|].
    assert (exists i, String.length (String c0 s) - 5 = i /\ (i < String.length (String c0 s)))%nat as (i & -> & Hi) by (eexists; split; [reflexivity|cbn [String.length] in *; lia]).
    assert (exists c r, substring i 6 (String c0 s ++ "Z") = String c r /\ clockish c = true) as (c & r & -> & K).
    { clear L. revert i Hi C. generalize (String c0 s). intros u. induction u as [|c u IH]; intros i Hi C; [cbn in Hi; lia|].
      cbn [str_all] in C. apply andb_true_iff in C. destruct C as [C1 C2]. destruct i as [|i].
      - eexists _, _. split; [cbn; reflexivity|assumption].
      - cbn [append substring]. apply IH; [cbn [String.length] in Hi; lia|assumption]. }
    cbn [get_zone]. destruct (Ascii.eqb_spec c "Z") as [->|_]; [discriminate K|].
    destruct (Ascii.eqb_spec c "+") as [->|_]; [discriminate K|]. destruct (Ascii.eqb_spec c "-") as [->|_]; [discriminate K|]. reflexivity.
  - rewrite <- sapp_assoc, last_bytes_app by (rewrite E; cbn; lia).
    assert (last_bytes 6 z = z) as -> by (rewrite E; unfold last_bytes, two; reflexivity).
    now rewrite G.
Qed.

Theorem moment_read raw off i : moment raw off i -> read_time raw = Some (off, i).
Proof.
  intros (y & mo & d & n & h & mi & s & f & ns & z & -> & D & Hh & Hm & Hs & F & Z & ->).
  destruct (day_number_model _ _ _ _ D) as [V _]. apply valid_date_spec in V as (By & Bm & Bd).
  assert (d <= 31) as Hd' by (clear -Bm Bd; unfold days_in in Bd; revert Bd; destruct (is_leap y); intros Bd; months mo; calc; lia).
  destruct (part_model f ns z F (zone_starts z off Z)) as (g & Eg & En).
  assert (parse_rfc3339 (date_text y mo d ++ "T" ++ two h ++ ":" ++ two mi ++ ":" ++ two s ++ f ++ z) = Some (date_unix y mo d h mi s - off, g)) as P.
  { unfold date_text. rewrite !sapp_assoc. unfold parse_rfc3339.
    rewrite get_year_text by assumption. cbn [append]. rewrite lit_same. rewrite getnum_two by lia.
    destruct (Z.leb_spec mo 0); [lia|]. destruct (Z.ltb_spec 12 mo); [lia|]. cbn [orb]. rewrite lit_same. rewrite getnum_two by lia.
    rewrite lit_same. rewrite getnum_two_any by lia. destruct (Z.leb_spec 24 h); [lia|].
    rewrite lit_same. rewrite getnum_two by lia. destruct (Z.leb_spec 60 mi); [lia|].
    rewrite lit_same. rewrite getnum_two by lia. destruct (Z.leb_spec 60 s); [lia|].
    rewrite Eg. rewrite (zone_read z off Z). change (negb (String.eqb "" "")) with false. cbv iota.
    destruct (Z.ltb_spec d 1); [lia|]. destruct (Z.ltb_spec (days_in mo y) d); [lia|]. reflexivity. }
  unfold read_time. rewrite P, En. rewrite (date_unix_of _ _ _ n) by assumption.
  assert (zone_of_text (date_text y mo d ++ "T" ++ two h ++ ":" ++ two mi ++ ":" ++ two s ++ f ++ z) = off) as ->.
  { pose proof (zone_found (date_text y mo d ++ "T") (two h ++ ":" ++ two mi ++ ":" ++ two s ++ f) z off Z) as K.
    rewrite !sapp_assoc in K. apply K.
    - rewrite !str_all_app. rewrite !two_clockish by lia. cbn [str_all]. change (clockish ":") with true. cbn [andb].
      destruct F as [|f k Df N]; [reflexivity|]. cbn [str_all]. change (clockish ".") with true. cbn [andb].
      apply (str_all_impl is_digit); [intros c Hc; unfold clockish; now rewrite Hc|]. rewrite <- all_digits_str. now destruct (digits_model f k Df).
    - rewrite !slen_app. cbn [String.length two]. lia. }
  reflexivity.
Qed.

(** Every date has a number. *)
Lemma date_tri y m d y' m' d' : valid_date y m d -> valid_date y' m' d' ->
  days_since_epoch y + year_day y m d = days_since_epoch y' + year_day y' m' d' -> y = y' /\ m = m' /\ d = d'.
Proof.
  intros V V' E. assert (~ earlier y m d y' m' d') as N1 by (intros H; pose proof (year_day_earlier _ _ _ _ _ _ V V' H); lia).
  assert (~ earlier y' m' d' y m d) as N2 by (intros H; pose proof (year_day_earlier _ _ _ _ _ _ V' V H); lia).
  unfold earlier in *. lia.
Qed.
Lemma epoch_valid : valid_date 1970 1 1.
Proof. exact (proj1 (day_number_model _ _ _ _ day_epoch)). Qed.
Lemma month_has_length y m : 1 <= m <= 12 -> 28 <= days_in m y <= 31 /\ month_length y m (days_in m y).
Proof.
  intros H. split; [|now apply days_in_spec]. unfold days_in. destruct (is_leap y); months m; calc; lia.
Qed.
Lemma day_after y m d : valid_date y m d -> y < 9999 -> exists y' m' d', next_day y m d y' m' d' /\ valid_date y' m' d'.
Proof.
  intros V Hy. apply valid_date_spec in V as (By & Bm & Bd). destruct (month_has_length y m Bm) as [R L].
  destruct (Z.eq_dec d (days_in m y)) as [->|Nd].
  - destruct (Z.eq_dec m 12) as [->|Nm].
    + exists (y + 1), 1, 1. split; [exists (days_in 12 y); split; [exact L|lia]|]. apply valid_date_spec. destruct (month_has_length (y + 1) 1 ltac:(lia)). lia.
    + exists y, (m + 1), 1. split; [exists (days_in m y); split; [exact L|lia]|]. apply valid_date_spec. destruct (month_has_length y (m + 1) ltac:(lia)). lia.
  - exists y, m, (d + 1). split; [exists (days_in m y); split; [exact L|lia]|]. apply valid_date_spec. lia.
Qed.
Lemma day_prior y m d : valid_date y m d -> 0 < y -> exists y' m' d', next_day y' m' d' y m d /\ valid_date y' m' d'.
Proof.
  intros V Hy. apply valid_date_spec in V as (By & Bm & Bd).
  destruct (Z.eq_dec d 1) as [->|Nd].
  - destruct (Z.eq_dec m 1) as [->|Nm].
    + exists (y - 1), 12, 31. assert (days_in 12 (y - 1) = 31) as E by (unfold days_in; destruct (is_leap (y - 1)); reflexivity).
      destruct (month_has_length (y - 1) 12 ltac:(lia)) as [R L]. rewrite E in L.
      split; [exists 31; split; [exact L|lia]|]. apply valid_date_spec. lia.
    + destruct (month_has_length y (m - 1) ltac:(lia)) as [R L]. exists y, (m - 1), (days_in (m - 1) y).
      split; [exists (days_in (m - 1) y); split; [exact L|lia]|]. apply valid_date_spec. lia.
  - destruct (month_has_length y m Bm) as [R L]. exists y, m, (d - 1). split; [exists (days_in m y); split; [exact L|lia]|]. apply valid_date_spec. lia.
Qed.
Theorem date_numbered y m d : valid_date y m d -> exists n, day_number y m d n.
Proof.
  remember (Z.to_nat (Z.abs (days_since_epoch y + year_day y m d - (days_since_epoch 1970 + year_day 1970 1 1)))) as k eqn:Ek. revert y m d Ek.
  induction k as [|k IH]; intros y m d Ek V.
  - destruct (date_tri y m d 1970 1 1 V epoch_valid ltac:(lia)) as (-> & -> & ->). exists 0. constructor.
  - pose proof V as V0. apply valid_date_spec in V0 as (By & Bm & Bd).
    destruct (Z_lt_le_dec (days_since_epoch 1970 + year_day 1970 1 1) (days_since_epoch y + year_day y m d)) as [L|L].
    + assert (0 < y) as Hy.
      { destruct (Z_lt_le_dec 0 y); [assumption|]. assert (earlier y m d 1970 1 1) as E by (left; lia). pose proof (year_day_earlier _ _ _ _ _ _ V epoch_valid E). lia. }
      destruct (day_prior y m d V Hy) as (y' & m' & d' & N & V'). pose proof V' as V1. apply valid_date_spec in V1.
      pose proof (year_day_next y' m' d' y m d ltac:(lia) ltac:(lia) N). destruct (IH y' m' d') as (n & D); [lia|exact V'|].
      exists (n + 1). exact (day_later _ _ _ _ _ _ _ D N V).
    + assert (y < 9999) as Hy.
      { destruct (Z_lt_le_dec y 9999); [assumption|]. assert (earlier 1970 1 1 y m d) as E by (left; lia). pose proof (year_day_earlier _ _ _ _ _ _ epoch_valid V E). lia. }
      destruct (day_after y m d V Hy) as (y' & m' & d' & N & V').
      pose proof (year_day_next y m d y' m' d' ltac:(lia) ltac:(lia) N). destruct (IH y' m' d') as (n & D); [lia|exact V'|].
      exists (n - 1). exact (day_earlier _ _ _ _ _ _ _ D N V).
Qed.
