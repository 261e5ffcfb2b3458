(** json_time written and read back (C83). *)
From Coq Require Import Lia ZArith NArith List Bool String Ascii.
Import ListNotations.
From Verif Require Import Go.Outcome Go.Text Go.Json Model.Date Spec.DateSpec Proofs.Lex Proofs.Date.
Open Scope string_scope.
Open Scope list_scope.
Open Scope Z_scope.

(** *** The calendar backwards *)
Definition month_part (leap : bool) (d : Z) : Z * Z :=
  if leap && (d =? 59) then (2, 29)
  else
    let day := if leap && (59 <? d) then d - 1 else d in
    let month := day / 31 in
    let e := days_before (month + 1) in
    if e <=? day then (month + 2, day - e + 1) else (month + 1, day - days_before month + 1).
Definition month_check (leap : bool) (d : Z) : bool :=
  let '(m, dd) := month_part leap d in
  (1 <=? m) && (m <=? 12) && (1 <=? dd) &&
  (dd <=? (if (m =? 2) && leap then 29 else days_before m - days_before (m - 1))) &&
  (days_before (m - 1) + (if leap && (3 <=? m) then 1 else 0) + (dd - 1) =? d).
Lemma months_checked :
  forallb (fun n => month_check true (Z.of_nat n)) (seq 0 366) && forallb (fun n => month_check false (Z.of_nat n)) (seq 0 365) = true.
Proof. vm_compute. reflexivity. Qed.
Lemma month_ok (leap : bool) (d : Z) : 0 <= d < (if leap then 366 else 365) -> month_check leap d = true.
Proof.
  intros H. pose proof months_checked as K. apply andb_true_iff in K. destruct K as [K1 K2].
  rewrite forallb_forall in K1, K2. destruct leap.
  - rewrite <- (Z2Nat.id d) by lia. apply K1, in_seq. lia.
  - rewrite <- (Z2Nat.id d) by lia. apply K2, in_seq. lia.
Qed.

(** The year of a day number. *)
Lemma year_part a b c d r : 0 <= a -> 0 <= b <= 3 -> 0 <= c <= 24 -> 0 <= d <= 3 ->
  let z := 400 * a + 100 * b + 4 * c + d in
  days_since_epoch (z + absolute_zero_year) + r = 146097 * a + 36524 * b + 1461 * c + 365 * d + r.
Proof.
  intros Ha Hb Hc Hd z. rewrite days_closed. cbv zeta. replace (z + absolute_zero_year - absolute_zero_year) with z by lia.
  assert (z / 4 = 100 * a + 25 * b + c) as -> by (unfold z; symmetry; apply Z.div_unique with d; lia).
  assert (z / 100 = 4 * a + b) as -> by (unfold z; symmetry; apply Z.div_unique with (4 * c + d); lia).
  assert (z / 400 = a) as -> by (unfold z; symmetry; apply Z.div_unique with (100 * b + 4 * c + d); lia).
  unfold z. lia.
Qed.
Lemma leap_part a b c d : 0 <= a -> 0 <= b <= 3 -> 0 <= c <= 24 -> 0 <= d <= 3 ->
  0 <= 400 * a + 100 * b + 4 * c + d + absolute_zero_year ->
  is_leap (400 * a + 100 * b + 4 * c + d + absolute_zero_year) = ((d =? 3) && (negb (c =? 24) || (b =? 3))).
Proof.
  intros Ha Hb Hc Hd Hz. rewrite is_leap_mod by assumption. unfold absolute_zero_year in *.
  set (y := 400 * a + 100 * b + 4 * c + d + -292277022399) in *.
  assert (y mod 4 = (d + 1) mod 4) as E4.
  { unfold y. replace (400 * a + 100 * b + 4 * c + d + -292277022399) with (d + 1 + (100 * a + 25 * b + c - 73069255600) * 4) by lia. apply Z.mod_add. lia. }
  assert (y mod 100 = (4 * c + d + 1) mod 100) as E100.
  { unfold y. replace (400 * a + 100 * b + 4 * c + d + -292277022399) with (4 * c + d + 1 + (4 * a + b - 2922770224) * 100) by lia. apply Z.mod_add. lia. }
  assert (y mod 400 = (100 * b + 4 * c + d + 1) mod 400) as E400.
  { unfold y. replace (400 * a + 100 * b + 4 * c + d + -292277022399) with (100 * b + 4 * c + d + 1 + (a - 730692556) * 400) by lia. apply Z.mod_add. lia. }
  rewrite E4, E100, E400. clear -Hb Hc Hd.
  assert (forall x n, 0 < n -> 0 <= x <= n -> (x mod n =? 0) = ((x =? 0) || (x =? n))) as K.
  { intros x n Hn Hx. destruct (Z.eqb_spec x n) as [->|N].
    - rewrite Z.mod_same by lia. now rewrite orb_true_r.
    - rewrite Z.mod_small by lia. now rewrite orb_false_r. }
  rewrite (K (d + 1)), (K (4 * c + d + 1)), (K (100 * b + 4 * c + d + 1)) by lia.
  destruct (Z.eqb_spec d 3), (Z.eqb_spec c 24), (Z.eqb_spec b 3),
    (Z.eqb_spec (d + 1) 0), (Z.eqb_spec (d + 1) 4), (Z.eqb_spec (4 * c + d + 1) 0), (Z.eqb_spec (4 * c + d + 1) 100),
    (Z.eqb_spec (100 * b + 4 * c + d + 1) 0), (Z.eqb_spec (100 * b + 4 * c + d + 1) 400); cbn [andb orb negb]; try reflexivity; lia.
Qed.

Lemma next_part a b c d : 0 <= a -> 0 <= b <= 3 -> 0 <= c <= 24 -> 0 <= d <= 3 ->
  days_since_epoch (400 * a + 100 * b + 4 * c + d + absolute_zero_year + 1) =
  146097 * a + 36524 * b + 1461 * c + 365 * d + (if (d =? 3) && (negb (c =? 24) || (b =? 3)) then 366 else 365).
Proof.
  intros Ha Hb Hc Hd.
  assert (forall a b c d, 0 <= a -> 0 <= b <= 3 -> 0 <= c <= 24 -> 0 <= d <= 3 ->
    days_since_epoch (400 * a + 100 * b + 4 * c + d + absolute_zero_year) = 146097 * a + 36524 * b + 1461 * c + 365 * d) as K.
  { intros a' b' c' d' A B C D. pose proof (year_part a' b' c' d' 0 A B C D) as E. cbv zeta in E. lia. }
  destruct (Z.eqb_spec d 3) as [->|N]; cbn [andb].
  - destruct (Z.eqb_spec c 24) as [->|N]; cbn [negb orb].
    + destruct (Z.eqb_spec b 3) as [->|N].
      * replace (400 * a + 100 * 3 + 4 * 24 + 3 + absolute_zero_year + 1) with (400 * (a + 1) + 100 * 0 + 4 * 0 + 0 + absolute_zero_year) by lia.
        rewrite K by lia. lia.
      * replace (400 * a + 100 * b + 4 * 24 + 3 + absolute_zero_year + 1) with (400 * a + 100 * (b + 1) + 4 * 0 + 0 + absolute_zero_year) by lia.
        rewrite K by lia. lia.
    + replace (400 * a + 100 * b + 4 * c + 3 + absolute_zero_year + 1) with (400 * a + 100 * b + 4 * (c + 1) + 0 + absolute_zero_year) by lia.
      rewrite K by lia. lia.
  - replace (400 * a + 100 * b + 4 * c + d + absolute_zero_year + 1) with (400 * a + 100 * b + 4 * c + (d + 1) + absolute_zero_year) by lia.
    rewrite K by lia. lia.
Qed.
Lemma years_mono y y' : y <= y' -> days_since_epoch y <= days_since_epoch y'.
Proof.
  intros H. rewrite !days_closed. cbv zeta. set (z := y - absolute_zero_year). assert (exists k, 0 <= k /\ y' - absolute_zero_year = z + k) as (k & Hk & ->).
  { exists (y' - y). unfold z. lia. }
  Z.to_euclidean_division_equations. lia.
Qed.

Lemma abs_date_correct abs : 0 <= abs ->
  let '(y, m, d) := abs_date abs in
  days_since_epoch y <= abs / 86400 < days_since_epoch (y + 1) /\
  (0 <= y -> 1 <= m <= 12 /\ 1 <= d <= days_in m y /\ days_since_epoch y + year_day y m d = abs / 86400).
Proof.
  intros H. unfold abs_date. cbv zeta. assert (0 <= abs / 86400) as H0 by (apply Z.div_pos; lia). revert H0. generalize (abs / 86400). intros D HD.
  set (a := D / 146097). set (D1 := D - 146097 * a).
  assert (0 <= a) as Ha by (apply Z.div_pos; lia).
  assert (0 <= D1 < 146097) as B1 by (unfold D1, a; pose proof (Z.mod_pos_bound D 146097 ltac:(lia)); pose proof (Z.div_mod D 146097); lia).
  assert (D = 146097 * a + D1) as ED by (unfold D1; lia).
  set (b := D1 / 36524 - D1 / 36524 / 4). set (D2 := D1 - 36524 * b).
  assert (0 <= b <= 3 /\ 0 <= D2 < (if b =? 3 then 36525 else 36524)) as [Bb B2].
  { assert (0 <= D1 / 36524 <= 4 /\ 36524 * (D1 / 36524) <= D1 < 36524 * (D1 / 36524) + 36524) as [Q1 Q2] by (Z.to_euclidean_division_equations; lia).
    unfold D2, b. set (q := D1 / 36524) in *. destruct (Z.eq_dec q 4) as [E|E].
    - rewrite E. change (4 - 4 / 4) with 3. cbn [Z.eqb Pos.eqb]. lia.
    - rewrite (Z.div_small q 4) by lia. destruct (Z.eqb_spec (q - 0) 3); lia. }
  assert (D1 = 36524 * b + D2) as ED1 by (unfold D2; lia).
  set (c := D2 / 1461). set (D3 := D2 - 1461 * c).
  assert (0 <= c <= 24 /\ 0 <= D3 < (if (c =? 24) && negb (b =? 3) then 1460 else 1461)) as [Bc B3].
  { unfold D3, c. destruct (b =? 3); cbn [negb]; rewrite ?andb_true_r, ?andb_false_r.
    - Z.to_euclidean_division_equations; lia.
    - assert (0 <= D2 / 1461 <= 24 /\ 0 <= D2 - 1461 * (D2 / 1461) < 1461) as [Q1 Q2] by (Z.to_euclidean_division_equations; lia).
      destruct (Z.eqb_spec (D2 / 1461) 24) as [E|E]; [rewrite E in *; lia|lia]. }
  assert (D2 = 1461 * c + D3) as ED2 by (unfold D3; lia).
  set (d := D3 / 365 - D3 / 365 / 4). set (D4 := D3 - 365 * d).
  assert (0 <= d <= 3 /\ 0 <= D4 < (if (d =? 3) && (negb (c =? 24) || (b =? 3)) then 366 else 365)) as [Bd B4].
  { assert (0 <= D3 / 365 <= 4 /\ 365 * (D3 / 365) <= D3 < 365 * (D3 / 365) + 365) as [Q1 Q2] by (destruct (_ && _); Z.to_euclidean_division_equations; lia).
    unfold D4, d. set (q := D3 / 365) in *. destruct (Z.eq_dec q 4) as [E|E].
    - rewrite E. change (4 - 4 / 4) with 3. cbn [Z.eqb Pos.eqb andb]. destruct (c =? 24), (b =? 3); cbn [negb andb orb] in *; lia.
    - rewrite (Z.div_small q 4) by lia. destruct (_ && _); destruct (_ && _); lia. }
  assert (D3 = 365 * d + D4) as ED3 by (unfold D4; lia).
  set (y := 400 * a + 100 * b + 4 * c + d + absolute_zero_year).
  assert (days_since_epoch y <= D < days_since_epoch (y + 1)) as Y.
  { unfold y. rewrite next_part by assumption. pose proof (year_part a b c d 0 Ha Bb Bc Bd) as E. cbv zeta in E. rewrite Z.add_0_r in E.
    rewrite E. lia. }
  assert (let '(m, dd) := month_part (is_leap y) D4 in 0 <= y ->
    1 <= m <= 12 /\ 1 <= dd <= days_in m y /\ days_since_epoch y + year_day y m dd = D) as Main.
  { destruct (month_part (is_leap y) D4) as [m dd] eqn:EM. intros Hy.
    pose proof (leap_part a b c d Ha Bb Bc Bd Hy) as EL. fold y in EL.
    pose proof (month_ok (is_leap y) D4) as MO. rewrite EL in MO at 1. specialize (MO B4).
    unfold month_check in MO. rewrite EM in MO. repeat (apply andb_true_iff in MO; destruct MO as [MO ?]).
    apply Z.leb_le in MO. repeat match goal with K : (_ <=? _) = true |- _ => apply Z.leb_le in K | K : (_ =? _) = true |- _ => apply Z.eqb_eq in K end.
    split; [lia|]. split; [unfold days_in; lia|].
    unfold year_day. replace (days_before (m - 1) + (if is_leap y && (3 <=? m) then 1 else 0) + (dd - 1)) with D4 by lia.
    unfold y. rewrite year_part by assumption. lia. }
  unfold month_part in Main. cbv zeta in Main.
  replace (D1 / 36524 - D1 / 36524 / 4) with b by reflexivity. 
  destruct (is_leap y && (D4 =? 59)); [exact (conj Y Main)|]. destruct (_ <=? _); exact (conj Y Main).
Qed.

(** *** The text *)
Lemma digit_char_eq z : 0 <= z <= 9 -> digit_char (Z.to_N z) = digit z.
Proof. intros H. reflexivity. Qed.
Lemma two_digits_eq z : 0 <= z <= 99 -> two_digits z = two z.
Proof.
  intros H. unfold two_digits, two. cbn [fixdig append].
  assert (Z.to_N (z mod 10) = (Z.to_N z mod 10)%N) as E1 by (rewrite Z2N.inj_mod; lia || reflexivity).
  assert (Z.to_N (z / 10) = (Z.to_N z / 10)%N) as E2 by (rewrite Z2N.inj_div; lia || reflexivity).
  assert (0 <= z / 10 <= 9) as B by (Z.to_euclidean_division_equations; lia).
  unfold digit. rewrite E1, E2. unfold digit_char. rewrite (N.mod_small (Z.to_N z / 10) 10); [reflexivity|]. rewrite <- E2. lia.
Qed.
Lemma four_digits_eq y : 0 <= y <= 9999 -> fixdig 4 (Z.to_N y) = (two (y / 100) ++ two (y mod 100))%string.
Proof.
  intros H. assert (0 <= y / 100 <= 99 /\ 0 <= y mod 100 <= 99) as [B1 B2] by (Z.to_euclidean_division_equations; lia).
  rewrite <- !two_digits_eq by assumption. unfold two_digits. rewrite Z2N.inj_div, Z2N.inj_mod by lia.
  change (Z.to_N 100) with 100%N. set (n := Z.to_N y). cbn [fixdig append].
  assert (n mod 100 / 10 mod 10 = n / 10 mod 10)%N as -> by (zify; Z.to_euclidean_division_equations; lia).
  assert ((n mod 100) mod 10 = n mod 10)%N as -> by (zify; Z.to_euclidean_division_equations; lia).
  rewrite !N.div_div by lia. change (10 * 10)%N with 100%N. change (100 * 10)%N with 1000%N. reflexivity.
Qed.

(** Zones *)
Definition zone_ok (off : Z) : Prop := (60 | off) /\ -86400 < off < 86400.
Lemma zone_cases off : zone_ok off -> off = 0 /\ zone_text off = "Z" \/
  exists neg hh mm, 0 <= hh <= 23 /\ 0 <= mm <= 59 /\ off = (if neg : bool then -1 else 1) * (hh * 3600 + mm * 60) /\
    zone_text off = String (if neg then "-" else "+")%char (two hh ++ String ":" (two mm)).
Proof.
  intros [[k Hk] B]. unfold zone_text. destruct (Z.eqb_spec off 0) as [E|E]; [left; auto|right].
  assert (Z.quot off 60 = k) as -> by (rewrite Hk; apply Z.quot_mul; lia).
  exists (k <? 0), (Z.abs k / 60), (Z.abs k mod 60).
  assert (0 <= Z.abs k / 60 <= 23 /\ 0 <= Z.abs k mod 60 <= 59 /\ Z.abs k = 60 * (Z.abs k / 60) + Z.abs k mod 60) as (B1 & B2 & B3)
    by (Z.to_euclidean_division_equations; lia).
  split; [lia|]. split; [lia|]. split; [destruct (Z.ltb_spec k 0); lia|].
  rewrite !two_digits_eq by lia. destruct (k <? 0); reflexivity.
Qed.
Lemma get_zone_text off : zone_ok off -> get_zone (zone_text off) = Some (off, "").
Proof.
  intros H. destruct (zone_cases off H) as [[-> E]|(neg & hh & mm & B1 & B2 & -> & E)]; rewrite E; [reflexivity|].
  cbn [get_zone]. replace (Ascii.eqb (if neg then "-" else "+")%char "Z") with false by (now destruct neg).
  replace (Ascii.eqb (if neg then "-" else "+")%char "+" || Ascii.eqb (if neg then "-" else "+")%char "-") with true by (now destruct neg).
  rewrite getnum_two by lia. cbn [lit Ascii.eqb Bool.eqb]. 
  rewrite <- (sapp_nil_r (two mm)), getnum_two by lia.
  replace ((hh <=? 24) && (mm <? 60)) with true by (symmetry; apply andb_true_iff; split; [apply Z.leb_le|apply Z.ltb_lt]; lia).
  destruct neg; reflexivity.
Qed.

(** Fractions *)
Lemma take_digits_app d z : all_digits d = true -> starts_digit z = false -> take_digits (d ++ z) = (d, z).
Proof.
  intros H Z0. induction d as [|c d IH]; cbn [append take_digits].
  - destruct z as [|c z]; [reflexivity|]. cbn in Z0. cbn [take_digits]. now rewrite Z0.
  - cbn in H. apply andb_true_iff in H. destruct H as [-> H]. rewrite IH by assumption. reflexivity.
Qed.
Lemma drop_zeros_digits s : all_digits s = true -> all_digits (drop_zeros s) = true.
Proof.
  induction s as [|c s IH]; [reflexivity|]. cbn [all_digits drop_zeros]. intros H. apply andb_true_iff in H. destruct H as [H1 H2].
  specialize (IH H2). destruct (drop_zeros s) as [|c' t]; [destruct (Ascii.eqb c "0"); cbn; now rewrite ?H1|].
  cbn [all_digits] in *. now rewrite H1, IH.
Qed.
Lemma pad_empty k : pad_digits k "" = zeros k.
Proof. induction k as [|k IH]; [reflexivity|]. cbn. now rewrite IH. Qed.
Lemma drop_zeros_nil s : drop_zeros s = "" -> s = zeros (String.length s).
Proof.
  induction s as [|c s IH]; [reflexivity|]. cbn [drop_zeros String.length zeros]. destruct (drop_zeros s); [|discriminate].
  destruct (Ascii.eqb_spec c "0") as [->|]; [|discriminate]. intros _. now rewrite <- IH.
Qed.
Lemma pad_drop s : pad_digits (String.length s) (drop_zeros s) = s.
Proof.
  induction s as [|c s IH]; [reflexivity|]. cbn [String.length drop_zeros]. destruct (drop_zeros s) as [|c' t] eqn:E.
  - apply drop_zeros_nil in E. destruct (Ascii.eqb_spec c "0") as [->|]; cbn [pad_digits]; rewrite pad_empty; now rewrite <- E.
  - cbn [pad_digits]. now rewrite IH.
Qed.
Lemma digits_val_zeros k acc : digits_val (zeros k) acc = (acc * 10 ^ N.of_nat k)%N.
Proof.
  revert acc. induction k as [|k IH]; intros acc; [cbn; lia|]. cbn [zeros digits_val]. rewrite IH. change (digit_val "0") with 0%N.
  rewrite Nat2N.inj_succ, N.pow_succ_r'. lia.
Qed.
Lemma fraction_ok ns z : 0 <= ns < 1000000000 -> (exists c r, z = String c r /\ is_digit c = false /\ c <> "."%char /\ c <> ","%char) ->
  exists f, skip_fraction (nano_text ns ++ z) = (f, z) /\ nanos f = ns.
Proof.
  intros H (c & r & -> & Hd & Hp & Hc). unfold nano_text. destruct (Z.eqb_spec ns 0) as [->|N].
  - exists "". split; [|reflexivity]. cbn [append skip_fraction]. destruct r as [|c' r]; [reflexivity|].
    destruct (Ascii.eqb_spec c "."); [contradiction|]. destruct (Ascii.eqb_spec c ","); [contradiction|]. reflexivity.
  - set (fd := fixdig 9 (Z.to_N ns)). assert (digits_val fd 0 = Z.to_N ns) as V.
    { unfold fd. rewrite fixdig_val. rewrite N.mod_small; [lia|]. change (10 ^ N.of_nat 9)%N with 1000000000%N. lia. }
    assert (all_digits fd = true) as A by apply fixdig_digits. assert (String.length fd = 9%nat) as L by apply fixdig_len.
    exists (drop_zeros fd). split.
    + pose proof (drop_zeros_digits fd A) as A'. destruct (drop_zeros fd) as [|d0 t] eqn:E.
      * apply drop_zeros_nil in E. rewrite E, digits_val_zeros in V. lia.
      * change (("." ++ String d0 t) ++ String c r)%string with (String "." (String d0 (t ++ String c r))).
        cbn [skip_fraction]. cbn [all_digits] in A'. apply andb_true_iff in A'. destruct A' as [A1 A2]. rewrite A1.
        change (Ascii.eqb "." "." || Ascii.eqb "." ",") with true. cbn [andb].
        change (String d0 (t ++ String c r)) with (String d0 t ++ String c r)%string. apply take_digits_app.
        -- cbn [all_digits]. now rewrite A1, A2.
        -- exact Hd.
    + unfold nanos. rewrite <- L, pad_drop, V. lia.
Qed.

(** *** Writing and reading *)
Definition local_seconds (off t : Z) : Z := t / 1000000000 + off.
Definition year_ok (off t : Z) : Prop := -62167219200 <= local_seconds off t < 253402300800.
Lemma epoch_0 : days_since_epoch 0 * 86400 + absolute_to_unix = -62167219200. Proof. reflexivity. Qed.
Lemma epoch_10000 : days_since_epoch 10000 * 86400 + absolute_to_unix = 253402300800. Proof. reflexivity. Qed.

Definition clock_text (abs ns : Z) : string :=
  (two (abs mod 86400 / 3600) ++ ":" ++ two (abs mod 86400 mod 3600 / 60) ++ ":" ++ two (abs mod 86400 mod 60) ++ nano_text ns)%string.
Lemma json_time_none off t : absolute_to_unix <= local_seconds off t -> (json_time off t = None <-> ~ year_ok off t).
Proof.
  intros H. unfold json_time, year_ok. unfold local_seconds in *. set (sec := t / 1000000000) in *. cbv zeta.
  pose proof (abs_date_correct (sec + off - absolute_to_unix) ltac:(lia)) as C.
  pose proof epoch_0 as E0. pose proof epoch_10000 as E1.
  destruct (abs_date (sec + off - absolute_to_unix)) as [[y m] d]. destruct C as [C _].
  set (abs := sec + off - absolute_to_unix) in *. pose proof (Z.div_mod abs 86400 ltac:(lia)) as DM. pose proof (Z.mod_pos_bound abs 86400 ltac:(lia)) as MB.
  destruct (Z.ltb_spec y 0) as [Y|Y]; cbn [orb].
  - split; [intros _|reflexivity]. pose proof (years_mono (y + 1) 0 ltac:(lia)). lia.
  - pose proof (years_mono 0 y ltac:(lia)). destruct (Z.ltb_spec 9999 y) as [Y'|Y']; cbn [orb].
    + split; [intros _|reflexivity]. pose proof (years_mono 10000 y ltac:(lia)). lia.
    + split; [discriminate|]. intros N. exfalso. apply N. pose proof (years_mono (y + 1) 10000 ltac:(lia)). lia.
Qed.
Lemma json_time_some off t : year_ok off t ->
  let abs := local_seconds off t - absolute_to_unix in
  exists y m d, 0 <= y <= 9999 /\ 1 <= m <= 12 /\ 1 <= d <= days_in m y /\ d <= 31 /\
    days_since_epoch y + year_day y m d = abs / 86400 /\
    json_time off t = Some (date_text y m d ++ "T" ++ clock_text abs (t mod 1000000000) ++ zone_text off)%string.
Proof.
  intros H abs.
  assert (absolute_to_unix <= local_seconds off t) as Hb by (unfold year_ok in H; pose proof epoch_0; assert (0 <= days_since_epoch 0) by (apply Z.leb_le; vm_compute; reflexivity); lia).
  assert (json_time off t <> None) as NN. { intros N. apply json_time_none in N; [contradiction|assumption]. }
  revert NN. unfold json_time. cbv zeta. pose proof (abs_date_correct abs ltac:(unfold abs; lia)) as C. unfold abs, local_seconds in *.
  destruct (abs_date (t / 1000000000 + off - absolute_to_unix)) as [[y m] d]. destruct C as [_ C].
  destruct (Z.ltb_spec y 0) as [Y|Y]; cbn [orb]; [congruence|]. destruct (Z.ltb_spec 9999 y) as [Y'|Y']; cbn [orb]; [congruence|]. intros _.
  destruct (C Y) as (Bm & Bd & E). exists y, m, d.
  assert (d <= 31) as Hd' by (clear -Bm Bd; unfold days_in in Bd; revert Bd; destruct (is_leap y); intros Bd; months m; calc; lia).
  repeat (split; [lia|]). f_equal. unfold clock_text.
  set (cl := (t / 1000000000 + off - absolute_to_unix) mod 86400). pose proof (Z.mod_pos_bound (t / 1000000000 + off - absolute_to_unix) 86400 ltac:(lia)) as Bc. fold cl in Bc.
  rewrite four_digits_eq by lia. rewrite !two_digits_eq by (Z.to_euclidean_division_equations; lia).
  unfold date_text. rewrite !sapp_assoc. reflexivity.
Qed.

Lemma lit_same c r : lit c (String c r) = Some r.
Proof. cbn [lit]. now rewrite Ascii.eqb_refl. Qed.
Lemma getnum_two_any z r b : 0 <= z <= 99 -> getnum (two z ++ r) b = Some (z, r).
Proof.
  intros H. pose proof (getnum_two z r H) as G. unfold two in *. cbn [append getnum] in *.
  destruct (is_digit _); [|discriminate]. destruct (is_digit _); [exact G|discriminate].
Qed.
Lemma zone_head off : zone_ok off -> exists c r, zone_text off = String c r /\ is_digit c = false /\ c <> "."%char /\ c <> ","%char.
Proof.
  intros H. destruct (zone_cases off H) as [[-> E]|(neg & hh & mm & B1 & B2 & -> & E)]; rewrite E; [|destruct neg];
    eexists _, _; (split; [reflexivity|]); (split; [reflexivity|]); split; discriminate.
Qed.
Lemma parse_time y m d abs ns off : 0 <= y <= 9999 -> 1 <= m <= 12 -> 1 <= d <= days_in m y -> d <= 31 -> 0 <= ns < 1000000000 -> zone_ok off ->
  days_since_epoch y + year_day y m d = abs / 86400 ->
  exists f, parse_rfc3339 (date_text y m d ++ "T" ++ clock_text abs ns ++ zone_text off)%string = Some (abs + absolute_to_unix - off, f) /\ nanos f = ns.
Proof.
  intros Hy Hm Hd Hd' Hn Hz E. destruct (fraction_ok ns (zone_text off) Hn (zone_head off Hz)) as (f & Ef & En).
  exists f. split; [|exact En]. unfold date_text, clock_text. rewrite !sapp_assoc. unfold parse_rfc3339.
  pose proof (Z.mod_pos_bound abs 86400 ltac:(lia)) as Bc. pose proof (Z.div_mod abs 86400 ltac:(lia)) as DM. set (cl := abs mod 86400) in *.
  assert (0 <= cl / 3600 <= 23 /\ 0 <= cl mod 3600 / 60 <= 59 /\ 0 <= cl mod 60 <= 59 /\ cl = cl / 3600 * 3600 + cl mod 3600 / 60 * 60 + cl mod 60) as (B1 & B2 & B3 & EC)
    by (Z.to_euclidean_division_equations; lia).
  rewrite get_year_text by assumption. cbn [append]. rewrite lit_same. rewrite getnum_two by lia.
  destruct (Z.leb_spec m 0); [lia|]. destruct (Z.ltb_spec 12 m); [lia|]. cbn [orb]. rewrite lit_same. rewrite getnum_two by lia.
  rewrite lit_same. rewrite getnum_two_any by lia. destruct (Z.leb_spec 24 (cl / 3600)); [lia|].
  rewrite lit_same. rewrite getnum_two by lia. destruct (Z.leb_spec 60 (cl mod 3600 / 60)); [lia|].
  rewrite lit_same. rewrite getnum_two by lia. destruct (Z.leb_spec 60 (cl mod 60)); [lia|].
  rewrite Ef. rewrite get_zone_text by assumption. change (negb (String.eqb "" "")) with false. cbv iota.
  destruct (Z.ltb_spec d 1); [lia|]. destruct (Z.ltb_spec (days_in m y) d); [lia|]. cbn [orb]. f_equal. f_equal.
  pose proof (date_unix_day y m d) as U. unfold date_unix in *. cbv zeta in *. lia.
Qed.

Lemma last_bytes_app k a b : (k <= String.length b)%nat -> last_bytes k (a ++ b) = last_bytes k b.
Proof.
  intros H. unfold last_bytes. rewrite slen_app. replace (String.length a + String.length b - k)%nat with (String.length a + (String.length b - k))%nat by lia.
  generalize (String.length b - k)%nat. clear H. intros i. induction a as [|c a IH]; [reflexivity|]. cbn [String.length append Nat.add substring]. exact IH.
Qed.
Definition clockish (c : ascii) : bool := is_digit c || Ascii.eqb c ":" || Ascii.eqb c ".".
Lemma two_clockish z : 0 <= z <= 99 -> str_all clockish (two z) = true.
Proof.
  intros H. unfold two. cbn [str_all]. unfold clockish.
  rewrite (proj1 (digit_ok (z / 10) ltac:(Z.to_euclidean_division_equations; lia))), (proj1 (digit_ok (z mod 10) ltac:(Z.to_euclidean_division_equations; lia))). reflexivity.
Qed.
Lemma nano_clockish ns : str_all clockish (nano_text ns) = true.
Proof.
  unfold nano_text. destruct (ns =? 0); [reflexivity|]. cbn [append str_all]. change (clockish ".") with true. cbn [andb].
  apply (str_all_impl is_digit); [intros c Hc; unfold clockish; now rewrite Hc|]. rewrite <- all_digits_str. apply drop_zeros_digits, fixdig_digits.
Qed.
Lemma clock_text_ok abs ns : str_all clockish (clock_text abs ns) = true /\ (8 <= String.length (clock_text abs ns))%nat.
Proof.
  pose proof (Z.mod_pos_bound abs 86400 ltac:(lia)) as Bc. unfold clock_text. set (cl := abs mod 86400) in *. split.
  - rewrite !str_all_app. rewrite !two_clockish, nano_clockish by (Z.to_euclidean_division_equations; lia). reflexivity.
  - rewrite !slen_app. cbn [String.length two]. lia.
Qed.
Lemma zone_of_time p abs ns off : zone_ok off -> zone_of_text (p ++ clock_text abs ns ++ zone_text off)%string = off.
Proof.
  intros H. unfold zone_of_text. destruct (clock_text_ok abs ns) as [C L].
  destruct (zone_cases off H) as [[-> E]|(neg & hh & mm & B1 & B2 & EO & E)].
  - rewrite E. rewrite last_bytes_app by (rewrite slen_app; cbn [String.length]; lia).
    unfold last_bytes. rewrite slen_app. cbn [String.length]. replace (String.length (clock_text abs ns) + 1 - 6)%nat with (String.length (clock_text abs ns) - 5)%nat by lia.
    revert C L. generalize (clock_text abs ns). intros s C L.
    destruct s as [|c0 s]; [cbn in L; lia|].
    assert (exists i, String.length (String c0 s) - 5 = i /\ (i < String.length (String c0 s)))%nat as (i & -> & Hi) by (eexists; split; [reflexivity|cbn [String.length] in *; lia]).
    assert (exists c r, substring i 6 (String c0 s ++ "Z") = String c r /\ clockish c = true) as (c & r & -> & K).
    { clear L. revert i Hi C. generalize (String c0 s). intros u. induction u as [|c u IH]; intros i Hi C; [cbn in Hi; lia|].
      cbn [str_all] in C. apply andb_true_iff in C. destruct C as [C1 C2]. destruct i as [|i].
      - eexists _, _. split; [cbn; reflexivity|assumption].
      - cbn [append substring]. apply IH; [cbn [String.length] in Hi; lia|assumption]. }
    cbn [get_zone]. destruct (Ascii.eqb_spec c "Z") as [->|_]; [discriminate K|].
    destruct (Ascii.eqb_spec c "+") as [->|_]; [discriminate K|]. destruct (Ascii.eqb_spec c "-") as [->|_]; [discriminate K|]. reflexivity.
  - rewrite <- sapp_assoc, last_bytes_app by (rewrite E; cbn; lia).
    assert (last_bytes 6 (zone_text off) = zone_text off) as -> by (rewrite E; unfold last_bytes, two; reflexivity).
    now rewrite get_zone_text.
Qed.

(** A time of a year from 0 to 9999 with a zone of whole minutes survives. *)
Theorem time_back off t : zone_ok off -> year_ok off t -> exists raw, json_time off t = Some raw /\ read_time raw = Some (off, t).
Proof.
  intros Hz H. pose proof (json_time_some off t H) as K. cbv zeta in K. destruct K as (y & m & d & By & Bm & Bd & Bd' & E & J).
  eexists. split; [exact J|].
  pose proof (Z.mod_pos_bound t 1000000000 ltac:(lia)) as Bn.
  destruct (parse_time y m d _ _ off By Bm Bd Bd' Bn Hz E) as (f & P & En).
  unfold read_time. rewrite P, En. rewrite <- (sapp_assoc (date_text y m d) "T"). rewrite zone_of_time by assumption.
  f_equal. f_equal. unfold local_seconds. pose proof (Z.div_mod t 1000000000 ltac:(lia)). lia.
Qed.

(** The text needs no escape. *)
Definition plain_byte (c : ascii) : bool := negb (Ascii.eqb c quote) && negb (Ascii.eqb c backslash) && (32 <=? code c)%N && (code c <? 128)%N.
Lemma plain_text s : str_all plain_byte s = true -> forall r, scan_str (s ++ String quote r) = Some (s, r).
Proof.
  intros H r. induction s as [|c s IH]; [reflexivity|]. cbn [str_all] in H. apply andb_true_iff in H. destruct H as [P H].
  unfold plain_byte in P. repeat (apply andb_true_iff in P; destruct P as [P ?]).
  cbn [append scan_str]. rewrite (proj1 (negb_true_iff _) P), (proj1 (negb_true_iff _) H2).
  destruct (N.ltb_spec (code c) 32) as [L|L]; [apply N.leb_le in H1; lia|]. rewrite IH by assumption. reflexivity.
Qed.
Lemma digit_plain c : is_digit c = true -> plain_byte c = true.
Proof. destruct c as [[] [] [] [] [] [] [] []]; vm_compute; congruence. Qed.
Lemma clockish_plain c : clockish c = true -> plain_byte c = true.
Proof. destruct c as [[] [] [] [] [] [] [] []]; vm_compute; congruence. Qed.
Lemma two_plain z : 0 <= z <= 99 -> str_all plain_byte (two z) = true.
Proof. intros H. apply (str_all_impl clockish); [apply clockish_plain|now apply two_clockish]. Qed.
Lemma zone_plain off : zone_ok off -> str_all plain_byte (zone_text off) = true.
Proof.
  intros H. destruct (zone_cases off H) as [[-> E]|(neg & hh & mm & B1 & B2 & EO & E)]; rewrite E; [reflexivity|].
  cbn [str_all]. rewrite str_all_app. cbn [str_all]. rewrite !two_plain by lia. destruct neg; reflexivity.
Qed.
Theorem time_plain off t raw : zone_ok off -> year_ok off t -> json_time off t = Some raw -> str_all plain_byte raw = true.
Proof.
  intros Hz H J. pose proof (json_time_some off t H) as K. cbv zeta in K. destruct K as (y & m & d & By & Bm & Bd & Bd' & E & J').
  assert (raw = (date_text y m d ++ "T" ++ clock_text (local_seconds off t - absolute_to_unix) (t mod 1000000000) ++ zone_text off)%string) as -> by congruence.
  unfold date_text. rewrite !str_all_app. rewrite !two_plain by (Z.to_euclidean_division_equations; lia). rewrite zone_plain by assumption.
  rewrite (str_all_impl clockish plain_byte _ clockish_plain (proj1 (clock_text_ok _ _))). reflexivity.
Qed.
