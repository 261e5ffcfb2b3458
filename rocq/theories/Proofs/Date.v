(** Proofs about utils/date.go (C66). *)
From Coq Require Import Znumtheory Lia.
From Verif Require Import Go.Outcome Go.Text Model.Date Spec.DateSpec.
Open Scope string_scope.
Open Scope Z_scope.

(** ** The calendar *)
Lemma is_leap_spec y : is_leap y = true <-> leap_year y.
Proof.
  unfold is_leap, leap_year. rewrite andb_true_iff, orb_true_iff, negb_true_iff, Z.eqb_eq, Z.eqb_neq, Z.eqb_eq.
  assert (forall n, n <> 0 -> (Z.rem y n = 0 <-> (n | y))) as H by (intros n Hn; apply Z.rem_divide; assumption).
  rewrite !H by lia. tauto.
Qed.
Lemma is_leap_false y : is_leap y = false <-> ~ leap_year y.
Proof. rewrite <- is_leap_spec. destruct (is_leap y); split; intros; congruence. Qed.

Ltac months m := let Hm := fresh in
  assert (m = 1 \/ m = 2 \/ m = 3 \/ m = 4 \/ m = 5 \/ m = 6 \/ m = 7 \/ m = 8 \/ m = 9 \/ m = 10 \/ m = 11 \/ m = 12) as Hm by lia;
  repeat (destruct Hm as [->|Hm]); [..|subst m].
Ltac calc_in e := let v := eval vm_compute in e in change e with v in *.
Ltac calc := repeat match goal with
  | |- context [days_before ?e] => calc_in (days_before e)
  | H : context [days_before ?e] |- _ => calc_in (days_before e)
  | |- context [3 <=? ?e] => calc_in (3 <=? e)
  | |- context [?e =? 2] => calc_in (e =? 2)
  | H : context [?e =? 2] |- _ => calc_in (e =? 2)
  end; cbn [andb] in *.

Lemma days_in_spec y m n : 1 <= m <= 12 -> month_length y m n <-> days_in m y = n.
Proof.
  intros H. unfold month_length. split.
  - intros [[Hm ->]|[[Hm ->]|[-> [[L ->]|[L ->]]]]].
    + cbn [In] in Hm. intuition (subst m; reflexivity).
    + cbn [In] in Hm. intuition (subst m; reflexivity).
    + unfold days_in. apply is_leap_spec in L. rewrite L. reflexivity.
    + unfold days_in. apply is_leap_false in L. rewrite L. reflexivity.
  - intros <-. unfold days_in. months m; cbn [Z.eqb Pos.eqb andb];
      try (left; split; [cbn; tauto|reflexivity]); try (right; left; split; [cbn; tauto|reflexivity]).
    right. right. split; [reflexivity|]. destruct (is_leap y) eqn:L; [left|right]; (split; [|reflexivity]).
    + now apply is_leap_spec.
    + now apply is_leap_false.
Qed.
Lemma valid_date_spec y m d : valid_date y m d <-> 0 <= y <= 9999 /\ 1 <= m <= 12 /\ 1 <= d <= days_in m y.
Proof.
  unfold valid_date. split.
  - intros (H1 & H2 & H3 & n & H4 & H5). apply days_in_spec in H4; [|assumption]. lia.
  - intros (H1 & H2 & H3). repeat (split; [lia|]). exists (days_in m y). split; [now apply days_in_spec|lia].
Qed.

(** ** Day numbers *)
Lemma days_closed y : days_since_epoch y =
  let z := y - absolute_zero_year in 365 * z + z / 4 - z / 100 + z / 400.
Proof.
  unfold days_since_epoch. cbv zeta. set (z := y - absolute_zero_year). clearbody z.
  Z.to_euclidean_division_equations. lia.
Qed.
Lemma rem_mod y n : 0 <= y -> 0 < n -> Z.rem y n = y mod n.
Proof. intros. apply Z.rem_mod_nonneg; assumption. Qed.
Lemma is_leap_mod y : 0 <= y -> is_leap y = ((y mod 4 =? 0) && (negb (y mod 100 =? 0) || (y mod 400 =? 0)))%bool.
Proof. intros H. unfold is_leap. now rewrite !rem_mod by lia. Qed.
Lemma year_step y : 0 <= y ->
  days_since_epoch (y + 1) = days_since_epoch y + (if is_leap y then 366 else 365).
Proof.
  intros H. rewrite !days_closed. cbv zeta. unfold absolute_zero_year. rewrite is_leap_mod by assumption.
  assert (forall n k, 0 < n -> n * k = 292277022400 ->
    (y + 1 - -292277022399) / n = (y - -292277022399) / n + (if y mod n =? 0 then 1 else 0)) as K.
  { intros n k Hn Hk. replace (y + 1 - -292277022399) with (y + k * n) by lia. replace (y - -292277022399) with (y - 1 + k * n) by lia.
    rewrite !Z.div_add by lia. pose proof (Z.div_mod y n ltac:(lia)) as D. pose proof (Z.mod_pos_bound y n Hn) as B.
    destruct (Z.eqb_spec (y mod n) 0) as [E|E].
    - rewrite E in D. replace (y - 1) with ((n - 1) + (y / n - 1) * n) by lia. rewrite Z.div_add by lia. rewrite (Z.div_small (n - 1)) by lia. lia.
    - replace (y - 1) with ((y mod n - 1) + (y / n) * n) at 1 by lia. rewrite Z.div_add by lia. rewrite (Z.div_small (y mod n - 1)) by lia. lia. }
  rewrite (K 4 73069255600), (K 100 2922770224), (K 400 730692556) by lia.
  assert (y mod 100 = 0 -> y mod 4 = 0) as I1 by (intros; Z.to_euclidean_division_equations; lia).
  assert (y mod 400 = 0 -> y mod 100 = 0) as I2 by (intros; Z.to_euclidean_division_equations; lia).
  destruct (Z.eqb_spec (y mod 4) 0), (Z.eqb_spec (y mod 100) 0), (Z.eqb_spec (y mod 400) 0); cbn [andb orb negb]; lia.
Qed.
Lemma year_mono y k : 0 <= y -> 0 <= k -> days_since_epoch y + 365 * k <= days_since_epoch (y + k).
Proof.
  intros Hy Hk. pattern k. apply natlike_ind; [replace (y + 0) with y by lia; lia| |assumption].
  intros x Hx IH. replace (y + Z.succ x) with ((y + x) + 1) by lia. rewrite year_step by lia.
  destruct (is_leap (y + x)); lia.
Qed.

(** Days of the year before the given date. *)
Definition year_day (y m d : Z) : Z :=
  days_before (m - 1) + (if is_leap y && (3 <=? m) then 1 else 0) + (d - 1).
Lemma date_unix_day y m d : date_unix y m d 0 0 0 = (days_since_epoch y + year_day y m d) * 86400 + absolute_to_unix.
Proof. unfold date_unix, year_day, seconds_per_day. cbv zeta. destruct (is_leap y && (3 <=? m))%bool; lia. Qed.

Lemma year_day_range y m d : 1 <= m <= 12 -> 1 <= d <= days_in m y ->
  0 <= year_day y m d < (if is_leap y then 366 else 365).
Proof.
  intros H Hd. unfold year_day. unfold days_in in Hd. revert Hd. destruct (is_leap y); intros Hd; months m; calc; lia.
Qed.
Lemma year_day_next y m d y' m' d' : 1 <= m <= 12 -> 0 <= y -> next_day y m d y' m' d' ->
  days_since_epoch y' + year_day y' m' d' = days_since_epoch y + year_day y m d + 1.
Proof.
  intros H Hy (n & L & K). apply days_in_spec in L; [|assumption]. destruct K as [(K & -> & -> & ->)|[(-> & K & -> & -> & ->)|(-> & -> & -> & -> & ->)]].
  - unfold year_day. lia.
  - unfold year_day. subst n. unfold days_in. destruct (is_leap y); months m; try lia; calc; lia.
  - rewrite year_step by assumption. subst n. unfold year_day, days_in. destruct (is_leap y), (is_leap (y + 1)); calc; lia.
Qed.
Lemma year_day_earlier y m d y' m' d' : valid_date y m d -> valid_date y' m' d' -> earlier y m d y' m' d' ->
  days_since_epoch y + year_day y m d < days_since_epoch y' + year_day y' m' d'.
Proof.
  rewrite !valid_date_spec. intros (Hy & Hm & Hd) (Hy' & Hm' & Hd') [E|[<- [E|[<- E]]]].
  - pose proof (year_day_range y m d Hm Hd) as R. pose proof (year_day_range y' m' d' Hm' Hd') as R'.
    pose proof (year_mono (y + 1) (y' - (y + 1)) ltac:(lia) ltac:(lia)) as M. rewrite year_step in M by lia.
    replace (y + 1 + (y' - (y + 1))) with y' in M by lia. destruct (is_leap y); lia.
  - unfold year_day. unfold days_in in Hd. revert Hd. destruct (is_leap y); intros Hd; months m; months m'; calc; lia.
  - unfold year_day. lia.
Qed.

(** ** The text *)
Lemma digit_ok z : 0 <= z <= 9 -> is_digit (digit z) = true /\ Z.of_N (digit_val (digit z)) = z.
Proof.
  intros H. assert (z = 0 \/ z = 1 \/ z = 2 \/ z = 3 \/ z = 4 \/ z = 5 \/ z = 6 \/ z = 7 \/ z = 8 \/ z = 9) as K by lia.
  repeat (destruct K as [->|K]; [split; reflexivity|]). subst z. split; reflexivity.
Qed.
Lemma is_digit_inv c : is_digit c = true -> 0 <= Z.of_N (digit_val c) <= 9 /\ c = digit (Z.of_N (digit_val c)).
Proof.
  intros H. unfold is_digit in H. apply andb_true_iff in H. destruct H as [H1 H2]. apply N.leb_le in H1, H2.
  unfold digit_val, digit. rewrite N2Z.id. split; [lia|].
  replace (48 + (N_of_ascii c - 48))%N with (N_of_ascii c) by lia. now rewrite ascii_N_embedding.
Qed.
Lemma getnum_two z r : 0 <= z <= 99 -> getnum (two z ++ r) true = Some (z, r).
Proof.
  intros H. unfold two. cbn [append getnum].
  assert (0 <= z / 10 <= 9) as H1 by (split; [apply Z.div_pos; lia|apply Z.lt_succ_r, Z.div_lt_upper_bound; lia]).
  pose proof (Z.mod_pos_bound z 10 ltac:(lia)) as H2.
  destruct (digit_ok (z / 10) H1) as [-> ->]. destruct (digit_ok (z mod 10) ltac:(lia)) as [-> ->].
  do 2 f_equal. pose proof (Z.div_mod z 10). lia.
Qed.
Lemma getnum_inv s z r : getnum s true = Some (z, r) -> 0 <= z <= 99 /\ s = two z ++ r.
Proof.
  intros H. destruct s as [|c [|c' s]]; cbn [getnum] in H; [discriminate|destruct (is_digit c); discriminate|].
  destruct (is_digit c) eqn:D; [|discriminate]. destruct (is_digit c') eqn:D'; [|discriminate]. injection H as <- <-.
  apply is_digit_inv in D, D'. destruct D as [R E], D' as [R' E']. split; [lia|]. unfold two. cbn [append].
  rewrite Z.div_add_l, Z.div_small, Z.add_0_r by lia.
  rewrite Z.add_comm, Z.mod_add, Z.mod_small by lia. now rewrite <- E, <- E'.
Qed.
Lemma lit_inv c s r : lit c s = Some r -> s = String c r.
Proof. destruct s as [|c' s]; cbn [lit]; [discriminate|]. destruct (Ascii.eqb_spec c c'); [|discriminate]. congruence. Qed.
Lemma get_year_text y r : 0 <= y <= 9999 -> get_year (two (y / 100) ++ two (y mod 100) ++ r) = Some (y, r).
Proof.
  intros H. unfold two. cbn [append get_year].
  assert (0 <= y / 100 <= 99) as H1 by (split; [apply Z.div_pos; lia|apply Z.lt_succ_r, Z.div_lt_upper_bound; lia]).
  pose proof (Z.mod_pos_bound y 100 ltac:(lia)) as H2.
  set (p := y / 100) in *. set (q := y mod 100) in *.
  assert (y = 100 * p + q) as E by (apply Z.div_mod; lia).
  assert (forall z, 0 <= z <= 99 -> 0 <= z / 10 <= 9 /\ 0 <= z mod 10 <= 9 /\ z = 10 * (z / 10) + z mod 10) as K.
  { intros z Hz. Z.to_euclidean_division_equations. lia. }
  destruct (K p H1) as (A1 & A2 & A3). destruct (K q ltac:(lia)) as (B1 & B2 & B3).
  destruct (digit_ok _ A1) as [-> V1]. destruct (digit_ok _ A2) as [-> V2]. destruct (digit_ok _ B1) as [-> V3]. destruct (digit_ok _ B2) as [-> V4].
  cbn [andb digits_val]. do 2 f_equal. lia.
Qed.
Lemma get_year_inv s y r : get_year s = Some (y, r) -> 0 <= y <= 9999 /\ s = two (y / 100) ++ two (y mod 100) ++ r.
Proof.
  intros H. destruct s as [|a [|b [|c [|d s]]]]; cbn [get_year] in H; try discriminate.
  destruct (is_digit a) eqn:Da; [|discriminate]. destruct (is_digit b) eqn:Db; [|discriminate].
  destruct (is_digit c) eqn:Dc; [|discriminate]. destruct (is_digit d) eqn:Dd; [|discriminate]. cbn [andb] in H.
  assert (Z.of_N (digits_val (String a (String b (String c (String d "")))) 0) =
    1000 * Z.of_N (digit_val a) + 100 * Z.of_N (digit_val b) + 10 * Z.of_N (digit_val c) + Z.of_N (digit_val d)) as V
    by (cbn [digits_val]; lia).
  rewrite V in H. clear V. assert (forall A B (x x' : A) (z z' : B), Some (x, z) = Some (x', z') -> x = x' /\ z = z') as Inj by (intros; split; congruence).
  apply Inj in H. destruct H as [<- <-].
  apply is_digit_inv in Da, Db, Dc, Dd. destruct Da as [Ra Ea], Db as [Rb Eb], Dc as [Rc Ec], Dd as [Rd Ed].
  set (va := Z.of_N (digit_val a)) in *. set (vb := Z.of_N (digit_val b)) in *. set (vc := Z.of_N (digit_val c)) in *. set (vd := Z.of_N (digit_val d)) in *.
  split; [lia|].
  unfold two. cbn [append].
  replace ((1000 * va + 100 * vb + 10 * vc + vd) / 100) with (10 * va + vb) by (Z.to_euclidean_division_equations; lia).
  replace ((1000 * va + 100 * vb + 10 * vc + vd) mod 100) with (10 * vc + vd) by (Z.to_euclidean_division_equations; lia).
  replace ((10 * va + vb) / 10) with va by (Z.to_euclidean_division_equations; lia).
  replace ((10 * va + vb) mod 10) with vb by (Z.to_euclidean_division_equations; lia).
  replace ((10 * vc + vd) / 10) with vc by (Z.to_euclidean_division_equations; lia).
  replace ((10 * vc + vd) mod 10) with vd by (Z.to_euclidean_division_equations; lia).
  now rewrite <- Ea, <- Eb, <- Ec, <- Ed.
Qed.

(** The time of day and zone contain no letter T. *)
Fixpoint has_T (s : string) : bool :=
  match s with EmptyString => false | String c r => (Ascii.eqb c "T" || has_T r)%bool end.
Lemma has_T_app s t : has_T (s ++ t) = (has_T s || has_T t)%bool.
Proof. induction s as [|c s IH]; [reflexivity|]. cbn [append has_T]. rewrite IH. now rewrite orb_assoc. Qed.
Lemma digit_not_T c : is_digit c = true -> Ascii.eqb c "T" = false.
Proof. intros H. destruct (Ascii.eqb_spec c "T") as [->|]; [discriminate|reflexivity]. Qed.
Lemma getnum_T s f z r : getnum s f = Some (z, r) -> has_T s = has_T r.
Proof.
  intros H. destruct s as [|c s]; cbn [getnum] in H; [discriminate|]. destruct (is_digit c) eqn:D; [|discriminate].
  apply digit_not_T in D. cbn [has_T]. rewrite D. cbn [orb]. destruct s as [|c' s].
  - destruct f; [discriminate|]. injection H as _ <-. reflexivity.
  - destruct (is_digit c') eqn:D'.
    + injection H as _ <-. apply digit_not_T in D'. cbn [has_T]. now rewrite D'.
    + destruct f; [discriminate|]. injection H as _ <-. reflexivity.
Qed.
Lemma take_digits_T s : has_T s = has_T (snd (take_digits s)).
Proof.
  induction s as [|c s IH]; [reflexivity|]. cbn [take_digits]. destruct (is_digit c) eqn:D; [|reflexivity].
  destruct (take_digits s) as [d r]. cbn [snd] in *. cbn [has_T]. rewrite (digit_not_T c D). exact IH.
Qed.
Lemma skip_fraction_T s : has_T s = has_T (snd (skip_fraction s)).
Proof.
  unfold skip_fraction. destruct s as [|p [|c r]]; try reflexivity.
  destruct ((Ascii.eqb p "." || Ascii.eqb p ",") && is_digit c)%bool eqn:E; [|reflexivity].
  rewrite <- take_digits_T. apply andb_true_iff in E. destruct E as [E _]. cbn [has_T].
  replace (Ascii.eqb p "T") with false; [reflexivity|]. destruct (Ascii.eqb_spec p "T") as [->|]; [discriminate|reflexivity].
Qed.
Lemma lit_T c s r : lit c s = Some r -> Ascii.eqb c "T" = false -> has_T s = has_T r.
Proof. intros H N. apply lit_inv in H. subst s. cbn [has_T]. now rewrite N. Qed.
Lemma get_zone_T s z r : get_zone s = Some (z, r) -> has_T s = has_T r.
Proof.
  intros H. destruct s as [|c s]; cbn [get_zone] in H; [discriminate|]. cbn [has_T].
  destruct (Ascii.eqb_spec c "Z") as [->|Nz]; [injection H as _ <-; reflexivity|].
  destruct (Ascii.eqb c "+" || Ascii.eqb c "-")%bool eqn:S; [|discriminate].
  replace (Ascii.eqb c "T") with false by (destruct (Ascii.eqb_spec c "T") as [->|]; [discriminate|reflexivity]). cbn [orb].
  destruct (getnum s true) as [[hh r1]|] eqn:G1; [|discriminate]. apply getnum_T in G1. rewrite G1.
  destruct (lit ":" r1) as [r2|] eqn:L; [|discriminate]. apply lit_T in L; [|reflexivity]. rewrite L.
  destruct (getnum r2 true) as [[mm r3]|] eqn:G2; [|discriminate]. apply getnum_T in G2. rewrite G2.
  destruct (_ && _)%bool; [|discriminate]. now injection H as _ <-.
Qed.

Lemma append_split_at (a b c d : string) : (a ++ b)%string = (c ++ d)%string -> String.length a = String.length c -> a = c /\ b = d.
Proof.
  revert c. induction a as [|x a IH]; intros [|y c] E L; cbn in *; try discriminate; [auto|].
  injection E as <- E. injection L as L. destruct (IH c E L) as [-> ->]. auto.
Qed.
Lemma append_prefix (a b c d : string) : (a ++ b)%string = (c ++ d)%string -> (String.length c <= String.length a)%nat ->
  exists m, a = (c ++ m)%string /\ d = (m ++ b)%string.
Proof.
  revert a. induction c as [|y c IH]; intros a E L; [exists a; auto|]. destruct a as [|x a]; [cbn in L; lia|].
  cbn in E. injection E as <- E. cbn [String.length] in L. destruct (IH a E ltac:(lia)) as (m & -> & ->). exists m. auto.
Qed.

Definition date_text' (y m d : Z) (r : string) : string :=
  (two (y / 100) ++ two (y mod 100) ++ String "-" (two m ++ String "-" (two d ++ r)))%string.
Lemma date_text_app y m d r : (date_text y m d ++ r)%string = date_text' y m d r.
Proof. reflexivity. Qed.
Lemma date_text_length y m d : String.length (date_text y m d) = 10%nat.
Proof. reflexivity. Qed.

Definition midnight : string := "T00:00:00Z".

(** What is left after the day, when parsing succeeds. *)
Lemma parse_inv s t f : parse_rfc3339 s = Some (t, f) ->
  exists y m d rest, s = date_text' y m d (String "T" rest) /\ has_T rest = false /\
    0 <= y <= 9999 /\ 1 <= m <= 12 /\ 1 <= d <= days_in m y /\ d <= 99 /\
    (rest = "00:00:00Z" -> t = date_unix y m d 0 0 0).
Proof.
  unfold parse_rfc3339.
  destruct (get_year s) as [[y s1]|] eqn:E1; [|discriminate]. apply get_year_inv in E1. destruct E1 as [Hy ->].
  destruct (lit "-" s1) as [s2|] eqn:E2; [|discriminate]. apply lit_inv in E2. subst s1.
  destruct (getnum s2 true) as [[m s3]|] eqn:E3; [|discriminate]. apply getnum_inv in E3. destruct E3 as [Hm ->].
  destruct ((m <=? 0) || (12 <? m))%bool eqn:Em; [discriminate|]. apply orb_false_iff in Em. destruct Em as [Em1 Em2].
  apply Z.leb_gt in Em1. apply Z.ltb_ge in Em2.
  destruct (lit "-" s3) as [s4|] eqn:E4; [|discriminate]. apply lit_inv in E4. subst s3.
  destruct (getnum s4 true) as [[d s5]|] eqn:E5; [|discriminate]. apply getnum_inv in E5. destruct E5 as [Hd ->].
  destruct (lit "T" s5) as [rest|] eqn:E6; [|discriminate]. apply lit_inv in E6. subst s5.
  intros H. exists y, m, d, rest. split; [reflexivity|].
  destruct (getnum rest false) as [[hh s6]|] eqn:E7; [|discriminate]. pose proof (getnum_T _ _ _ _ E7) as T1.
  destruct (24 <=? hh); [discriminate|].
  destruct (lit ":" s6) as [s7|] eqn:E8; [|discriminate]. pose proof (lit_T _ _ _ E8 eq_refl) as T2.
  destruct (getnum s7 true) as [[mm s8]|] eqn:E9; [|discriminate]. pose proof (getnum_T _ _ _ _ E9) as T3.
  destruct (60 <=? mm); [discriminate|].
  destruct (lit ":" s8) as [s9|] eqn:E10; [|discriminate]. pose proof (lit_T _ _ _ E10 eq_refl) as T4.
  destruct (getnum s9 true) as [[ss s10]|] eqn:E11; [|discriminate]. pose proof (getnum_T _ _ _ _ E11) as T5.
  destruct (60 <=? ss); [discriminate|].
  pose proof (skip_fraction_T s10) as T6. destruct (skip_fraction s10) as [fr s11] eqn:Ef. cbn [snd] in T6.
  destruct (get_zone s11) as [[off s12]|] eqn:E12; [|discriminate]. pose proof (get_zone_T _ _ _ E12) as T7.
  destruct (String.eqb_spec s12 "") as [->|]; [|discriminate]. cbn [negb] in H.
  destruct ((d <? 1) || (days_in m y <? d))%bool eqn:Ed; [discriminate|]. apply orb_false_iff in Ed. destruct Ed as [Ed1 Ed2].
  apply Z.ltb_ge in Ed1, Ed2. split; [rewrite T1, T2, T3, T4, T5, T6, T7; reflexivity|].
  do 4 (split; [lia|]). intros ->.
  vm_compute in E7. injection E7 as <- <-. vm_compute in E8. injection E8 as <-. vm_compute in E9. injection E9 as <- <-.
  vm_compute in E10. injection E10 as <-. vm_compute in E11. injection E11 as <- <-. vm_compute in Ef. injection Ef as <- <-.
  vm_compute in E12. injection E12 as <-.
  assert (forall A B (x x' : A) (z z' : B), Some (x, z) = Some (x', z') -> x = x' /\ z = z') as Inj by (intros; split; congruence).
  apply Inj in H. destruct H as [<- _]. lia.
Qed.

Lemma raw_date_ok y m d : valid_date y m d -> raw_date_to_rfc3339 (date_text y m d) = (date_unix y m d 0 0 0, None).
Proof.
  rewrite valid_date_spec. intros (Hy & Hm & Hd). unfold raw_date_to_rfc3339. change "T00:00:00Z" with midnight. rewrite date_text_app. unfold date_text', parse_rfc3339.
  assert (d <= 31) as Hd' by (unfold days_in in Hd; revert Hd; destruct (is_leap y); intros Hd; months m; calc; lia).
  assert (forall c r, lit c (String c r) = Some r) as Lc by (intros c r; cbn [lit]; now rewrite Ascii.eqb_refl).
  rewrite get_year_text by assumption. rewrite Lc. rewrite getnum_two by lia.
  destruct (Z.leb_spec m 0); [lia|]. destruct (Z.ltb_spec 12 m); [lia|]. cbn [orb]. rewrite Lc. rewrite getnum_two by lia.
  unfold midnight. rewrite Lc.
  replace (getnum "00:00:00Z" false) with (Some (0, ":00:00Z")) by reflexivity. cbv beta iota.
  change (24 <=? 0) with false. cbv iota. rewrite Lc.
  replace (getnum "00:00Z" true) with (Some (0, ":00Z")) by reflexivity. cbv beta iota.
  change (60 <=? 0) with false. cbv iota. rewrite Lc.
  replace (getnum "00Z" true) with (Some (0, "Z")) by reflexivity. cbv beta iota.
  change (60 <=? 0) with false. cbv iota. replace (skip_fraction "Z") with ("", "Z") by reflexivity. cbv beta iota.
  replace (get_zone "Z") with (Some (0, "")) by reflexivity. cbv beta iota. change (negb (String.eqb "" "")) with false. cbv iota.
  destruct (Z.ltb_spec d 1); [lia|]. destruct (Z.ltb_spec (days_in m y) d); [lia|]. cbn [orb]. f_equal. lia.
Qed.
Lemma append_nil (s : string) : (s ++ "")%string = s.
Proof. induction s as [|c s IH]; [reflexivity|]. cbn. now rewrite IH. Qed.
Lemma raw_date_inv s t : raw_date_to_rfc3339 s = (t, None) ->
  exists y m d, valid_date y m d /\ s = date_text y m d /\ t = date_unix y m d 0 0 0.
Proof.
  unfold raw_date_to_rfc3339. destruct (parse_rfc3339 _) as [[t' f]|] eqn:E; [|discriminate]. intros H.
  assert (t' = t) as -> by congruence. clear H. apply parse_inv in E. destruct E as (y & m & d & rest & E & HT & Hy & Hm & Hd & Hd' & Ht).
  rewrite <- date_text_app in E. exists y, m, d. rewrite valid_date_spec.
  destruct (Nat.lt_trichotomy (String.length s) 10) as [L|[L|L]].
  - exfalso. symmetry in E. apply append_prefix in E; [|rewrite date_text_length; lia]. destruct E as (k & E1 & E2).
    assert (String.length (date_text y m d) = 10%nat) as L10 by reflexivity. rewrite E1 in L10.
    destruct k as [|c k]; [rewrite append_nil in L10; lia|]. cbn in E2. injection E2 as _ E2.
    apply (f_equal has_T) in E2. rewrite has_T_app in E2. cbn [has_T] in E2. change (Ascii.eqb "T" "T") with true in E2. cbn [orb] in E2.
    rewrite orb_true_r in E2. discriminate.
  - apply append_split_at in E; [|now rewrite date_text_length]. destruct E as [-> E]. injection E as <-. auto.
  - exfalso. apply append_prefix in E; [|rewrite date_text_length; lia]. destruct E as (k & -> & E).
    destruct k as [|c k].
    + rewrite append_nil in L. rewrite date_text_length in L. lia.
    + cbn [append] in E. injection E as _ E. subst rest. rewrite has_T_app in HT. cbn [has_T] in HT.
      change (Ascii.eqb "T" "T") with true in HT. cbn [orb] in HT. rewrite orb_true_r in HT. discriminate.
Qed.

(** ** Order of the texts *)
Lemma digit_compare a b : 0 <= a <= 9 -> 0 <= b <= 9 -> Ascii.compare (digit a) (digit b) = (a ?= b).
Proof.
  intros Ha Hb.
  assert (forall z, 0 <= z <= 9 -> z = 0 \/ z = 1 \/ z = 2 \/ z = 3 \/ z = 4 \/ z = 5 \/ z = 6 \/ z = 7 \/ z = 8 \/ z = 9) as K by (intros; lia).
  apply K in Ha, Hb. clear K.
  repeat (destruct Ha as [->|Ha]; [repeat (destruct Hb as [->|Hb]; [reflexivity|]); subst b; reflexivity|]).
  subst a. repeat (destruct Hb as [->|Hb]; [reflexivity|]). subst b; reflexivity.
Qed.
Lemma two_compare a b r r' : 0 <= a <= 99 -> 0 <= b <= 99 ->
  String.compare (two a ++ r) (two b ++ r') = match a ?= b with Eq => String.compare r r' | c => c end.
Proof.
  intros Ha Hb. assert (forall z, 0 <= z <= 99 -> 0 <= z / 10 <= 9 /\ 0 <= z mod 10 <= 9 /\ z = 10 * (z / 10) + z mod 10) as K.
  { intros z Hz. Z.to_euclidean_division_equations. lia. }
  destruct (K a Ha) as (A1 & A2 & A3). destruct (K b Hb) as (B1 & B2 & B3). unfold two. cbn [append String.compare].
  rewrite !digit_compare by assumption. set (p := a / 10) in *. set (q := a mod 10) in *. set (p' := b / 10) in *. set (q' := b mod 10) in *.
  clearbody p q p' q'. subst a b.
  destruct (Z.compare_spec p p'), (Z.compare_spec q q'), (Z.compare_spec (10 * p + q) (10 * p' + q')); try reflexivity; lia.
Qed.
Lemma text_compare y m d y' m' d' : valid_date y m d -> valid_date y' m' d' ->
  String.compare (date_text y m d) (date_text y' m' d') = Lt <-> earlier y m d y' m' d'.
Proof.
  rewrite !valid_date_spec. intros (Hy & Hm & Hd) (Hy' & Hm' & Hd').
  assert (forall m y d, 1 <= m <= 12 -> d <= days_in m y -> d <= 31) as K.
  { clear. intros m y d H Hd. unfold days_in in Hd. revert Hd. destruct (is_leap y); intros Hd; months m; calc; lia. }
  pose proof (K m y d Hm ltac:(lia)) as Dd. pose proof (K m' y' d' Hm' ltac:(lia)) as Dd'. clear K.
  assert (forall z, 0 <= z <= 9999 -> 0 <= z / 100 <= 99 /\ 0 <= z mod 100 <= 99 /\ z = 100 * (z / 100) + z mod 100) as K.
  { intros z Hz. Z.to_euclidean_division_equations. lia. }
  destruct (K y Hy) as (A1 & A2 & A3). destruct (K y' Hy') as (B1 & B2 & B3). unfold date_text.
  rewrite two_compare by assumption. rewrite two_compare by assumption. cbn [append String.compare].
  change (Ascii.compare "-" "-") with Eq. cbv iota. rewrite two_compare by lia. cbn [append String.compare].
  change (Ascii.compare "-" "-") with Eq. cbv iota. rewrite <- (append_nil (two d)), <- (append_nil (two d')).
  rewrite two_compare by lia. cbn [String.compare]. unfold earlier.
  destruct (Z.compare_spec (y / 100) (y' / 100)), (Z.compare_spec (y mod 100) (y' mod 100)), (Z.compare_spec m m'), (Z.compare_spec d d');
    (split; intros Q; [try discriminate; lia|try reflexivity; lia]).
Qed.
