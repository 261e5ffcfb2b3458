(** The text of a machine number is the shortest decimal for it (C112). *)
From Coq Require Import ZArith NArith Lia Lra Bool Reals List String Ascii.
From Flocq Require Import Core BinarySingleNaN.
From Verif Require Import Go.Outcome Go.Int64 Go.Float64 Go.FloatReal Go.Text Go.Num Go.Json
  Spec.DecimalSpec Spec.ShortestSpec Proofs.Shortest Proofs.ShortestText.
Open Scope string_scope.
Open Scope Z_scope.

Lemma finite_parts (x : f64) : is_finite x = true -> B2R x <> 0%R ->
  exists s m e B, x = B754_finite s m e B /\ Rabs (B2R x) = (IZR (Zpos m) * bpow radix2 e)%R /\ minus x = if s then "-" else "".
Proof.
  destruct x as [s|s| |s m e B]; try discriminate; [intros _ K; now destruct K|]. intros _ _. exists s, m, e, B. split; [reflexivity|].
  assert (0 < IZR (Zpos m) * bpow radix2 e)%R as P by (apply Rmult_lt_0_compat; [now apply IZR_lt|apply bpow_gt_0]).
  unfold minus, B2R, F2R. cbn [Defs.Fnum Defs.Fexp]. destruct s; cbn [cond_Zopp].
  - change (Z.neg m) with (- Z.pos m)%Z. rewrite opp_IZR. split; [rewrite Ropp_mult_distr_l_reverse, Rabs_Ropp, Rabs_pos_eq; lra|].
    destruct (Rlt_dec _ _) as [_|K]; [reflexivity|lra].
  - split; [rewrite Rabs_pos_eq; lra|]. destruct (Rlt_dec _ _) as [K|_]; [lra|reflexivity].
Qed.

(** The text for %v is exactly the tidy text of the shortest decimal. *)
Theorem C112_v : forall (x : f64) t, is_finite x = true -> B2R x <> 0%R ->
  (fmt_v x = t <-> exists k r body, t = minus x ++ body /\ shortest_for (Rabs (B2R x)) k r /\ v_text body r).
Proof.
  intros x t F N0. destruct (finite_parts x F N0) as (s & m & e & B & E & V & S). rewrite V, S.
  destruct (v_text_fmt s m e B) as (k & r & body & T & K & Sh & Tx). rewrite <- E in T. rewrite T. split.
  - intros <-. now exists k, r, body.
  - intros (k' & r' & body' & -> & Sh' & Tx'). destruct (shortest_for_unique _ _ _ _ _ Sh Sh') as [_ <-].
    now rewrite (v_text_unique _ _ _ Tx Tx').
Qed.
(** The same of the text in JSON. *)
Theorem C112_json : forall (x : f64) t, is_finite x = true -> B2R x <> 0%R ->
  (json_float x = Some t <->
   exists k r body, t = minus x ++ body /\ shortest_for (Rabs (B2R x)) k r /\ json_text (Rabs (B2R x)) body r).
Proof.
  intros x t F N0. destruct (finite_parts x F N0) as (s & m & e & B & E & V & S). rewrite V, S.
  destruct (json_text_fmt s m e B) as (k & r & body & T & K & Sh & Tx). rewrite <- E in T. rewrite T. split.
  - intros [= <-]. now exists k, r, body.
  - intros (k' & r' & body' & -> & Sh' & Tx'). destruct (shortest_for_unique _ _ _ _ _ Sh Sh') as [_ <-].
    now rewrite (json_text_unique _ _ _ _ Tx Tx').
Qed.
(** Every number has such a text, with at most 17 digits. *)
Theorem C112_digits : forall x : f64, is_finite x = true -> B2R x <> 0%R ->
  exists k r body body', 1 <= k <= 17 /\ shortest_for (Rabs (B2R x)) k r /\
    fmt_v x = minus x ++ body /\ v_text body r /\
    json_float x = Some (minus x ++ body') /\ json_text (Rabs (B2R x)) body' r.
Proof.
  intros x F N0. destruct (finite_parts x F N0) as (s & m & e & B & E & V & S). rewrite V, S.
  destruct (v_text_fmt s m e B) as (k & r & body & T & K & Sh & Tx). rewrite <- E in T.
  destruct (json_text_fmt s m e B) as (k' & r' & body' & T' & K' & Sh' & Tx'). rewrite <- E in T'.
  destruct (shortest_for_unique _ _ _ _ _ Sh Sh') as [_ <-]. now exists k, r, body, body'.
Qed.
(** There is one shortest decimal for a number, and one text for it. *)
Theorem C112_one_decimal : forall v k r k' r', shortest_for v k r -> shortest_for v k' r' -> k = k' /\ r = r'.
Proof. exact shortest_for_unique. Qed.
Theorem C112_one_text : forall t t' r,
  (plain_text t r -> plain_text t' r -> t = t') /\
  (power_text tidy_two t r -> power_text tidy_two t' r -> t = t') /\
  (power_text tidy_front t r -> power_text tidy_front t' r -> t = t').
Proof.
  intros t t' r. split; [apply plain_unique|]. split; [apply power_unique, two_unique|apply power_unique, front_unique].
Qed.
(** The other numbers. *)
Theorem C112_special :
  (forall x : f64, is_finite x = true -> B2R x = 0%R ->
     fmt_v x = (if Bsign x then "-" else "") ++ "0" /\ json_float x = Some ((if Bsign x then "-" else "") ++ "0")) /\
  fmt_v (B754_infinity false) = "+Inf" /\ fmt_v (B754_infinity true) = "-Inf" /\ fmt_v B754_nan = "NaN" /\
  forall x : f64, is_finite x = false -> json_float x = None.
Proof.
  split.
  - intros x F Z0. destruct x as [s|s| |s m e B]; try discriminate; [destruct s; split; reflexivity|exfalso].
    unfold B2R, F2R in Z0. cbn [Defs.Fnum Defs.Fexp] in Z0. apply Rmult_integral in Z0. destruct Z0 as [Z0|Z0].
    + apply eq_IZR in Z0. destruct s; discriminate.
    + pose proof (bpow_gt_0 radix2 e). lra.
  - repeat (split; [reflexivity|]). intros [s|s| |s m e B]; try discriminate; reflexivity.
Qed.

Example C112_example :
  let tenth := f64_div (i2f 1) (i2f 10) in
  fmt_v tenth = "0.1" /\ fmt_v (f64_add tenth (f64_div (i2f 2) (i2f 10))) = "0.30000000000000004" /\
  fmt_v (i2f (-1000000)) = "-1e+06" /\ fmt_v (f64_div (i2f 999999) (i2f 2)) = "499999.5" /\
  fmt_v (f64_div (i2f 3) (i2f 100000)) = "3e-05" /\
  json_float (i2f (-1000000)) = Some "-1000000" /\ json_float (f64_div (i2f 3) (i2f 100000)) = Some "0.00003" /\
  json_float (f64_mul (i2f 1000000000000) (i2f 1500000000)) = Some "1.5e+21" /\
  json_float (f64_div (i2f 1) (i2f 4000000)) = Some "2.5e-7".
Proof. vm_compute. repeat split. Qed.
(** The text of a tenth, justified by the specification. *)
Example C112_example_text : v_text "0.1" (/ 10) /\ v_text "1.5e+06" 1500000.
Proof.
  assert (powerRZ 10 (-4) = / 10000)%R as P4 by (unfold powerRZ, Pos.to_nat; simpl; f_equal; lra).
  assert (powerRZ 10 6 = 1000000)%R as P6 by (unfold powerRZ, Pos.to_nat; simpl; lra).
  unfold v_text. rewrite P4, P6. split.
  - destruct (Rlt_dec (/ 10) (/ 10000)) as [K|_]; [lra|]. destruct (Rlt_dec (/ 10) 1000000) as [_|K]; [|lra].
    exists "0", 0, ".1", 1, (Z.of_nat (String.length "1")). split; [reflexivity|]. split; [exact zero_text|]. split; [now left|].
    split; [apply fraction_some; exact (digits_intro "1" eq_refl)|]. split.
    + right. exists "1". split; [reflexivity|]. apply not_trailing. discriminate.
    + simpl. lra.
  - destruct (Rlt_dec 1500000 (/ 10000)) as [K|_]; [lra|]. destruct (Rlt_dec 1500000 1000000) as [K|_]; [lra|].
    exists "1"%char, ".5", 5, (Z.of_nat (String.length "5")), false, "06", 6. split; [reflexivity|]. split; [vm_compute; split; discriminate|].
    split; [apply fraction_some; exact (digits_intro "5" eq_refl)|]. split; [right; exists "5"; split; [reflexivity|]; apply not_trailing; discriminate|].
    split; [exact (digits_intro "06" eq_refl)|]. split; [split; [cbn; lia|now left]|]. split; [discriminate|].
    unfold signed_Z. rewrite P6. change (byte "1" - 48) with 1. simpl. lra.
Qed.
