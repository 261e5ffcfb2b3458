(** Property C115: which texts candle files may hold and what they mean
    (market/candle_load.go, strconv.ParseFloat, strconv.ParseInt).
    Model: Model/CandleFile.v, Go/Text.v; vocabulary: Spec/NumberSpec.v. *)
From Coq Require Import ZArith NArith Lia Lra Reals List String Ascii.
From Flocq Require Import Core BinarySingleNaN.
From Verif Require Import Go.Outcome Go.Int64 Go.Slice Go.Float64 Go.FloatReal Go.FloatError Go.Text Model.Candle Model.CandleFile
  Spec.FileSpec Spec.DecimalSpec Spec.JsonReadSpec Spec.NumberSpec Proofs.Decimal Proofs.Number Props.FileProps.
Import ListNotations.
Open Scope string_scope.
Open Scope list_scope.
Open Scope Z_scope.

(** ParseFloat finds a text well formed exactly if it names a special value or
    writes a number. *)
Theorem C115_accepts : forall t, parse_float t <> inr PSyntax <-> (exists x, special t x) \/ exists neg r, number t neg r.
Proof. exact accepted. Qed.
(** Its value: the special one, or the machine number nearest to the exact one. *)
Theorem C115_value : forall t x, brief t -> (parse_float t = inl x <-> special t x \/ exists neg r, number t neg r /\ in_range r /\ is_nearest x neg r).
Proof. exact read_value. Qed.
Theorem C115_too_large : forall t, brief t -> (parse_float t = inr PRange <-> exists neg r, number t neg r /\ ~ in_range r).
Proof. exact read_too_large. Qed.
(** Decimal numbers may be longer. *)
Theorem C115_decimal : forall t neg r, short t -> decimal_number t neg r ->
  (in_range r -> exists x, parse_float t = inl x /\ is_nearest x neg r) /\ (~ in_range r -> parse_float t = inr PRange).
Proof. exact long_decimal. Qed.
(** No text is both. *)
Theorem C115_apart : forall t x neg r, special t x -> ~ number t neg r.
Proof. intros t x neg r S N. apply special_iff in S. apply numbers_taken in N as [N _]. congruence. Qed.
(** What can be represented is read exactly. *)
Theorem C115_exact : forall t neg r y, brief t -> number t neg r -> is_finite (y : f64) = true -> B2R y = r ->
  exists x, parse_float t = inl x /\ B2R x = r /\ Bsign x = neg.
Proof.
  intros t neg r y L H F <-.
  assert (nearest (B2R y) = B2R y) as E.
  { unfold nearest. apply round_generic; [apply valid_rnd_N|]. apply (generic_format_B2R 53 1024 y). }
  assert (in_range (B2R y)) as I by (unfold in_range; rewrite E, two1024; now apply B2R_lt_big).
  destruct (number_read t neg _ L H) as (x & P & N & Sg & V). destruct (read_in_range t neg _ x P N Sg V) as [G _]. destruct (G I) as [R (_ & _ & V')].
  exists x. rewrite V', E. auto.
Qed.
Theorem C115_whole : forall w z, parse_int 32 w = inl z <-> whole32 w z.
Proof. exact whole_iff. Qed.
(** A line of a candle file. *)
Theorem C115_line_reads : forall t c, brief t -> (load_line t = Ret (inl c) <-> line_means t c).
Proof. intros t c B. rewrite C35_line_reads. now apply line_means_iff. Qed.
Theorem C115_line_bad : forall t, brief t -> ((exists e, load_line t = Ret (inr e)) <-> line_bad t).
Proof. intros t B. rewrite C35_line_rejected. now apply line_bad_iff. Qed.
Theorem C115_line_short : forall t, brief t -> ((exists p, load_line t = Panic p) <-> line_short t).
Proof. intros t B. rewrite C35_line_crashes. now apply line_short_iff. Qed.
(** A file of such lines. *)
Theorem C115_file : forall d path content, d path = Some content ->
  exists lines tail, content = text_of lines tail /\ Forall (without newline) lines /\ without newline tail /\
  (Forall brief lines -> brief tail ->
   exists good cs rest,
    lines ++ (if String.eqb tail "" then [] else [tail]) = good ++ rest /\
    Forall2 (fun l c => exists t, shorn l t /\ line_means t c) good cs /\
    let result := load_candles None None d path in
    (rest = [] /\ result = Ret (cs, None) \/
     exists l more t, rest = l :: more /\ shorn l t /\
      (line_bad t /\ (exists e, result = Ret ([], Some e)) \/ line_short t /\ (exists p, result = Panic p)))).
Proof.
  intros d path content H. destruct (C35_every_file d path content H) as (lines & tail & E & F & W & good & cs & rest & L & G & R).
  exists lines, tail. split; [exact E|]. split; [exact F|]. split; [exact W|]. intros Bl Bt.
  assert (forall l, In l (good ++ rest) -> brief l /\ brief (drop_cr l) /\ scannable l) as B.
  { intros l I. rewrite <- L in I. assert (brief l) as Bl'.
    { apply in_app_or in I as [I|I]; [rewrite Forall_forall in Bl; now apply Bl|]. destruct (String.eqb tail ""); [destruct I|]. destruct I as [<-|[]]. exact Bt. }
    split; [exact Bl'|]. split; [|unfold brief, scannable in *; lia].
    assert (forall s, (String.length (drop_cr s) <= String.length s)%nat) as K.
    { clear. induction s as [|c s IH]; [apply le_n|]. destruct s as [|c' s]; [cbn [drop_cr]; destruct (Ascii.eqb c cr); cbn [String.length]; lia|].
      change (drop_cr (String c (String c' s))) with (String c (drop_cr (String c' s))). cbn [String.length] in *. lia. }
    unfold brief in *. specialize (K l). lia. }
  exists good, cs, rest. split; [exact L|]. split.
  - clear R L. assert (forall l, In l good -> brief (drop_cr l)) as Bg by (intros l I; apply (B l); apply in_or_app; auto). clear B.
    induction G as [|l c good cs [_ Hl] _ IH]; [constructor|]. constructor.
    + exists (drop_cr l). split; [now apply drop_cr_shorn|]. apply line_means_iff; [apply Bg; left; reflexivity|exact Hl].
    + apply IH. intros l' I. apply Bg. now right.
  - destruct R as [R|(l & more & -> & R)]; [left; exact R|right]. destruct (B l) as (Bl' & Bd & Sc); [apply in_or_app; right; left; reflexivity|].
    exists l, more, (drop_cr l). split; [reflexivity|]. split; [now apply drop_cr_shorn|].
    destruct R as [[N _]|[(_ & R & X)|(_ & R & X)]]; [contradiction| |].
    + left. split; [now apply line_bad_iff|exact X].
    + right. split; [now apply line_short_iff|exact X].
Qed.

Definition reads_int (t : string) (z : Z) : bool := match parse_float t with inl x => f64_eq x (i2f z) | inr _ => false end.
Definition syntax (t : string) : bool := match parse_float t with inr PSyntax => true | _ => false end.
Example C115_examples :
  forallb (fun p => reads_int (fst p) (snd p))
    [("1_000", 1000); ("0x1.8p1", 3); ("-0X_fFp0", -255); ("0x.8p+1_0", 512); ("12.5_0e1", 125); ("+007.", 7)] = true /\
  forallb syntax ["1__0"; "_1"; "1_"; "1_.5"; "0x1"; "0x.p0"; "0b1"; "+nan"; "in_f"; "0_x1p0"; "1e"; "."; ""; "1 "; "1e5.0"] = true /\
  special "iNf" (B754_infinity false) /\ special "-Infinity" (B754_infinity true) /\ special "NaN" B754_nan.
Proof.
  split; [vm_compute; reflexivity|]. split; [vm_compute; reflexivity|].
  split; [apply (special_inf "" "iNf" false); [constructor|left; reflexivity]|].
  split; [apply (special_inf "-" "Infinity" true); [constructor|right; left; reflexivity]|]. now constructor.
Qed.
Lemma digit_digits p n c k : digits p n -> byte c - 48 = k -> 0 <= k <= 9 -> digits (p ++ String c "")%string (10 * n + k).
Proof. intros H <- K. apply digits_more; [exact H|lia]. Qed.
(** 1_0 is ten; 0xA.8p-1 is five and a quarter. *)
Example C115_example_numbers : number "1_0" false 10 /\ brief "1_0" /\ in_range 10 /\ number "0xA.8p-1" false (21 / 4).
Proof.
  split; [|split; [unfold brief; cbn; lia|split; [apply in_range_small; rewrite Rabs_pos_eq by lra|]]].
  - left. split.
    + apply us_false. vm_compute. reflexivity.
    + exists "", "10", 10, "", 0, 0, "", 0. split; [reflexivity|]. split; [constructor|].
      split; [exact (digit_digits "1" 1 "0" 0 (digit_digits "" 0 "1" 1 digits_none eq_refl ltac:(lia)) eq_refl ltac:(lia))|].
      split; [constructor|]. split; [constructor|]. split; [left; discriminate|]. cbn [signed_R powerRZ]. lra.
  - change (powerRZ 2 1023) with (powerRZ 2 (4 + 1019)). rewrite powerRZ_add by lra.
    assert (1 <= powerRZ 2 1019)%R as P. { change 2%R with (IZR (radix_val radix2)). rewrite <- bpow_powerRZ. apply (bpow_le radix2 0 1019). lia. }
    simpl (powerRZ 2 4). lra.
  - right. exists "", "x"%char, "A.8p-1", (21 / 4)%R. split; [reflexivity|]. split; [constructor|]. split; [left; reflexivity|].
    split; [apply us_true; vm_compute; reflexivity|]. split; [|reflexivity].
    exists "A", 10, ".8", 8, 1, "p-1", (-1). split; [reflexivity|].
    split; [exact (hex_more "" 0 "A" 10 hex_none (hex_capital "A" ltac:(vm_compute; intuition discriminate)))|].
    split; [exact (hex_fraction_some "8" 8 (hex_more "" 0 "8" 8 hex_none (hex_decimal "8" ltac:(vm_compute; intuition discriminate))))|].
    split; [exact (power_intro "p" "-" true "1" 1 (or_introl eq_refl) sign_minus (digit_digits "" 0 "1" 1 digits_none eq_refl ltac:(lia)) ltac:(discriminate))|].
    split; [left; discriminate|]. simpl. lra.
Qed.

Print Assumptions C115_accepts.
Print Assumptions C115_value.
Print Assumptions C115_too_large.
Print Assumptions C115_decimal.
Print Assumptions C115_apart.
Print Assumptions C115_exact.
Print Assumptions C115_whole.
Print Assumptions C115_line_reads.
Print Assumptions C115_line_bad.
Print Assumptions C115_line_short.
Print Assumptions C115_file.
