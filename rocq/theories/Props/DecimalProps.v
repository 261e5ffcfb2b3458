(** Property C91: numbers written in decimal, as in candle files, are read as
    the nearest machine numbers.
    Model: Go/Text.v, Model/CandleFile.v; vocabulary: Spec/DecimalSpec.v. *)
From Coq Require Import ZArith NArith Lia Lra Reals List String Ascii.
From Flocq Require Import Core BinarySingleNaN.
From Verif Require Import Go.Outcome Go.Float64 Go.Text Model.Candle Model.CandleFile Spec.FileSpec Spec.DecimalSpec
  Proofs.Decimal Proofs.DecimalFile.
Import ListNotations.
Open Scope string_scope.
Open Scope list_scope.
Open Scope Z_scope.

Theorem C91_read : forall t neg r, short t -> decimal t neg r -> in_range r -> exists x, parse_float t = inl x /\ is_nearest x neg r.
Proof. exact decimal_in_range. Qed.
Theorem C91_too_large : forall t neg r, short t -> decimal t neg r -> ~ in_range r -> parse_float t = inr PRange.
Proof. exact decimal_too_large. Qed.
(** What the nearest number is: none is closer, and the error is half a unit in
    the last of 53 binary digits. *)
Theorem C91_closest : forall x neg r, is_nearest x neg r -> forall y : f64, is_finite y = true -> (Rabs (B2R x - r) <= Rabs (B2R y - r))%R.
Proof. exact nearest_closest. Qed.
Theorem C91_error : forall x neg r, is_nearest x neg r -> (Rabs (B2R x - r) <= powerRZ 2 (-53) * Rabs r + powerRZ 2 (-1075))%R.
Proof. exact nearest_error. Qed.
Theorem C91_in_range : forall r, (Rabs r <= powerRZ 2 1023)%R -> in_range r.
Proof. exact in_range_small. Qed.
(** The notation does not matter, and order is kept. *)
Theorem C91_same_number : forall t t' neg r, short t -> short t' -> decimal t neg r -> decimal t' neg r -> parse_float t = parse_float t'.
Proof. exact decimal_same. Qed.
Theorem C91_order : forall t t' neg neg' r r' x x', short t -> short t' -> decimal t neg r -> decimal t' neg' r' -> (r <= r')%R ->
  parse_float t = inl x -> parse_float t' = inl x' -> (B2R x <= B2R x')%R.
Proof. exact decimal_order. Qed.
(** Whole numbers are read exactly or refused. *)
Theorem C91_integer : forall bits t z, 0 < bits -> integer t z ->
  parse_int bits t = if (- 2 ^ (bits - 1) <=? z) && (z <? 2 ^ (bits - 1)) then inl z else inr PRange.
Proof. exact integer_read. Qed.
(** A file with such numbers. *)
Theorem C91_file : forall d path ls ps,
  d path = Some (text_of ls "") ->
  Forall2 (fun l p => candle_text l (fst p) (snd p) /\ - 2 ^ 31 <= fst p < 2 ^ 31 /\ scannable l) ls ps ->
  exists cs, load_candles None None d path = Ret (cs, None) /\ Forall2 (fun c p => nearest_candle c (fst p) (snd p)) cs ps.
Proof. exact file_read. Qed.
(** Without the bound on the length: the number 1 written with 100000 digits
    after the point and the exponent 100000 is read as 0. *)
Theorem C91_any_length_refuted : exists t x, decimal t false 1 /\ parse_float t = inl x /\ B2R x = 0%R.
Proof.
  assert (Z.of_nat (Z.to_nat 99999) = 99999) as E by (apply Z2Nat.id; lia). revert E. generalize (Z.to_nat 99999). intros k E.
  destruct (long_one_read k E) as (x & P & V). exists (long_one k), x. split; [exact (long_one_value k E)|]. split; assumption.
Qed.

Ltac dig := match goal with
  | |- digits ?s ?z => let s' := eval cbv in s in
      let rec go s acc n := match s with
        | EmptyString => exact acc
        | String ?c ?r => let n' := eval cbv in (10 * n + (byte c - 48)) in
            go r (digits_more _ n c acc (conj (proj1 (Z.leb_le 48 (byte c)) eq_refl) (proj1 (Z.leb_le (byte c) 57) eq_refl))) n'
        end in go s' digits_none 0
  end.
Example C91_example : decimal "1.50" false (3 / 2) /\ decimal "+15E-1" false (3 / 2) /\ short "1.50" /\ short "+15E-1" /\ in_range (3 / 2) /\
  parse_float "1.50" = parse_float "+15E-1" /\ exists x, parse_float "+15E-1" = inl x /\ is_nearest x false (3 / 2).
Proof.
  assert (decimal "1.50" false (3 / 2)) as D1.
  { exists "", "1", 1, ".50", 50, 2, "", 0. split; [reflexivity|]. split; [constructor|]. split; [dig|].
    split; [refine (fraction_some "50" 50 _); dig|]. split; [constructor|]. split; [left; discriminate|].
    cbn [signed_R]. simpl. lra. }
  assert (decimal "+15E-1" false (3 / 2)) as D2.
  { exists "+", "15", 15, "", 0, 0, "E-1", (-1). split; [reflexivity|]. split; [constructor|]. split; [dig|].
    split; [constructor|]. split; [refine (exponent_some "E" "-" true "1" 1 _ sign_minus _ _); [auto|dig|discriminate]|].
    split; [left; discriminate|]. cbn [signed_R]. simpl. lra. }
  assert (in_range (3 / 2)) as R.
  { apply C91_in_range. rewrite Rabs_pos_eq by lra. change (3 / 2 <= 2 ^ 1023)%R.
    apply Rle_trans with (2 ^ 1)%R; [simpl; lra|]. apply Rle_pow; [lra|apply Nat.leb_le; vm_compute; reflexivity]. }
  assert (short "1.50" /\ short "+15E-1") as [S1 S2] by (split; vm_compute; reflexivity).
  split; [exact D1|]. split; [exact D2|]. split; [exact S1|]. split; [exact S2|]. split; [exact R|].
  split; [exact (C91_same_number _ _ _ _ S1 S2 D1 D2)|exact (C91_read _ _ _ S2 D2 R)].
Qed.
(** A line no saved file contains. *)
Example C91_example_line : candle_text "{+0060 1.50 +15E-1 1 1 1}" 60 [(false, 3 / 2); (false, 3 / 2); (false, 1); (false, 1); (false, 1)]%R.
Proof.
  exists "+0060", ["1.50"; "+15E-1"; "1"; "1"; "1"]. split; [reflexivity|]. split; [|split; [|reflexivity]].
  - exists "+", false, "0060", 60. split; [reflexivity|]. split; [constructor|]. split; [dig|]. split; [discriminate|reflexivity].
  - destruct C91_example as (D1 & D2 & S1 & S2 & R & _).
    assert (written "1" (false, 1%R)) as W.
    { split; [|split; [vm_compute; reflexivity|]].
      - exists "", "1", 1, "", 0, 0, "", 0. split; [reflexivity|]. split; [constructor|]. split; [dig|]. split; [constructor|]. split; [constructor|].
        split; [left; discriminate|]. simpl. lra.
      - cbn [snd]. apply C91_in_range. rewrite Rabs_pos_eq by lra. change (1 <= 2 ^ 1023)%R. apply pow_R1_Rle. lra. }
    apply Forall2_cons; [exact (conj D1 (conj S1 R))|]. apply Forall2_cons; [exact (conj D2 (conj S2 R))|].
    apply Forall2_cons; [exact W|]. apply Forall2_cons; [exact W|]. apply Forall2_cons; [exact W|]. apply Forall2_nil.
Qed.

Print Assumptions C91_read.
Print Assumptions C91_too_large.
Print Assumptions C91_closest.
Print Assumptions C91_error.
Print Assumptions C91_in_range.
Print Assumptions C91_same_number.
Print Assumptions C91_order.
Print Assumptions C91_integer.
Print Assumptions C91_file.
Print Assumptions C91_any_length_refuted.
