(** Candle files written by hand or by other programs (C91). *)
From Coq Require Import ZArith NArith Lia Bool Reals List String Ascii.
From Flocq Require Import Core BinarySingleNaN.
From Verif Require Import Go.Outcome Go.Int64 Go.Slice Go.Float64 Go.Text Model.Candle Model.CandleFile
  Spec.FileSpec Spec.DecimalSpec Proofs.Lists Proofs.Lex Proofs.FileText Proofs.CandleFile Proofs.FileParts Proofs.Decimal.
Open Scope string_scope.
Open Scope list_scope.
Open Scope Z_scope.

Lemma digits_chars d n : digits d n -> str_all num_char d = true.
Proof.
  intros H. destruct (digits_model d n H) as [D _]. rewrite all_digits_str in D.
  apply (str_all_impl is_digit); [|assumption]. intros x Hx. unfold num_char. now rewrite Hx.
Qed.
Lemma decimal_chars t neg r : decimal t neg r -> str_all num_char t = true.
Proof.
  intros (sg & ip & n & fr & m & k & ex & e & -> & Hs & Hi & Hf & He & _). rewrite !str_all_app.
  rewrite (digits_chars _ _ Hi), (exponent_chars _ _ He).
  assert (str_all num_char fr = true) as ->. { destruct Hf as [|f m Hf]; [reflexivity|]. cbn [str_all]. now rewrite (digits_chars _ _ Hf). }
  destruct Hs; reflexivity.
Qed.
Lemma integer_chars t z : integer t z -> str_all num_char t = true.
Proof. intros (sg & neg & d & n & -> & Hs & Hd & _). rewrite str_all_app, (digits_chars _ _ Hd). destruct Hs; reflexivity. Qed.

Theorem line_read l z ps : candle_text l z ps -> - 2 ^ 31 <= z < 2 ^ 31 ->
  exists c, reads l c /\ nearest_candle c z ps /\ without newline l /\ without cr l.
Proof.
  intros (w & ws & -> & Hw & Hws & L) Hz.
  destruct ps as [|p1 [|p2 [|p3 [|p4 [|p5 [|]]]]]]; try discriminate L.
  inversion Hws as [|w1 ? ws1 ? H1 F1]; subst. inversion F1 as [|w2 ? ws2 ? H2 F2]; subst. inversion F2 as [|w3 ? ws3 ? H3 F3]; subst.
  inversion F3 as [|w4 ? ws4 ? H4 F4]; subst. inversion F4 as [|w5 ? ws5 ? H5 F5]; subst. inversion F5; subst. clear Hws F1 F2 F3 F4 F5 L.
  assert (forall w p, written w p -> str_all num_char w = true) as Ch by (intros w' p (D & _); exact (decimal_chars _ _ _ D)).
  assert (Forall (fun w => str_all num_char w = true) [w; w1; w2; w3; w4; w5]) as All.
  { apply Forall_cons; [exact (integer_chars _ _ Hw)|]. apply Forall_cons; [eapply Ch, H1|]. apply Forall_cons; [eapply Ch, H2|].
    apply Forall_cons; [eapply Ch, H3|]. apply Forall_cons; [eapply Ch, H4|]. apply Forall_cons; [eapply Ch, H5|]. apply Forall_nil. }
  assert (forall w p, written w p -> exists x, parse_float w = inl x /\ is_nearest x (fst p) (snd p)) as R.
  { intros w' p (D & S & I). exact (decimal_in_range w' (fst p) (snd p) S D I). }
  destruct (R _ _ H1) as (x1 & E1 & N1). destruct (R _ _ H2) as (x2 & E2 & N2). destruct (R _ _ H3) as (x3 & E3 & N3).
  destruct (R _ _ H4) as (x4 & E4 & N4). destruct (R _ _ H5) as (x5 & E5 & N5).
  exists (mkCandle z x1 x2 x3 x4 x5). split; [|split; [|]].
  - exists "{"%char, "}"%char, w, w1, w2, w3, w4, w5, []. split; [reflexivity|]. split.
    + eapply Forall_impl; [|exact All]. cbv beta. intros a Ha. eapply without_all; [exact Ha|reflexivity].
    + split; [|auto]. rewrite (integer_read 32 w z) by (lia || exact Hw). cbn [c_time].
      change (2 ^ (32 - 1)) with (2 ^ 31). destruct (Z.leb_spec (- 2 ^ 31) z); [|lia]. destruct (Z.ltb_spec z (2 ^ 31)); [reflexivity|lia].
  - split; [reflexivity|]. cbn [c_open c_high c_low c_close c_volume].
    apply Forall2_cons; [exact N1|]. apply Forall2_cons; [exact N2|]. apply Forall2_cons; [exact N3|]. apply Forall2_cons; [exact N4|].
    apply Forall2_cons; [exact N5|]. apply Forall2_nil.
  - assert (forall ch, ch = newline \/ ch = cr -> without ch (String "{" (joined [w; w1; w2; w3; w4; w5] ++ "}")%string)) as K; [|split; apply K; auto].
    intros ch Hch. assert (ch <> " " /\ ch <> "{" /\ ch <> "}" /\ num_char ch = false)%char as (Na & Nb & Nc & Nd).
    { destruct Hch as [-> | ->]; split; [discriminate|split; [discriminate|split; [discriminate|reflexivity]]|discriminate|split; [discriminate|split; [discriminate|reflexivity]]]. }
    split; [congruence|]. apply without_app. split; [|split; [congruence|exact I]]. apply joined_without; [assumption|].
    eapply Forall_impl; [|exact All]. cbv beta. intros a Ha. eapply without_all; [exact Ha|exact Nd].
Qed.
Theorem file_read d path ls ps :
  d path = Some (text_of ls "") ->
  Forall2 (fun l p => candle_text l (fst p) (snd p) /\ - 2 ^ 31 <= fst p < 2 ^ 31 /\ scannable l) ls ps ->
  exists cs, load_candles None None d path = Ret (cs, None) /\ Forall2 (fun c p => nearest_candle c (fst p) (snd p)) cs ps.
Proof.
  intros Hd F.
  assert (exists cs, Forall2 (fun l c => scannable l /\ reads (drop_cr l) c) ls cs /\ Forall2 (fun c p => nearest_candle c (fst p) (snd p)) cs ps /\
    Forall (without newline) ls) as (cs & F1 & F2 & F3).
  { clear Hd. induction F as [|l p ls ps (H1 & H2 & H3) _ (cs & F1 & F2 & F3)]; [exists []; auto|].
    destruct (line_read l (fst p) (snd p) H1 H2) as (c & R & N & W1 & W2). exists (c :: cs). split; [|split; [|constructor; assumption]].
    - apply Forall2_cons; [|exact F1]. split; [exact H3|]. now rewrite drop_cr_no.
    - apply Forall2_cons; assumption. }
  exists cs. split; [|exact F2]. unfold load_candles. rewrite Hd. cbn [write].
  pose proof (raw_after ls "" F3) as RA. rewrite sapp_nil_r in RA. rewrite RA. rewrite (load_lines_good ls cs) by exact F1. reflexivity.
Qed.
