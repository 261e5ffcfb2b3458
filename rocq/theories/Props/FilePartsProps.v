(** Property C88: candle files put together, edited and saved again
    (market/candle_load.go).
    Model: Model/CandleFile.v, Go/Text.v; vocabulary: Spec/FileSpec.v. *)
From Coq Require Import Lia.
From Flocq Require Import Core BinarySingleNaN.
From Verif Require Import Go.Outcome Go.Int64 Go.Slice Go.Float64 Go.FloatOrder Go.Text Model.Candle Model.CandleFile
  Spec.FileSpec Proofs.Lists Proofs.Lex Proofs.RoundTrip Proofs.FileText Proofs.CandleFile Proofs.FileParts Props.FileProps.
Open Scope string_scope.
Open Scope list_scope.
Open Scope Z_scope.

(** The content of the file after a save to which nothing happened. *)
Definition saved (d : fs) (path : string) (cs : list (candle f64)) : option string :=
  fst (save_candles None no_faults d cs path) path.

(** A saved file put in front of any other file. *)
Theorem C88_appended : forall d p1 p2 p3 cs s1 s2,
  Forall fits32 cs -> saved d p1 cs = Some s1 -> d p2 = Some s2 -> d p3 = Some (s1 ++ s2)%string ->
  load_candles None None d p3 = with_first cs (load_candles None None d p2).
Proof.
  intros d p1 p2 p3 cs s1 s2 H E1 E2 E3. unfold saved, save_candles, fs_set in E1. cbn [fst] in E1.
  rewrite String.eqb_refl in E1. injection E1 as <-. unfold load_candles. rewrite E2, E3. cbn [write].
  exact (load_after cs s2 H).
Qed.

(** Whatever was loaded, saved again and loaded again is the same. *)
Theorem C88_saved_again : forall open_err read_ok d d' p q cs e,
  load_candles open_err read_ok d p = Ret (cs, e) ->
  load_candles None None (fst (save_candles None no_faults d' cs q)) q = Ret (cs, None).
Proof.
  intros open_err read_ok d d' p q cs e H.
  assert (Forall fits32 cs) as F.
  { unfold load_candles in H. destruct open_err as [m|].
    - assert (cs = []) as -> by congruence. constructor.
    - destruct (d p) as [s|]; [|assert (cs = []) as -> by congruence; constructor].
      eapply loaded_fits; [|exact H]. constructor. }
  unfold load_candles, save_candles, fs_set. cbn [fst]. rewrite String.eqb_refl. cbn [write]. exact (load_saved cs F).
Qed.

(** Other line endings, and a last line without one. *)
Theorem C88_line_endings : forall d p q cs s,
  Forall fits32 cs -> saved d p cs = Some s -> d q = Some (crlf s) \/ d q = Some (chopped s) ->
  load_candles None None d q = Ret (cs, None).
Proof.
  intros d p q cs s H E1 E2. unfold saved, save_candles, fs_set in E1. cbn [fst] in E1.
  rewrite String.eqb_refl in E1. injection E1 as <-. unfold load_candles. destruct E2 as [->| ->]; cbn [write].
  - exact (load_crlf cs H).
  - exact (load_chopped cs H).
Qed.

(** Different candles never make the same file. *)
Theorem C88_no_collision : forall d p cs cs',
  Forall (fun c => in_int64 (c_time c)) cs -> Forall (fun c => in_int64 (c_time c)) cs' ->
  saved d p cs = saved d p cs' -> cs = cs'.
Proof.
  intros d p cs cs' H H' E. unfold saved, save_candles, fs_set in E. cbn [fst] in E.
  rewrite String.eqb_refl in E. injection E as E. exact (save_inj cs cs' H H' E).
Qed.

(** Two files of one and two candles, one of them with Windows line endings. *)
Example C88_example :
  let d := fst (save_candles None no_faults (fun _ => None) [awkward] "a") in
  let d := fst (save_candles None no_faults d [cdl 60 3 4; cdl 120 5 6] "b") in
  forall s t, d "a" = Some s -> d "b" = Some t ->
  load_candles None None (fs_set d "c" (s ++ crlf t)%string) "c" = Ret ([awkward; cdl 60 3 4; cdl 120 5 6], None).
Proof.
  cbv zeta. intros s t E1 E2.
  assert (saved (fun _ => None) "a" [awkward] = Some s) as S1 by exact E1.
  assert (saved (fun _ => None) "b" [cdl 60 3 4; cdl 120 5 6] = Some t) as S2 by exact E2.
  assert (Forall fits32 [awkward]) as F1 by (constructor; [split; [discriminate|reflexivity]|constructor]).
  assert (Forall fits32 [cdl 60 3 4; cdl 120 5 6]) as F2 by (repeat (constructor; [split; [discriminate|reflexivity]|]); constructor).
  pose proof (fun d p1 p2 p3 => C88_appended d p1 p2 p3 [awkward] s (crlf t) F1) as K.
  pose proof (fun d p q => C88_line_endings d p q [cdl 60 3 4; cdl 120 5 6] t F2) as L.
  set (d := fun q : string => if String.eqb q "c" then Some (s ++ crlf t)%string else if String.eqb q "w" then Some (crlf t) else None).
  specialize (K d "a" "w" "c"). specialize (L d "b" "w").
  change (load_candles None None d "c" = Ret ([awkward; cdl 60 3 4; cdl 120 5 6], None)).
  rewrite K; [|exact S1|reflexivity|reflexivity]. rewrite L; [reflexivity|exact S2|left; reflexivity].
Qed.
(** The text itself. *)
Example C88_text_example : saved (fun _ => None) "b" [cdl 60 3 4] = Some ("{60 3 3 3 3 4}" ++ String newline "")%string.
Proof. vm_compute. reflexivity. Qed.

Print Assumptions C88_appended.
Print Assumptions C88_saved_again.
Print Assumptions C88_line_endings.
Print Assumptions C88_no_collision.
