(** Properties C31-C35: market/candle_load.go.
    Model: Model/CandleFile.v, Go/Text.v; vocabulary: Spec/FileSpec.v. *)
From Coq Require Import Lia.
From Flocq Require Import Core BinarySingleNaN.
From Verif Require Import Go.Outcome Go.Int64 Go.Slice Go.Float64 Go.FloatOrder Go.Text Model.Candle Model.CandleFile
  Spec.FileSpec Proofs.Lists Proofs.Lex Proofs.RoundTrip Proofs.FileText Proofs.CandleFile.
Open Scope string_scope.
Open Scope list_scope.
Open Scope Z_scope.

Definition cdl (t o v : Z) : candle f64 := mkCandle t (i2f o) (i2f o) (i2f o) (i2f o) (i2f v).
Definition awkward : candle f64 :=
  mkCandle 1609459200 (f64_const 1 (-1)) (f64_inf true) f64_nan (f64_of_bin false 1 (-1074)) (f64_neg (i2f 0)).

(** ** C31 *)
Theorem C31_round_trip : forall d cs path, Forall fits32 cs ->
  exists d', save_candles None no_faults d cs path = (d', None) /\
    load_candles None None d' path = Ret (cs, None) /\
    forall q, q <> path -> d' q = d q.
Proof.
  intros d cs path H. eexists. split; [reflexivity|]. split.
  - unfold load_candles, fs_set. rewrite String.eqb_refl. cbn [write]. now apply load_saved.
  - intros q Hq. unfold fs_set. destruct (String.eqb_spec q path); [contradiction|reflexivity].
Qed.
(** The text of one float64 alone. *)
Theorem C31_every_float_round_trips : forall x : f64, parse_float (fmt_v x) = inl x.
Proof. exact parse_fmt_v. Qed.
Example C31_example : Forall fits32 [awkward; cdl 0 1 2] /\
  candle_line awkward = "{1609459200 0.1 -Inf NaN 5e-324 -0}".
Proof. split; [repeat constructor; vm_compute; congruence|vm_compute; reflexivity]. Qed.

(** ** C32 *)
Theorem C32_wide_times_fail : forall d cs path,
  Forall (fun c => in_int64 (c_time c)) cs -> ~ Forall fits32 cs ->
  exists d' e, save_candles None no_faults d cs path = (d', None) /\
    load_candles None None d' path = Ret ([], Some e).
Proof.
  intros d cs path Hi Hn.
  assert (exists pre c post, cs = pre ++ c :: post /\ Forall fits32 pre /\ ~ fits32 c) as (pre & c & post & -> & Hp & Hc).
  { clear Hi. induction cs as [|c cs IH]; [destruct Hn; constructor|].
    destruct (Z_le_dec (- 2 ^ 31) (c_time c)), (Z_lt_dec (c_time c) (2 ^ 31));
      try (exists [], c, cs; repeat split; auto; intros [? ?]; lia).
    destruct IH as (pre & x & post & -> & H1 & H2).
    - intros H. apply Hn. constructor; [split; assumption|assumption].
    - exists (c :: pre), x, post. repeat split; auto. constructor; [split; assumption|assumption]. }
  apply Forall_app in Hi as [_ Hi]. inversion Hi as [|? ? Hi0 _]; subst.
  destruct (load_wide pre c post Hp Hc Hi0) as [s E].
  do 2 eexists. split; [reflexivity|]. unfold load_candles, fs_set. rewrite String.eqb_refl. cbn [write]. exact E.
Qed.
Theorem C32_round_trip_refuted : exists d cs path d',
  save_candles None no_faults d cs path = (d', None) /\ load_candles None None d' path <> Ret (cs, None).
Proof.
  destruct (C32_wide_times_fail (fun _ => None) [cdl 2147483648 1 1] "f") as (d' & e & H1 & H2).
  - repeat constructor; vm_compute; congruence.
  - intros H. inversion H as [|? ? [H1 H2] _]. vm_compute in H2. discriminate.
  - exists (fun _ => None), [cdl 2147483648 1 1], "f", d'. split; [exact H1|]. rewrite H2. discriminate.
Qed.

(** ** C33 *)
(** [d'] holds the first [k] bytes of the saved file. *)
Theorem C33_prefix_loads_prefix : forall d cs path k, Forall fits32 cs ->
  exists j, (j <= List.length cs)%nat /\
  let result := load_candles None None (fs_set d path (substring 0 k (save_loop no_faults 0 cs))) path in
  (exists p, result = Panic p) \/ (exists e, result = Ret ([], Some e)) \/
  result = Ret (firstn j cs, None) \/
  exists c c' w, nth_error cs j = Some c /\ result = Ret (firstn j cs ++ [c'], None) /\
    c_time c' = c_time c /\ c_open c' = c_open c /\ c_high c' = c_high c /\ c_low c' = c_low c /\ c_close c' = c_close c /\
    prefix_of w (fmt_v (c_volume c)) /\ parse_float w = inl (c_volume c').
Proof.
  intros d cs path k H. unfold load_candles, fs_set. rewrite String.eqb_refl. cbn [write]. now apply load_cut.
Qed.
(** The same for a read that stops after [k] bytes. *)
Theorem C33_short_read : forall d cs path k, Forall fits32 cs ->
  load_candles None (Some k) (fs_set d path (save_loop no_faults 0 cs)) path =
  load_candles None None (fs_set d path (substring 0 k (save_loop no_faults 0 cs))) path.
Proof. intros. unfold load_candles, fs_set. rewrite String.eqb_refl. reflexivity. Qed.
Definition loads_as (o : go (list (candle f64) * option err)) : option (list (Z * Z * Z) * option err) :=
  match o with Ret (cs, e) => Some (map (fun c => (c_time c, f2i (c_close c), f2i (c_volume c))) cs, e) | _ => None end.
(** The last volume may be wrong: smaller, or larger. *)
Theorem C33_last_candle_refuted : exists cs k cs',
  Forall fits32 cs /\
  load_candles None None (fs_set (fun _ => None) "f" (substring 0 k (save_loop no_faults 0 cs))) "f" = Ret (cs', None) /\
  List.length cs' = List.length cs /\ map (@c_volume f64) cs' <> map c_volume cs.
Proof.
  exists [cdl 60 7 12345], 17%nat.
  set (o := load_candles _ _ _ _).
  assert (loads_as o = Some ([(60, 7, 1234)], None)) as E by (vm_compute; reflexivity).
  destruct o as [[cs' e]|]; [|discriminate]. injection E as E1 E2. subst e. exists cs'.
  split; [repeat constructor; vm_compute; congruence|]. split; [reflexivity|].
  destruct cs' as [|c' [|? ?]]; try discriminate. split; [reflexivity|].
  injection E1 as T1 T2 T3. intros H. injection H as H. rewrite H in T3. vm_compute in T3. discriminate.
Qed.
Example C33_example_larger : 
  loads_as (load_candles None None (fs_set (fun _ => None) "f"
    (substring 0 20 (save_loop no_faults 0 [mkCandle 60 (i2f 7) (i2f 7) (i2f 7) (i2f 7) (f64_const 123456 (-12))]))) "f")
  = Some ([(60, 7, 1)], None).
Proof. vm_compute. reflexivity. Qed.

(** ** C34 *)
Theorem C34_write_failures_never_reported : forall d cs path faults,
  snd (save_candles None faults d cs path) = None.
Proof. reflexivity. Qed.
Theorem C34_reported_refuted : exists d cs path faults,
  (exists i, faults i <> None) /\
  let '(d', e) := save_candles None faults d cs path in
  e = None /\ d' path <> fst (save_candles None no_faults d cs path) path.
Proof.
  exists (fun _ => None), [cdl 60 1 1; cdl 120 2 2], "f", (fun i => match i with 1%nat => Some 3%nat | _ => None end).
  split; [exists 1%nat; discriminate|]. cbv zeta. split; [reflexivity|]. vm_compute. discriminate.
Qed.
(** A failing os.Create is reported and changes nothing. *)
Theorem C34_create_failure_reported : forall d cs path faults m,
  fst (save_candles (Some m) faults d cs path) = d /\ snd (save_candles (Some m) faults d cs path) <> None.
Proof. intros. split; [reflexivity|discriminate]. Qed.

(** ** C35 *)
(** Every line reads as a candle, is rejected with an error, or panics, exactly
    as its words say. *)
Theorem C35_line_reads : forall t c, load_line t = Ret (inl c) <-> reads t c.
Proof. exact reads_iff. Qed.
Theorem C35_line_rejected : forall t, (exists e, load_line t = Ret (inr e)) <-> rejected t.
Proof. exact rejected_iff. Qed.
Theorem C35_line_crashes : forall t, (exists p, load_line t = Panic p) <-> crashes t.
Proof. exact crashes_iff. Qed.
(** Every file is a list of lines and a tail without newline; lines before the
    first stopping one are candles, and that line decides the outcome. *)
Theorem C35_every_file : forall d path content, d path = Some content ->
  exists lines tail, content = text_of lines tail /\ Forall (without newline) lines /\ without newline tail /\
  exists good cs rest,
    lines ++ (if (tail =? "")%string then [] else [tail]) = good ++ rest /\
    Forall2 (fun l c => scannable l /\ reads (drop_cr l) c) good cs /\
    let result := load_candles None None d path in
    (rest = [] /\ result = Ret (cs, None) \/
     exists l more, rest = l :: more /\
      (~ scannable l /\ result = Ret (cs, None) \/
       scannable l /\ rejected (drop_cr l) /\ (exists e, result = Ret ([], Some e)) \/
       scannable l /\ crashes (drop_cr l) /\ (exists p, result = Panic p))).
Proof.
  intros d path content H.
  destruct (text_exists content) as (ls & t & E & F & W). exists ls, t. repeat (split; [assumption|]).
  destruct (lines_cases (ls ++ tail_line t)) as (good & cs & rest & E2 & F2 & R).
  exists good, cs, rest. split.
  { rewrite <- E2. f_equal. destruct t; reflexivity. }
  split; [assumption|]. unfold load_candles. rewrite H. cbn [write]. rewrite E, raw_text, E2 by assumption. cbv zeta.
  rewrite (load_lines_good good cs) by assumption.
  destruct R as [->|(l & r & -> & S)]; [left; auto|]. right. exists l, r. split; [reflexivity|].
  destruct (load_lines_stop l r cs S) as (K1 & K2 & K3).
  destruct (Z_lt_le_dec (Z.of_nat (String.length l)) 65536) as [L|L].
  - destruct S as [S|[S|S]]; [now destruct S| |].
    + right; left. repeat split; auto. destruct (K2 L S) as [s K]. eauto.
    + right; right. repeat split; auto.
  - left. assert (~ scannable l) by (unfold scannable; lia). auto.
Qed.
Theorem C35_clean_failure_refuted : exists d path,
  exists p, load_candles None None d path = Panic p.
Proof. exists (fun _ => Some (String newline "")), "f". exists PSlice. vm_compute. reflexivity. Qed.
Example C35_example_truncated_line : load_line "{60 1 2}" = Panic PIndex.
Proof. vm_compute. reflexivity. Qed.
Example C35_example_extra_fields :
  match load_line "{60 1 2 3 4 5 6 7}" with Ret (inl c) => (c_time c, f2i (c_volume c)) | _ => (0, 0) end = (60, 5).
Proof. vm_compute. reflexivity. Qed.
Example C35_example_any_brackets :
  match load_line "x60 1 2 3 4 0x1p4y" with Ret (inl c) => (c_time c, f2i (c_volume c)) | _ => (0, 0) end = (60, 16).
Proof. vm_compute. reflexivity. Qed.
Example C35_example_bad_number : exists e, load_line "{60 1 2 z 4 5}" = Ret (inr e).
Proof. eexists. vm_compute. reflexivity. Qed.
