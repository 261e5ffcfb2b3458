(** Symmetries of indicators/williams_fractals.go (C79). *)
From Coq Require Import Lia Bool List ZArith.
From Flocq Require Import BinarySingleNaN.
From Verif Require Import Go.Outcome Go.Int64 Go.Slice Go.Float64 Go.FloatOrder Go.FloatReal Go.Num
  Model.OrderBook Model.Candle Model.Indicators Spec.IndicatorSpec Spec.SymmetrySpec Proofs.Fractals Proofs.Symmetry.
Open Scope list_scope.
Open Scope Z_scope.
Local Notation length := List.length.

Lemma le_lt_eq x y : f64_le x y = f64_lt x y || f64_eq x y.
Proof.
  unfold f64_le, f64_lt, f64_eq, Bleb, Bltb, Beqb, SpecFloat.SFleb, SpecFloat.SFltb, SpecFloat.SFeqb.
  destruct (SpecFloat.SFcompare (B2SF x) (B2SF y)) as [[| |]|]; reflexivity.
Qed.
Lemma eq_sym x y : f64_eq x y = f64_eq y x.
Proof.
  change (match Bcompare x y with Some Eq => true | _ => false end = match Bcompare y x with Some Eq => true | _ => false end).
  rewrite (Bcompare_swap _ _ x y). now destruct (Bcompare x y) as [[| |]|].
Qed.

Section Map.
Variables (f : candle f64 -> candle f64) (s : ftype -> ftype) (cs : list (candle f64)).
Hypothesis Hlt : forall ft c d, In c cs -> In d cs ->
  below ft (price_of ft (f c)) (price_of ft (f d)) = below (s ft) (price_of (s ft) c) (price_of (s ft) d).
Hypothesis Heq : forall ft c d, In c cs -> In d cs ->
  f64_eq (price_of ft (f c)) (price_of ft (f d)) = f64_eq (price_of (s ft) c) (price_of (s ft) d).

Lemma left_ok_below ft (c d : candle f64) :
  left_ok ft c d = negb (below ft (price_of ft c) (price_of ft d) || f64_eq (price_of ft c) (price_of ft d)).
Proof.
  destruct ft; unfold left_ok; cbn [fle f64_num below price_of].
  - now rewrite le_lt_eq.
  - rewrite le_lt_eq, (eq_sym (c_low d)). reflexivity.
Qed.
Lemma left_map ft c d : In c cs -> In d cs -> left_ok ft (f c) (f d) = left_ok (s ft) c d.
Proof. intros Hc Hd. now rewrite !left_ok_below, Hlt, Heq. Qed.
Definition isnone {A} (o : option A) : bool := match o with None => true | Some _ => false end.
Lemma scan_map ft c rest : In c cs -> incl rest cs -> forall k,
  isnone (scan_right ft (f c) (map f rest) k) = isnone (scan_right (s ft) c rest k).
Proof.
  intros Hc. induction rest as [|d rest IH]; intros HI k; [reflexivity|]. cbn [map]. rewrite !scan_step.
  assert (In d cs) as Hd by (apply HI; now left). assert (incl rest cs) as Hr by (intros z Hz; apply HI; now right).
  destruct (k =? 2); [reflexivity|]. rewrite !Hlt by assumption.
  destruct (below (s ft) (price_of (s ft) c) (price_of (s ft) d)); [reflexivity|].
  destruct (below (s ft) (price_of (s ft) d) (price_of (s ft) c)); now apply IH.
Qed.
Lemma index_map_f (i : Z) : index (map f cs) i = match index cs i with Ret c => Ret (f c) | Panic e => Panic e end.
Proof. unfold index. destruct (i <? 0); [reflexivity|]. rewrite nth_error_map. now destruct (nth_error cs (Z.to_nat i)). Qed.
Lemma index_in (i : Z) c : index cs i = Ret c -> In c cs.
Proof. unfold index. destruct (i <? 0); [discriminate|]. destruct (nth_error cs (Z.to_nat i)) eqn:E; [|discriminate]. intros K. injection K as <-. eapply nth_error_In; eauto. Qed.
Lemma found_map i ft : found (map f cs) i ft = found cs i (s ft).
Proof.
  unfold found, find_fractal. set (z := Z.of_nat i - 2). rewrite !index_map_f.
  destruct (index cs (z + 2)) as [x|] eqn:Ex; [|reflexivity]. cbn [bind].
  destruct (index cs z) as [a|] eqn:Ea; [|reflexivity]. cbn [bind].
  apply index_in in Ex, Ea. rewrite left_map by assumption.
  destruct (left_ok (s ft) x a); [|reflexivity]. cbn [negb].
  destruct (index cs (z + 1)) as [b|] eqn:Eb; [|reflexivity]. cbn [bind].
  apply index_in in Eb. rewrite left_map by assumption.
  destruct (left_ok (s ft) x b); [|reflexivity]. cbn [negb].
  rewrite skipn_map. pose proof (scan_map ft x (skipn (Z.to_nat (z + 3)) cs) Ex) as K.
  specialize (K (fun d Hd => eq_ind _ (In d) (in_or_app _ _ _ (or_intror Hd)) _ (firstn_skipn _ cs)) 0).
  destruct (scan_right ft (f x) _ 0), (scan_right (s ft) x _ 0); cbn [isnone] in K; congruence.
Qed.
End Map.

(** Labels. *)
Lemma relabel_fractals (f : candle f64 -> candle f64) h gh gl cs :
  (forall c, In c cs -> c_time (f c) = h (c_time c) /\ c_high (f c) = gh (c_high c) /\ c_low (f c) = gl (c_low c)) ->
  keeps_order (fun x => In x (map c_high cs)) gh -> keeps_order (fun x => In x (map c_low cs)) gl ->
  william_fractals (map f cs) = go_map (map (refractal h gh gl)) (william_fractals cs).
Proof.
  intros Hf Kh Kl. rewrite !wf_keys. cbn [go_map]. f_equal. unfold all_keys. rewrite map_length.
  assert (forall i ft, found (map f cs) i ft = found cs i ft) as K.
  { intros i ft. apply (found_map f (fun ft => ft)).
    - intros k c d Hc Hd. destruct (Hf c Hc) as (_ & Hch & Hcl), (Hf d Hd) as (_ & Hdh & Hdl). destruct k; cbn [below price_of].
      + rewrite Hch, Hdh. apply Kh; now apply in_map.
      + unfold gt64. rewrite Hcl, Hdl. apply Kl; now apply in_map.
    - intros k c d Hc Hd. destruct (Hf c Hc) as (_ & Hch & Hcl), (Hf d Hd) as (_ & Hdh & Hdl). destruct k; cbn [price_of].
      + rewrite Hch, Hdh. apply Kh; now apply in_map.
      + rewrite Hcl, Hdl. apply Kl; now apply in_map. }
  generalize (seq 2 (length cs - 4)). intros l.
  assert (flat_map (keys_at (map f cs)) l = flat_map (keys_at cs) l) as ->.
  { induction l as [|i l IH]; [reflexivity|]. cbn [flat_map]. rewrite IH. f_equal. unfold keys_at. cbn [filter fst snd]. now rewrite !K. }
  generalize (flat_map (keys_at cs) l). clear l. intros l. induction l as [|[i ft] l IH]; [reflexivity|].
  cbn [flat_map]. rewrite map_app, IH. f_equal. unfold show. cbn [fst snd]. rewrite nth_error_map.
  destruct (nth_error cs i) as [c|] eqn:E; [|reflexivity]. cbn [option_map map]. apply nth_error_In in E.
  destruct (Hf c E) as (Ht & Hh & Hl). unfold report, refractal. cbn [fr_time fr_type fr_price]. rewrite Ht.
  destruct ft; cbn [price_of]; now rewrite ?Hh, ?Hl.
Qed.

(** Upside down. *)
Lemma flip_found cs i ft : found (map flip_candle cs) i ft = found cs i (flip_kind ft).
Proof.
  apply found_map.
  - intros k c d _ _. destruct k; cbn [flip_kind below price_of flip_candle c_high c_low]; unfold gt64; apply neg_lt.
  - intros k c d _ _. destruct k; cbn [flip_kind below price_of flip_candle c_high c_low]; apply neg_eq.
Qed.
Lemma kind_reports cs ft l :
  filter (is_kind ft) (flat_map (show cs) (flat_map (keys_at cs) l)) =
  flat_map (fun i => if found cs i ft then match nth_error cs i with Some c => [report ft c] | None => [] end else []) l.
Proof.
  induction l as [|i l IH]; [reflexivity|]. cbn [flat_map]. rewrite flat_map_app, filter_app, IH. f_equal.
  unfold keys_at. cbn [filter fst snd]. unfold show.
  destruct ft, (found cs i FractalUp), (found cs i FractalDown); cbn [flat_map fst snd]; destruct (nth_error cs i); reflexivity.
Qed.
Lemma flip_fractals cs : exists out out', william_fractals cs = Ret out /\ william_fractals (map flip_candle cs) = Ret out' /\
  forall ft, filter (is_kind ft) out' = map flip_fractal (filter (is_kind (flip_kind ft)) out).
Proof.
  do 2 eexists. split; [apply wf_keys|]. split; [apply wf_keys|]. intros ft. unfold all_keys. rewrite map_length, !kind_reports.
  generalize (seq 2 (length cs - 4)). intros l. induction l as [|i l IH]; [reflexivity|].
  cbn [flat_map]. rewrite map_app, IH. f_equal. rewrite flip_found, nth_error_map. destruct (found cs i (flip_kind ft)); [|reflexivity].
  destruct (nth_error cs i) as [c|]; [|reflexivity]. cbn [option_map map]. destruct ft; reflexivity.
Qed.
