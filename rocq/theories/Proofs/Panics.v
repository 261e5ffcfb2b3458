(** Exactly when each exported function panics (C109). *)
From Coq Require Import Lia ZArith.
From Flocq Require Import BinarySingleNaN.
From Verif Require Import Go.Outcome Go.Int64 Go.Slice Go.Sort Go.Float64 Go.FloatReal Go.Num Go.Text Model.OrderBook Model.Candle Model.CandleFile Model.Indicators
  Spec.OrderBookSpec Spec.DepthSpec Spec.CandleSpec Spec.FileSpec Spec.PanicSpec
  Proofs.OrderBook Proofs.NewBook Proofs.Updates Proofs.UpdateThms Proofs.DepthFree Proofs.DepthOverlap Proofs.Candle Proofs.CandleThms Proofs.CandleMore
  Proofs.FileText Proofs.CandleFile.
Open Scope list_scope.
Open Scope Z_scope.
Local Notation length := List.length.

Lemma not_panics {A} (a : A) : ~ panics (Ret a).
Proof. intros [p H]. discriminate. Qed.

(** ** Order book *)
Lemma new_book_panics now (la lb : rows) d : zlen la <= 2 ^ 53 -> zlen lb <= 2 ^ 53 ->
  (panics (new_order_book now la lb d) <-> d < 0).
Proof.
  intros La Lb. split.
  - intros P. destruct (Z_lt_le_dec d 0) as [L|L]; [exact L|]. exfalso. rewrite new_book_ok in P by assumption. now apply not_panics in P.
  - intros L. exists PSlice. now apply new_book_neg.
Qed.
Lemma find_listed p (l : rows) : (exists i, find_from (fun r => feq (price r) p) l 0 = Some i) <-> listed p l.
Proof.
  split.
  - intros [i H]. apply find_from_some in H as (a & r & b & -> & _ & T & _). exists r. split; [apply in_elt|exact T].
  - intros (r & I & T). destruct (find_from _ l 0) as [i|] eqn:E; [eauto|]. apply find_from_none in E. rewrite Forall_forall in E. specialize (E r I). cbv beta in E.
    change (f64_eq (price r) p = false) in E. congruence.
Qed.
Lemma update_panics u ob : zlen (asks ob) + 1 < 2 ^ 53 -> zlen (bids ob) + 1 < 2 ^ 53 ->
  (panics (apply_update u ob) <-> max_depth ob < 0 /\
     ((u_side u = "ask"%string /\ (nonzero u \/ listed (u_price u) (asks ob))) \/
      (u_side u = "bid"%string /\ (nonzero u \/ listed (u_price u) (bids ob))))).
Proof.
  intros La Lb. split.
  - intros P. destruct (Z_lt_le_dec (max_depth ob) 0) as [L|L].
    2:{ exfalso. destruct (any_depth_total [u] ob L) as [ob' E]; [unfold zlen in *; cbn [length]; lia|unfold zlen in *; cbn [length]; lia|].
        destruct P as [p P]. cbn [apply_updates] in E. rewrite P in E. discriminate. }
    split; [exact L|]. destruct (f64_eq (u_volume u) (i2f 0)) eqn:V.
    + revert P. unfold apply_update. cbv zeta. change (feq (u_volume u) fzero) with (f64_eq (u_volume u) (i2f 0)). rewrite V. cbn [negb].
      destruct (String.eqb_spec (u_side u) "ask") as [->|]; [|destruct (String.eqb_spec (u_side u) "bid") as [->|]].
      * intros P. left. split; [reflexivity|]. right. apply find_listed. destruct (find_from _ (asks ob) 0); [eauto|]. now destruct (not_panics _ P).
      * intros P. right. split; [reflexivity|]. right. apply find_listed. destruct (find_from _ (bids ob) 0); [eauto|]. now destruct (not_panics _ P).
      * intros P. now destruct (not_panics _ P).
    + destruct (String.eqb_spec (u_side u) "ask") as [E|E]; [auto|]. destruct (String.eqb_spec (u_side u) "bid") as [E'|E']; [auto|].
      rewrite apply_bad_side in P by assumption. now destruct (not_panics _ P).
  - intros [L H]. exists PSlice. destruct (f64_eq (u_volume u) (i2f 0)) eqn:V.
    + unfold apply_update. cbv zeta. change (feq (u_volume u) fzero) with (f64_eq (u_volume u) (i2f 0)). rewrite V. cbn [negb].
      destruct H as [[-> H]|[-> H]]; cbn [String.eqb]; cbv iota.
      * destruct H as [H|H]; [unfold nonzero in H; congruence|]. apply find_listed in H as [i ->]. rewrite limit_neg; [reflexivity|exact L].
      * change (String.eqb "bid" "ask") with false. cbv iota. change (String.eqb "bid" "bid") with true. cbv iota.
        destruct H as [H|H]; [unfold nonzero in H; congruence|]. apply find_listed in H as [i ->]. rewrite limit_neg; [reflexivity|exact L].
    + apply negative_depth; try assumption; try lia. tauto.
Qed.
Lemma depth_panics ob p : zlen (asks ob) <= 2 ^ 53 -> zlen (bids ob) <= 2 ^ 53 ->
  (panics (@get_depth f64 f64_num ob p) <-> f64_le p (i2f 0) = false /\ (asks ob = [] \/ bids ob = [])).
Proof.
  intros La Lb. split.
  2:{ intros [H1 H2]. exists PIndex. now apply get_depth_empty. }
  intros P. unfold get_depth in P. change (fle p fzero) with (f64_le p (i2f 0)) in P. destruct (f64_le p (i2f 0)); [now destruct (not_panics _ P)|]. split; [reflexivity|].
  destruct (asks ob) as [|a l] eqn:Ea; [auto|]. destruct (bids ob) as [|b m] eqn:Eb; [auto|]. exfalso. revert P.
  destruct (index_last (a :: l)) as (al & ax & EA & ->); [discriminate|]. destruct (index_last (b :: m)) as (bl & bx & EB & ->); [discriminate|].
  change (index (a :: l) 0) with (Ret a). change (index (b :: m) 0) with (Ret b). rewrite !bind_ret.
  assert (forall t (s : rows) j, zlen s <= 2 ^ 53 -> find_from t s 0 = Some j -> exists r, index s (f2i (f64_max (i2f 0) (i2f (j - 1)))) = Ret r) as K.
  { intros t s j Ls H. apply find_from_some in H as (h & r & k & E & -> & _ & _). rewrite Z.add_0_l.
    assert (zlen s = zlen h + zlen k + 1) as Lh by (rewrite E, zlen_app, zlen_cons; lia). pose proof (zlen_nonneg h). pose proof (zlen_nonneg k).
    rewrite f2i_max by (unfold exact_int; lia). destruct (nth_error s (Z.to_nat (Z.max 0 (zlen h - 1)))) as [x|] eqn:N; [exists x; apply index_nth; [lia|exact N]|].
    exfalso. apply nth_error_None in N. unfold zlen in *. lia. }
  destruct (_ && _).
  { destruct (find_from _ (a :: l) 0) as [j|] eqn:F; [|apply not_panics]. destruct (K _ _ _ La F) as [r ->]. rewrite bind_ret. apply not_panics. }
  destruct (_ && _); [|apply not_panics].
  destruct (find_from _ (b :: m) 0) as [j|] eqn:F; [|apply not_panics]. destruct (K _ _ _ Lb F) as [r ->]. rewrite bind_ret. apply not_panics.
Qed.

Lemma history_sizes us ob : 0 <= max_depth ob -> zlen (asks ob) + zlen us < 2 ^ 53 -> zlen (bids ob) + zlen us < 2 ^ 53 ->
  exists ob', apply_updates us ob = Ret ob' /\ zlen (asks ob') <= 2 ^ 53 /\ zlen (bids ob') <= 2 ^ 53.
Proof.
  intros Hd Ha Hb. pose proof (zlen_nonneg us). destruct (Z_lt_le_dec (max_depth ob) (2 ^ 53)) as [L|L].
  - destruct (updates_total us ob) as (ob' & E & S); [repeat split; lia|]. exists ob'. split; [exact E|]. unfold sizes_ok in S. lia.
  - destruct (unreached_depth us ob) as (ob' & A & B & E); [lia|lia|]. exists (with_depth (max_depth ob) ob'). rewrite <- (E (max_depth ob)) by lia.
    rewrite with_depth_self. split; [reflexivity|]. cbn [with_depth asks bids]. lia.
Qed.
Lemma accum_zlen (l : rows) : zlen (@accum_rows f64 f64_num None l) = zlen l.
Proof. unfold zlen. f_equal. generalize (@None f64). induction l as [|r l IH]; intros o; [reflexivity|]. cbn [accum_rows length]. now rewrite IH. Qed.
Lemma take_zlen {A} d (l : list A) : 0 <= d -> zlen (take d l) <= zlen l.
Proof. intros _. unfold take, zlen. rewrite firstn_length. lia. Qed.

(** ** ModifyInterval *)
Lemma starts_zero tz t : starts_interval tz 0 t <-> local_minute tz t = 0.
Proof. unfold starts_interval. split; [|auto]. intros [H|[[_ [k H]]|[H _]]]; lia. Qed.
Lemma modify_panics tz (a b : candle f64) rest n : in_int64 (c_time b - c_time a) -> let cs := a :: b :: rest in
  (panics (modify_interval tz cs n) <->
   (n <> 1 /\ Z.abs (c_time b - c_time a) < 60) \/
   (n = 0 /\ exists pre p post, cs = pre ++ p :: post /\ post <> [] /\ local_minute tz (c_time p) = 0)).
Proof.
  intros Hi cs. assert (first_gap cs = Z.quot (c_time b - c_time a) 60) as G by (unfold cs, first_gap; now rewrite wrap64_id).
  assert (2 <= zlen cs) as L by (unfold cs, zlen; cbn [length]; lia).
  assert (first_gap cs = 0 <-> Z.abs (c_time b - c_time a) < 60) as G0.
  { rewrite G. exact (Z.quot_small_iff (c_time b - c_time a) 60 ltac:(lia)). }
  destruct (mi_table f64_R5 tz cs n L) as (T1 & T2 & T3 & T4). cbv zeta in *.
  destruct (Z.eq_dec n 1) as [N1|N1].
  { split; [|intros [[H _]|[H _]]; congruence || lia]. intros P. exfalso. destruct (Z.eq_dec (first_gap cs) 1) as [D|D].
    - destruct (T4 ltac:(lia) (or_introl D)) as [U1 U2]; [rewrite D; apply Z.rem_1_r|].
      destruct (split_aligned tz n cs) as [H|(sk & p & r & E & H & Hp)].
      + rewrite U1 in P; [now apply not_panics in P|]. eapply Forall_impl; [|exact H]. intros c. apply aligned_false_iff.
      + destruct (U2 sk p r E) as [_ V]; [eapply Forall_impl; [|exact H]; intros c; apply aligned_false_iff|now apply aligned_iff|].
        destruct V as [out V]; [left; lia|]. rewrite V in P. now apply not_panics in P.
    - rewrite T1 in P by assumption. now apply not_panics in P. }
  destruct (Z.eq_dec (first_gap cs) 0) as [D|D].
  { split; [intros _; left; split; [exact N1|now apply G0]|]. intros _. exists PDivZero. now apply T2. }
  split.
  - intros P. right. destruct (Z.eq_dec (Z.rem n (first_gap cs)) 0) as [R|R]; [|rewrite T3 in P by auto; now apply not_panics in P].
    destruct (T4 D (or_intror N1) R) as [U1 U2]. destruct (split_aligned tz n cs) as [H|(sk & p & r & E & H & Hp)].
    + rewrite U1 in P; [now apply not_panics in P|]. eapply Forall_impl; [|exact H]. intros c. apply aligned_false_iff.
    + destruct (U2 sk p r E) as [_ V]; [eapply Forall_impl; [|exact H]; intros c; apply aligned_false_iff|now apply aligned_iff|].
      destruct (Z.eq_dec n 0) as [N0|N0]; [|destruct V as [out V]; [now left|]; rewrite V in P; now apply not_panics in P].
      destruct r as [|x r]; [destruct V as [out V]; [now right|]; rewrite V in P; now apply not_panics in P|].
      split; [exact N0|]. exists sk, p, (x :: r). split; [exact E|]. split; [discriminate|]. apply starts_zero. subst n. now apply aligned_iff.
  - intros [[_ H]|[N0 (pre & p & post & E & Np & M)]]; [apply G0 in H; contradiction|]. subst n. exists PDivZero.
    destruct (T4 D (or_intror N1)) as [U1 U2]; [apply Z.rem_0_l; exact D|].
    destruct (split_aligned tz 0 cs) as [H|(sk & q & r & E' & H & Hq)].
    + exfalso. rewrite Forall_forall in H. specialize (H p). rewrite E in H. specialize (H (in_elt _ _ _)). apply aligned_false_iff in H. apply H. now apply starts_zero.
    + destruct (U2 sk q r E') as [V _]; [eapply Forall_impl; [|exact H]; intros c; apply aligned_false_iff|now apply aligned_iff|]. apply V; [reflexivity|].
      intros ->. (* then p would be skipped *) rewrite E in E'. assert (In p sk) as I.
      { destruct (exists_last Np) as (po & z & ->). change (p :: po ++ [z]) with ((p :: po) ++ [z]) in E'. rewrite app_assoc in E'.
        apply app_inj_tail in E' as [<- _]. apply in_elt. }
      rewrite Forall_forall in H. specialize (H p I). apply aligned_false_iff in H. apply H. now apply starts_zero.
Qed.

(** ** LoadCandlesFromFile *)
Lemma load_panics d path lines tail : d path = Some (text_of lines tail) -> Forall (without newline) lines -> without newline tail ->
  (panics (load_candles None None d path) <->
   exists good cs l more, lines ++ (if (tail =? "")%string then [] else [tail]) = good ++ l :: more /\
     Forall2 (fun l c => scannable l /\ reads (drop_cr l) c) good cs /\ scannable l /\ crashes (drop_cr l)).
Proof.
  intros Hd F W. assert (lines ++ (if (tail =? "")%string then [] else [tail]) = lines ++ tail_line tail) as E by (f_equal; destruct tail; reflexivity).
  unfold load_candles. rewrite Hd. cbn [write]. rewrite raw_text by assumption. rewrite E. clear E. split.
  - intros P. destruct (lines_cases (lines ++ tail_line tail)) as (good & cs & rest & E2 & F2 & R). rewrite E2 in P |- *.
    rewrite (load_lines_good good cs) in P by assumption. destruct R as [->|(l & r & -> & S)]; [now apply not_panics in P|].
    destruct (load_lines_stop l r cs S) as (K1 & K2 & K3). exists good, cs, l, r. split; [reflexivity|]. split; [exact F2|].
    destruct (Z_lt_le_dec (Z.of_nat (String.length l)) 65536) as [L|L].
    + split; [exact L|]. destruct S as [S|[S|S]]; [contradiction| |exact S]. destruct (K2 L S) as [s K]. rewrite K in P. now apply not_panics in P.
    + rewrite K1 in P by (unfold scannable; lia). now apply not_panics in P.
  - intros (good & cs & l & more & -> & F2 & S & C). rewrite (load_lines_good good cs) by assumption.
    apply (load_lines_stop l more cs); [right; right; exact C|exact S|exact C].
Qed.
