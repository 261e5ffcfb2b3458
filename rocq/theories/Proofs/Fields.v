(** Which fields of the candles each function reads (C108). *)
From Coq Require Import Lia ZArith.
From Verif Require Import Go.Outcome Go.Int64 Go.Slice Go.Float64 Go.Num Model.Candle Model.Indicators
  Spec.FieldsSpec Spec.RebuildSpec Proofs.Symmetry Proofs.CandleThms.
Open Scope list_scope.
Open Scope Z_scope.
Local Notation length := List.length.

Definition by_f {A} (f : candle f64 -> A) (c d : candle f64) : Prop := f c = f d.
Lemma by_map {A} (f : candle f64 -> A) l m : map f l = map f m <-> Forall2 (by_f f) l m.
Proof.
  split.
  - revert m. induction l as [|a l IH]; intros [|b m] H; try discriminate; constructor; cbn [map] in H; injection H; intros; [assumption|now apply IH].
  - intros H. induction H as [|a b l m E H IH]; [reflexivity|]. cbn [map]. now rewrite E, IH.
Qed.
Lemma grel_eq {A B} (x y : go A) (f g : A -> go B) : grel eq x y -> (forall a, f a = g a) -> bind x f = bind y g.
Proof. intros H K. destruct x, y; cbn [grel bind] in *; try contradiction; subst; auto. Qed.
Lemma reslice_by {A B} (f : candle f64 -> A) (k g : list (candle f64) -> go B) l m i j : Forall2 (by_f f) l m ->
  (forall a b, Forall2 (by_f f) a b -> k a = g b) -> bind (reslice l i j) k = bind (reslice m i j) g.
Proof.
  intros H K. pose proof (f2_reslice _ l m i j H) as R. destruct (reslice l i j), (reslice m i j); cbn [grel] in R; try contradiction; [apply K; exact R|now subst].
Qed.

(** ** Averages: closes *)
Notation bc := (by_f (@c_close f64)).
Lemma sum_by l m : Forall2 bc l m -> forall a, fold_left (fun acc c => @fadd f64 f64_num acc (c_close c)) l a = fold_left (fun acc c => fadd acc (c_close c)) m a.
Proof. intros H. induction H as [|x y l m E H IH]; intros a; [reflexivity|]. cbn [fold_left]. rewrite E. apply IH. Qed.
Lemma average_by l m : Forall2 bc l m -> @average f64 f64_num l = average m.
Proof. intros H. unfold average, sum_close. now rewrite (sum_by l m H), (f2_len _ _ _ H). Qed.
Lemma ma_loop_by l m : Forall2 bc l m -> forall k i j, @ma_loop f64 f64_num l i j k = ma_loop m i j k.
Proof.
  intros H k. induction k as [|k IH]; intros i j; [reflexivity|]. cbn [ma_loop]. apply (reslice_by c_close); [exact H|].
  intros a b E. now rewrite IH, (average_by a b E).
Qed.
Lemma ma_by s s' n : same_visible c_close s s' -> @moving_average f64 f64_num s n = moving_average s' n.
Proof.
  intros [N V]. rewrite by_map in V. unfold moving_average. cbv zeta. rewrite N, (f2_len _ _ _ V), (ma_loop_by _ _ V). reflexivity.
Qed.
Lemma ema_loop_by l m p w : Forall2 bc l m -> forall r r', Forall2 bc r r' -> forall i acc, @ema_loop f64 f64_num l p w r i acc = ema_loop m p w r' i acc.
Proof.
  intros H r r' R. induction R as [|c d r r' E R IH]; intros i acc; [reflexivity|]. cbn [ema_loop]. rewrite IH. destruct (i <? p); [reflexivity|].
  destruct (zlen acc =? 0); [apply (reslice_by c_close); [exact H|]; intros a b Eab; now rewrite IH, (average_by a b Eab)|].
  destruct (index acc _); [|reflexivity]. rewrite !bind_ret. rewrite IH. now rewrite E.
Qed.
Lemma ema_by s s' n : same_visible c_close s s' -> @exponential_moving_average f64 f64_num s n = exponential_moving_average s' n.
Proof.
  intros [N V]. rewrite by_map in V. unfold exponential_moving_average. cbv zeta. rewrite N, (f2_len _ _ _ V), (ema_loop_by _ _ _ _ V _ _ V). reflexivity.
Qed.
Lemma closing_by l m n : Forall2 bc l m -> @closing_sum f64 f64_num l n = closing_sum m n.
Proof.
  intros H. unfold closing_sum. rewrite (f2_len _ _ _ H). destruct (_ <? _); [reflexivity|]. apply (reslice_by c_close); [exact H|]. intros a b E. now rewrite (sum_by a b E).
Qed.
Lemma smma_loop_by l m p : Forall2 bc l m -> forall r r', Forall2 bc r r' -> forall i acc, @smma_loop f64 f64_num l p r i acc = smma_loop m p r' i acc.
Proof.
  intros H r r' R. induction R as [|c d r r' E R IH]; intros i acc; [reflexivity|]. cbn [smma_loop]. rewrite IH. destruct (i <? p - 1); [reflexivity|].
  apply (reslice_by c_close); [exact H|]. intros a b Eab. rewrite (closing_by a b p Eab). destruct (closing_sum b p) as [[sum e]|]; [|reflexivity]. rewrite !bind_ret.
  destruct e; [reflexivity|]. rewrite E. destruct (zlen acc =? 0); [apply IH|]. destruct (zlen acc =? 1); (destruct (index acc _); [rewrite !bind_ret; apply IH|reflexivity]).
Qed.
Lemma smma_by s s' n : same_visible c_close s s' -> @smoothed_moving_average f64 f64_num s n = smoothed_moving_average s' n.
Proof.
  intros [N V]. rewrite by_map in V. unfold smoothed_moving_average. cbv zeta. rewrite N, (f2_len _ _ _ V), (smma_loop_by _ _ _ V _ _ V). reflexivity.
Qed.

(** ** RSI: closes *)
Lemma rsi_sums_by l m : Forall2 bc l m -> forall c d u v, bc c d -> @rsi_sums f64 f64_num c l u v = rsi_sums d m u v.
Proof.
  intros H. induction H as [|x y l m E H IH]; intros c d u v K; [reflexivity|]. cbn [rsi_sums]. rewrite E, K.
  destruct (flt (c_close d) (c_close y)); [apply IH; exact E|]. destruct (flt (c_close y) (c_close d)); apply IH; exact E.
Qed.
Lemma rsi_value_by l m : Forall2 bc l m -> @rsi_value f64 f64_num l = rsi_value m.
Proof. intros H. unfold rsi_value. inversion H as [|c d l' m' E H' E1 E2]; [reflexivity|]. now rewrite (rsi_sums_by l' m' H' c d _ _ E). Qed.
Lemma rsi_by s s' n : same_slice c_close s s' -> rsi f64_to_f32 s n = rsi f64_to_f32 s' n.
Proof.
  intros (N & V & H). rewrite by_map in V, H. unfold rsi, rsi_fuel. cbv zeta. rewrite N, (f2_len _ _ _ V), (f2_len _ _ _ H).
  assert (forall fuel i j, rsi_loop f64_to_f32 s fuel i j = rsi_loop f64_to_f32 s' fuel i j) as L.
  { induction fuel as [|fuel IH]; intros i j; [reflexivity|]. cbn [rsi_loop]. rewrite (f2_len _ _ _ V). destruct (_ =? _); [reflexivity|].
    unfold gsub. apply (reslice_by c_close); [now apply Forall2_app|]. intros a b E. now rewrite IH, (rsi_value_by a b E). }
  now rewrite L.
Qed.

(** ** Volatility: highs and lows *)
Lemma ewv_by l m b : map high_low l = map high_low m -> @ewv f64 f64_num l b = ewv m b.
Proof.
  rewrite by_map. intros H. unfold ewv. generalize (fofZ 0). induction H as [|x y l m E H IH]; intros a; [reflexivity|]. cbn [fold_left].
  unfold by_f, high_low in E. injection E as E1 E2. rewrite E1, E2. apply IH.
Qed.

(** ** Fractals: times, highs and lows *)
Notation thl := time_high_low.
Notation bt := (by_f thl).
Lemma thl_inv c d : bt c d -> c_time c = c_time d /\ c_high c = c_high d /\ c_low c = c_low d.
Proof. unfold by_f, time_high_low. intros E. injection E. auto. Qed.
Lemma index_by {A} l m i (k g : candle f64 -> go A) : Forall2 bt l m -> (forall c d, bt c d -> k c = g d) -> bind (index l i) k = bind (index m i) g.
Proof.
  intros H K. pose proof (f2_index _ l m i H) as R. destruct (index l i), (index m i); cbn [grel] in R; try contradiction; [apply K; exact R|now subst].
Qed.
Lemma scan_by ft c d : bt c d -> forall l m, Forall2 bt l m -> forall n, @scan_right f64 f64_num ft c l n = scan_right ft d m n.
Proof.
  intros E l m H. induction H as [|x y l m K H IH]; intros n; [reflexivity|]. cbn [scan_right].
  destruct (thl_inv _ _ E) as (_ & E1 & E2). destruct (thl_inv _ _ K) as (_ & K1 & K2). rewrite E1, E2, K1, K2, !IH. reflexivity.
Qed.
Lemma left_by ft a b c d : bt a b -> bt c d -> @left_ok f64 f64_num ft a c = left_ok ft b d.
Proof. intros E K. destruct (thl_inv _ _ E) as (_ & E1 & E2). destruct (thl_inv _ _ K) as (_ & K1 & K2). unfold left_ok. now rewrite E1, E2, K1, K2. Qed.
Lemma find_fractal_by l m i ft : Forall2 bt l m -> @find_fractal f64 f64_num l i ft = find_fractal m i ft.
Proof.
  intros H. unfold find_fractal. apply index_by; [exact H|]. intros c d E. apply index_by; [exact H|]. intros c0 d0 E0.
  rewrite (left_by ft c d c0 d0 E E0). destruct (thl_inv _ _ E) as (-> & -> & ->). destruct (negb _); [reflexivity|]. apply index_by; [exact H|]. intros c1 d1 E1.
  rewrite (left_by ft c d c1 d1 E E1). destruct (negb _); [reflexivity|]. rewrite (scan_by ft c d E (skipn (Z.to_nat (i + 3)) l) (skipn (Z.to_nat (i + 3)) m)); [reflexivity|]. now apply f2_skipn.
Qed.
Lemma fractals_by l m : map thl l = map thl m -> @william_fractals f64 f64_num l = william_fractals m.
Proof.
  rewrite by_map. intros H. unfold william_fractals. rewrite (f2_len _ _ _ H). destruct (_ <? _); [reflexivity|].
  generalize (Z.to_nat (zlen m - 5 + 1)). intros k. generalize 0. induction k as [|k IH]; intros i; [reflexivity|]. cbn [wf_loop]. unfold find_fractals.
  rewrite !(find_fractal_by l m i _ H), IH. reflexivity.
Qed.

(** ** GetMinInterval: times *)
Lemma min_by (l m : list (candle f64)) : map (@c_time f64) l = map (@c_time f64) m -> get_min_interval l = get_min_interval m.
Proof.
  rewrite by_map. intros H. unfold get_min_interval, by_f in *. destruct H as [|x y l m E H]; [reflexivity|]. rewrite E. do 2 f_equal. clear E.
  generalize (c_time y) f64_maxfloat. clear x y. induction H as [|x y l m E H IH]; intros t a; [reflexivity|]. cbn [min_diff]. rewrite E. apply IH.
Qed.

(** ** ModifyInterval: each field from itself and the times *)
Section Modify.
Variable seen : field -> Prop.
Notation ag := (agree seen).
Definition same_result (r s : candle f64 * option err) : Prop := ag (fst r) (fst s) /\ snd r = snd s.
Lemma fold_ag l m : Forall2 ag l m -> forall x y, (seen Low -> fst (fst x) = fst (fst y)) -> (seen High -> snd (fst x) = snd (fst y)) -> (seen Volume -> snd x = snd y) ->
  let r := fold_left (@cc_step f64 f64_num) l x in let s := fold_left cc_step m y in
  (seen Low -> fst (fst r) = fst (fst s)) /\ (seen High -> snd (fst r) = snd (fst s)) /\ (seen Volume -> snd r = snd s).
Proof.
  intros H. induction H as [|c d l m E H IH]; intros x y A B C; [auto|]. cbn [fold_left]. destruct E as (_ & _ & E1 & E2 & _ & E3).
  destruct x as [[lo hi] ac], y as [[lo' hi'] ac']. cbn [fst snd] in *.
  apply IH; cbn [cc_step fst snd]; intros S.
  - rewrite (A S), (E2 S). reflexivity.
  - rewrite (B S), (E1 S). reflexivity.
  - rewrite (C S), (E3 S). reflexivity.
Qed.
Lemma compress_ag l m i j : Forall2 ag l m -> grel same_result (@compress_candle f64 f64_num l i j) (compress_candle m i j).
Proof.
  intros H. unfold compress_candle. apply (grel_bind ag); [now apply f2_index|]. intros f f' Ef. apply (grel_bind ag); [now apply f2_index|]. intros z z' Ez.
  apply (grel_bind (Forall2 ag)); [now apply f2_reslice|]. intros g g' Eg.
  pose proof (fold_ag g g' Eg (fconst 1 308, fconst (-1) 308, fofZ 0) (fconst 1 308, fconst (-1) 308, fofZ 0) (fun _ => eq_refl) (fun _ => eq_refl) (fun _ => eq_refl)) as K. cbv zeta in K.
  destruct (fold_left cc_step g _) as [[lo hi] ac], (fold_left cc_step g' _) as [[lo' hi'] ac']. cbn [fst snd] in K. destruct K as (K1 & K2 & K3).
  destruct (f64_R5 ac) as [v Ev], (f64_R5 ac') as [v' Ev']. rewrite Ev, Ev'. cbn [grel]. split; [|reflexivity].
  destruct Ef as (T & F1 & _). destruct Ez as (_ & _ & _ & _ & Z4 & _). unfold agree. cbn [fst c_time c_open c_high c_low c_close c_volume]. repeat split; auto.
  intros S. specialize (K3 S). subst ac'. congruence.
Qed.
Definition same_state (r s : (list (candle f64) * Z) + err) : Prop :=
  match r, s with inl (a, i), inl (b, j) => Forall2 ag a b /\ i = j | inr e, inr f => e = f | _, _ => False end.
Lemma loop_ag l m pv n : Forall2 ag l m -> forall r r', Forall2 ag r r' -> forall i s a a', Forall2 ag a a' ->
  grel same_state (@mi_loop f64 f64_num l pv n r i s a) (mi_loop m pv n r' i s a').
Proof.
  intros H r r' R. induction R as [|c d r r' E R IH]; intros i s a a' A; [cbn; auto|]. cbn [mi_loop]. destruct E as [T _]. rewrite T.
  apply (grel_bind eq); [destruct (boundary pv n (c_time d)); reflexivity|]. intros b b' <-. destruct b; [|now apply IH].
  apply (grel_bind same_result); [now apply compress_ag|]. intros [x e] [y f] [Exy Eef]. cbn [fst snd] in *. subst f. destruct e; [reflexivity|].
  apply IH. apply Forall2_app; [exact A|]. constructor; [exact Exy|constructor].
Qed.
Lemma first_ag tz n l m : Forall2 ag l m -> forall i, @first_index_from f64 tz n l i = first_index_from tz n m i.
Proof. intros H. induction H as [|c d l m [T _] H IH]; intros i; [reflexivity|]. cbn [first_index_from]. rewrite T. destruct (aligned _ _ _); [reflexivity|apply IH]. Qed.
Lemma modify_ag tz l m n : Forall2 ag l m ->
  alike (fun r s => Forall2 ag (fst r) (fst s) /\ snd r = snd s) (@modify_interval f64 f64_num tz l n) (modify_interval tz m n).
Proof.
  intros H. change (grel (fun r s : list (candle f64) * option err => Forall2 ag (fst r) (fst s) /\ snd r = snd s) (modify_interval tz l n) (modify_interval tz m n)).
  unfold modify_interval. rewrite (f2_len _ _ _ H). destruct (_ =? 1); [cbn; auto|].
  apply (grel_bind ag); [now apply f2_index|]. intros c1 d1 [T1 _]. apply (grel_bind ag); [now apply f2_index|]. intros c0 d0 [T0 _]. rewrite T1, T0.
  apply (grel_bind eq); [destruct (idiv _ _); reflexivity|]. intros q q' <-. destruct (_ && _); [cbn; auto|].
  apply (grel_bind eq); [destruct (imod _ _); reflexivity|]. intros w w' <-. destruct (negb _); [cbn; auto|].
  unfold find_first_index. rewrite (first_ag tz n l m H 0). destruct (first_index_from tz n m 0) as [i [e|]]; [cbn; auto|].
  apply (grel_bind ag); [now apply f2_index|]. intros c d [T _]. rewrite T. apply (grel_bind (Forall2 ag)); [now apply f2_reslice|]. intros r r' R.
  apply (grel_bind same_state); [apply loop_ag; auto|]. intros [[a x]|e] [[b y]|f] S; cbn [same_state] in S; try contradiction; [|subst; cbn; auto].
  destruct S as [S <-]. apply (grel_bind same_result); [now apply compress_ag|]. intros [p e] [p' f] [Ep Ee]. cbn [fst snd] in *. subst f.
  destruct e; cbn; [auto|]. split; [|reflexivity]. apply Forall2_app; [exact S|]. constructor; [exact Ep|constructor].
Qed.
End Modify.
