(** Proofs about indicators/williams_fractals.go (C61-C63). *)
From Coq Require Import Sorted.
From Flocq Require Import BinarySingleNaN.
From Verif Require Import Go.Outcome Go.Int64 Go.Slice Go.Sort Go.Float64 Go.FloatOrder Go.Num
  Model.Candle Model.Indicators Spec.IndicatorSpec.
Open Scope list_scope.
Open Scope Z_scope.
Local Notation length := List.length.

Definition report (ft : ftype) (c : candle f64) : fractal f64 := mkFractal (c_time c) (price_of ft c) ft.

Lemma scan_step ft (third c : candle f64) rest count :
  scan_right ft third (c :: rest) count =
  if count =? 2 then None
  else if below ft (price_of ft third) (price_of ft c) then Some (right_err ft)
  else if below ft (price_of ft c) (price_of ft third) then scan_right ft third rest (count + 1)
  else scan_right ft third rest count.
Proof. destruct ft; reflexivity. Qed.

Lemma scan_none ft (third : candle f64) rest count : 0 <= count <= 2 ->
  scan_right ft third rest count = None <->
  forall pre c post, map (price_of ft) rest = pre ++ c :: post -> below ft (price_of ft third) c = true ->
    2 <= count + Z.of_nat (length (filter (fun d => below ft d (price_of ft third)) pre)).
Proof.
  revert count. induction rest as [|c rest IH]; intros count H.
  - split; [|reflexivity]. intros _ [|? ?] c post E; discriminate.
  - rewrite scan_step. destruct (Z.eqb_spec count 2) as [->|Nc].
    { split; [|reflexivity]. intros _ pre d post _ _. lia. }
    destruct (below ft (price_of ft third) (price_of ft c)) eqn:B1.
    { split; [discriminate|]. intros K. specialize (K [] (price_of ft c) (map (price_of ft) rest) eq_refl B1). cbn in K. lia. }
    destruct (below ft (price_of ft c) (price_of ft third)) eqn:B2.
    + rewrite IH by lia. split; intros K.
      * intros [|p pre] d post E Hd; cbn [map] in E.
        -- injection E as <- _. congruence.
        -- injection E as <- E. specialize (K pre d post E Hd). cbn [filter]. rewrite B2. cbn [List.length]. lia.
      * intros pre d post E Hd. specialize (K (price_of ft c :: pre) d post). cbn [map] in K. rewrite E in K.
        specialize (K eq_refl Hd). cbn [filter] in K. rewrite B2 in K. cbn [List.length] in K. lia.
    + rewrite IH by lia. split; intros K.
      * intros [|p pre] d post E Hd; cbn [map] in E.
        -- injection E as <- _. congruence.
        -- injection E as <- E. specialize (K pre d post E Hd). cbn [filter]. now rewrite B2.
      * intros pre d post E Hd. specialize (K (price_of ft c :: pre) d post). cbn [map] in K. rewrite E in K.
        specialize (K eq_refl Hd). cbn [filter] in K. now rewrite B2 in K.
Qed.

Lemma split3 {A} (l : list A) i : (i + 2 < length l)%nat ->
  exists before a b x right, l = before ++ a :: b :: x :: right /\ length before = i.
Proof.
  intros H. exists (firstn i l).
  assert (length (skipn i l) = length l - i)%nat as L by apply skipn_length.
  destruct (skipn i l) as [|a [|b [|x right]]] eqn:E; cbn [List.length] in L; try lia.
  exists a, b, x, right. split; [|rewrite firstn_length; lia]. now rewrite <- E, firstn_skipn.
Qed.
Lemma nth_mid {A} (before rest : list A) k : nth_error (before ++ rest) (length before + k) = nth_error rest k.
Proof. rewrite nth_error_app2 by lia. f_equal. lia. Qed.

Lemma find_split ft (before : list (candle f64)) a b x right :
  find_fractal (before ++ a :: b :: x :: right) (Z.of_nat (length before)) ft =
  Ret (report ft x, if left_ok ft x a then if left_ok ft x b then scan_right ft x right 0 else Some (left_err ft) else Some (left_err ft)).
Proof.
  unfold find_fractal.
  replace (Z.of_nat (length before) + 2) with (Z.of_nat (length before + 2)) by lia.
  rewrite (index_of_nat _ (length before + 2) x) by (now rewrite nth_mid). cbn [bind].
  rewrite (index_of_nat _ (length before) a) by (rewrite <- (Nat.add_0_r (length before)); now rewrite nth_mid). cbn [bind].
  destruct (left_ok ft x a); cbn [negb]; [|destruct ft; reflexivity].
  replace (Z.of_nat (length before) + 1) with (Z.of_nat (length before + 1)) by lia.
  rewrite (index_of_nat _ (length before + 1) b) by (now rewrite nth_mid). cbn [bind].
  destruct (left_ok ft x b); cbn [negb]; [|destruct ft; reflexivity].
  replace (skipn (Z.to_nat (Z.of_nat (length before) + 3)) (before ++ a :: b :: x :: right)) with right; [destruct ft; reflexivity|].
  replace (Z.to_nat (Z.of_nat (length before) + 3)) with (length before + 3)%nat by lia.
  rewrite skipn_app, skipn_all2 by lia. replace (length before + 3 - length before)%nat with 3%nat by lia. reflexivity.
Qed.

(** Does the code report kind [ft] for index [i]? *)
Definition found (cs : list (candle f64)) (i : nat) (ft : ftype) : bool :=
  match find_fractal cs (Z.of_nat i - 2) ft with Ret (_, None) => true | _ => false end.
Definition keys_at (cs : list (candle f64)) (i : nat) : list (nat * ftype) :=
  filter (fun k => found cs (fst k) (snd k)) [(i, FractalUp); (i, FractalDown)].
Definition show (cs : list (candle f64)) (k : nat * ftype) : list (fractal f64) :=
  match nth_error cs (fst k) with Some c => [report (snd k) c] | None => [] end.
Definition all_keys (cs : list (candle f64)) : list (nat * ftype) :=
  flat_map (keys_at cs) (seq 2 (length cs - 4)).

Lemma find_fractals_keys cs i : (2 <= i)%nat -> (i < length cs)%nat ->
  find_fractals cs (Z.of_nat i - 2) = Ret (flat_map (show cs) (keys_at cs i)).
Proof.
  intros H2 H. destruct (split3 cs (i - 2) ltac:(lia)) as (before & a & b & x & right & E & L).
  unfold find_fractals, keys_at, found. cbn [filter fst snd].
  replace (Z.of_nat i - 2) with (Z.of_nat (length before)) by lia. rewrite E, !find_split. cbn [bind].
  assert (nth_error cs i = Some x) as Hx by (rewrite E; replace i with (length before + 2)%nat by lia; now rewrite nth_mid).
  rewrite <- E.
  assert (forall t1 p1 k1 t2 p2 k2, slice_stable (fun u v => fr_time u <? fr_time v) [mkFractal t1 p1 k1] = [mkFractal t1 p1 k1] /\
    (t1 = t2 -> slice_stable (fun u v : fractal f64 => fr_time u <? fr_time v) [mkFractal t1 p1 k1; mkFractal t2 p2 k2] = [mkFractal t1 p1 k1; mkFractal t2 p2 k2])) as SS.
  { intros t1 p1 k1 t2 p2 k2. split; [reflexivity|]. intros ->. unfold slice_stable, stable_func. cbn. rewrite Z.ltb_irrefl. reflexivity. }
  destruct (if left_ok FractalUp x a then _ else _) as [e1|], (if left_ok FractalDown x a then _ else _) as [e2|];
    cbn [app flat_map]; unfold show; cbn [fst snd]; rewrite ?Hx; cbn [app]; unfold report.
  - reflexivity.
  - reflexivity.
  - reflexivity.
  - f_equal. apply SS. reflexivity.
Qed.

Lemma wf_keys cs : william_fractals cs = Ret (flat_map (show cs) (all_keys cs)).
Proof.
  unfold william_fractals, all_keys. destruct (Z.ltb_spec (zlen cs) 5) as [L|L]; unfold zlen in L.
  - replace (length cs - 4)%nat with 0%nat by lia. reflexivity.
  - replace (Z.to_nat (zlen cs - 5 + 1)) with (length cs - 4)%nat by (unfold zlen; lia).
    assert (forall k i, (i + k <= length cs)%nat -> (2 <= i)%nat ->
      wf_loop cs (Z.of_nat i - 2) k = Ret (flat_map (show cs) (flat_map (keys_at cs) (seq i k)))) as K.
    { induction k as [|k IH]; intros i Hi H2; [reflexivity|]. cbn [wf_loop seq flat_map].
      rewrite find_fractals_keys by lia. cbn [bind]. replace (Z.of_nat i - 2 + 1) with (Z.of_nat (S i) - 2) by lia.
      rewrite IH by lia. cbn [bind]. now rewrite flat_map_app. }
    exact (K (length cs - 4)%nat 2%nat ltac:(lia) ltac:(lia)).
Qed.

Lemma keys_sorted cs : StronglySorted key_lt (all_keys cs).
Proof.
  unfold all_keys. generalize (length cs - 4)%nat. intros k. generalize 2%nat. induction k as [|k IH]; intros i; [constructor|].
  cbn [seq flat_map]. 
  assert (forall j, In j (flat_map (keys_at cs) (seq (S i) k)) -> (i < fst j)%nat) as Hj.
  { intros j Hj. apply in_flat_map in Hj. destruct Hj as (m & Hm & Hj). apply in_seq in Hm. unfold keys_at in Hj. apply filter_In in Hj.
    destruct Hj as [[<-|[<-|[]]] _]; cbn [fst]; lia. }
  assert (Forall (fun j => (i < fst j)%nat) (flat_map (keys_at cs) (seq (S i) k))) as Hf by (now apply Forall_forall).
  unfold keys_at at 1. cbn [filter fst snd]. 
  assert (forall ft, Forall (key_lt (i, ft)) (flat_map (keys_at cs) (seq (S i) k))) as Hk.
  { intros ft. eapply Forall_impl; [|exact Hf]. intros j K. left. exact K. }
  destruct (found cs i FractalUp), (found cs i FractalDown); cbn [app]; try (apply IH).
  - apply SSorted_cons; [apply SSorted_cons; [apply IH|apply Hk]|]. apply Forall_cons; [right; auto|apply Hk].
  - apply SSorted_cons; [apply IH|apply Hk].
  - apply SSorted_cons; [apply IH|apply Hk].
Qed.
Lemma in_all_keys cs i ft : In (i, ft) (all_keys cs) <-> (2 <= i /\ i + 2 < length cs)%nat /\ found cs i ft = true.
Proof.
  unfold all_keys, keys_at. rewrite in_flat_map. split.
  - intros (m & Hm & H). apply in_seq in Hm. apply filter_In in H. destruct H as [H Hf].
    assert (m = i) as -> by (destruct H as [H|[H|[]]]; injection H as -> _; reflexivity). cbn [fst snd] in Hf. split; [lia|assumption].
  - intros [H Hf]. exists i. split; [apply in_seq; lia|]. apply filter_In. split; [destruct ft; cbn; auto|assumption].
Qed.

(** ** [found] is the pattern *)
Lemma left_ok_below ft (x a : candle f64) : is_nan (price_of ft x) = false -> is_nan (price_of ft a) = false ->
  left_ok ft x a = below ft (price_of ft a) (price_of ft x).
Proof.
  intros Nx Na. destruct ft; cbn [left_ok below price_of fle f64_num] in *; unfold gt64;
    rewrite f64_le_key, f64_lt_key by assumption.
  - destruct (Z.leb_spec (key (c_high x)) (key (c_high a))), (Z.ltb_spec (key (c_high a)) (key (c_high x))); try reflexivity; lia.
  - destruct (Z.leb_spec (key (c_low a)) (key (c_low x))), (Z.ltb_spec (key (c_low x)) (key (c_low a))); try reflexivity; lia.
Qed.
Lemma found_split ft (before : list (candle f64)) a b x right :
  Forall (fun c => is_nan (price_of ft c) = false) (before ++ a :: b :: x :: right) ->
  found (before ++ a :: b :: x :: right) (length before + 2) ft = true <->
  peak (below ft) (price_of ft a) (price_of ft b) (price_of ft x) /\
  clear_right (below ft) (price_of ft x) (map (price_of ft) right).
Proof.
  intros H. apply Forall_app in H. destruct H as [_ H].
  apply List.Forall_cons_iff in H. destruct H as [Na H]. apply List.Forall_cons_iff in H. destruct H as [Nb H].
  apply List.Forall_cons_iff in H. destruct H as [Nx H]. unfold found.
  replace (Z.of_nat (length before + 2) - 2) with (Z.of_nat (length before)) by lia. rewrite find_split.
  rewrite !left_ok_below by assumption. unfold peak.
  pose proof (scan_none ft x right 0 ltac:(lia)) as S.
  destruct (below ft (price_of ft a) (price_of ft x)); [|split; [discriminate|intros [[K _] _]; discriminate]].
  destruct (below ft (price_of ft b) (price_of ft x)); [|split; [discriminate|intros [[_ K] _]; discriminate]].
  unfold clear_right. split.
  - intros K. split; [auto|]. intros pre c post E Hc. assert (scan_right ft x right 0 = None) as Sn by (destruct (scan_right ft x right 0); [discriminate|reflexivity]).
    apply (proj1 S Sn) in E; [lia|assumption].
  - intros [_ K]. rewrite (proj2 S); [reflexivity|]. intros pre c post E Hc. specialize (K pre c post E Hc). lia.
Qed.
Lemma map_split {A B} (f : A -> B) l b1 (a b x : B) right : map f l = b1 ++ a :: b :: x :: right ->
  exists l1 a' b' x' r', l = l1 ++ a' :: b' :: x' :: r' /\ map f l1 = b1 /\ f a' = a /\ f b' = b /\ f x' = x /\ map f r' = right.
Proof.
  intros H. apply map_eq_app in H. destruct H as (l1 & l2 & -> & <- & H).
  destruct l2 as [|a' [|b' [|x' r']]]; try discriminate. injection H as <- <- <- <-. exists l1, a', b', x', r'. auto 10.
Qed.
Lemma found_pattern ft cs i : Forall (fun c => is_nan (price_of ft c) = false) cs -> (2 <= i < length cs)%nat ->
  found cs i ft = true <-> pattern (below ft) (map (price_of ft) cs) i.
Proof.
  intros H Hi. split.
  - intros Hf. destruct (split3 cs (i - 2) ltac:(lia)) as (before & a & b & x & right & -> & L).
    replace i with (length before + 2)%nat in * by lia. apply found_split in Hf; [|assumption]. destruct Hf as [P C].
    exists (map (price_of ft) before), (price_of ft a), (price_of ft b), (price_of ft x), (map (price_of ft) right).
    rewrite map_app. cbn [map]. rewrite map_length. auto.
  - intros (before & a & b & x & right & E & L & P & C). apply map_split in E.
    destruct E as (l1 & a' & b' & x' & r' & -> & <- & <- & <- & <- & <-). rewrite map_length in L. subst i. apply found_split; auto.
Qed.

(** ** Growing series *)
Lemma clear_prefix lt x right more : clear_right lt x (right ++ more) -> clear_right lt x right.
Proof. intros H pre c post E Hc. apply (H pre c (post ++ more)); [|assumption]. rewrite E. now rewrite <- app_assoc. Qed.
Lemma prefix_split {A} (p q s t : list A) : p ++ q = s ++ t -> (length p <= length s)%nat -> exists m, s = p ++ m.
Proof.
  revert s. induction p as [|x p IH]; intros s E L; [exists s; reflexivity|]. destruct s as [|y s]; [cbn in L; lia|].
  injection E as <- E. cbn [List.length] in L. destruct (IH s E ltac:(lia)) as [m ->]. exists m. reflexivity.
Qed.
Lemma confirmed_clear lt x right more : confirmed_right lt x right -> clear_right lt x (right ++ more).
Proof.
  intros (pre & post & -> & H2 & Hf) p c q E Hc. rewrite <- app_assoc in E.
  destruct (Nat.le_gt_cases (length pre) (length p)) as [L|L].
  - destruct (prefix_split _ _ _ _ E L) as [m ->]. rewrite filter_app, app_length. lia.
  - exfalso. destruct (prefix_split p (c :: q) pre (post ++ more)) as [m Em]; [now symmetry|lia|]. subst pre.
    rewrite <- app_assoc in E. apply app_inv_head in E. destruct m as [|c' m]; [rewrite app_nil_r in L; lia|].
    injection E as <- _. apply Forall_app in Hf. destruct Hf as [_ Hf]. apply List.Forall_cons_iff in Hf. destruct Hf as [Hf _]. congruence.
Qed.
Lemma app_split {A} (l more b1 : list A) a b x right : l ++ more = b1 ++ a :: b :: x :: right -> (length b1 + 2 < length l)%nat ->
  exists r', l = b1 ++ a :: b :: x :: r' /\ right = r' ++ more.
Proof.
  intros E L. destruct (prefix_split (b1 ++ [a; b; x]) right l more) as [m Em].
  - rewrite <- app_assoc. now symmetry.
  - rewrite app_length. cbn [List.length]. lia.
  - exists m. subst l. rewrite <- app_assoc. split; [reflexivity|]. rewrite <- !app_assoc in E. apply app_inv_head in E.
    cbn [app] in E. congruence.
Qed.
Lemma pattern_shrinks lt l more i : (i < length l)%nat -> pattern lt (l ++ more) i -> pattern lt l i.
Proof.
  intros L (before & a & b & x & right & E & Hi & P & C). apply app_split in E; [|lia]. destruct E as (r' & -> & ->).
  exists before, a, b, x, r'. split; [reflexivity|]. split; [assumption|]. split; [assumption|]. now apply clear_prefix in C.
Qed.
