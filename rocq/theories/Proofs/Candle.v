(** ModifyInterval as grouping plus aggregation. *)
From Coq Require Import Reals Lra.
From Flocq Require Import Core BinarySingleNaN.
From Verif Require Import Go.Outcome Go.Int64 Go.Slice Go.Float64 Go.FloatOrder Go.FloatReal Go.Text Go.Num
  Model.Candle Spec.CandleSpec Proofs.Lists Proofs.RoundTrip.
Open Scope list_scope.
Open Scope Z_scope.

(** ** Grouping *)
Section Grp.
Context {A : Type}.
Variable bd : A -> bool.

Fixpoint grp (cur rest : list A) : list (list A) :=
  match rest with
  | [] => [cur]
  | v :: r => if bd v then cur :: grp [v] r else grp (cur ++ [v]) r
  end.

Lemma grp_concat cur rest : List.concat (grp cur rest) = cur ++ rest.
Proof.
  revert cur. induction rest as [|v r IH]; intros cur; simpl; [reflexivity|].
  destruct (bd v); simpl; rewrite IH; [reflexivity|]. now rewrite <- app_assoc.
Qed.
Lemma grp_nonempty cur rest : cur <> [] -> Forall (fun g => g <> []) (grp cur rest).
Proof.
  revert cur. induction rest as [|v r IH]; intros cur H; simpl; [auto|].
  destruct (bd v).
  - constructor; [assumption|]. apply IH. discriminate.
  - apply IH. now destruct cur.
Qed.
Lemma grp_not_nil cur rest : grp cur rest <> [].
Proof. revert cur. induction rest as [|v r IH]; intros cur; simpl; [discriminate|]. destruct (bd v); [discriminate|apply IH]. Qed.
Lemma grp_inner h t rest : Forall (fun c => bd c = false) t ->
  forall g, In g (grp (h :: t) rest) -> Forall (fun c => bd c = false) (tl g).
Proof.
  revert h t. induction rest as [|v r IH]; intros h t H g; simpl.
  - intros [<-|[]]. assumption.
  - destruct (bd v) eqn:E.
    + intros [<-|Hg]; [assumption|]. apply (IH v []) in Hg; [assumption|constructor].
    + apply (IH h (t ++ [v])). apply Forall_app. auto.
Qed.
Lemma grp_hd h t rest : exists r gs, grp (h :: t) rest = (h :: r) :: gs.
Proof.
  revert t. induction rest as [|v r IH]; intros t; simpl; [eauto|].
  destruct (bd v); [eauto|]. apply (IH (t ++ [v])).
Qed.
Lemma grp_heads cur rest : forall g h r, In g (tl (grp cur rest)) -> g = h :: r -> bd h = true.
Proof.
  revert cur. induction rest as [|v r IH]; intros cur g h t; simpl; [intros []|].
  destruct (bd v) eqn:E; simpl; [|apply IH].
  intros Hg. destruct (grp_hd v [] r) as (r' & gs & Hr). specialize (IH [v]). rewrite Hr in *.
  destruct Hg as [<-|Hg].
  - intros H. injection H as <- _. assumption.
  - simpl in IH. intros H. eapply IH; eauto.
Qed.

(** Extending the input only changes the last group. *)
Lemma grp_app cur r1 r2 : exists done last more,
  grp cur r1 = done ++ [last] /\ grp cur (r1 ++ r2) = done ++ more /\ more = grp last r2.
Proof.
  revert cur. induction r1 as [|v r IH]; intros cur; simpl.
  - exists [], cur, (grp cur r2). auto.
  - destruct (bd v).
    + destruct (IH [v]) as (d & l & m & H1 & H2 & H3). exists (cur :: d), l, m. simpl. now rewrite H1, H2.
    + apply IH.
Qed.
End Grp.

(** ** Aggregation *)
Section Agg.
Context {F : Type} {N : GoFloat F}.
Notation candle := (candle F).

Definition get5 (x : F) : F := match fround5 x with Some y => y | None => x end.
Definition agg_low (g : list candle) : F :=
  fold_left (fun l v => if flt (c_low v) l then c_low v else l) g (fconst 1 308).
Definition agg_high (g : list candle) : F :=
  fold_left (fun h v => if flt h (c_high v) then c_high v else h) g (fconst (-1) 308).
Definition agg_vol (g : list candle) : F := fold_left fadd (map c_volume g) (fofZ 0).

Definition agg (g : list candle) : candle :=
  match g with
  | [] => zero_candle
  | f :: r => mkCandle (c_time f) (c_open f) (agg_high g) (agg_low g) (c_close (last r f)) (get5 (agg_vol g))
  end.

Lemma cc_fold g l h a :
  fold_left cc_step g (l, h, a) =
  (fold_left (fun l v => if flt (c_low v) l then c_low v else l) g l,
   fold_left (fun h v => if flt h (c_high v) then c_high v else h) g h,
   fold_left fadd (map c_volume g) a).
Proof. revert l h a. induction g as [|v g IH]; intros; simpl; [reflexivity|]. now rewrite IH. Qed.

Hypothesis R5 : forall x : F, exists y, fround5 x = Some y.

Lemma last_app_nonempty {B} (f : B) r d : r <> [] -> last r d = last r f.
Proof. induction r as [|x r IH]; [congruence|]. intros _. destruct r; [reflexivity|]. simpl in *. apply IH. discriminate. Qed.

Lemma compress_ok pre g post : g <> [] ->
  compress_candle (pre ++ g ++ post) (zlen pre) (zlen pre + zlen g) = Ret (agg g, None).
Proof.
  intros Hg. destruct g as [|f r]; [congruence|].
  unfold compress_candle.
  assert (index (pre ++ (f :: r) ++ post) (zlen pre) = Ret f) as ->.
  { apply index_of_nat. rewrite nth_error_app2 by lia. rewrite Nat.sub_diag. reflexivity. }
  rewrite bind_ret.
  assert (index (pre ++ (f :: r) ++ post) (zlen pre + zlen (f :: r) - 1) = Ret (last r f)) as ->.
  { destruct (exists_last (l := f :: r)) as (r' & l & E); [discriminate|].
    assert (last r f = l) as ->.
    { assert (last (f :: r) f = l) as E2 by (rewrite E; apply last_last).
      simpl in E2. destruct r; [exact E2|]. exact E2. }
    rewrite E. rewrite zlen_app. unfold zlen at 3. simpl List.length.
    replace (zlen pre + (zlen r' + Z.of_nat 1) - 1) with (Z.of_nat (List.length pre + List.length r'))
      by (unfold zlen; lia).
    apply index_of_nat. rewrite nth_error_app2 by lia.
    replace (List.length pre + List.length r' - List.length pre)%nat with (List.length r') by lia.
    rewrite <- app_assoc, nth_error_app2 by lia. rewrite Nat.sub_diag. reflexivity. }
  rewrite bind_ret.
  assert (reslice (pre ++ (f :: r) ++ post) (zlen pre) (zlen pre + zlen (f :: r)) = Ret (f :: r)) as ->.
  { rewrite reslice_ok.
    - f_equal. replace (zlen pre + zlen (f :: r) - zlen pre) with (zlen (f :: r)) by lia.
      unfold zlen. rewrite !Nat2Z.id. rewrite skipn_app_exact. apply firstn_app_exact.
    - apply zlen_nonneg.
    - pose proof (zlen_nonneg (f :: r)). lia.
    - rewrite !zlen_app. pose proof (zlen_nonneg post). lia. }
  rewrite bind_ret, cc_fold.
  destruct (R5 (fold_left fadd (map c_volume (f :: r)) (fofZ 0))) as [y Hy].
  rewrite Hy. unfold agg, get5, agg_vol. rewrite Hy. reflexivity.
Qed.

(** The boundary test when the interval is not 0. *)
Definition bdb (pivot n : Z) (c : candle) : bool :=
  Z.rem (f2i (f64_abs (i2f (Z.quot (wrap64 (c_time c - pivot)) 60)))) n =? 0.

Lemma quot60_wrap z : wrap64 (Z.quot (wrap64 z) 60) = Z.quot (wrap64 z) 60.
Proof.
  apply wrap64_id. pose proof (wrap64_range z) as H. unfold in_int64, int64_min, int64_max in *.
  assert (Z.abs (Z.quot (wrap64 z) 60) <= 2 ^ 63 / 60).
  { rewrite <- Z.quot_abs by lia. change (Z.abs 60) with 60. rewrite Z.quot_div_nonneg by lia.
    apply Z.div_le_mono; lia. }
  change (2 ^ 63 / 60) with 153722867280912930 in *.
  set (q := Z.quot _ _) in *. clearbody q. lia.
Qed.

Lemma boundary_ok pivot n c : n <> 0 -> boundary pivot n (c_time c) = Ret (bdb pivot n c).
Proof.
  intros H. unfold boundary, bdb, idiv, imod.
  destruct (Z.eqb_spec n 0); [contradiction|]. simpl. rewrite quot60_wrap. reflexivity.
Qed.

Definition finish (cs : list candle) (lr : go ((list candle * Z) + err)) : go (list candle * option err) :=
  lr <- lr ;;
  match lr with
  | inr e => Ret ([], Some e)
  | inl (acc, start') =>
      '(c, e) <- compress_candle cs start' (zlen cs) ;;
      match e with
      | Some e' => Ret ([], Some e')
      | None => Ret (acc ++ [c], None)
      end
  end.

Lemma mi_loop_ok pivot n pre cur rest acc : cur <> [] -> rest = [] \/ n <> 0 ->
  finish (pre ++ cur ++ rest)
    (mi_loop (pre ++ cur ++ rest) pivot n rest (zlen pre + zlen cur) (zlen pre) acc)
  = Ret (acc ++ map agg (grp (bdb pivot n) cur rest), None).
Proof.
  revert pre cur acc. induction rest as [|v r IH]; intros pre cur acc Hc Hn.
  - simpl mi_loop. unfold finish. rewrite bind_ret. rewrite !zlen_app.
    change (zlen (@nil candle)) with 0. rewrite Z.add_0_r. rewrite compress_ok by assumption. reflexivity.
  - destruct Hn as [Hn|Hn]; [discriminate|].
    cbn [mi_loop]. rewrite (boundary_ok pivot n v) by assumption. rewrite bind_ret.
    simpl grp. destruct (bdb pivot n v) eqn:E.
    + rewrite compress_ok by assumption. rewrite bind_ret.
      specialize (IH (pre ++ cur) [v] (acc ++ [agg cur]) ltac:(discriminate) (or_intror Hn)).
      rewrite <- !app_assoc in IH. change ([v] ++ r) with (v :: r) in IH.
      rewrite zlen_app in IH. change (zlen [v]) with 1 in IH. rewrite IH. simpl. reflexivity.
    + specialize (IH pre (cur ++ [v]) acc ltac:(destruct cur; discriminate) (or_intror Hn)).
      rewrite <- !app_assoc in IH. change ([v] ++ r) with (v :: r) in IH.
      rewrite zlen_app in IH. change (zlen [v]) with 1 in IH. rewrite Z.add_assoc in IH. exact IH.
Qed.

Lemma mi_loop_zero pivot pre cur v r acc :
  finish (pre ++ cur ++ v :: r)
    (mi_loop (pre ++ cur ++ v :: r) pivot 0 (v :: r) (zlen pre + zlen cur) (zlen pre) acc)
  = Panic PDivZero.
Proof. cbn [mi_loop]. unfold boundary, idiv, imod. simpl. reflexivity. Qed.

(** The first aligned candle. *)
Lemma first_index_found tz n sk p rest i :
  Forall (fun c : candle => aligned tz n (c_time c) = false) sk -> aligned tz n (c_time p) = true ->
  first_index_from tz n (sk ++ p :: rest) i = (i + zlen sk, None).
Proof.
  intros H Hp. revert i. induction H as [|c sk Hc H IH]; intros i.
  - simpl. rewrite Hp. rewrite zlen_nil. f_equal. lia.
  - simpl. rewrite Hc, IH. rewrite zlen_cons. f_equal. lia.
Qed.
Lemma first_index_none tz n (cs : list candle) i :
  Forall (fun c => aligned tz n (c_time c) = false) cs ->
  first_index_from tz n cs i = (-1, Some no_first).
Proof. intros H. revert i. induction H as [|c cs Hc H IH]; intros i; simpl; [reflexivity|]. now rewrite Hc. Qed.
Lemma split_aligned tz n (cs : list candle) :
  Forall (fun c => aligned tz n (c_time c) = false) cs \/
  exists sk p rest, cs = sk ++ p :: rest /\ Forall (fun c => aligned tz n (c_time c) = false) sk /\
    aligned tz n (c_time p) = true.
Proof.
  induction cs as [|c cs IH]; [auto|].
  destruct (aligned tz n (c_time c)) eqn:E.
  - right. exists [], c, cs. auto.
  - destruct IH as [IH|(sk & p & rest & -> & H1 & H2)]; [auto|].
    right. exists (c :: sk), p, rest. auto.
Qed.

Definition first_gap (cs : list candle) : Z :=
  match cs with a :: b :: _ => Z.quot (wrap64 (c_time b - c_time a)) 60 | _ => 0 end.

(** The call on two or more candles. *)
Lemma modify_interval_two tz a b cs n :
  modify_interval tz (a :: b :: cs) n =
  let delta := first_gap (a :: b :: cs) in
  if negb (delta =? 1) && (n =? 1) then Ret ([], Some mi_no1)
  else r <- imod n delta ;;
    if negb (r =? 0) then Ret ([], Some (mi_conflict n delta))
    else match find_first_index tz (a :: b :: cs) n with
         | (_, Some e) => Ret ([], Some (EWrap mi_op e))
         | (start, None) =>
             p <- index (a :: b :: cs) start ;;
             rest <- reslice (a :: b :: cs) (start + 1) (zlen (a :: b :: cs)) ;;
             finish (a :: b :: cs) (mi_loop (a :: b :: cs) (c_time p) n rest (start + 1) start [])
         end.
Proof.
  unfold modify_interval.
  destruct (Z.eqb_spec (zlen (a :: b :: cs)) 1) as [E|E].
  { unfold zlen in E. simpl List.length in E. lia. }
  change (index (a :: b :: cs) 1) with (Ret b). change (index (a :: b :: cs) 0) with (Ret a).
  rewrite !bind_ret. unfold idiv. simpl (60 =? 0). cbv iota. rewrite bind_ret, quot60_wrap.
  reflexivity.
Qed.

Lemma mi_main tz cs n sk p rest : cs = sk ++ p :: rest -> 2 <= zlen cs ->
  Forall (fun c => aligned tz n (c_time c) = false) sk -> aligned tz n (c_time p) = true ->
  first_gap cs <> 0 -> (first_gap cs = 1 \/ n <> 1) -> Z.rem n (first_gap cs) = 0 ->
  modify_interval tz cs n =
    match rest with
    | _ :: _ => if n =? 0 then Panic PDivZero
                else Ret (map agg (grp (bdb (c_time p) n) [p] rest), None)
    | [] => Ret ([agg [p]], None)
    end.
Proof.
  intros Hcs Hlen Hsk Hp Hg H1 Hr.
  destruct cs as [|a [|b cs]]; [unfold zlen in Hlen; simpl in Hlen; lia|unfold zlen in Hlen; simpl in Hlen; lia|].
  rewrite modify_interval_two. cbv zeta. set (cs' := a :: b :: cs) in *. set (delta := first_gap cs') in *.
  assert (negb (delta =? 1) && (n =? 1) = false) as ->.
  { destruct (Z.eqb_spec delta 1), (Z.eqb_spec n 1); simpl; auto. tauto. }
  unfold imod. destruct (Z.eqb_spec delta 0); [contradiction|]. rewrite bind_ret, Hr.
  simpl (negb (0 =? 0)). cbv iota.
  unfold find_first_index. rewrite Hcs. rewrite first_index_found by assumption. rewrite Z.add_0_l.
  assert (index (sk ++ p :: rest) (zlen sk) = Ret p) as ->.
  { apply index_of_nat. rewrite nth_error_app2 by lia. rewrite Nat.sub_diag. reflexivity. }
  rewrite bind_ret.
  assert (reslice (sk ++ p :: rest) (zlen sk + 1) (zlen (sk ++ p :: rest)) = Ret rest) as ->.
  { rewrite reslice_ok; rewrite ?zlen_app, ?zlen_cons; pose proof (zlen_nonneg sk); pose proof (zlen_nonneg rest); try lia.
    f_equal. replace (Z.to_nat (zlen sk + 1)) with (List.length (sk ++ [p]))
      by (rewrite app_length; unfold zlen; simpl; lia).
    replace (sk ++ p :: rest) with ((sk ++ [p]) ++ rest) by (rewrite <- app_assoc; reflexivity).
    rewrite skipn_app_exact. replace (Z.to_nat _) with (List.length rest) by (unfold zlen in *; lia).
    apply firstn_all. }
  rewrite bind_ret.
  destruct rest as [|v r].
  - pose proof (mi_loop_ok (c_time p) n sk [p] [] [] ltac:(discriminate) (or_introl eq_refl)) as H.
    simpl app in H at 1. exact H.
  - destruct (Z.eqb_spec n 0) as [->|Hn].
    + exact (mi_loop_zero (c_time p) sk [p] v r []).
    + exact (mi_loop_ok (c_time p) n sk [p] (v :: r) [] ltac:(discriminate) (or_intror Hn)).
Qed.

(** When the call succeeds. *)
Lemma mi_success tz cs n out : 2 <= zlen cs -> modify_interval tz cs n = Ret (out, None) ->
  exists sk p rest, cs = sk ++ p :: rest /\
    Forall (fun c => aligned tz n (c_time c) = false) sk /\ aligned tz n (c_time p) = true /\
    first_gap cs <> 0 /\ (first_gap cs = 1 \/ n <> 1) /\ Z.rem n (first_gap cs) = 0 /\
    (rest = [] \/ n <> 0) /\
    out = map agg (grp (bdb (c_time p) n) [p] rest).
Proof.
  intros Hlen H.
  assert (first_gap cs <> 0 /\ (first_gap cs = 1 \/ n <> 1) /\ Z.rem n (first_gap cs) = 0) as (G1 & G2 & G3).
  { destruct cs as [|a [|b cs]]; [unfold zlen in Hlen; simpl in Hlen; lia|unfold zlen in Hlen; simpl in Hlen; lia|].
    rewrite modify_interval_two in H. cbv zeta in H. set (delta := first_gap _) in *.
    destruct (Z.eqb_spec delta 1) as [D|D], (Z.eqb_spec n 1) as [E|E]; simpl in H; try discriminate;
      unfold imod in H; destruct (Z.eqb_spec delta 0) as [D0|D0]; try discriminate;
      rewrite bind_ret in H; destruct (Z.eqb_spec (Z.rem n delta) 0) as [R|R]; try discriminate; auto. }
  destruct (split_aligned tz n cs) as [Hno|(sk & p & rest & Hcs & Hsk & Hp)].
  - exfalso. destruct cs as [|a [|b cs]]; [unfold zlen in Hlen; simpl in Hlen; lia|unfold zlen in Hlen; simpl in Hlen; lia|].
    rewrite modify_interval_two in H. cbv zeta in H. unfold find_first_index in H.
    rewrite first_index_none in H by assumption. set (delta := first_gap _) in *.
    unfold imod in H. destruct (negb (delta =? 1) && (n =? 1)); [discriminate|].
    destruct (delta =? 0); [discriminate|]. rewrite bind_ret in H. destruct (negb _); discriminate.
  - exists sk, p, rest. rewrite (mi_main tz cs n sk p rest Hcs Hlen Hsk Hp G1 G2 G3) in H.
    repeat (split; [assumption|]). destruct rest as [|v r].
    + split; [auto|]. injection H as <-. reflexivity.
    + destruct (Z.eqb_spec n 0) as [E|E]; [discriminate|]. split; [auto|]. injection H as <-. reflexivity.
Qed.

End Agg.
