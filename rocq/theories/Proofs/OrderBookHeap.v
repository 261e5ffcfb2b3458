(** The order book in memory behaves as the order book over lists, as long as
    its two slices share no memory. *)
From Coq Require Import Lia Arith.
From Verif Require Import Go.Outcome Go.Int64 Go.Slice Go.Sort Go.Float64 Go.FloatReal Go.Num Go.Heap Model.OrderBook Model.OrderBookHeap Spec.HeapSpec Proofs.Heap Proofs.NewBook.
Open Scope list_scope.
Open Scope Z_scope.
Local Notation length := List.length.

Section Sim.
Context {F : Type} {N : GoFloat F}.
Variable spare : nat -> nat.
Implicit Types (h : heap (row F)) (s t : slice) (l : list (row F)).

Lemma find_from_range test l k i : find_from test l k = Some i -> k <= i < k + zlen l.
Proof.
  revert k. induction l as [|r l IH]; intros k H; cbn [find_from] in H; [discriminate|]. rewrite zlen_cons. pose proof (zlen_nonneg l).
  destruct (test r); [injection H as <-; lia|]. apply IH in H. lia.
Qed.
Lemma overwrite_set_nth i (x : row F) l : (i < length l)%nat -> overwrite i [x] l = set_nth i x l.
Proof.
  unfold overwrite. simpl. revert i. induction l as [|y l IH]; intros [|i] H; simpl in *; try lia; [reflexivity|].
  f_equal. rewrite <- IH by lia. reflexivity.
Qed.

(** What one side becomes (Model/OrderBook.v, the matching branches). *)
Definition v_insert (better : F -> F -> bool) (l : list (row F)) (new : row F) : go (list (row F)) :=
  let p := price new in
  match find_from (fun r => feq (price r) p) l 0 with
  | Some i => Ret (set_nth (Z.to_nat i) new l)
  | None =>
      if zlen l =? 0 then Ret (l ++ [new])
      else if zlen l =? 1 then
        r0 <- index l 0 ;;
        if better p (price r0) then Ret (set_nth 0 new (l ++ [r0])) else Ret (l ++ [new])
      else
        match find_from (fun r => better p (price r)) l 0 with
        | Some i => Ret (insert_row (Z.to_nat i) new l)
        | None => Ret (l ++ [new])
        end
  end.

(** A step of one side that agrees with a list computation. *)
Definition agrees h s (r : go (heap (row F) * slice)) (v : go (list (row F))) : Prop :=
  match v with
  | Ret l => exists h' s', r = Ret (h', s') /\ step h s h' s' /\ view h' s' = l
  | Panic p => r = Panic p
  end.

Lemma append_agrees h s k xs : valid h s -> agrees h s (Ret (append_slice zero_row k h s xs)) (Ret (view h s ++ xs)).
Proof.
  intros V. destruct (append_ok zero_row k h s xs V) as (S & W & _).
  destruct (append_slice zero_row k h s xs) as [h' s']. exists h', s'. auto.
Qed.

Lemma insert_agrees better h s new : valid h s -> agrees h s (h_insert spare better h s new) (v_insert better (view h s) new).
Proof.
  intros V. unfold h_insert, v_insert. cbv zeta. set (l := view h s). assert (zlen l = slen s) as L by apply (view_zlen h s V).
  rewrite L. destruct (find_from (fun r => feq (price r) (price new)) l 0) as [i|] eqn:E.
  { apply find_from_range in E. destruct (set_elem_ok h s i new V) as (h1 & H1 & S1 & W1); [unfold slen in *; lia|].
    rewrite H1, bind_ret. exists h1, s. split; [reflexivity|]. split; [assumption|]. rewrite W1. apply overwrite_set_nth.
    unfold zlen in *. fold l. lia. }
  destruct (slen s =? 0); [now apply append_agrees|].
  destruct (slen s =? 1) eqn:E1.
  { apply Z.eqb_eq in E1. rewrite get_elem_index. fold l.
    destruct (index l 0) as [r0|p] eqn:I; [|reflexivity]. rewrite !bind_ret.
    destruct (better (price new) (price r0)); [|now apply append_agrees].
    pose proof (append_ok zero_row (spare (length h)) h s [r0] V) as (S & W & Ln).
    destruct (append_slice zero_row (spare (length h)) h s [r0]) as [h1 s1]. cbn [fst snd] in *.
    destruct (set_elem_ok h1 s1 0 new (proj1 S)) as (h2 & H2 & S2 & W2); [unfold slen in E1; simpl in Ln; lia|].
    rewrite H2, bind_ret. exists h2, s1. split; [reflexivity|]. split; [eapply step_trans; eassumption|].
    rewrite W2, W. apply overwrite_set_nth. rewrite app_length. simpl. lia. }
  destruct (find_from (fun r => better (price new) (price r)) l 0) as [i|] eqn:E2; [|now apply append_agrees].
  apply find_from_range in E2.
  pose proof (append_ok zero_row (spare (length h)) h s [zero_row] V) as (S & W & Ln).
  destruct (append_slice zero_row (spare (length h)) h s [zero_row]) as [h1 s1]. cbn [fst snd] in *.
  pose proof (proj1 S) as V1. pose proof (proj1 V1) as C1. simpl in Ln. unfold slen in L.
  set (n := zlen l) in *.
  unfold sub_slice, slen.
  destruct (Z.leb_spec 0 (i + 1)); [|lia]. destruct (Z.leb_spec (i + 1) (Z.of_nat (s_len s1))); [|lia].
  destruct (Z.leb_spec (Z.of_nat (s_len s1)) (Z.of_nat (s_cap s1))); [|lia].
  destruct (Z.leb_spec 0 i); [|lia]. destruct (Z.leb_spec i (Z.of_nat (s_len s1))); [|lia]. cbn [andb]. rewrite !bind_ret.
  set (dst := mkSlice _ _ _ _). set (src := mkSlice _ _ _ _).
  set (k := Z.to_nat i) in *. replace (Z.to_nat (i + 1)) with (k + 1)%nat in * by lia.
  set (X := firstn (s_len dst) (view h1 src)).
  assert (copy_slice h1 dst src = store h1 s1 (k + 1) X) as ->.
  { unfold copy_slice, store. cbn [s_arr s_off dst]. rewrite Nat.add_0_r. replace (Z.to_nat (i + 1)) with (k + 1)%nat by lia. reflexivity. }
  assert (X = firstn (length (l ++ [zero_row]) - k - 1) (skipn k (l ++ [zero_row]))) as EX.
  { unfold X. replace (view h1 src) with (skipn k (view h1 s1)).
    - rewrite W. f_equal. cbn [s_len dst]. rewrite app_length. simpl. unfold n, zlen in *. lia.
    - unfold view. cbn [s_len s_off s_arr src]. rewrite skipn_firstn_comm, skipn_skipn'. rewrite (Nat.add_comm k).
      f_equal. lia. }
  assert (length X = s_len s1 - k - 1)%nat as LX.
  { rewrite EX, firstn_length, skipn_length, app_length. simpl. unfold n, zlen in *. lia. }
  assert (k + 1 + length X <= s_len s1)%nat as LX2 by (unfold n, zlen in *; lia).
  pose proof (store_step h1 s1 (k + 1) X V1 ltac:(lia)) as S2.
  pose proof (store_view h1 s1 (k + 1) X V1 LX2) as W2.
  destruct (set_elem_ok _ s1 i new (proj1 S2)) as (h3 & HS3 & S3 & W3); [lia|].
  rewrite HS3, bind_ret. exists h3, s1. split; [reflexivity|].
  split; [eapply step_trans; [exact S|]; eapply step_trans; eassumption|].
  rewrite W3, W2, W. fold k. unfold insert_row, copy_shift. change (mkRow fzero fzero fzero) with (@zero_row F N).
  fold l.
  assert (overwrite (k + 1) X (l ++ [zero_row]) = firstn (k + 1) (l ++ [zero_row]) ++ X) as ->.
  { unfold overwrite. rewrite skipn_all2; [now rewrite app_nil_r|]. rewrite app_length. simpl. unfold n, zlen in *. lia. }
  rewrite EX. apply overwrite_set_nth. rewrite app_length, firstn_length, firstn_length, skipn_length, app_length. simpl.
  unfold n, zlen in *. lia.
Qed.

Lemma remove_element_agrees h s i : valid h s -> 0 <= i < Z.of_nat (s_len s) ->
  agrees h s (h_remove_element h s i) (Ret (remove_element (view h s) (Z.to_nat i))).
Proof.
  intros V H. pose proof (proj1 V) as C. pose proof (view_len h s V) as VL. unfold h_remove_element.
  pose proof (sub_slice_sim h s 0 i V ltac:(lia)) as A. rewrite reslice_ok in A by (rewrite ?view_zlen by assumption; lia).
  destruct A as (hd & H1 & S1 & W1).
  pose proof (sub_slice_sim h s (i + 1) (slen s) V ltac:(unfold slen; lia)) as B.
  rewrite reslice_ok in B by (rewrite ?view_zlen by assumption; unfold slen; lia). destruct B as (tl & H2 & S2 & W2).
  rewrite H1, H2, !bind_ret. pose proof (append_ok zero_row 0 h hd (view h tl) (proj1 S1)) as (S3 & W3 & _).
  destruct (append_slice zero_row 0 h hd (view h tl)) as [h' s']. exists h', s'. split; [reflexivity|].
  split; [exact (step_trans _ _ _ _ _ _ S1 S3)|]. cbn [fst snd] in W3. rewrite W3, W1, W2. unfold remove_element.
  rewrite Z.sub_0_r. change (Z.to_nat 0) with 0%nat. cbn [skipn]. replace (Z.to_nat (i + 1)) with (Z.to_nat i + 1)%nat by lia.
  f_equal. apply firstn_all2. rewrite skipn_length, VL. unfold slen. lia.
Qed.

Lemma limit_side_sim h s d : valid h s ->
  match limit_side (view h s) d with
  | Ret l => exists s', h_limit_side s d = Ret s' /\ step h s h s' /\ view h s' = l
  | Panic p => h_limit_side s d = Panic p
  end.
Proof.
  intros V. unfold limit_side, h_limit_side. rewrite view_zlen by assumption. fold (slen s).
  destruct (Z.ltb_spec d (slen s)) as [L|L].
  - apply sub_slice_sim; [assumption|unfold slen in L; lia].
  - exists s. split; [reflexivity|]. split; [now apply step_refl|reflexivity].
Qed.

Definition v_remove (before skip : F -> F -> bool) (p : F) (l : list (row F)) : go (list (row F)) :=
  if zlen l =? 0 then Ret l else
  r0 <- index l 0 ;;
  if before p (price r0) then Ret l
  else match find_from (fun r => negb (skip (price r) p)) l 0 with
       | Some i => '(_, l) <- cut_from l i ;; Ret l
       | None => Ret []
       end.
Lemma remove_side_sim before skip h p s : valid h s ->
  match v_remove before skip p (view h s) with
  | Ret l => exists s', h_remove_side before skip h p s = Ret s' /\ step h s h s' /\ view h s' = l
  | Panic e => h_remove_side before skip h p s = Panic e
  end.
Proof.
  intros V. unfold h_remove_side, v_remove. rewrite view_zlen by assumption. fold (slen s).
  assert (exists s', Ret s = Ret s' /\ step h s h s' /\ view h s' = view h s) as Same.
  { exists s. split; [reflexivity|]. split; [now apply step_refl|reflexivity]. }
  destruct (slen s =? 0); [assumption|]. rewrite get_elem_index.
  destruct (index (view h s) 0) as [r0|e]; [|reflexivity]. rewrite !bind_ret.
  destruct (before p (price r0)); [assumption|].
  destruct (find_from (fun r => negb (skip (price r) p)) (view h s) 0) as [i|].
  - unfold cut_from. rewrite view_zlen by assumption. fold (slen s).
    pose proof (sub_slice_sim h s (f2i (f64_min (i2f (i + 1)) (i2f (slen s - 1)))) (slen s) V ltac:(unfold slen; lia)) as A.
    destruct (reslice (view h s) _ (slen s)) as [l|e]; cbn [bind]; exact A.
  - exists nil_slice. split; [reflexivity|]. split; [|reflexivity]. split.
    + split; simpl; lia.
    + intros t Vt D. split; [assumption|]. split; [reflexivity|]. left. reflexivity.
Qed.

(** ** Books *)
Definition bstep h b h' b' : Prop :=
  own h' b' /\ forall t, valid h t -> apart b t -> valid h' t /\ region h' t = region h t /\ apart b' t.

Lemma bstep_refl h b : own h b -> bstep h b h b.
Proof. intros H. split; auto. Qed.
Lemma bstep_trans h b h1 b1 h2 b2 : bstep h b h1 b1 -> bstep h1 b1 h2 b2 -> bstep h b h2 b2.
Proof.
  intros [V1 S1] [V2 S2]. split; [assumption|]. intros t Vt D. destruct (S1 t Vt D) as (A1 & A2 & A3).
  destruct (S2 t A1 A3) as (B1 & B2 & B3). rewrite B2. auto.
Qed.
Lemma step_asks h b h' a' : own h b -> step h (hb_asks b) h' a' ->
  bstep h b h' (mkHBook (hb_time b) a' (hb_bids b) (hb_depth b)) /\ view h' (hb_bids b) = view h (hb_bids b).
Proof.
  intros (Va & Vb & D) S. pose proof (step_view _ _ _ _ _ S Vb D) as W. destruct S as [V' S]. destruct (S _ Vb D) as (B1 & B2 & B3).
  split; [|assumption]. split; [split; [|split]; assumption|]. intros t Vt [D1 D2]. destruct (S t Vt D1) as (C1 & C2 & C3).
  split; [assumption|]. split; [assumption|]. split; assumption.
Qed.
Lemma step_bids h b h' c' : own h b -> step h (hb_bids b) h' c' ->
  bstep h b h' (mkHBook (hb_time b) (hb_asks b) c' (hb_depth b)) /\ view h' (hb_asks b) = view h (hb_asks b).
Proof.
  intros (Va & Vb & D) S. apply disjoint_sym in D. pose proof (step_view _ _ _ _ _ S Va D) as W. destruct S as [V' S]. destruct (S _ Va D) as (B1 & B2 & B3).
  split; [|assumption]. split; [split; [|split]; [assumption..|now apply disjoint_sym]|]. intros t Vt [D1 D2]. destruct (S t Vt D2) as (C1 & C2 & C3).
  split; [assumption|]. split; [assumption|]. split; assumption.
Qed.

Lemma limit_sim h b : own h b ->
  match limit (book_view h b) with
  | Ret ob => exists b', h_limit b = Ret b' /\ bstep h b h b' /\ book_view h b' = ob
  | Panic p => h_limit b = Panic p
  end.
Proof.
  intros O. unfold limit, h_limit. cbn [asks bids max_depth b_time book_view].
  pose proof (limit_side_sim h (hb_asks b) (hb_depth b) (proj1 O)) as A.
  destruct (limit_side (view h (hb_asks b)) (hb_depth b)) as [la|p]; [|rewrite A; reflexivity].
  destruct A as (a & HA & SA & WA). rewrite HA, !bind_ret. destruct (step_asks h b h a O SA) as [SB _].
  pose proof (limit_side_sim h (hb_bids b) (hb_depth b) (proj1 (proj2 O))) as B.
  destruct (limit_side (view h (hb_bids b)) (hb_depth b)) as [lb|p]; [|rewrite B; reflexivity].
  destruct B as (c & HC & SC & WC). rewrite HC, !bind_ret.
  destruct (step_bids h (mkHBook (hb_time b) a (hb_bids b) (hb_depth b)) h c (proj1 SB) SC) as [SD _].
  eexists. split; [reflexivity|]. split; [eapply bstep_trans; [exact SB|exact SD]|]. unfold book_view. cbn [hb_time hb_asks hb_bids hb_depth].
  now rewrite WA, WC.
Qed.

(** Model/OrderBook.v in the same terms. *)
Lemma remove_invalid_asks p (ob : book F) :
  match v_remove (fun p q => flt p q) (fun q p => flt q p) p (asks ob) with
  | Ret l => exists n, remove_invalid "ask" p ob = Ret (n, with_asks ob l)
  | Panic e => remove_invalid "ask" p ob = Panic e
  end.
Proof.
  unfold remove_invalid, v_remove. change (String.eqb "ask" "ask") with true. cbv iota.
  destruct ob as [tm la lb d]. cbn [asks bids b_time max_depth with_asks].
  destruct (zlen la =? 0); [exists 0; reflexivity|]. destruct (index la 0) as [r0|e]; [|reflexivity]. rewrite !bind_ret.
  destruct (flt p (price r0)); [exists 0; reflexivity|].
  destruct (find_from _ la 0) as [i|]; [|exists 0; reflexivity].
  destruct (cut_from la i) as [[n l]|e]; [exists n; reflexivity|reflexivity].
Qed.
Lemma remove_invalid_bids p (ob : book F) :
  match v_remove (fun p q => flt q p) (fun q p => flt p q) p (bids ob) with
  | Ret l => exists n, remove_invalid "bid" p ob = Ret (n, with_bids ob l)
  | Panic e => remove_invalid "bid" p ob = Panic e
  end.
Proof.
  unfold remove_invalid, v_remove. change (String.eqb "bid" "ask") with false. change (String.eqb "bid" "bid") with true. cbv iota.
  destruct ob as [tm la lb d]. cbn [asks bids b_time max_depth with_bids].
  destruct (zlen lb =? 0); [exists 0; reflexivity|]. destruct (index lb 0) as [r0|e]; [|reflexivity]. rewrite !bind_ret.
  destruct (flt (price r0) p); [exists 0; reflexivity|].
  destruct (find_from _ lb 0) as [i|]; [|exists 0; reflexivity].
  destruct (cut_from lb i) as [[n l]|e]; [exists n; reflexivity|reflexivity].
Qed.

Definition finish (ob : book F) : go (book F * option err) := ob2 <- limit ob ;; Ret (ob2, None).

Definition v_update (u : update F) (ob : book F) : go (book F * option err) :=
  let p := u_price u in
  let new := mkRow p (u_volume u) fzero in
  if String.eqb (u_side u) "ask" then
    if negb (feq (u_volume u) fzero) then
      lb <- v_remove (fun p q => flt q p) (fun q p => flt p q) p (bids ob) ;;
      la <- v_insert (fun p q => flt p q) (asks ob) new ;;
      finish (mkBook (b_time ob) la lb (max_depth ob))
    else match find_from (fun r => feq (price r) p) (asks ob) 0 with
         | Some i => finish (with_asks ob (remove_element (asks ob) (Z.to_nat i)))
         | None => Ret (ob, None)
         end
  else if String.eqb (u_side u) "bid" then
    if negb (feq (u_volume u) fzero) then
      la <- v_remove (fun p q => flt p q) (fun q p => flt q p) p (asks ob) ;;
      lb <- v_insert (fun p q => flt q p) (bids ob) new ;;
      finish (mkBook (b_time ob) la lb (max_depth ob))
    else match find_from (fun r => feq (price r) p) (bids ob) 0 with
         | Some i => finish (with_bids ob (remove_element (bids ob) (Z.to_nat i)))
         | None => Ret (ob, None)
         end
  else Ret (ob, Some bad_side).

Lemma apply_update_v u (ob : book F) : apply_update u ob = v_update u ob.
Proof.
  unfold apply_update, v_update. cbv zeta. destruct ob as [tm la lb d]. destruct u as [p vol side]. cbn [u_price u_volume u_side].
  destruct (String.eqb side "ask").
  { destruct (negb (feq vol fzero)); [|reflexivity].
    pose proof (remove_invalid_bids p (mkBook tm la lb d)) as R. cbn [bids asks] in *.
    destruct (v_remove _ _ p lb) as [l|e]; [|rewrite R; reflexivity]. destruct R as [n ->]. rewrite !bind_ret.
    unfold with_bids, with_asks, v_insert, finish. cbn [asks bids b_time max_depth price].
    destruct (find_from (fun r => feq (price r) p) la 0); [reflexivity|].
    destruct (zlen la =? 0); [reflexivity|]. destruct (zlen la =? 1).
    - destruct (index la 0) as [r0|e]; [|reflexivity]. rewrite !bind_ret. destruct (flt p (price r0)); reflexivity.
    - destruct (find_from (fun r => flt p (price r)) la 0); reflexivity. }
  destruct (String.eqb side "bid"); [|reflexivity].
  destruct (negb (feq vol fzero)); [|reflexivity].
  pose proof (remove_invalid_asks p (mkBook tm la lb d)) as R. cbn [bids asks] in *.
  destruct (v_remove _ _ p la) as [l|e]; [|rewrite R; reflexivity]. destruct R as [n ->]. rewrite !bind_ret.
  unfold with_bids, with_asks, v_insert, finish. cbn [asks bids b_time max_depth price].
  destruct (find_from (fun r => feq (price r) p) lb 0); [reflexivity|].
  destruct (zlen lb =? 0); [reflexivity|]. destruct (zlen lb =? 1).
  - destruct (index lb 0) as [r0|e]; [|reflexivity]. rewrite !bind_ret. destruct (flt (price r0) p); reflexivity.
  - destruct (find_from (fun r => flt (price r) p) lb 0); reflexivity.
Qed.

(** The outcome of a heap operation on a book against the list model. *)
Definition simulates h b (r : go (heap (row F) * hbook * option err)) (v : go (book F * option err)) : Prop :=
  match v with
  | Ret (ob, e) => exists h' b', r = Ret (h', b', e) /\ bstep h b h' b' /\ book_view h' b' = ob
  | Panic p => r = Panic p
  end.

Lemma finish_sim h0 b0 h b ob : bstep h0 b0 h b -> book_view h b = ob ->
  simulates h0 b0 (b1 <- h_limit b ;; Ret (h, b1, None)) (finish ob).
Proof.
  intros S <-. unfold finish. pose proof (limit_sim h b (proj1 S)) as L. destruct (limit (book_view h b)) as [ob2|p]; cbn [bind].
  - destruct L as (b' & -> & S2 & W). exists h, b'. split; [reflexivity|]. split; [eapply bstep_trans; eassumption|assumption].
  - rewrite L. reflexivity.
Qed.

Theorem apply_update_sim u h b : own h b ->
  simulates h b (h_apply_update spare u h b) (apply_update u (book_view h b)).
Proof.
  intros O. rewrite apply_update_v. unfold h_apply_update, v_update. cbv zeta.
  destruct u as [p vol side]. cbn [u_price u_volume u_side]. cbn [asks bids b_time max_depth book_view].
  assert (forall e, simulates h b (Ret (h, b, e)) (Ret (mkBook (hb_time b) (view h (hb_asks b)) (view h (hb_bids b)) (hb_depth b), e))) as Same.
  { intros e. exists h, b. split; [reflexivity|]. split; [now apply bstep_refl|reflexivity]. }
  destruct (String.eqb side "ask").
  { destruct (negb (feq vol fzero)).
    - pose proof (remove_side_sim (fun p q => flt q p) (fun q p => flt p q) h p (hb_bids b) (proj1 (proj2 O))) as R.
      destruct (v_remove _ _ p (view h (hb_bids b))) as [lb|e]; [|rewrite R; reflexivity].
      destruct R as (c & -> & SC & WC). rewrite !bind_ret.
      destruct (step_bids h b h c O SC) as [S1 _].
      pose proof (insert_agrees (fun p q => flt p q) h (hb_asks b) (mkRow p vol fzero) (proj1 O)) as I.
      destruct (v_insert _ (view h (hb_asks b)) _) as [la|e]; [|cbn [agrees] in I; rewrite I; reflexivity].
      destruct I as (h1 & a & -> & SA & WA). rewrite !bind_ret.
      destruct (step_asks h (mkHBook (hb_time b) (hb_asks b) c (hb_depth b)) h1 a (proj1 S1) SA) as [S2 W2].
      cbn [hb_time hb_asks hb_bids hb_depth] in *.
      apply finish_sim; [eapply bstep_trans; eassumption|]. unfold book_view. cbn [hb_time hb_asks hb_bids hb_depth]. now rewrite WA, W2, WC.
    - unfold h_delete. destruct (find_from _ (view h (hb_asks b)) 0) as [i|] eqn:E; [|apply Same].
      apply find_from_range in E. rewrite view_zlen in E by apply O.
      pose proof (remove_element_agrees h (hb_asks b) i (proj1 O) ltac:(lia)) as R.
      destruct R as (h1 & a & -> & SA & WA). rewrite !bind_ret.
      destruct (step_asks h b h1 a O SA) as [S2 W2].
      apply finish_sim; [assumption|]. unfold book_view, with_asks. cbn [hb_time hb_asks hb_bids hb_depth asks bids b_time max_depth]. now rewrite WA, W2. }
  destruct (String.eqb side "bid"); [|apply Same].
  destruct (negb (feq vol fzero)).
  - pose proof (remove_side_sim (fun p q => flt p q) (fun q p => flt q p) h p (hb_asks b) (proj1 O)) as R.
    destruct (v_remove _ _ p (view h (hb_asks b))) as [la|e]; [|rewrite R; reflexivity].
    destruct R as (a & -> & SA & WA). rewrite !bind_ret.
    destruct (step_asks h b h a O SA) as [S1 _].
    pose proof (insert_agrees (fun p q => flt q p) h (hb_bids b) (mkRow p vol fzero) (proj1 (proj2 O))) as I.
    destruct (v_insert _ (view h (hb_bids b)) _) as [lb|e]; [|cbn [agrees] in I; rewrite I; reflexivity].
    destruct I as (h1 & c & -> & SC & WC). rewrite !bind_ret.
    destruct (step_bids h (mkHBook (hb_time b) a (hb_bids b) (hb_depth b)) h1 c (proj1 S1) SC) as [S2 W2].
    cbn [hb_time hb_asks hb_bids hb_depth] in *.
    apply finish_sim; [eapply bstep_trans; eassumption|]. unfold book_view. cbn [hb_time hb_asks hb_bids hb_depth]. now rewrite WC, W2, WA.
  - unfold h_delete. destruct (find_from _ (view h (hb_bids b)) 0) as [i|] eqn:E; [|apply Same].
    apply find_from_range in E. rewrite view_zlen in E by apply O.
    pose proof (remove_element_agrees h (hb_bids b) i (proj1 (proj2 O)) ltac:(lia)) as R.
    destruct R as (h1 & c & -> & SC & WC). rewrite !bind_ret.
    destruct (step_bids h b h1 c O SC) as [S2 W2].
    apply finish_sim; [assumption|]. unfold book_view, with_bids. cbn [hb_time hb_asks hb_bids hb_depth asks bids b_time max_depth]. now rewrite WC, W2.
Qed.

(** ** NewOrderBook *)
Lemma overwrite_all k (xs l : list (row F)) : k = 0%nat -> length xs = length l -> overwrite k xs l = xs.
Proof. intros -> H. unfold overwrite. simpl. rewrite skipn_all2 by lia. apply app_nil_r. Qed.
Lemma store_all h s xs : valid h s -> length xs = s_len s ->
  step h s (store h s 0 xs) s /\ view (store h s 0 xs) s = xs.
Proof.
  intros V H. pose proof (proj1 V). split; [apply store_step; auto; lia|]. rewrite store_view by (auto; lia).
  apply overwrite_all; [reflexivity|]. now rewrite view_len.
Qed.
Lemma depth_le len d : 0 <= len <= 2 ^ 53 -> depth_of len d <= len.
Proof.
  intros H. destruct (Z_lt_le_dec d 0).
  - pose proof (f2i_min_neg len d ltac:(lia) ltac:(lia)). unfold depth_of. lia.
  - rewrite depth_of_ok by lia. lia.
Qed.
Lemma accum_len prev l : length (accum_rows prev l) = length l.
Proof. revert prev. induction l as [|r l IH]; intros prev; simpl; [reflexivity|]. now rewrite IH. Qed.
Lemma accum_step h s : valid h s -> step h s (h_accum h s) s /\ view (h_accum h s) s = accum_rows None (view h s).
Proof. intros V. apply store_all; [assumption|]. now rewrite accum_len, view_len. Qed.

Definition asort (l : list (row F)) := slice_stable (fun x y => flt (price x) (price y)) l.
Definition bsort (l : list (row F)) := slice_stable (fun x y => flt (price y) (price x)) l.

Lemma new_book_sim now h a c d : own h (mkHBook now a c d) -> Z.of_nat (s_len a) <= 2 ^ 53 -> Z.of_nat (s_len c) <= 2 ^ 53 ->
  match new_order_book now (view h a) (view h c) d with
  | Ret ob => exists h' b', h_new_order_book now h a c d = Ret (h', b') /\ bstep h (mkHBook now a c d) h' b' /\ book_view h' b' = ob
  | Panic p => h_new_order_book now h a c d = Panic p
  end.
Proof.
  intros O La Lc. set (b := mkHBook now a c d) in *.
  unfold new_order_book, h_new_order_book, sort_book, h_sort. cbv zeta. cbn [hb_asks hb_bids hb_depth hb_time asks bids max_depth b_time].
  fold (asort (view h a)). set (h1 := store h a 0 (asort (view h a))).
  assert (length (asort (view h a)) = s_len a) as L1 by (unfold asort; pose proof (sort_len (fun x y => flt (price x) (price y)) (view h a)) as E; unfold zlen in E; rewrite view_len in E by apply O; lia).
  destruct (store_all h a (asort (view h a)) (proj1 O) L1) as [S1 W1]. fold h1 in S1, W1.
  destruct (step_asks h b h1 a O S1) as [B1 V1]. cbn [hb_time hb_bids hb_depth b] in B1, V1. fold b in B1.
  rewrite V1. fold (bsort (view h c)). set (h2 := store h1 c 0 (bsort (view h c))).
  assert (length (bsort (view h c)) = s_len c) as L2 by (unfold bsort; pose proof (sort_len (fun x y => flt (price y) (price x)) (view h c)) as E; unfold zlen in E; rewrite view_len in E by apply O; lia).
  destruct (store_all h1 c (bsort (view h c)) (proj1 (proj2 (proj1 B1))) L2) as [S2 W2]. fold h2 in S2, W2.
  destruct (step_bids h1 b h2 c (proj1 B1) S2) as [B2 V2]. cbn [hb_time hb_asks hb_depth b] in B2, V2. fold b in B2.
  pose proof (bstep_trans _ _ _ _ _ _ B1 B2) as B12.
  destruct (proj1 B2) as (Va & Vc & Dac). cbn [hb_asks hb_bids b] in Va, Vc, Dac.
  replace (zlen (asort (view h a))) with (slen a) by (unfold zlen, slen; lia).
  replace (zlen (bsort (view h c))) with (slen c) by (unfold zlen, slen; lia).
  assert (view h2 a = asort (view h a)) as Wa2 by (rewrite V2; exact W1).
  pose proof (sub_slice_sim h2 a 0 (depth_of (slen a) d) Va ltac:(apply depth_le; unfold slen; lia)) as SA. rewrite Wa2 in SA.
  destruct (reslice (asort (view h a)) 0 (depth_of (slen a) d)) as [la|p]; [|rewrite SA; reflexivity].
  destruct SA as (a' & -> & SA & WA). rewrite !bind_ret.
  pose proof (sub_slice_sim h2 c 0 (depth_of (slen c) d) Vc ltac:(apply depth_le; unfold slen; lia)) as SC. rewrite W2 in SC.
  destruct (reslice (bsort (view h c)) 0 (depth_of (slen c) d)) as [lc|p]; [|rewrite SC; reflexivity].
  destruct SC as (c' & -> & SC & WC). rewrite !bind_ret.
  destruct (step_asks h2 b h2 a' (proj1 B2) SA) as [B3 _]. cbn [hb_time hb_bids hb_depth b] in B3. fold b in B3.
  destruct (step_bids h2 (mkHBook now a' c d) h2 c' (proj1 B3) SC) as [B4 _]. cbn [hb_time hb_asks hb_depth] in B4.
  pose proof (bstep_trans _ _ _ _ _ _ B12 (bstep_trans _ _ _ _ _ _ B3 B4)) as B5.
  destruct (accum_step h2 a' (proj1 (proj1 B4))) as [S5 W5].
  destruct (step_asks h2 (mkHBook now a' c' d) _ a' (proj1 B4) S5) as [B6 V6]. cbn [hb_time hb_bids hb_depth] in B6, V6.
  destruct (accum_step (h_accum h2 a') c' (proj1 (proj2 (proj1 B6)))) as [S7 W7].
  destruct (step_bids _ (mkHBook now a' c' d) _ c' (proj1 B6) S7) as [B8 V8]. cbn [hb_time hb_asks hb_depth] in B8, V8.
  eexists _, _. split; [reflexivity|]. split; [exact (bstep_trans _ _ _ _ _ _ B5 (bstep_trans _ _ _ _ _ _ B6 B8))|].
  unfold book_view. cbn [hb_time hb_asks hb_bids hb_depth]. rewrite V8, W5, W7, V6, WA, WC. reflexivity.
Qed.

(** ** Histories *)
Lemma apply_updates_sim us h b ob : own h b -> apply_updates us (book_view h b) = Ret ob ->
  exists h' b', h_apply_updates spare us h b = Ret (h', b') /\ bstep h b h' b' /\ book_view h' b' = ob.
Proof.
  revert h b. induction us as [|u us IH]; intros h b O H; cbn [apply_updates h_apply_updates] in *.
  - exists h, b. split; [reflexivity|]. split; [now apply bstep_refl|congruence].
  - pose proof (apply_update_sim u h b O) as S. destruct (apply_update u (book_view h b)) as [[ob1 e]|p]; [|discriminate].
    destruct S as (h1 & b1 & -> & S1 & W1). rewrite !bind_ret in *. rewrite <- W1 in H.
    destruct (IH h1 b1 (proj1 S1) H) as (h2 & b2 & -> & S2 & W2).
    exists h2, b2. split; [reflexivity|]. split; [eapply bstep_trans; eassumption|assumption].
Qed.

(** ** Two books *)
Lemma separate_sym h b c : separate h b c -> separate h c b.
Proof.
  intros (H1 & H2 & (A1 & A2) & (A3 & A4)). split; [assumption|]. split; [assumption|].
  split; split; now apply disjoint_sym.
Qed.
Lemma separate_step h b c h' b' : separate h b c -> bstep h b h' b' ->
  separate h' b' c /\ book_view h' c = book_view h c.
Proof.
  intros (H1 & (Va & Vc & D) & A1 & A2) [O S]. destruct (S _ Va A1) as (Va' & Ra & A1').
  destruct (S _ Vc A2) as (Vc' & Rc & A2'). split.
  - split; [assumption|]. split; [split; [assumption|split; assumption]|]. split; assumption.
  - unfold book_view. f_equal; rewrite !view_region by assumption; congruence.
Qed.
Lemma apply_updates2_sim us h b c ob oc : separate h b c ->
  apply_updates (calls true us) (book_view h b) = Ret ob ->
  apply_updates (calls false us) (book_view h c) = Ret oc ->
  exists h' b' c', h_apply_updates2 spare us h b c = Ret (h', b', c') /\ separate h' b' c' /\
    book_view h' b' = ob /\ book_view h' c' = oc.
Proof.
  revert h b c. induction us as [|[[] u] us IH]; intros h b c S Hb Hc.
  - exists h, b, c. cbn in *. split; [reflexivity|]. split; [assumption|]. split; congruence.
  - unfold calls in Hb, Hc. cbn [filter map fst snd Bool.eqb] in Hb, Hc. fold (calls true us) in Hb. fold (calls false us) in Hc.
    cbn [apply_updates h_apply_updates2] in *.
    pose proof (apply_update_sim u h b (proj1 S)) as Q. destruct (apply_update u (book_view h b)) as [[ob1 e]|p]; [|discriminate].
    destruct Q as (h1 & b1 & -> & S1 & W1). rewrite bind_ret in *. rewrite <- W1 in Hb.
    destruct (separate_step _ _ _ _ _ S S1) as [S2 E]. rewrite <- E in Hc. exact (IH h1 b1 c S2 Hb Hc).
  - unfold calls in Hb, Hc. cbn [filter map fst snd Bool.eqb] in Hb, Hc. fold (calls true us) in Hb. fold (calls false us) in Hc.
    cbn [apply_updates h_apply_updates2] in *.
    pose proof (apply_update_sim u h c (proj1 (proj2 S))) as Q. destruct (apply_update u (book_view h c)) as [[ob1 e]|p]; [|discriminate].
    destruct Q as (h1 & c1 & -> & S1 & W1). rewrite bind_ret in *. rewrite <- W1 in Hc.
    destruct (separate_step _ _ _ _ _ (separate_sym _ _ _ S) S1) as [S2 E]. rewrite <- E in Hb.
    exact (IH h1 b c1 (separate_sym _ _ _ S2) Hb Hc).
Qed.

Lemma Ret_inj' {A} (a b : A) : Ret a = Ret b -> a = b.
Proof. congruence. Qed.

(** ** What NewOrderBook leaves in the caller's slices *)
Lemma overwrite_front (xs l : list (row F)) n : length xs = n -> overwrite 0 xs l = xs ++ skipn n l.
Proof. intros <-. reflexivity. Qed.
Lemma caller_slices now h a c d h' b' : own h (mkHBook now a c d) -> Z.of_nat (s_len a) <= 2 ^ 53 -> Z.of_nat (s_len c) <= 2 ^ 53 ->
  0 <= d -> h_new_order_book now h a c d = Ret (h', b') ->
  view h' a = asks (book_view h' b') ++ skipn (Z.to_nat d) (asort (view h a)) /\
  view h' c = bids (book_view h' b') ++ skipn (Z.to_nat d) (bsort (view h c)).
Proof.
  intros O La Lc Hd H. set (b := mkHBook now a c d) in *.
  unfold h_new_order_book, h_sort in H. cbv zeta in H. cbn [hb_asks hb_bids hb_depth hb_time] in H.
  fold (asort (view h a)) in H. set (h1 := store h a 0 (asort (view h a))) in *.
  assert (length (asort (view h a)) = s_len a) as L1 by (unfold asort; pose proof (sort_len (fun x y => flt (price x) (price y)) (view h a)) as E; unfold zlen in E; rewrite view_len in E by apply O; lia).
  destruct (store_all h a (asort (view h a)) (proj1 O) L1) as [S1 W1]. fold h1 in S1, W1.
  destruct (step_asks h b h1 a O S1) as [B1 V1]. cbn [hb_time hb_bids hb_depth b] in B1, V1. fold b in B1.
  rewrite V1 in H. fold (bsort (view h c)) in H. set (h2 := store h1 c 0 (bsort (view h c))) in *.
  assert (length (bsort (view h c)) = s_len c) as L2 by (unfold bsort; pose proof (sort_len (fun x y => flt (price y) (price x)) (view h c)) as E; unfold zlen in E; rewrite view_len in E by apply O; lia).
  destruct (store_all h1 c (bsort (view h c)) (proj1 (proj2 (proj1 B1))) L2) as [S2 W2]. fold h2 in S2, W2.
  destruct (step_bids h1 b h2 c (proj1 B1) S2) as [B2 V2]. cbn [hb_time hb_asks hb_depth b] in B2, V2. fold b in B2.
  destruct (proj1 B2) as (Va & Vc & Dac). cbn [hb_asks hb_bids b] in Va, Vc, Dac.
  assert (view h2 a = asort (view h a)) as Wa2 by (rewrite V2; exact W1).
  rewrite !depth_of_ok in H by (unfold slen; lia).
  pose proof (proj1 Va) as Ca. pose proof (proj1 Vc) as Cc.
  set (na := Z.min (slen a) d) in *. set (nc := Z.min (slen c) d) in *.
  unfold sub_slice in H.
  destruct (Z.leb_spec 0 0); [|lia]. destruct (Z.leb_spec 0 na); [|unfold na, slen in *; lia]. destruct (Z.leb_spec na (Z.of_nat (s_cap a))); [|unfold na, slen in *; lia].
  destruct (Z.leb_spec 0 nc); [|unfold nc, slen in *; lia]. destruct (Z.leb_spec nc (Z.of_nat (s_cap c))); [|unfold nc, slen in *; lia].
  cbn [andb] in H. rewrite !bind_ret in H. change (Z.to_nat 0) with 0%nat in H. rewrite !Nat.add_0_r, !Nat.sub_0_r, !Z.sub_0_r in H.
  set (a' := mkSlice (s_arr a) (s_off a) (Z.to_nat na) (s_cap a)) in *.
  set (c' := mkSlice (s_arr c) (s_off c) (Z.to_nat nc) (s_cap c)) in *.
  apply Ret_inj' in H. injection H as <- <-. unfold book_view. cbn [asks bids hb_asks hb_bids].
  assert (valid h2 a') as Va' by (split; [cbn; unfold na, slen in *; lia|exact (proj2 Va)]).
  assert (valid h2 c') as Vc' by (split; [cbn; unfold nc, slen in *; lia|exact (proj2 Vc)]).
  assert (own h2 (mkHBook now a' c' d)) as O' by (split; [assumption|split; assumption]).
  destruct (accum_step h2 a' Va') as [S5 W5].
  destruct (step_asks h2 (mkHBook now a' c' d) _ a' O' S5) as [B6 V6]. cbn [hb_time hb_bids hb_depth] in B6, V6.
  destruct (accum_step (h_accum h2 a') c' (proj1 (proj2 (proj1 B6)))) as [S7 W7].
  destruct (step_bids _ (mkHBook now a' c' d) _ c' (proj1 B6) S7) as [B8 V8]. cbn [hb_time hb_asks hb_depth] in B8, V8.
  assert (length (accum_rows None (view h2 a')) = Z.to_nat na) as LA by (rewrite accum_len, view_len by assumption; reflexivity).
  (* the book's slice is the front of the caller's *)
  assert (view (h_accum h2 a') a = accum_rows None (view h2 a') ++ skipn (Z.to_nat na) (view h2 a)) as EA.
  { change (h_accum h2 a') with (store h2 a 0 (accum_rows None (view h2 a'))).
    rewrite store_view by (auto; rewrite LA; unfold na, slen in *; lia). now apply overwrite_front. }
  assert (own (h_accum h2 a') (mkHBook now a c d)) as O6.
  { destruct (store_step h2 a 0 (accum_rows None (view h2 a')) Va ltac:(rewrite LA; unfold na, slen in *; lia)) as [Q1 Q2].
    destruct (Q2 c Vc Dac) as (Q3 & _ & _). split; [exact Q1|]. split; [exact Q3|assumption]. }
  destruct (proj1 B6) as (_ & Vc6 & _). cbn [hb_bids] in Vc6.
  assert (length (accum_rows None (view (h_accum h2 a') c')) = Z.to_nat nc) as LC by (rewrite accum_len, view_len by assumption; reflexivity).
  assert (view (h_accum (h_accum h2 a') c') c = accum_rows None (view (h_accum h2 a') c') ++ skipn (Z.to_nat nc) (view (h_accum h2 a') c)) as EC.
  { change (h_accum (h_accum h2 a') c') with (store (h_accum h2 a') c 0 (accum_rows None (view (h_accum h2 a') c'))).
    rewrite store_view; [now apply overwrite_front|exact (proj1 (proj2 O6))|rewrite LC; unfold nc, slen in *; lia]. }
  assert (view (h_accum h2 a') c = view h2 c) as Vc6'.
  { destruct (store_step h2 a 0 (accum_rows None (view h2 a')) Va ltac:(rewrite LA; unfold na, slen in *; lia)) as [Q1 Q2].
    change (h_accum h2 a') with (store h2 a 0 (accum_rows None (view h2 a'))). eapply step_view; [split; [exact Q1|exact Q2]|assumption|assumption]. }
  assert (view (h_accum (h_accum h2 a') c') a = view (h_accum h2 a') a) as Va8.
  { change (h_accum (h_accum h2 a') c') with (store (h_accum h2 a') c 0 (accum_rows None (view (h_accum h2 a') c'))).
    eapply step_view; [apply store_step; [exact (proj1 (proj2 O6))|rewrite LC; unfold nc, slen in *; lia]|exact (proj1 O6)|now apply disjoint_sym]. }
  assert (forall (l : list (row F)) n, length l = n -> skipn (Z.to_nat (Z.min (Z.of_nat n) d)) l = skipn (Z.to_nat d) l) as SK.
  { intros l n L. destruct (Z.le_ge_cases (Z.of_nat n) d).
    - rewrite Z.min_l by assumption. rewrite !skipn_all2 by lia. reflexivity.
    - now rewrite Z.min_r by assumption. }
  split.
  - rewrite Va8, EA, V8, W5, Wa2. f_equal. apply SK. exact L1.
  - rewrite EC, W7, Vc6', W2. f_equal. apply SK. exact L2.
Qed.
End Sim.
