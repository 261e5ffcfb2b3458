(** Programs with interleaving (Model/Concurrent.v) against the sequential
    models. *)
From Coq Require Import Lia Arith.
From Verif Require Import Go.Outcome Go.Int64 Go.Slice Go.Float64 Go.Num Go.Heap Model.OrderBook Model.OrderBookHeap
  Model.Concurrent Spec.HeapSpec Spec.ConcurrentSpec Proofs.Lists Proofs.Heap Proofs.OrderBookHeap.
Open Scope list_scope.
Open Scope Z_scope.
Local Notation length := List.length.

Section Alone.
Context {F : Type} {N : GoFloat F}.
Variable spare : nat -> nat.
Implicit Types (h : heap (row F)) (b : hbook).

Lemma alone_after {A B} (p : prog A) (k : A -> prog B) (m : shared F) :
  alone spare (after p k) m = ('(a, m1) <- alone spare p m ;; alone spare (k a) m1).
Proof.
  revert m. induction p as [a|e|X o f IH]; intros m; cbn [after alone]; [reflexivity|reflexivity|].
  destruct (exec spare o m) as [[x m1]|e]; cbn [bind]; [apply IH|reflexivity].
Qed.
Lemma alone_act {X} (o : op X) (m : shared F) : alone spare (act o) m = exec spare o m.
Proof. unfold act. cbn [alone]. now destruct (exec spare o m) as [[x m1]|e]. Qed.
Lemma alone_load a h b : alone spare (load a) (mkShared h b) = Ret (side a b, mkShared h b).
Proof. reflexivity. Qed.
Lemma alone_save a s h b : alone spare (save a s) (mkShared h b) = Ret (tt, mkShared h (with_side a b s)).
Proof. reflexivity. Qed.
Lemma alone_pure {A} (g : go A) (m : shared F) : alone spare (pure g) m = (a <- g ;; Ret (a, m)).
Proof. now destruct g. Qed.
Lemma alone_depth h b : alone spare (act Depth) (mkShared h b) = Ret (hb_depth b, mkShared h b).
Proof. reflexivity. Qed.
Lemma alone_get s i h b : alone spare (act (Get s i)) (mkShared h b) = (r <- index (view h s) i ;; Ret (r, mkShared h b)).
Proof. rewrite alone_act. cbn [exec sh_heap]. now rewrite get_elem_index. Qed.

Lemma side_with a b s : side a (with_side a b s) = s.
Proof. now destruct a. Qed.
Lemma with_same a b : with_side a b (side a b) = b.
Proof. now destruct a, b. Qed.
Lemma with_with a b s t : with_side a (with_side a b s) t = with_side a b t.
Proof. now destruct a. Qed.

Ltac go := repeat (rewrite ?alone_after, ?alone_load, ?alone_save, ?alone_pure, ?alone_depth, ?alone_get,
  ?side_with, ?with_with; cbn [bind]).

Lemma find_skip test (l : list (row F)) i r : nth_error l i = Some r ->
  find_from test (skipn i l) (Z.of_nat i) =
  if test r then Some (Z.of_nat i) else find_from test (skipn (S i) l) (Z.of_nat (S i)).
Proof.
  revert i. induction l as [|x l IH]; intros [|i] H; cbn [nth_error] in H; try discriminate.
  - injection H as ->. cbn [skipn find_from]. now replace (Z.of_nat 0 + 1) with (Z.of_nat 1) by reflexivity.
  - assert (forall j k, find_from test (skipn j l) (k + 1) = option_map (fun z => z + 1) (find_from test (skipn j l) k)) as Sh.
    { intros j k. generalize (skipn j l). clear. intros l. revert k.
      induction l as [|x l IH]; intros k; cbn [find_from]; [reflexivity|].
      destruct (test x); [reflexivity|]. apply IH. }
    specialize (IH i H). change (skipn (S i) (x :: l)) with (skipn i l). change (skipn (S (S i)) (x :: l)) with (skipn (S i) l). rewrite !Nat2Z.inj_succ. unfold Z.succ in *. rewrite Sh, IH.
    destruct (test r); [reflexivity|]. rewrite Nat2Z.inj_succ. unfold Z.succ. symmetry. apply Sh.
Qed.
Lemma alone_find a test h b n : forall i, valid h (side a b) -> (i + n = s_len (side a b))%nat ->
  alone spare (p_find a test n (Z.of_nat i)) (mkShared h b) =
  Ret (find_from test (skipn i (view h (side a b))) (Z.of_nat i), mkShared h b).
Proof.
  induction n as [|n IH]; intros i V E; cbn [p_find].
  - rewrite skipn_all2 by (rewrite view_len by assumption; lia). reflexivity.
  - go. unfold index. replace (Z.of_nat i <? 0) with false by (symmetry; apply Z.ltb_ge; lia). rewrite Nat2Z.id.
    destruct (nth_error (view h (side a b)) i) as [r|] eqn:En.
    + cbn [bind]. rewrite (find_skip test _ i r En). destruct (test r); [reflexivity|].
      replace (Z.of_nat i + 1) with (Z.of_nat (S i)) by lia. apply IH; [assumption|lia].
    + apply nth_error_None in En. rewrite view_len in En by assumption. lia.
Qed.
Lemma alone_range a test h b : valid h (side a b) ->
  alone spare (p_range a test) (mkShared h b) = Ret (find_from test (view h (side a b)) 0, mkShared h b).
Proof. intros V. unfold p_range. go. exact (alone_find a test h b _ 0 V eq_refl). Qed.

Lemma alone_limit_side a h b : alone spare (p_limit_side a) (mkShared h b) =
  (s <- h_limit_side (side a b) (hb_depth b) ;; Ret (tt, mkShared h (with_side a b s))).
Proof.
  unfold p_limit_side, h_limit_side. go. destruct (hb_depth b <? slen (side a b)); go.
  - destruct (sub_slice (side a b) 0 (hb_depth b)) as [t|e]; cbn [bind]; [go|]; reflexivity.
  - cbn [alone]. now rewrite with_same.
Qed.
Lemma alone_limit h b : alone spare p_limit (mkShared h b) = (b1 <- h_limit b ;; Ret (tt, mkShared h b1)).
Proof.
  unfold p_limit, h_limit. go. rewrite alone_limit_side. cbn [side].
  destruct (h_limit_side (hb_asks b) (hb_depth b)) as [s|e]; cbn [bind]; [|reflexivity].
  rewrite alone_limit_side. cbn [side with_side hb_bids hb_depth hb_time hb_asks].
  now destruct (h_limit_side (hb_bids b) (hb_depth b)).
Qed.
Lemma alone_remove_side a before skip p h b : valid h (side a b) ->
  alone spare (p_remove_side a before skip p) (mkShared h b) =
  (s <- h_remove_side before skip h p (side a b) ;; Ret (tt, mkShared h (with_side a b s))).
Proof.
  intros V. unfold p_remove_side, h_remove_side. go.
  destruct (slen (side a b) =? 0); [cbn [alone bind]; now rewrite with_same|]. go.
  rewrite get_elem_index. destruct (index (view h (side a b)) 0) as [r0|e]; cbn [bind]; [|reflexivity].
  destruct (before p (price r0)); [cbn [alone bind]; now rewrite with_same|].
  go. rewrite alone_range by assumption. cbn [bind].
  destruct (find_from (fun r => negb (skip (price r) p)) (view h (side a b)) 0) as [i|]; go; [|reflexivity].
  destruct (sub_slice (side a b) _ _) as [t|e]; cbn [bind]; [go|]; reflexivity.
Qed.

Lemma alone_append a r h b : alone spare (p_append a r) (mkShared h b) =
  (let '(h1, s) := append_slice zero_row (spare (length h)) h (side a b) [r] in
   Ret (tt, mkShared h1 (with_side a b s))).
Proof.
  unfold p_append. go. rewrite alone_act. cbn [exec sh_heap sh_book].
  destruct (append_slice zero_row (spare (length h)) h (side a b) [r]) as [h1 s]. cbn [bind]. go. reflexivity.
Qed.
Lemma alone_put a i r h b : alone spare (p_put a i r) (mkShared h b) =
  (h1 <- set_elem h (side a b) i r ;; Ret (tt, mkShared h1 b)).
Proof. unfold p_put. go. rewrite alone_act. reflexivity. Qed.

Lemma alone_insert a better new h b : valid h (side a b) ->
  alone spare (p_insert a better new) (mkShared h b) =
  ('(h1, s) <- h_insert spare better h (side a b) new ;; Ret (tt, mkShared h1 (with_side a b s))).
Proof.
  intros V. unfold p_insert, h_insert. cbv zeta. go. rewrite alone_range by assumption. cbn [bind].
  destruct (find_from (fun r => feq (price r) (price new)) (view h (side a b)) 0) as [i|].
  { rewrite alone_put. destruct (set_elem h (side a b) i new); cbn [bind]; [now rewrite with_same|reflexivity]. }
  go. destruct (slen (side a b) =? 0).
  { rewrite alone_append. now destruct (append_slice zero_row (spare (length h)) h (side a b) [new]). }
  go. destruct (slen (side a b) =? 1).
  { go. rewrite get_elem_index. destruct (index (view h (side a b)) 0) as [r0|e] eqn:E; cbn [bind]; [|reflexivity].
    destruct (better (price new) (price r0)).
    - go. rewrite E. cbn [bind]. rewrite alone_after, alone_act. cbn [exec sh_heap sh_book].
      destruct (append_slice zero_row (spare (length h)) h (side a b) [r0]) as [h1 s1]. cbn [bind]. go.
      rewrite alone_put, side_with. destruct (set_elem h1 s1 0 new); reflexivity.
    - rewrite alone_append. now destruct (append_slice zero_row (spare (length h)) h (side a b) [new]). }
  go. rewrite alone_range by assumption. cbn [bind].
  destruct (find_from (fun r => better (price new) (price r)) (view h (side a b)) 0) as [i|].
  - go. rewrite alone_append. destruct (append_slice zero_row (spare (length h)) h (side a b) [zero_row]) as [h1 s1].
    cbn [bind]. go. destruct (sub_slice s1 (i + 1) (slen s1)) as [dst|e]; cbn [bind]; [|reflexivity].
    go. destruct (sub_slice s1 i (slen s1)) as [src|e]; cbn [bind]; [|reflexivity].
    rewrite alone_after, alone_act. cbn [exec sh_heap sh_book bind]. rewrite alone_put, side_with.
    now destruct (set_elem (copy_slice h1 dst src) s1 i new).
  - rewrite alone_append. now destruct (append_slice zero_row (spare (length h)) h (side a b) [new]).
Qed.
Lemma alone_delete a p h b : valid h (side a b) ->
  alone spare (p_delete a p) (mkShared h b) =
  (r <- h_delete h (side a b) p ;;
   match r with
   | Some (h1, s) => b1 <- h_limit (with_side a b s) ;; Ret (tt, mkShared h1 b1)
   | None => Ret (tt, mkShared h b)
   end).
Proof.
  intros V. unfold p_delete, h_delete. go. rewrite alone_range by assumption. cbn [bind].
  destruct (find_from (fun r => feq (price r) p) (view h (side a b)) 0) as [i|]; [|reflexivity].
  unfold h_remove_element. go. destruct (sub_slice (side a b) 0 i) as [hd|e]; cbn [bind]; [|reflexivity].
  go. destruct (sub_slice (side a b) (i + 1) (slen (side a b))) as [tl|e]; cbn [bind]; [|reflexivity].
  rewrite alone_after, alone_act. cbn [exec sh_heap sh_book].
  destruct (append_slice zero_row 0 h hd (view h tl)) as [h1 s1]. cbn [bind]. go. now rewrite alone_limit.
Qed.

Lemma alone_update u h b : own h b ->
  alone spare (p_apply_update u) (mkShared h b) =
  ('(h1, b1, e) <- h_apply_update spare u h b ;; Ret (e, mkShared h1 b1)).
Proof.
  intros (Va & Vb & _). unfold p_apply_update, h_apply_update. cbv zeta.
  destruct (String.eqb (u_side u) "ask").
  { destruct (negb (feq (u_volume u) fzero)).
    - go. rewrite alone_remove_side by exact Vb. cbn [side].
      destruct (h_remove_side _ _ h (u_price u) (hb_bids b)) as [c|e]; cbn [bind]; [|reflexivity].
      go. rewrite alone_insert by exact Va. cbn [side with_side hb_asks].
      destruct (h_insert spare _ h (hb_asks b) _) as [[h1 s1]|e]; cbn [bind]; [|reflexivity].
      go. rewrite alone_limit. cbn [hb_time hb_bids hb_depth].
      destruct (h_limit _) as [b1|e]; reflexivity.
    - go. rewrite alone_delete by exact Va. cbn [side].
      destruct (h_delete h (hb_asks b) (u_price u)) as [[[h1 s1]|]|e]; cbn [bind]; try reflexivity.
      cbn [with_side]. destruct (h_limit _) as [b1|e]; reflexivity. }
  destruct (String.eqb (u_side u) "bid"); [|reflexivity].
  destruct (negb (feq (u_volume u) fzero)).
  - go. rewrite alone_remove_side by exact Va. cbn [side].
    destruct (h_remove_side _ _ h (u_price u) (hb_asks b)) as [c|e]; cbn [bind]; [|reflexivity].
    go. rewrite alone_insert by exact Vb. cbn [side with_side hb_bids].
    destruct (h_insert spare _ h (hb_bids b) _) as [[h1 s1]|e]; cbn [bind]; [|reflexivity].
    go. rewrite alone_limit. cbn [hb_time hb_asks hb_depth].
    destruct (h_limit _) as [b1|e]; reflexivity.
  - go. rewrite alone_delete by exact Vb. cbn [side].
    destruct (h_delete h (hb_bids b) (u_price u)) as [[[h1 s1]|]|e]; cbn [bind]; try reflexivity.
    cbn [with_side]. destruct (h_limit _) as [b1|e]; reflexivity.
Qed.

Lemma alone_first a h b : alone spare (p_first a) (mkShared h b) =
  (r <- index (view h (side a b)) 0 ;; Ret (r, mkShared h b)).
Proof. unfold p_first. go. reflexivity. Qed.
Lemma alone_last a h b : valid h (side a b) -> alone spare (p_last a) (mkShared h b) =
  (r <- index (view h (side a b)) (zlen (view h (side a b)) - 1) ;; Ret (r, mkShared h b)).
Proof. intros V. unfold p_last. go. now rewrite (view_zlen h (side a b) V). Qed.
Lemma alone_get_depth q h b : own h b ->
  alone spare (p_get_depth q) (mkShared h b) = (r <- get_depth (book_view h b) q ;; Ret (r, mkShared h b)).
Proof.
  intros (Va & Vb & _). unfold p_get_depth, get_depth. destruct (fle q fzero); [reflexivity|].
  cbn [book_view asks bids].
  go. rewrite alone_first. cbn [side]. destruct (index (view h (hb_asks b)) 0) as [fa|e]; cbn [bind]; [|reflexivity].
  go. rewrite alone_last by exact Va. cbn [side].
  destruct (index (view h (hb_asks b)) (zlen (view h (hb_asks b)) - 1)) as [la|e]; cbn [bind]; [|reflexivity].
  go. rewrite alone_first. cbn [side]. destruct (index (view h (hb_bids b)) 0) as [fb|e]; cbn [bind]; [|reflexivity].
  go. rewrite alone_last by exact Vb. cbn [side].
  destruct (index (view h (hb_bids b)) (zlen (view h (hb_bids b)) - 1)) as [lb|e]; cbn [bind]; [|reflexivity].
  destruct (fle (price fa) q && fle q (price la)).
  { unfold p_depth_in. go. rewrite alone_range by exact Va. cbn [bind side].
    destruct (find_from (fun r => flt q (price r)) (view h (hb_asks b)) 0) as [k|]; [|reflexivity]. go. cbn [side].
    destruct (index (view h (hb_asks b)) _); reflexivity. }
  destruct (fle (price lb) q && fle q (price fb)); [|reflexivity].
  unfold p_depth_in. go. rewrite alone_range by exact Vb. cbn [bind side].
  destruct (find_from (fun r => flt (price r) q) (view h (hb_bids b)) 0) as [k|]; [|reflexivity]. go. cbn [side].
  destruct (index (view h (hb_bids b)) _); reflexivity.
Qed.

(** A call run alone is the sequential call. *)
Lemma alone_body c h b : own h b ->
  match seq_call c (book_view h b) with
  | Ret (ob, r) => exists h' b', alone spare (body c) (mkShared h b) = Ret (r, mkShared h' b') /\ own h' b' /\ book_view h' b' = ob
  | Panic e => alone spare (body c) (mkShared h b) = Panic e
  end.
Proof.
  intros O. destruct c as [u|q]; cbn [seq_call body]; go.
  - rewrite alone_update by assumption. pose proof (apply_update_sim spare u h b O) as S.
    destruct (apply_update u (book_view h b)) as [[ob e]|e]; cbn [bind simulates] in *.
    + destruct S as (h' & b' & E & S & W). exists h', b'. rewrite E. cbn [bind alone]. split; [reflexivity|]. split; [apply S|exact W].
    + now rewrite S.
  - rewrite alone_get_depth by assumption. destruct (get_depth (book_view h b) q) as [r|e]; cbn [bind]; [|reflexivity].
    exists h, b. auto.
Qed.
End Alone.
