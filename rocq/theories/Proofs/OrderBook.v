(** Lemmas about Model/OrderBook.v. *)
From Coq Require Import Sorting.Sorted Sorting.Permutation.
From Verif Require Import Go.Outcome Go.Int64 Go.Slice Go.Sort Go.Float64 Go.FloatOrder Go.FloatReal Go.Num
  Model.OrderBook Spec.OrderBookSpec Proofs.Lists Proofs.StableSort.
Open Scope list_scope.
Open Scope Z_scope.

Notation rw := (row f64).

(** ** Raw shape of the list operations *)

Lemma find_from_some {F} (t : row F -> bool) l i j : find_from t l i = Some j ->
  exists a r b, l = a ++ r :: b /\ j = i + zlen a /\ t r = true /\ Forall (fun x => t x = false) a.
Proof.
  revert i. induction l as [|x l IH]; simpl; intros i H; [discriminate|].
  destruct (t x) eqn:T.
  - injection H as <-. exists [], x, l. rewrite zlen_nil. repeat split; auto; lia.
  - apply IH in H as (a & r & b & -> & -> & Tr & Fa).
    exists (x :: a), r, b. rewrite zlen_cons. repeat split; auto; lia.
Qed.
Lemma find_from_none {F} (t : row F -> bool) l i : find_from t l i = None ->
  Forall (fun x => t x = false) l.
Proof.
  revert i. induction l as [|x l IH]; simpl; intros i H; [constructor|].
  destruct (t x) eqn:T; [discriminate|]. constructor; eauto.
Qed.
Lemma find_from_app {F} (t : row F -> bool) a r b i :
  t r = true -> Forall (fun x => t x = false) a ->
  find_from t (a ++ r :: b) i = Some (i + zlen a).
Proof.
  revert i. induction a as [|x a IH]; simpl; intros i Tr Fa.
  - rewrite Tr, zlen_nil. f_equal; lia.
  - inversion Fa as [|? ? Tx Fa']; subst. rewrite Tx, IH by assumption. rewrite zlen_cons. f_equal; lia.
Qed.
Lemma find_from_all {F} (t : row F -> bool) l i :
  Forall (fun x => t x = false) l -> find_from t l i = None.
Proof.
  intros H. revert i. induction H as [|x l Tx H IH]; simpl; intros i; [reflexivity|]. now rewrite Tx.
Qed.

Lemma zto_len {A} (a : list A) : Z.to_nat (0 + zlen a) = List.length a.
Proof. unfold zlen. lia. Qed.

Lemma set_nth_app {F} (a : list (row F)) r b x :
  set_nth (List.length a) x (a ++ r :: b) = a ++ x :: b.
Proof. induction a; simpl; [reflexivity|]. now rewrite IHa. Qed.

Lemma insert_row_app {F} {N : GoFloat F} (a : list (row F)) r b x :
  insert_row (List.length a) x (a ++ r :: b) = a ++ x :: r :: b.
Proof.
  unfold insert_row, copy_shift.
  set (z := mkRow fzero fzero fzero).
  replace (firstn (List.length a + 1) ((a ++ r :: b) ++ [z])) with (a ++ [r]).
  2:{ replace (List.length a + 1)%nat with (List.length (a ++ [r])) by (rewrite app_length; simpl; lia).
      replace ((a ++ r :: b) ++ [z]) with ((a ++ [r]) ++ b ++ [z])
        by (rewrite <- !app_assoc; reflexivity).
      symmetry. apply firstn_app_exact. }
  rewrite <- (app_assoc a (r :: b) [z]). rewrite skipn_app_exact.
  replace (List.length (a ++ (r :: b) ++ [z]) - List.length a - 1)%nat with (List.length (r :: b))
    by (rewrite !app_length; simpl; lia).
  rewrite firstn_app_exact. rewrite <- app_assoc. apply set_nth_app.
Qed.

Lemma remove_element_app {F} (a : list (row F)) r b :
  remove_element (a ++ r :: b) (List.length a) = a ++ b.
Proof.
  unfold remove_element. rewrite firstn_app_exact. f_equal.
  replace (a ++ r :: b) with ((a ++ [r]) ++ b) by (rewrite <- app_assoc; reflexivity).
  replace (List.length a + 1)%nat with (List.length (a ++ [r])) by (rewrite app_length; simpl; lia).
  apply skipn_app_exact.
Qed.

(** ** limit *)

Lemma limit_side_ok {F} (l : list (row F)) d : 0 <= d ->
  limit_side l d = Ret (firstn (Z.to_nat d) l).
Proof.
  intros Hd. unfold limit_side. destruct (Z.ltb_spec d (zlen l)) as [H|H].
  - rewrite reslice_ok by lia. simpl. now rewrite Z.sub_0_r.
  - rewrite firstn_all2; [reflexivity|]. unfold zlen in H. lia.
Qed.
Lemma limit_ok {F} (ob : book F) : 0 <= max_depth ob ->
  limit ob = Ret (mkBook (b_time ob) (firstn (Z.to_nat (max_depth ob)) (asks ob))
                    (firstn (Z.to_nat (max_depth ob)) (bids ob)) (max_depth ob)).
Proof. intros H. unfold limit. rewrite !limit_side_ok by assumption. reflexivity. Qed.
Lemma limit_neg {F} (ob : book F) : max_depth ob < 0 -> limit ob = Panic PSlice.
Proof.
  intros H. unfold limit, limit_side. pose proof (zlen_nonneg (asks ob)).
  destruct (Z.ltb_spec (max_depth ob) (zlen (asks ob))); [|lia].
  rewrite reslice_panic by lia. reflexivity.
Qed.

(** ** removeInvalid *)

(** The rows the code keeps on the opposite side: [out] is the early-return
    test on the best row, [crossed] the loop's continue test. *)
Fixpoint after_crossed {F} (crossed : row F -> bool) (l : list (row F)) : list (row F) :=
  match l with
  | [] => []
  | r :: rest => if crossed r then after_crossed crossed rest
                 else match rest with [] => [r] | _ => rest end
  end.
Definition cut {F} (out crossed : row F -> bool) (l : list (row F)) : list (row F) :=
  match l with
  | [] => []
  | r0 :: _ => if out r0 then l else after_crossed crossed l
  end.

Lemma after_crossed_app {F} (t : row F -> bool) a r b :
  Forall (fun x => t x = true) a -> t r = false ->
  after_crossed t (a ++ r :: b) = match b with [] => [r] | _ => b end.
Proof. intros H Tr. induction H as [|x a Tx H IH]; simpl; [now rewrite Tr|]. now rewrite Tx. Qed.
Lemma after_crossed_all {F} (t : row F -> bool) l :
  Forall (fun x => t x = true) l -> after_crossed t l = [].
Proof. induction 1 as [|x l Tx H IH]; simpl; [reflexivity|]. now rewrite Tx. Qed.

Lemma cut_from_app {F} (a : list (row F)) r b : zlen (a ++ r :: b) <= 2 ^ 53 ->
  exists n, cut_from (a ++ r :: b) (0 + zlen a) =
            Ret (n, match b with [] => [r] | _ => b end).
Proof.
  intros H. unfold cut_from. pose proof (zlen_nonneg a). pose proof (zlen_nonneg b).
  assert (zlen (a ++ r :: b) = zlen a + zlen b + 1) as L by (rewrite zlen_app, zlen_cons; lia).
  rewrite f2i_min by (unfold exact_int; lia).
  rewrite reslice_ok by lia. cbn [bind]. eexists. f_equal. f_equal.
  unfold zlen in *. rewrite !app_length in *. cbn [List.length] in *.
  destruct b as [|y b]; cbn [List.length] in *.
  - rewrite Z.min_r by lia.
    replace (Z.to_nat (_ - 1)) with (List.length a) by lia.
    rewrite skipn_app_exact. apply firstn_all2. cbn [List.length]. lia.
  - rewrite Z.min_l by lia.
    replace (a ++ r :: y :: b) with ((a ++ [r]) ++ y :: b) by (rewrite <- app_assoc; reflexivity).
    replace (Z.to_nat (0 + _ + 1)) with (List.length (a ++ [r])) by (rewrite app_length; simpl; lia).
    rewrite skipn_app_exact. apply firstn_all2. cbn [List.length]. lia.
Qed.

Lemma cut_loop {F} (t : row F -> bool) l : zlen l <= 2 ^ 53 ->
  match find_from (fun r => negb (t r)) l 0 with
  | Some i => exists n, cut_from l i = Ret (n, after_crossed t l)
  | None => after_crossed t l = []
  end.
Proof.
  intros H. destruct (find_from _ l 0) as [i|] eqn:E.
  - apply find_from_some in E as (a & r & b & -> & -> & Tr & Fa).
    destruct (cut_from_app a r b H) as (n & En). exists n. rewrite En.
    rewrite after_crossed_app; [reflexivity| |].
    + eapply Forall_impl; [|exact Fa]. intros x Hx. now apply negb_false_iff in Hx.
    + now apply negb_true_iff in Tr.
  - apply after_crossed_all. apply find_from_none in E.
    eapply Forall_impl; [|exact E]. intros x Hx. now apply negb_false_iff in Hx.
Qed.

Section Raw.
Context {F : Type} {N : GoFloat F}.

Lemma remove_bid_ok (ob : book F) p : zlen (bids ob) <= 2 ^ 53 ->
  exists n, remove_invalid "bid" p ob =
    Ret (n, with_bids ob (cut (fun r => flt (price r) p) (fun r => flt p (price r)) (bids ob))).
Proof.
  intros H. unfold remove_invalid. change (String.eqb "bid" "ask") with false.
  change (String.eqb "bid" "bid") with true. cbv iota.
  destruct ob as [tm as_ bs d]; cbn [bids asks max_depth b_time] in *. unfold with_bids; cbn [bids asks max_depth b_time].
  destruct bs as [|b0 bs]; [eexists; reflexivity|].
  destruct (Z.eqb_spec (zlen (b0 :: bs)) 0) as [E|_].
  { rewrite zlen_cons in E. pose proof (zlen_nonneg bs). lia. }
  change (index (b0 :: bs) 0) with (Ret b0). cbn [bind cut].
  destruct (flt (price b0) p); [eexists; reflexivity|].
  pose proof (cut_loop (fun r => flt p (price r)) (b0 :: bs) H) as C.
  destruct (find_from _ (b0 :: bs) 0) as [i|].
  - destruct C as (n & ->). cbn [bind]. eexists; reflexivity.
  - rewrite C. eexists; reflexivity.
Qed.
Lemma remove_ask_ok (ob : book F) p : zlen (asks ob) <= 2 ^ 53 ->
  exists n, remove_invalid "ask" p ob =
    Ret (n, with_asks ob (cut (fun r => flt p (price r)) (fun r => flt (price r) p) (asks ob))).
Proof.
  intros H. unfold remove_invalid. change (String.eqb "ask" "ask") with true. cbv iota.
  destruct ob as [tm as_ bs d]; cbn [bids asks max_depth b_time] in *. unfold with_asks; cbn [bids asks max_depth b_time].
  destruct as_ as [|b0 as_]; [eexists; reflexivity|].
  destruct (Z.eqb_spec (zlen (b0 :: as_)) 0) as [E|_].
  { rewrite zlen_cons in E. pose proof (zlen_nonneg as_). lia. }
  change (index (b0 :: as_) 0) with (Ret b0). cbn [bind cut].
  destruct (flt p (price b0)); [eexists; reflexivity|].
  pose proof (cut_loop (fun r => flt (price r) p) (b0 :: as_) H) as C.
  destruct (find_from _ (b0 :: as_) 0) as [i|].
  - destruct C as (n & ->). cbn [bind]. eexists; reflexivity.
  - rewrite C. eexists; reflexivity.
Qed.

(** ** The own side of an update *)

(** Effect of a non-zero update on its own side before truncation. *)
Definition own_set (eqt gtt : row F -> bool) (new : row F) (l : list (row F)) : list (row F) :=
  match find_from eqt l 0 with
  | Some i => set_nth (Z.to_nat i) new l
  | None =>
      match find_from gtt l 0 with
      | Some i => firstn (Z.to_nat i) l ++ new :: skipn (Z.to_nat i) l
      | None => l ++ [new]
      end
  end.
Definition own_del (eqt : row F -> bool) (l : list (row F)) : list (row F) :=
  match find_from eqt l 0 with
  | Some i => remove_element l (Z.to_nat i)
  | None => l
  end.

Definition truncated (ob : book F) : book F :=
  mkBook (b_time ob) (firstn (Z.to_nat (max_depth ob)) (asks ob))
    (firstn (Z.to_nat (max_depth ob)) (bids ob)) (max_depth ob).

Lemma own_insert (gtt : row F -> bool) (new : row F) l (X : Type)
    (k : list (row F) -> go X) :
  (if zlen l =? 0 then k (l ++ [new])
   else if zlen l =? 1 then
     r0 <- index l 0 ;;
     if gtt r0 then k (set_nth 0 new (l ++ [r0])) else k (l ++ [new])
   else match find_from gtt l 0 with
        | Some i => k (insert_row (Z.to_nat i) new l)
        | None => k (l ++ [new])
        end)
  = k (match find_from gtt l 0 with
       | Some i => firstn (Z.to_nat i) l ++ new :: skipn (Z.to_nat i) l
       | None => l ++ [new]
       end).
Proof.
  destruct l as [|r0 [|r1 l]].
  - reflexivity.
  - change (zlen [r0] =? 0) with false. change (zlen [r0] =? 1) with true. cbv iota.
    change (index [r0] 0) with (Ret r0). cbn [bind find_from].
    destruct (gtt r0); reflexivity.
  - destruct (Z.eqb_spec (zlen (r0 :: r1 :: l)) 0) as [E|_];
      [rewrite !zlen_cons in E; pose proof (zlen_nonneg l); lia|].
    destruct (Z.eqb_spec (zlen (r0 :: r1 :: l)) 1) as [E|_];
      [rewrite !zlen_cons in E; pose proof (zlen_nonneg l); lia|].
    destruct (find_from gtt (r0 :: r1 :: l) 0) as [i|] eqn:E; [|reflexivity].
    apply find_from_some in E as (a & r & b & -> & -> & _ & _).
    rewrite zto_len, insert_row_app, firstn_app_exact, skipn_app_exact. reflexivity.
Qed.

Definition new_row (u : update F) : row F := mkRow (u_price u) (u_volume u) fzero.

Definition is_set (u : update F) : bool := negb (feq (u_volume u) fzero).

Lemma apply_ask_set u (ob : book F) :
  u_side u = "ask"%string -> is_set u = true -> 0 <= max_depth ob -> zlen (bids ob) <= 2 ^ 53 ->
  apply_update u ob =
  Ret (truncated
    (mkBook (b_time ob)
       (own_set (fun r => feq (price r) (u_price u)) (fun r => flt (u_price u) (price r)) (new_row u) (asks ob))
       (cut (fun r => flt (price r) (u_price u)) (fun r => flt (u_price u) (price r)) (bids ob))
       (max_depth ob)), None).
Proof.
  intros Hs Hv Hd Hl. unfold apply_update. rewrite Hs. change (String.eqb "ask" "ask") with true. cbv iota.
  unfold is_set in Hv. rewrite Hv.
  destruct (remove_bid_ok ob (u_price u) Hl) as (n & ->). cbn [bind].
  unfold with_bids. cbn [asks]. unfold own_set.
  destruct (find_from (fun r => feq (price r) (u_price u)) (asks ob) 0) as [i|].
  - rewrite limit_ok by assumption. reflexivity.
  - change (mkRow (u_price u) (u_volume u) fzero) with (new_row u).
    rewrite (own_insert (fun r => flt (u_price u) (price r)) (new_row u) (asks ob) _
      (fun l => ob2 <- limit (with_asks (mkBook (b_time ob) (asks ob)
         (cut (fun r => flt (price r) (u_price u)) (fun r => flt (u_price u) (price r)) (bids ob))
         (max_depth ob)) l) ;; Ret (ob2, None))).
    rewrite limit_ok by assumption. reflexivity.
Qed.

Lemma apply_bid_set u (ob : book F) :
  u_side u = "bid"%string -> is_set u = true -> 0 <= max_depth ob -> zlen (asks ob) <= 2 ^ 53 ->
  apply_update u ob =
  Ret (truncated
    (mkBook (b_time ob)
       (cut (fun r => flt (u_price u) (price r)) (fun r => flt (price r) (u_price u)) (asks ob))
       (own_set (fun r => feq (price r) (u_price u)) (fun r => flt (price r) (u_price u)) (new_row u) (bids ob))
       (max_depth ob)), None).
Proof.
  intros Hs Hv Hd Hl. unfold apply_update. rewrite Hs. change (String.eqb "bid" "ask") with false.
  change (String.eqb "bid" "bid") with true. cbv iota.
  unfold is_set in Hv. rewrite Hv.
  destruct (remove_ask_ok ob (u_price u) Hl) as (n & ->). cbn [bind].
  unfold with_asks. cbn [bids]. unfold own_set.
  destruct (find_from (fun r => feq (price r) (u_price u)) (bids ob) 0) as [i|].
  - rewrite limit_ok by assumption. reflexivity.
  - change (mkRow (u_price u) (u_volume u) fzero) with (new_row u).
    rewrite (own_insert (fun r => flt (price r) (u_price u)) (new_row u) (bids ob) _
      (fun l => ob2 <- limit (with_bids (mkBook (b_time ob)
         (cut (fun r => flt (u_price u) (price r)) (fun r => flt (price r) (u_price u)) (asks ob))
         (bids ob) (max_depth ob)) l) ;; Ret (ob2, None))).
    rewrite limit_ok by assumption. reflexivity.
Qed.

Lemma apply_ask_del u (ob : book F) :
  u_side u = "ask"%string -> is_set u = false -> 0 <= max_depth ob ->
  apply_update u ob =
  match find_from (fun r => feq (price r) (u_price u)) (asks ob) 0 with
  | Some _ => Ret (truncated (with_asks ob (own_del (fun r => feq (price r) (u_price u)) (asks ob))), None)
  | None => Ret (ob, None)
  end.
Proof.
  intros Hs Hv Hd. unfold apply_update. rewrite Hs. change (String.eqb "ask" "ask") with true. cbv iota.
  unfold is_set in Hv. rewrite Hv. unfold own_del.
  destruct (find_from _ (asks ob) 0); [|reflexivity].
  rewrite limit_ok by assumption. reflexivity.
Qed.
Lemma apply_bid_del u (ob : book F) :
  u_side u = "bid"%string -> is_set u = false -> 0 <= max_depth ob ->
  apply_update u ob =
  match find_from (fun r => feq (price r) (u_price u)) (bids ob) 0 with
  | Some _ => Ret (truncated (with_bids ob (own_del (fun r => feq (price r) (u_price u)) (bids ob))), None)
  | None => Ret (ob, None)
  end.
Proof.
  intros Hs Hv Hd. unfold apply_update. rewrite Hs. change (String.eqb "bid" "ask") with false.
  change (String.eqb "bid" "bid") with true. cbv iota.
  unfold is_set in Hv. rewrite Hv. unfold own_del.
  destruct (find_from _ (bids ob) 0); [|reflexivity].
  rewrite limit_ok by assumption. reflexivity.
Qed.
Lemma apply_bad_side u (ob : book F) :
  u_side u <> "ask"%string -> u_side u <> "bid"%string -> apply_update u ob = Ret (ob, Some bad_side).
Proof.
  intros H1 H2. unfold apply_update.
  rewrite (proj2 (String.eqb_neq _ _) H1), (proj2 (String.eqb_neq _ _) H2). reflexivity.
Qed.

(** Raw shape of [own_set] and [own_del]. *)
Lemma own_set_shape eqt gtt (new : row F) l :
  exists a e b, l = a ++ e ++ b /\ own_set eqt gtt new l = a ++ new :: b /\
    Forall (fun x => eqt x = false) a /\
    ((exists r, e = [r] /\ eqt r = true) \/
     (e = [] /\ Forall (fun x => eqt x = false) l /\ Forall (fun x => gtt x = false) a /\
      match b with [] => True | r :: _ => gtt r = true end)).
Proof.
  unfold own_set. destruct (find_from eqt l 0) as [i|] eqn:E.
  - apply find_from_some in E as (a & r & b & -> & -> & Tr & Fa).
    exists a, [r], b. rewrite zto_len, set_nth_app. repeat split; auto. left; eauto.
  - apply find_from_none in E. destruct (find_from gtt l 0) as [i|] eqn:G.
    + apply find_from_some in G as (a & r & b & -> & -> & Tr & Fa).
      exists a, [], (r :: b). rewrite zto_len, firstn_app_exact, skipn_app_exact.
      split; [reflexivity|]. split; [reflexivity|]. split; [now apply Forall_app in E|].
      right. repeat split; auto.
    + apply find_from_none in G. exists l, [], []. cbn [app]. rewrite app_nil_r.
      split; [reflexivity|]. split; [reflexivity|]. split; [assumption|].
      right; repeat split; auto.
Qed.
Lemma own_del_shape eqt (l : list (row F)) :
  (Forall (fun x => eqt x = false) l /\ own_del eqt l = l /\ find_from eqt l 0 = None) \/
  exists a r b, l = a ++ r :: b /\ own_del eqt l = a ++ b /\ eqt r = true /\
    Forall (fun x => eqt x = false) a /\ find_from eqt l 0 <> None.
Proof.
  unfold own_del. destruct (find_from eqt l 0) as [i|] eqn:E.
  - right. apply find_from_some in E as (a & r & b & -> & -> & Tr & Fa).
    exists a, r, b. rewrite zto_len, remove_element_app. repeat split; auto. discriminate.
  - left. apply find_from_none in E. auto.
Qed.
Lemma own_set_len eqt gtt (new : row F) l : zlen (own_set eqt gtt new l) <= zlen l + 1.
Proof.
  destruct (own_set_shape eqt gtt new l) as (a & e & b & -> & -> & _ & _).
  rewrite !zlen_app, zlen_cons. pose proof (zlen_nonneg e). lia.
Qed.
Lemma own_del_len eqt (l : list (row F)) : zlen (own_del eqt l) <= zlen l.
Proof.
  destruct (own_del_shape eqt l) as [(_ & -> & _)|(a & r & b & -> & -> & _ & _)]; [lia|].
  rewrite !zlen_app, zlen_cons. lia.
Qed.

(** The opposite side keeps a suffix. *)
Lemma after_crossed_suffix t (l : list (row F)) : exists a, l = a ++ after_crossed t l.
Proof.
  induction l as [|x l (a & E)]; simpl; [exists []; reflexivity|].
  destruct (t x).
  - exists (x :: a). simpl. now f_equal.
  - destruct l as [|y l]; [exists []; reflexivity|]. exists [x]. reflexivity.
Qed.
Lemma cut_suffix out t (l : list (row F)) : exists a, l = a ++ cut out t l.
Proof.
  destruct l as [|x l]; [exists []; reflexivity|]. unfold cut.
  destruct (out x); [exists []; reflexivity|apply after_crossed_suffix].
Qed.
Lemma cut_len out t (l : list (row F)) : zlen (cut out t l) <= zlen l.
Proof.
  destruct (cut_suffix out t l) as (a & E). rewrite E at 2. rewrite zlen_app.
  pose proof (zlen_nonneg a). lia.
Qed.
Lemma cut_in out t (l : list (row F)) x : In x (cut out t l) -> In x l.
Proof. intros H. destruct (cut_suffix out t l) as (a & E). rewrite E. apply in_or_app; auto. Qed.
Lemma cut_ss out t (R : row F -> row F -> Prop) (l : list (row F)) :
  StronglySorted R l -> StronglySorted R (cut out t l).
Proof. intros H. destruct (cut_suffix out t l) as (a & E). rewrite E in H. now apply ss_app in H. Qed.

End Raw.
