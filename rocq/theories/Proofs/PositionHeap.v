(** Positions with shared Trades arrays. *)
From Coq Require Import Lia Arith.
From Verif Require Import Go.Outcome Go.Slice Go.Float64 Go.Num Go.Heap Model.Pair Model.Entities Model.PositionHeap
  Spec.HeapSpec Proofs.Heap.
Open Scope list_scope.
Open Scope Z_scope.

Section Pos.
Context {F : Type} {N : GoFloat F}.
Variable spare : nat -> nat.
Implicit Types (h : heap string) (p q : hposition F) (t : trade F) (s : slice).

Definition full s : Prop := s_len s = s_cap s.

(** Appending to [s] cannot be seen through [u]. *)
Definition indep s (u : slice) : Prop := disjoint s u \/ (full s /\ full u).

Lemma append_indep h s x (u : slice) : valid h s -> valid h u -> indep s u ->
  let r := append_slice "" (spare (List.length h)) h s [x] in
  valid (fst r) (snd r) /\ valid (fst r) u /\ indep (snd r) u /\ view (fst r) u = view h u /\
  view (fst r) (snd r) = view h s ++ [x].
Proof.
  intros Vs Vu I. destruct (append_ok "" (spare (List.length h)) h s [x] Vs) as (S & W & L). cbv zeta in *.
  destruct I as [D|[Fs Fu]].
  - destruct (proj2 S u Vu D) as (A & B & C). split; [exact (proj1 S)|]. split; [assumption|]. split; [now left|].
    split; [eapply step_view; eassumption|assumption].
  - (* full: a new array *)
    unfold append_slice in *. cbn [List.length] in *. unfold full in Fs.
    destruct (Nat.leb_spec (s_len s + 1) (s_cap s)) as [Q|Q]; [lia|]. cbn [fst snd] in *.
    assert (s_cap u <> 0%nat -> nth (s_arr u) (h ++ [view h s ++ [x] ++ repeat "" (spare (List.length h))]) [] = nth (s_arr u) h []) as E.
    { intros Z. apply app_nth1. now apply (proj2 Vu). }
    assert (view (h ++ [view h s ++ [x] ++ repeat "" (spare (List.length h))]) u = view h u) as Wu.
    { unfold view at 1 3. destruct (Nat.eq_dec (s_cap u) 0) as [Z|Z]; [|now rewrite E].
      unfold full in Fu. rewrite Fu, Z. reflexivity. }
    split; [exact (proj1 S)|]. split.
    { split; [exact (proj1 Vu)|]. intros Z. rewrite app_length, E by assumption. pose proof (proj2 Vu Z). simpl. lia. }
    split; [|split; assumption]. left. unfold disjoint. cbn [s_cap s_arr s_off].
    destruct (Nat.eq_dec (s_cap u) 0) as [Z|Z]; [auto|]. right; right; left. pose proof (proj2 Vu Z). lia.
Qed.

Lemma sub_trades (p : position F) t l : pos_substract (with_trades p l) t =
  match pos_substract p t with
  | (_, Some e) => (with_trades p l, Some e)
  | (q, None) => (with_trades q (l ++ [t_id t]), None)
  end.
Proof.
  unfold pos_substract. cbn [with_trades ps_quantity ps_type ps_open_price]. cbv zeta.
  destruct (flt (fsub (ps_quantity p) (t_quantity t)) f0 && flt (fsub (ps_quantity p) (t_quantity t)) (fconst (-1) (-4))); [reflexivity|].
  destruct (fle (fsub (ps_quantity p) (t_quantity t)) f0); reflexivity.
Qed.

(** One Modify: as at value level, and invisible through independent slices. *)
Lemma modify_sim h p t u : valid h (hp_trades p) -> valid h u -> indep (hp_trades p) u ->
  let r := h_modify spare t h p in
  valid (fst r) (hp_trades (snd r)) /\ valid (fst r) u /\ indep (hp_trades (snd r)) u /\ view (fst r) u = view h u /\
  pos_view (fst r) (snd r) = fst (modify (pos_view h p) t).
Proof.
  intros Vp Vu I. cbv zeta.
  assert (forall q : position F, let r := (let '(h1, s) := h_append spare h (hp_trades p) t in (h1, mkHPos q s)) in
    valid (fst r) (hp_trades (snd r)) /\ valid (fst r) u /\ indep (hp_trades (snd r)) u /\ view (fst r) u = view h u /\
    pos_view (fst r) (snd r) = with_trades q (view h (hp_trades p) ++ [t_id t])) as A.
  { intros q. unfold h_append. destruct (append_indep h (hp_trades p) (t_id t) u Vp Vu I) as (A1 & A2 & A3 & A4 & A5).
    destruct (append_slice "" (spare (List.length h)) h (hp_trades p) [t_id t]) as [h1 s]. cbn [fst snd hp_trades hp_fields] in *.
    unfold pos_view. cbn [hp_trades hp_fields]. rewrite A5. auto. }
  assert (let r := h_pos_substract spare h p t in
    valid (fst r) (hp_trades (snd r)) /\ valid (fst r) u /\ indep (hp_trades (snd r)) u /\ view (fst r) u = view h u /\
    pos_view (fst r) (snd r) = fst (pos_substract (pos_view h p) t)) as B.
  { unfold h_pos_substract, pos_view at 2. rewrite sub_trades. destruct (pos_substract (hp_fields p) t) as [q [e|]].
    - cbn [fst snd]. auto.
    - apply A. }
  unfold h_modify, modify. cbn [pos_view with_trades ps_pair ps_type]. fold (pos_view h p).
  destruct (negb (pair_eqb (ps_pair (hp_fields p)) (t_pair t))); [cbn [fst snd]; auto|].
  destruct (String.eqb (ps_type (hp_fields p)) LongPosition && String.eqb (t_action t) BuyAction); [exact (A _)|].
  destruct (String.eqb (ps_type (hp_fields p)) LongPosition && String.eqb (t_action t) SellAction); [exact B|].
  destruct (String.eqb (ps_type (hp_fields p)) ShortPosition && String.eqb (t_action t) BuyAction); [exact B|].
  destruct (String.eqb (ps_type (hp_fields p)) ShortPosition && String.eqb (t_action t) SellAction); [exact (A _)|].
  cbn [fst snd]; auto.
Qed.

Lemma indep_sym s u : indep s u -> indep u s.
Proof. intros [D|[A B]]; [left; now apply disjoint_sym|right; auto]. Qed.

Lemma modify2_sim ts h p q : valid h (hp_trades p) -> valid h (hp_trades q) -> indep (hp_trades p) (hp_trades q) ->
  let '(h', p', q') := h_modify2 spare ts h p q in
  pos_view h' p' = modify_all (pos_view h p) (calls true ts) /\
  pos_view h' q' = modify_all (pos_view h q) (calls false ts).
Proof.
  revert h p q. induction ts as [|[[] t] ts IH]; intros h p q Vp Vq I; [split; reflexivity| |]; cbn [h_modify2].
  - destruct (modify_sim h p t (hp_trades q) Vp Vq I) as (A1 & A2 & A3 & A4 & A5).
    destruct (h_modify spare t h p) as [h1 p1]. cbn [fst snd] in *. specialize (IH h1 p1 q A1 A2 A3).
    destruct (h_modify2 spare ts h1 p1 q) as [[h' p'] q'].
    unfold calls. cbn [filter map fst snd Bool.eqb]. fold (calls true ts) (calls false ts). cbn [modify_all].
    rewrite <- A5. replace (pos_view h q) with (pos_view h1 q) by (unfold pos_view; now rewrite A4). exact IH.
  - destruct (modify_sim h q t (hp_trades p) Vq Vp (indep_sym _ _ I)) as (A1 & A2 & A3 & A4 & A5).
    destruct (h_modify spare t h q) as [h1 q1]. cbn [fst snd] in *. specialize (IH h1 p q1 A2 A1 (indep_sym _ _ A3)).
    destruct (h_modify2 spare ts h1 p q1) as [[h' p'] q'].
    unfold calls. cbn [filter map fst snd Bool.eqb]. fold (calls true ts) (calls false ts). cbn [modify_all].
    rewrite <- A5. replace (pos_view h p) with (pos_view h1 p) by (unfold pos_view; now rewrite A4). exact IH.
Qed.

(** Appending twice to the same header with room: the second value wins. *)
Lemma append_twice h s x y a b : valid h s -> (s_len s < s_cap s)%nat ->
  let r := append_slice "" a h s [x] in
  let r2 := append_slice "" b (fst r) s [y] in
  view (fst r2) (snd r) = view h s ++ [y] /\ view (fst r2) (snd r2) = view h s ++ [y].
Proof.
  intros V L. cbv zeta.
  destruct (append_ok "" a h s [x] V) as (S1 & W1 & L1). cbv zeta in *.
  assert (snd (append_slice "" a h s [x]) = mkSlice (s_arr s) (s_off s) (s_len s + 1) (s_cap s)) as E1.
  { unfold append_slice. cbn [List.length]. destruct (Nat.leb_spec (s_len s + 1) (s_cap s)); [reflexivity|lia]. }
  set (h1 := fst (append_slice "" a h s [x])) in *.
  assert (valid h1 s) as V1.
  { pose proof (proj1 S1) as Q. rewrite E1 in Q. destruct Q as [Q1 Q2]. cbn [s_len s_cap s_arr s_off] in *. split; [lia|exact Q2]. }
  destruct (append_ok "" b h1 s [y] V1) as (S2 & W2 & L2). cbv zeta in *.
  assert (snd (append_slice "" b h1 s [y]) = mkSlice (s_arr s) (s_off s) (s_len s + 1) (s_cap s)) as E2.
  { unfold append_slice. cbn [List.length]. destruct (Nat.leb_spec (s_len s + 1) (s_cap s)); [reflexivity|lia]. }
  assert (view h1 s = view h s) as W.
  { rewrite E1 in W1. pose proof (view_len h s V). pose proof (view_len h1 s V1).
    assert (firstn (s_len s) (view h1 (mkSlice (s_arr s) (s_off s) (s_len s + 1) (s_cap s))) = view h1 s) as Q.
    { unfold view. cbn [s_len s_off s_arr]. rewrite firstn_firstn. f_equal. lia. }
    rewrite <- Q, W1, firstn_app. rewrite H, Nat.sub_diag. cbn [firstn]. rewrite app_nil_r. apply firstn_all2. lia. }
  rewrite W in W2. rewrite E1. rewrite E2 in *. auto.
Qed.
End Pos.
