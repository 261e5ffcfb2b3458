(** Properties C16 and C68: slices that share backing arrays.
    Models: Go/Heap.v, Model/OrderBookHeap.v, Model/PositionHeap.v; vocabulary:
    Spec/HeapSpec.v.  [spare] (arbitrary) is the extra capacity the runtime
    gives to each new array. *)
From Coq Require Import Lia.
From Verif Require Import Go.Outcome Go.Int64 Go.Slice Go.Sort Go.Float64 Go.Num Go.Heap Model.Asset Model.Pair
  Model.OrderBook Model.OrderBookHeap Model.Entities Model.PositionHeap Spec.HeapSpec
  Proofs.Heap Proofs.OrderBookHeap Proofs.PositionHeap.
Open Scope string_scope.
Open Scope list_scope.
Open Scope Z_scope.

Definition mk (p v : Z) : row f64 := mkRow (i2f p) (i2f v) (i2f 0).
Definition upd (p v : Z) (side : string) : update f64 := mkUpdate (i2f p) (i2f v) side.
Definition show (l : list (row f64)) : list (Z * Z * Z) := map (fun r => (f2i (price r), f2i (volume r), f2i (accum r))) l.

(** ** C16 *)

(** ApplyUpdate on a book with slices of its own: exactly the list model (same
    result, same error, same panic), the book still has slices of its own, and
    no slice apart from it changes. *)
Theorem C16_update_agrees : forall spare (u : update f64) h b, own h b ->
  match apply_update u (book_view h b) with
  | Ret (ob, e) => exists h' b', h_apply_update spare u h b = Ret (h', b', e) /\ own h' b' /\ book_view h' b' = ob /\
      forall t, valid h t -> apart b t -> view h' t = view h t /\ apart b' t
  | Panic p => h_apply_update spare u h b = Panic p
  end.
Proof.
  intros spare u h b O. pose proof (apply_update_sim spare u h b O) as S. unfold simulates in S.
  destruct (apply_update u (book_view h b)) as [[ob e]|p]; [|assumption].
  destruct S as (h' & b' & E & [O' S] & W). exists h', b'. split; [assumption|]. split; [assumption|]. split; [assumption|].
  intros t Vt A. destruct (S t Vt A) as (V' & R & A'). split; [|assumption]. rewrite !view_region by assumption. now rewrite R.
Qed.

(** The same over histories. *)
Theorem C16_history_agrees : forall spare (us : list (update f64)) h b ob, own h b ->
  apply_updates us (book_view h b) = Ret ob ->
  exists h' b', h_apply_updates spare us h b = Ret (h', b') /\ own h' b' /\ book_view h' b' = ob /\
    forall t, valid h t -> apart b t -> view h' t = view h t.
Proof.
  intros spare us h b ob O H. destruct (apply_updates_sim spare us h b ob O H) as (h' & b' & E & [O' S] & W).
  exists h', b'. split; [assumption|]. split; [assumption|]. split; [assumption|].
  intros t Vt A. destruct (S t Vt A) as (V' & R & A'). rewrite !view_region by assumption. now rewrite R.
Qed.

(** Two books that share no memory: under any interleaving of updates each ends
    exactly where its own updates alone take it. *)
Theorem C16_two_books_independent : forall spare (us : list (bool * update f64)) h b c ob oc, separate h b c ->
  apply_updates (calls true us) (book_view h b) = Ret ob ->
  apply_updates (calls false us) (book_view h c) = Ret oc ->
  exists h' b' c', h_apply_updates2 spare us h b c = Ret (h', b', c') /\ separate h' b' c' /\
    book_view h' b' = ob /\ book_view h' c' = oc.
Proof. intros spare us h b c ob oc. exact (apply_updates2_sim spare us h b c ob oc). Qed.

(** NewOrderBook on two slices that share no memory. *)
Theorem C16_new_book_agrees : forall now (h : heap (row f64)) a c d,
  valid h a -> valid h c -> disjoint a c -> Z.of_nat (s_len a) <= 2 ^ 53 -> Z.of_nat (s_len c) <= 2 ^ 53 ->
  match new_order_book now (view h a) (view h c) d with
  | Ret ob => exists h' b', h_new_order_book now h a c d = Ret (h', b') /\ own h' b' /\ book_view h' b' = ob /\
      forall t, valid h t -> disjoint a t -> disjoint c t -> view h' t = view h t
  | Panic p => h_new_order_book now h a c d = Panic p
  end.
Proof.
  intros now h a c d Va Vc D La Lc. pose proof (new_book_sim now h a c d (conj Va (conj Vc D)) La Lc) as S.
  destruct (new_order_book now (view h a) (view h c) d) as [ob|p]; [|assumption].
  destruct S as (h' & b' & E & [O' S] & W). exists h', b'. split; [assumption|]. split; [assumption|]. split; [assumption|].
  intros t Vt A1 A2. destruct (S t Vt (conj A1 A2)) as (V' & R & A'). rewrite !view_region by assumption. now rewrite R.
Qed.

(** The caller's slices are the book's: they come back sorted, with the rows of
    the book (AccumVolume filled in) in front. *)
Theorem C16_caller_slices_rewritten : forall now (h : heap (row f64)) a c d h' b',
  valid h a -> valid h c -> disjoint a c -> Z.of_nat (s_len a) <= 2 ^ 53 -> Z.of_nat (s_len c) <= 2 ^ 53 -> 0 <= d ->
  h_new_order_book now h a c d = Ret (h', b') ->
  view h' a = asks (book_view h' b') ++ skipn (Z.to_nat d) (slice_stable (fun x y => f64_lt (price x) (price y)) (view h a)) /\
  view h' c = bids (book_view h' b') ++ skipn (Z.to_nat d) (slice_stable (fun x y => f64_lt (price y) (price x)) (view h c)).
Proof.
  intros now h a c d h' b' Va Vc D La Lc Hd H.
  exact (caller_slices now h a c d h' b' (conj Va (conj Vc D)) La Lc Hd H).
Qed.

(** A heap with the asks [7;5;6] in one array, the bids [3;4] in another, and a
    second book. *)
Definition ex_heap : heap (row f64) :=
  [[mk 7 1; mk 5 2; mk 6 3; mk 0 0]; [mk 3 1; mk 4 2]; [mk 9 1; mk 10 1]; [mk 2 5]].
Definition ex_asks : slice := mkSlice 0 0 3 4.
Definition ex_bids : slice := mkSlice 1 0 2 2.
Definition ex_other : hbook := mkHBook 0 (mkSlice 2 0 2 2) (mkSlice 3 0 1 1) 5.
Definition ex_book : hbook := mkHBook 0 ex_asks ex_bids 5.

Example C16_example_valid :
  separate ex_heap ex_book ex_other /\ Z.of_nat (s_len ex_asks) <= 2 ^ 53.
Proof.
  unfold separate, own, apart, valid, disjoint. cbn -[Z.pow]. split; [|lia].
  repeat split; try lia.
Qed.
Example C16_example : let spare := fun _ : nat => 1%nat in
  (h <- (r <- h_new_order_book 0 ex_heap ex_asks ex_bids 2 ;; h_apply_updates2 spare [(true, upd 8 1 "ask"); (false, upd 8 7 "ask"); (true, upd 5 0 "ask")] (fst r) (snd r) ex_other) ;;
   let '(h', b, c) := h in Ret (show (view h' (hb_asks b)), show (view h' (hb_asks c)))) =
  Ret ([(6,3,5)], [(8,7,0); (9,1,0); (10,1,0)]).
Proof. intros spare. vm_compute. reflexivity. Qed.

(** Value semantics fails for the caller's slices ... *)
Theorem C16_caller_slice_refuted : exists (h : heap (row f64)) a c,
  valid h a /\ valid h c /\ disjoint a c /\
  match h_new_order_book 0 h a c 2 with
  | Ret (h', _) => show (view h a) = [(7,1,0); (5,2,0); (6,3,0)] /\ show (view h' a) = [(5,2,2); (6,3,5); (7,1,0)]
  | Panic _ => False
  end.
Proof.
  exists ex_heap, ex_asks, ex_bids. destruct C16_example_valid as [[(V & W & D) _] _].
  split; [exact V|]. split; [exact W|]. split; [exact D|]. vm_compute. split; reflexivity.
Qed.
(** ... for copies of a book: after a deletion through [b], the copy still has
    three asks, the last two at the same price ... *)
Theorem C16_copied_book_refuted : forall spare, exists (h : heap (row f64)) b u,
  own h b /\
  match h_apply_update spare u h b with
  | Ret (h', _, _) => show (view h (hb_asks b)) = [(5,1,0); (6,1,0); (7,1,0)] /\
                      show (view h' (hb_asks b)) = [(5,1,0); (7,1,0); (7,1,0)]
  | Panic _ => False
  end.
Proof.
  intros spare. exists [[mk 5 1; mk 6 1; mk 7 1]], (mkHBook 0 (mkSlice 0 0 3 3) nil_slice 9), (upd 6 0 "ask"). split.
  - unfold own, valid, disjoint. cbn. repeat split; lia.
  - vm_compute. split; reflexivity.
Qed.
(** ... and for asks and bids cut from one array: a new ask overwrites the best
    bid. *)
Theorem C16_overlapping_sides_refuted : forall spare, exists (h : heap (row f64)) b u,
  valid h (hb_asks b) /\ valid h (hb_bids b) /\
  match h_apply_update spare u h b with
  | Ret (h', b', _) => show (view h (hb_bids b)) = [(4,2,0); (3,1,0)] /\ show (view h' (hb_bids b')) = [(8,5,0); (3,1,0)]
  | Panic _ => False
  end.
Proof.
  intros spare. exists [[mk 7 1; mk 4 2; mk 3 1]], (mkHBook 0 (mkSlice 0 0 1 3) (mkSlice 0 1 2 2) 9), (upd 8 5 "ask"). split; [|split].
  - unfold valid. cbn. repeat split; lia.
  - unfold valid. cbn. repeat split; lia.
  - vm_compute. split; reflexivity.
Qed.

(** ** C68 *)

(** Two positions whose Trades share no memory: under any interleaving of
    Modify calls each ends where its own trades alone take it. *)
Theorem C68_separate_positions_independent : forall spare (ts : list (bool * trade f64)) h p q,
  valid h (hp_trades p) -> valid h (hp_trades q) -> disjoint (hp_trades p) (hp_trades q) ->
  let '(h', p', q') := h_modify2 spare ts h p q in
  pos_view h' p' = modify_all (pos_view h p) (calls true ts) /\
  pos_view h' q' = modify_all (pos_view h q) (calls false ts).
Proof. intros spare ts h p q Vp Vq D. apply modify2_sim; [assumption|assumption|now left]. Qed.

(** After [q.Update(&p)] both show the same position; if Trades has no spare
    capacity they are independent from then on. *)
Theorem C68_full_update_independent : forall spare (ts : list (bool * trade f64)) h p q,
  valid h (hp_trades p) -> s_len (hp_trades p) = s_cap (hp_trades p) ->
  let q0 := h_position_update q p in
  let '(h', p', q') := h_modify2 spare ts h p q0 in
  pos_view h' p' = modify_all (pos_view h p) (calls true ts) /\
  pos_view h' q' = modify_all (pos_view h p) (calls false ts).
Proof. intros spare ts h p q Vp E. cbv zeta. apply modify2_sim; [assumption|assumption|right; split; exact E]. Qed.

(** In particular right after NewPosition. *)
Theorem C68_new_position_full : forall id (t : trade f64) h,
  let '(h', p) := h_new_position id t h in
  valid h' (hp_trades p) /\ s_len (hp_trades p) = s_cap (hp_trades p) /\ pos_view h' p = new_position id t /\
  forall u, valid h u -> view h' u = view h u /\ disjoint (hp_trades p) u.
Proof.
  intros id t h. unfold h_new_position. cbn [hp_trades s_len s_cap].
  assert (nth (List.length h) (h ++ [[t_id t]]) [] = [t_id t]) as E by (rewrite app_nth2, PeanoNat.Nat.sub_diag by lia; reflexivity).
  split; [|split; [reflexivity|split]].
  - split; cbn [s_len s_cap s_arr s_off]; [lia|]. intros _. rewrite E, app_length. simpl. lia.
  - unfold pos_view. cbn [hp_fields hp_trades]. unfold view. cbn [s_len s_arr s_off]. rewrite E. reflexivity.
  - intros u V. unfold disjoint, view. cbn [s_cap s_arr s_off]. pose proof (proj1 V) as L.
    destruct (PeanoNat.Nat.eq_dec (s_cap u) 0) as [Z|Z].
    + split; [|auto]. assert (s_len u = 0%nat) as -> by lia. reflexivity.
    + pose proof (proj2 V Z). rewrite app_nth1 by lia. split; [reflexivity|]. right; right; left. lia.
Qed.

(** With spare capacity the copies are not independent: when each of the two
    long positions takes one more buy, both show the id of the later trade. *)
Theorem C68_spare_capacity_overwrites : forall spare h (p q : hposition f64) t1 t2,
  valid h (hp_trades p) -> (s_len (hp_trades p) < s_cap (hp_trades p))%nat ->
  ps_type (hp_fields p) = LongPosition -> ps_pair (hp_fields p) = t_pair t1 -> ps_pair (hp_fields p) = t_pair t2 ->
  t_action t1 = BuyAction -> t_action t2 = BuyAction ->
  let '(h', p', q') := h_modify2 spare [(true, t1); (false, t2)] h p (h_position_update q p) in
  ps_trades (pos_view h' p') = ps_trades (pos_view h p) ++ [t_id t2] /\
  ps_trades (pos_view h' q') = ps_trades (pos_view h p) ++ [t_id t2].
Proof.
  intros spare h p q t1 t2 V L Ht P1 P2 A1 A2. cbn [h_modify2 h_position_update].
  assert (forall h0 t, ps_pair (hp_fields p) = t_pair t -> t_action t = BuyAction ->
    h_modify spare t h0 p = h_pos_add spare h0 p t) as E.
  { intros h0 t P A. unfold h_modify. rewrite Ht, A, <- P.
    assert (pair_eqb (ps_pair (hp_fields p)) (ps_pair (hp_fields p)) = true) as ->; [|reflexivity].
    unfold pair_eqb, asset_eqb. rewrite !String.eqb_refl. reflexivity. }
  rewrite E by assumption. unfold h_pos_add, h_append.
  pose proof (fun a b => append_twice h (hp_trades p) (t_id t1) (t_id t2) a b V L) as T. cbv zeta in T.
  destruct (append_slice "" (spare (List.length h)) h (hp_trades p) [t_id t1]) as [h1 s1] eqn:E1.
  rewrite E by assumption. unfold h_pos_add, h_append.
  specialize (T (spare (List.length h)) (spare (List.length h1))). rewrite E1 in T. cbn [fst snd] in T.
  destruct (append_slice "" (spare (List.length h1)) h1 (hp_trades p) [t_id t2]) as [h2 s2]. cbn [fst snd] in T.
  exact T.
Qed.

(** With the doubling growth of the runtime: a position with three trades,
    copied by Update; the fourth trade of the original, "d", is replaced by
    "e". *)
Definition btcusd : pair := mkPair (mkAsset "Bitcoin" "BTC" "") (mkAsset "Dollar" "USD" "").
Definition buy (id : string) : trade f64 := mkTrade id 1000 "buy" "market" btcusd (i2f 10) (i2f 1) (i2f 0) (i2f 10) "".
Definition doubling : nat -> nat := fun n => match n with 0%nat => 0%nat | 1%nat => 0%nat | _ => 1%nat end.
Definition three (id : string) : heap string * hposition f64 :=
  let '(h, p) := h_new_position id (buy "a") [] in
  let '(h1, p1) := h_modify doubling (buy "b") h p in h_modify doubling (buy "c") h1 p1.
Theorem C68_update_refuted : exists spare (ts : list (bool * trade f64)) h p q,
  valid h (hp_trades p) /\
  let '(h', p', q') := h_modify2 spare ts h p (h_position_update q p) in
  ps_trades (modify_all (pos_view h p) (calls true ts)) = ["a"; "b"; "c"; "d"] /\
  ps_trades (pos_view h' p') = ["a"; "b"; "c"; "e"].
Proof.
  exists doubling, [(true, buy "d"); (false, buy "e")], (fst (three "x")), (snd (three "x")), (snd (three "y")).
  split.
  - assert (s_arr (hp_trades (snd (three "x"))) = 2%nat /\ s_off (hp_trades (snd (three "x"))) = 0%nat /\
            s_len (hp_trades (snd (three "x"))) = 3%nat /\ s_cap (hp_trades (snd (three "x"))) = 4%nat /\
            List.length (fst (three "x")) = 3%nat /\ List.length (nth 2 (fst (three "x")) []) = 4%nat) as (E1 & E2 & E3 & E4 & E5 & E6)
      by (vm_compute; repeat split).
    unfold valid. rewrite E1, E2, E3, E4, E5, E6. lia.
  - vm_compute. split; reflexivity.
Qed.
Example C68_example : forall spare,
  let '(h, p) := h_new_position "x" (buy "a") [] in
  let '(h', p', q') := h_modify2 spare [(true, buy "d"); (false, buy "e")] h p p in
  ps_trades (pos_view h' p') = ["a"; "d"] /\ ps_trades (pos_view h' q') = ["a"; "e"].
Proof. intros spare. split; reflexivity. Qed.

Print Assumptions C16_two_books_independent.
Print Assumptions C16_new_book_agrees.
Print Assumptions C16_caller_slices_rewritten.
Print Assumptions C68_full_update_independent.
Print Assumptions C68_spare_capacity_overwrites.
Print Assumptions C68_update_refuted.
