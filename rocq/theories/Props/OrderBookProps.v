(** Properties C01-C15, C17, C18: market/orderbook.go.
    Models: Model/OrderBook.v; vocabulary: Spec/OrderBookSpec.v. *)
From Coq Require Import Sorting.Sorted Sorting.Permutation Reals Lra.
From Flocq Require Import Core BinarySingleNaN.
From Verif Require Import Go.Outcome Go.Int64 Go.Slice Go.Sort Go.Float64 Go.FloatOrder Go.FloatReal Go.Num
  Model.OrderBook Spec.OrderBookSpec Proofs.Lists Proofs.OrderBook Proofs.Updates Proofs.UpdateThms
  Proofs.NewBook Proofs.DepthOverlap Spec.WholeSpec Proofs.WholeOverlap.
Open Scope list_scope.
Open Scope Z_scope.

(** ** Concrete books used in the examples *)
Definition mk (p v : Z) : row f64 := mkRow (i2f p) (i2f v) (i2f 0).
Definition ex_asks : rows := [mk 6 2; mk 5 1; mk 7 3; mk 6 9].
Definition ex_bids : rows := [mk 2 1; mk 4 1; mk 3 2].
Definition ex_book : book f64 := mkBook 10 [mk 5 1; mk 6 2; mk 7 3] [mk 4 1; mk 3 2; mk 2 1] 5.
Definition upd (p v : Z) (s : string) : update f64 := mkUpdate (i2f p) (i2f v) s.
(** Rows as integers, to look at results. *)
Definition show (l : rows) : list (Z * Z * Z) := map (fun r => (f2i (price r), f2i (volume r), f2i (accum r))) l.
Definition shown (o : go (book f64)) : option (list (Z * Z * Z) * list (Z * Z * Z)) :=
  match o with Ret ob => Some (show (asks ob), show (bids ob)) | Panic _ => None end.

Example ex_book_sizes : sizes_ok ex_book /\ within_depth ex_book.
Proof. unfold sizes_ok, within_depth. vm_compute. repeat split; congruence. Qed.
Example ex_book_sorted : well_sorted ex_book.
Proof. repeat split; repeat constructor. Qed.
Example ex_book_unlocked : unlocked ex_book.
Proof.
  intros b a Hb Ha. cbn in Hb, Ha.
  repeat (destruct Hb as [<-|Hb]; [repeat (destruct Ha as [<-|Ha]; [reflexivity|]); destruct Ha|]). destruct Hb.
Qed.
Example ex_rows_nan_free : nan_free ex_asks /\ nan_free ex_bids.
Proof. split; repeat constructor. Qed.

(** ** C01 *)
Theorem C01_new_book_is_stable_sort_prefix : forall now la lb d,
  nan_free la -> nan_free lb -> zlen la <= 2 ^ 53 -> zlen lb <= 2 ^ 53 -> 0 <= d ->
  exists ob sa sb, new_order_book now la lb d = Ret ob /\
    b_time ob = now /\ max_depth ob = d /\
    stable_asks la sa /\ stable_bids lb sb /\
    map pv (asks ob) = map pv (take d sa) /\ map pv (bids ob) = map pv (take d sb).
Proof. exact new_book_spec. Qed.
Theorem C01_stable_sort_unique : forall l s1 s2, nan_free l ->
  (stable_asks l s1 -> stable_asks l s2 -> s1 = s2) /\ (stable_bids l s1 -> stable_bids l s2 -> s1 = s2).
Proof. intros l s1 s2 H. split; [now apply stable_asks_unique|now apply stable_bids_unique]. Qed.
Theorem C01_negative_depth_panics : forall now (la lb : rows) d, d < 0 ->
  new_order_book now la lb d = Panic PSlice.
Proof. exact new_book_neg. Qed.
Example C01_example : shown (new_order_book 0 ex_asks ex_bids 3)
  = Some ([(5,1,1); (6,2,3); (6,9,12)], [(4,1,1); (3,2,3); (2,1,4)]).
Proof. vm_compute. reflexivity. Qed.

(** ** C02 *)
Theorem C02_accum_is_running_total : forall now (la lb : rows) d ob,
  zlen la <= 2 ^ 53 -> zlen lb <= 2 ^ 53 -> 0 <= d ->
  new_order_book now la lb d = Ret ob ->
  map accum (asks ob) = running_totals f64_add (map volume (asks ob)) /\
  map accum (bids ob) = running_totals f64_add (map volume (bids ob)).
Proof.
  intros now la lb d ob La Lb Hd. rewrite new_book_ok by assumption. intros H; injection H as <-.
  split; cbn [asks bids]; apply (@accum_running f64 f64_num).
Qed.
Theorem C02_accum_is_sum_exact : forall now (la lb : list (row R)) d ob,
  zlen la <= 2 ^ 53 -> zlen lb <= 2 ^ 53 -> 0 <= d ->
  new_order_book now la lb d = Ret ob ->
  forall side i r, side = asks ob \/ side = bids ob -> nth_error side i = Some r ->
  accum r = fold_right Rplus 0%R (map volume (firstn (S i) side)).
Proof.
  intros now la lb d ob La Lb Hd. rewrite new_book_ok by assumption. intros H; injection H as <-.
  intros side i r Hs Hi.
  assert (map accum side = running_totals Rplus (map volume side)) as E
    by (destruct Hs as [-> | ->]; cbn [asks bids]; apply (@accum_running R R_num)).
  rewrite <- firstn_map. apply running_totals_R. rewrite <- E. now apply map_nth_error.
Qed.
Theorem C02_accum_nondecreasing : forall now (la lb : rows) d ob,
  zlen la <= 2 ^ 53 -> zlen lb <= 2 ^ 53 -> 0 <= d ->
  new_order_book now la lb d = Ret ob ->
  forall side, side = asks ob \/ side = bids ob ->
  Forall (fun r => f64_le (i2f 0) (volume r) = true) side ->
  StronglySorted (fun x y => f64_le x y = true) (map accum side).
Proof.
  intros now la lb d ob La Lb Hd H side Hs Hv.
  destruct (C02_accum_is_running_total now la lb d ob La Lb Hd H) as [Ea Eb].
  assert (map accum side = running_totals f64_add (map volume side)) as -> by (destruct Hs as [-> | ->]; assumption).
  apply totals_nondecreasing. rewrite Forall_map. exact Hv.
Qed.

(** ** C03 *)
Theorem C03_history_keeps_sides_sorted : forall us ob,
  sizes_ok ob -> well_sorted ob -> Forall real_price us ->
  exists ob', apply_updates us ob = Ret ob' /\ well_sorted ob'.
Proof. exact updates_sorted. Qed.
Theorem C03_history_keeps_weak_order : forall us ob,
  sizes_ok ob -> well_ordered ob -> Forall real_price us ->
  exists ob', apply_updates us ob = Ret ob' /\ well_ordered ob'.
Proof. exact updates_ordered. Qed.
(** A history that inserts, replaces, deletes and crosses. *)
Definition ex_history : list (update f64) :=
  [upd 8 4 "ask"; upd 6 7 "ask"; upd 3 0 "bid"; upd 5 1 "bid"; upd 1 1 "hold"; upd 1 5 "bid"].
Example C03_example : Forall real_price ex_history /\
  shown (apply_updates ex_history ex_book) =
  Some ([(6,7,0); (7,3,0); (8,4,0)], [(5,1,0); (4,1,0); (2,1,0); (1,5,0)]).
Proof. split; [repeat constructor|vm_compute; reflexivity]. Qed.

(** ** C04 *)
Theorem C04_history_respects_depth : forall us ob,
  sizes_ok ob -> within_depth ob ->
  exists ob', apply_updates us ob = Ret ob' /\ within_depth ob' /\
    max_depth ob' = max_depth ob /\ b_time ob' = b_time ob.
Proof. exact updates_depth. Qed.
Example C04_example : shown (apply_updates [upd 8 1 "ask"; upd 4 1 "ask"] (mkBook 0 [mk 5 1; mk 6 1] [] 3))
  = Some ([(4,1,0); (5,1,0); (6,1,0)], []).
Proof. vm_compute. reflexivity. Qed.

(** ** C05 *)
Theorem C05_history_never_crosses : forall us ob,
  sizes_ok ob -> well_ordered ob -> uncrossed ob -> Forall real_price us ->
  exists ob', apply_updates us ob = Ret ob' /\ uncrossed ob'.
Proof. exact updates_uncrossed. Qed.
(** The strict version is false: an unlocked book gets locked. *)
Theorem C05_strict_refuted : exists ob u ob',
  sizes_ok ob /\ well_sorted ob /\ unlocked ob /\ within_depth ob /\ real_price u /\
  apply_update u ob = Ret (ob', None) /\ ~ unlocked ob'.
Proof.
  exists (mkBook 0 [mk 6 1] [mk 4 1] 5), (upd 4 1 "ask"). eexists.
  split; [unfold sizes_ok; vm_compute; repeat split; congruence|].
  split; [repeat split; repeat constructor|].
  split. { intros b a [<-|[]] [<-|[]]. reflexivity. }
  split; [unfold within_depth; vm_compute; split; congruence|].
  split; [reflexivity|]. split; [reflexivity|].
  intros H. specialize (H (mk 4 1) (mk 4 1) (or_introl eq_refl) (or_introl eq_refl)). vm_compute in H. discriminate.
Qed.

(** ** C06 *)
Theorem C06_ask_level_set : forall u ob, u_side u = "ask"%string -> nonzero u -> real_price u -> sizes_ok ob ->
  nan_free (asks ob) -> asks_sorted (asks ob) ->
  exists ob' full, apply_update u ob = Ret (ob', None) /\
    level_set asks_sorted (asks ob) (mkRow (u_price u) (u_volume u) (i2f 0)) full /\
    asks ob' = take (max_depth ob) full.
Proof. exact level_set_ask. Qed.
Theorem C06_bid_level_set : forall u ob, u_side u = "bid"%string -> nonzero u -> real_price u -> sizes_ok ob ->
  nan_free (bids ob) -> bids_sorted (bids ob) ->
  exists ob' full, apply_update u ob = Ret (ob', None) /\
    level_set bids_sorted (bids ob) (mkRow (u_price u) (u_volume u) (i2f 0)) full /\
    bids ob' = take (max_depth ob) full.
Proof. exact level_set_bid. Qed.
Theorem C06_ask_level_deleted : forall u ob,
  u_side u = "ask"%string -> zero u -> real_price u -> sizes_ok ob -> within_depth ob ->
  nan_free (asks ob) -> asks_sorted (asks ob) ->
  exists ob', apply_update u ob = Ret (ob', None) /\
    level_deleted asks_sorted (asks ob) (u_price u) (asks ob').
Proof. exact level_del_ask. Qed.
Theorem C06_bid_level_deleted : forall u ob,
  u_side u = "bid"%string -> zero u -> real_price u -> sizes_ok ob -> within_depth ob ->
  nan_free (bids ob) -> bids_sorted (bids ob) ->
  exists ob', apply_update u ob = Ret (ob', None) /\
    level_deleted bids_sorted (bids ob) (u_price u) (bids ob').
Proof. exact level_del_bid. Qed.
(** [level_set] leaves no freedom. *)
Theorem C06_level_set_unique : forall old new f1 f2,
  (level_set asks_sorted old new f1 -> level_set asks_sorted old new f2 -> f1 = f2) /\
  (level_set bids_sorted old new f1 -> level_set bids_sorted old new f2 -> f1 = f2).
Proof. intros. split; [apply level_set_unique_asks|apply level_set_unique_bids]. Qed.
Example C06_example : shown (apply_updates [upd 6 9 "ask"] ex_book)
  = Some ([(5,1,0); (6,9,0); (7,3,0)], show (bids ex_book)).
Proof. vm_compute. reflexivity. Qed.

(** ** C07 *)
Theorem C07_bids_after_ask_update : forall u ob cr keep,
  u_side u = "ask"%string -> nonzero u -> real_price u -> sizes_ok ob -> nan_free (bids ob) ->
  bids ob = cr ++ keep ->
  Forall (fun r => f64_lt (u_price u) (price r) = true) cr ->
  Forall (fun r => f64_le (price r) (u_price u) = true) keep ->
  exists ob' surv, apply_update u ob = Ret (ob', None) /\ bids ob' = take (max_depth ob) surv /\
    (cr = [] -> forall x rest, keep = x :: rest -> f64_lt (price x) (u_price u) = true -> surv = keep) /\
    (forall x, keep = [x] -> surv = [x]) /\
    (keep = [] -> surv = []) /\
    (forall x y rest, keep = x :: y :: rest ->
       cr <> [] \/ f64_eq (price x) (u_price u) = true -> surv = y :: rest).
Proof. exact opp_bids. Qed.
Theorem C07_asks_after_bid_update : forall u ob cr keep,
  u_side u = "bid"%string -> nonzero u -> real_price u -> sizes_ok ob -> nan_free (asks ob) ->
  asks ob = cr ++ keep ->
  Forall (fun r => f64_lt (price r) (u_price u) = true) cr ->
  Forall (fun r => f64_le (u_price u) (price r) = true) keep ->
  exists ob' surv, apply_update u ob = Ret (ob', None) /\ asks ob' = take (max_depth ob) surv /\
    (cr = [] -> forall x rest, keep = x :: rest -> f64_lt (u_price u) (price x) = true -> surv = keep) /\
    (forall x, keep = [x] -> surv = [x]) /\
    (keep = [] -> surv = []) /\
    (forall x y rest, keep = x :: y :: rest ->
       cr <> [] \/ f64_eq (price x) (u_price u) = true -> surv = y :: rest).
Proof. exact opp_asks. Qed.
(** Expected: exactly the crossed bids go.  The uncrossed bid at 4 goes too. *)
Theorem C07_expected_refuted : exists ob u ob' r,
  sizes_ok ob /\ well_sorted ob /\ unlocked ob /\ within_depth ob /\ nonzero u /\ real_price u /\
  u_side u = "ask"%string /\ apply_update u ob = Ret (ob', None) /\
  In r (bids ob) /\ f64_lt (price r) (u_price u) = true /\ ~ In r (bids ob').
Proof.
  exists (mkBook 0 [mk 9 1] [mk 6 1; mk 4 1; mk 3 1] 5), (upd 5 1 "ask"). eexists. exists (mk 4 1).
  split; [unfold sizes_ok; vm_compute; repeat split; congruence|].
  split; [repeat split; repeat constructor|].
  split. { intros b a Hb [<-|[]]. cbn in Hb. repeat (destruct Hb as [<-|Hb]; [reflexivity|]). destruct Hb. }
  split; [unfold within_depth; vm_compute; split; congruence|].
  do 4 (split; [reflexivity|]).
  split; [cbn; auto|]. split; [reflexivity|].
  intros [H|[]]. apply (f_equal (fun r => f2i (price r))) in H. vm_compute in H. discriminate.
Qed.
Example C07_example : shown (apply_updates [upd 5 1 "ask"] (mkBook 0 [mk 9 1] [mk 6 1; mk 4 1; mk 3 1] 5))
  = Some ([(5,1,0); (9,1,0)], [(3,1,0)]).
Proof. vm_compute. reflexivity. Qed.

(** ** C08 *)
Theorem C08_zero_update_absent_level : forall u ob, zero u ->
  (u_side u = "ask"%string -> (forall r, In r (asks ob) -> f64_eq (price r) (u_price u) = false) ->
     apply_update u ob = Ret (ob, None)) /\
  (u_side u = "bid"%string -> (forall r, In r (bids ob) -> f64_eq (price r) (u_price u) = false) ->
     apply_update u ob = Ret (ob, None)).
Proof. intros u ob Z. split; intros; [now apply del_ask_effect|now apply del_bid_effect]. Qed.
Theorem C08_zero_update_keeps_other_side : forall u ob, zero u -> 0 <= max_depth ob -> within_depth ob ->
  exists ob' e, apply_update u ob = Ret (ob', e) /\
    (u_side u = "ask"%string -> bids ob' = bids ob) /\ (u_side u = "bid"%string -> asks ob' = asks ob) /\
    b_time ob' = b_time ob /\ max_depth ob' = max_depth ob.
Proof. exact del_opposite. Qed.
Example C08_example : shown (apply_updates [upd 3 0 "bid"; upd 1 0 "bid"; upd 6 0 "bid"] ex_book)
  = Some (show (asks ex_book), [(4,1,0); (2,1,0)]).
Proof. vm_compute. reflexivity. Qed.

(** ** C09 *)
Theorem C09_unknown_side_rejected : forall u (ob : book f64),
  u_side u <> "ask"%string -> u_side u <> "bid"%string ->
  exists e, apply_update u ob = Ret (ob, Some e) /\ err_code e = Some EINVALID.
Proof. intros u ob H1 H2. exists bad_side. split; [now apply apply_bad_side|reflexivity]. Qed.
Theorem C09_known_side_no_error : forall u (ob : book f64) ob' e,
  u_side u = "ask"%string \/ u_side u = "bid"%string -> apply_update u ob = Ret (ob', e) -> e = None.
Proof. exact good_side_no_error. Qed.
Example C09_example : exists e, apply_update (upd 5 1 "Ask") ex_book = Ret (ex_book, Some e).
Proof. eexists. reflexivity. Qed.

(** ** C10 *)
Theorem C10_history_never_panics : forall us ob, sizes_ok ob ->
  exists ob', apply_updates us ob = Ret ob' /\ sizes_ok ob'.
Proof. exact updates_total. Qed.
Theorem C10_negative_depth_panics : forall u ob, max_depth ob < 0 -> nonzero u ->
  zlen (asks ob) <= 2 ^ 53 -> zlen (bids ob) <= 2 ^ 53 ->
  u_side u = "ask"%string \/ u_side u = "bid"%string -> apply_update u ob = Panic PSlice.
Proof. exact negative_depth. Qed.
(** NaN prices do not panic (they are appended and cut the other side). *)
Example C10_example :
  match apply_update (mkUpdate B754_nan (i2f 1) "ask") ex_book with
  | Ret (ob, None) => zlen (asks ob) = 4 /\ show (bids ob) = [(3,2,0); (2,1,0)]
  | _ => False
  end.
Proof. vm_compute. split; reflexivity. Qed.

(** ** C11 *)
Theorem C11_update_idempotent : forall u ob ob1 e,
  real_price u -> sizes_ok ob -> well_sorted ob -> within_depth ob ->
  apply_update u ob = Ret (ob1, e) -> apply_update u ob1 = Ret (ob1, e).
Proof. exact update_idempotent. Qed.
Example C11_example :
  shown (apply_updates [upd 6 3 "bid"] ex_book) = shown (apply_updates [upd 6 3 "bid"; upd 6 3 "bid"] ex_book) /\
  shown (apply_updates [upd 6 3 "bid"] ex_book) = Some ([(7,3,0)], [(6,3,0); (4,1,0); (3,2,0); (2,1,0)]).
Proof. vm_compute. split; reflexivity. Qed.

(** ** C12 *)
Theorem C12_accum_stays_correct_refuted : exists la u ob ob',
  new_order_book 0 la [] 5 = Ret ob /\ well_sorted ob /\ within_depth ob /\ real_price u /\
  map accum (asks ob) = running_totals f64_add (map volume (asks ob)) /\
  apply_update u ob = Ret (ob', None) /\
  map accum (asks ob') <> running_totals f64_add (map volume (asks ob')).
Proof.
  exists [mk 5 1; mk 6 2], (upd 5 4 "ask"). do 2 eexists.
  split; [reflexivity|]. split; [repeat split; repeat constructor|].
  split; [unfold within_depth; vm_compute; split; congruence|]. split; [reflexivity|].
  split; [reflexivity|]. split; [reflexivity|].
  intros H. apply (f_equal (map f2i)) in H. vm_compute in H. discriminate.
Qed.
(** The exact effect: the touched row carries AccumVolume 0 and every other
    row of both sides is a row of the old book, unchanged. *)
Theorem C12_accum_exact_effect : forall u ob ob', sizes_ok ob ->
  apply_update u ob = Ret (ob', None) ->
  (forall r, In r (asks ob') ->
     In r (asks ob) \/ (u_side u = "ask"%string /\ nonzero u /\ r = mkRow (u_price u) (u_volume u) (i2f 0))) /\
  (forall r, In r (bids ob') ->
     In r (bids ob) \/ (u_side u = "bid"%string /\ nonzero u /\ r = mkRow (u_price u) (u_volume u) (i2f 0))).
Proof. exact rows_after_update. Qed.

(** ** C13 *)
Theorem C13_get_depth : forall ob p, well_ordered ob -> asks ob <> [] -> bids ob <> [] ->
  zlen (asks ob) <= 2 ^ 53 -> zlen (bids ob) <= 2 ^ 53 -> f64_le p (i2f 0) = false ->
  (spans (asks ob) p /\ exists r, highest_below p (asks ob) r /\ get_depth ob p = Ret (price r, None)) \/
  (~ spans (asks ob) p /\ spans (bids ob) p /\
     exists r, lowest_above p (bids ob) r /\ get_depth ob p = Ret (price r, None)) \/
  (~ spans (asks ob) p /\ ~ spans (bids ob) p /\
     exists e, err_code e = Some ENOTFOUND /\ get_depth ob p = Ret (i2f 0, Some e)).
Proof.
  intros ob p W Ea Eb La Lb Hp. destruct (get_depth_cases ob p W Ea Eb La Lb Hp) as [H|[H|(H1 & H2 & H3)]]; auto.
  right; right. repeat split; auto. exists gd_notfound. auto.
Qed.
Theorem C13_nonpositive_price : forall (ob : book f64) p, f64_le p (i2f 0) = true ->
  exists e, err_code e = Some EINVALID /\ get_depth ob p = Ret (i2f 0, Some e).
Proof. intros ob p H. exists gd_invalid. split; [reflexivity|now apply get_depth_nonpositive]. Qed.
Theorem C13_empty_side_panics : forall (ob : book f64) p, f64_le p (i2f 0) = false ->
  asks ob = [] \/ bids ob = [] -> get_depth ob p = Panic PIndex.
Proof. exact get_depth_empty. Qed.
(** The comment on GetDepth promises an accumulated volume. *)
Theorem C13_returns_volume_refuted : exists la lb ob p r,
  new_order_book 0 la lb 5 = Ret ob /\ well_sorted ob /\ highest_below p (asks ob) r /\
  get_depth ob p = Ret (price r, None) /\ f64_eq (price r) (accum r) = false.
Proof.
  exists [mk 5 1; mk 7 2], [mk 4 1]. eexists. exists (i2f 6). eexists.
  split; [reflexivity|]. split; [repeat split; repeat constructor|].
  split; [split; [left; reflexivity|split; [reflexivity|]]|split; reflexivity].
  intros r' [<-|[<-|[]]]; vm_compute; auto.
Qed.
Example C13_example : match get_depth ex_book (i2f 6), get_depth ex_book (f64_const 35 (-1)) with
  | Ret (a, None), Ret (b, None) => f2i a = 6 /\ f2i b = 4
  | _, _ => False end.
Proof. vm_compute. split; reflexivity. Qed.

(** ** C14 *)
Theorem C14_overlap_detected_exactly : forall A B aA bA aB bB,
  best_ask A aA -> best_bid A bA -> best_ask B aB -> best_bid B bB ->
  (f64_lt aA bB = false /\ f64_lt aB bA = false /\
     exists e, err_code e = Some ENOTFOUND /\ calculate_overlap A B = Ret (i2f (-1), Some e)) \/
  ((f64_lt aA bB = true \/ f64_lt aB bA = true) /\
   exists v, calculate_overlap A B = Ret (v, None) /\ f64_lt v (i2f 0) = false).
Proof.
  intros A B aA bA aB bB H1 H2 H3 H4.
  destruct (overlap_detect A B aA bA aB bB H1 H2 H3 H4) as [(L1 & L2 & E)|H]; auto.
  left. repeat split; auto. exists no_overlap. auto.
Qed.
Theorem C14_overlap_symmetric : forall A B aA bA aB bB,
  best_ask A aA -> best_bid A bA -> best_ask B aB -> best_bid B bB ->
  f64_le bA aA = true -> f64_le bB aB = true ->
  calculate_overlap A B = calculate_overlap B A.
Proof. exact overlap_symmetric. Qed.
(** The only panic is an index out of range, and it occurs exactly when a
    side that has to be looked at is empty. *)
Theorem C14_overlap_panics_exactly : forall (A B : book f64),
  (calculate_overlap A B = Panic PIndex <->
   asks A = [] \/ bids B = [] \/
   exists a b, best_ask A a /\ best_bid B b /\ f64_lt a b = false /\ (bids A = [] \/ asks B = [])) /\
  (forall p, calculate_overlap A B = Panic p -> p = PIndex).
Proof. exact overlap_panics. Qed.
Example C14_panic_example :
  calculate_overlap (mkBook 0 [mk 2 3] [] 5) (mkBook 0 [mk 8 1] [mk 1 4] 5) = Panic PIndex /\
  exists v, calculate_overlap (mkBook 0 [mk 2 3] [] 5) (mkBook 0 [] [mk 3 4] 5) = Ret (v, None).
Proof. split; [reflexivity|]. eexists. reflexivity. Qed.
Definition ex_A : book f64 := mkBook 0 [mk 2 3; mk 3 1; mk 9 1] [mk 1 1] 5.
Definition ex_B : book f64 := mkBook 0 [mk 8 1] [mk 6 1; mk 5 2; mk 1 4] 5.
Example C14_example : match calculate_overlap ex_A ex_B, calculate_overlap ex_B ex_A with
  | Ret (a, None), Ret (b, None) => f2i a = 7 /\ f2i b = 7
  | _, _ => False end.
Proof. vm_compute. split; reflexivity. Qed.
Example C14_example_uncrossed : best_ask ex_A (i2f 2) /\ best_bid ex_A (i2f 1) /\ best_ask ex_B (i2f 8) /\ best_bid ex_B (i2f 6)
  /\ f64_le (i2f 1) (i2f 2) = true /\ f64_le (i2f 6) (i2f 8) = true.
Proof. repeat split; try (do 2 eexists; split; reflexivity). Qed.

(** ** C15 *)
Theorem C15_overlap_value_exact : forall (A B : book R) a0 la b0 lb,
  asks A = a0 :: la -> bids B = b0 :: lb -> ascending (asks A) -> descending (bids B) ->
  (price a0 < price b0)%R ->
  (exists r, In r (asks A) /\ (price b0 < price r)%R) -> (exists r, In r (bids B) /\ (price r < price a0)%R) ->
  let over_asks := filter (fun r => Rle_bool (price r) (price b0)) (asks A) in
  let over_bids := filter (fun r => Rle_bool (price a0) (price r)) (bids B) in
  calculate_overlap A B =
    Ret (Rabs (value over_asks - proceeds (total_volume over_asks) (rev over_bids)), None).
Proof. exact overlap_exact. Qed.
(** Without a row outside the overlap the formula fails: the value is 0. *)
Theorem C15_whole_side_refuted : exists (A B : book R) a0 b0,
  asks A = [a0] /\ bids B = [b0] /\ (price a0 < price b0)%R /\
  calculate_overlap A B = Ret (0%R, None) /\
  Rabs (value (asks A) - proceeds (total_volume (asks A)) (rev (bids B))) = 1%R.
Proof.
  exists (mkBook 0 [mkRow 1%R 1%R 0%R] [] 5), (mkBook 0 [] [mkRow 2%R 1%R 0%R] 5), (mkRow 1 1 0)%R, (mkRow 2 1 0)%R.
  cbn [asks bids price]. split; [reflexivity|]. split; [reflexivity|]. split; [lra|]. split.
  - unfold calculate_overlap. cbn [asks bids index Z.ltb Z.compare nth_error Z.to_nat bind price].
    change flt with Rlt_bool. rewrite Rlt_bool_true by lra.
    unfold overlap_calculation. cbn [asks bids index Z.ltb Z.compare nth_error Z.to_nat bind price overlap_scan].
    change flt with Rlt_bool. rewrite !Rlt_bool_false by lra.
    cbn. rewrite Rminus_0_r, Rabs_R0. reflexivity.
  - cbn. destruct (Rlt_dec (1 + 0) 1); [exfalso; lra|]. unfold Rabs. destruct (Rcase_abs _); lra.
Qed.
(** The value in all cases: whichever books cross, whether or not a side lies
    wholly inside the overlap. *)
Theorem C15_overlap_value_complete : forall (A B : book R) a0 la b0 lb,
  asks A = a0 :: la -> bids B = b0 :: lb -> ascending (asks A) -> descending (bids B) ->
  (price a0 < price b0)%R ->
  calculate_overlap A B = Ret (overlap_value (asks A) (bids B) (price a0) (price b0), None).
Proof. exact overlap_complete. Qed.
Theorem C15_overlap_value_other_way : forall (A B : book R) a0 la b0 lb a1 l1 b1 l2,
  asks A = a1 :: l1 -> bids B = b1 :: l2 -> (price b1 <= price a1)%R ->
  asks B = a0 :: la -> bids A = b0 :: lb -> ascending (asks B) -> descending (bids A) ->
  (price a0 < price b0)%R ->
  calculate_overlap A B = Ret (overlap_value (asks B) (bids A) (price a0) (price b0), None).
Proof. exact overlap_complete_other. Qed.
(** On whole numbers whose totals stay within 2^53, float64 computes exactly
    what exact arithmetic computes, panics and errors included. *)
Theorem C15_overlap_float_exact : forall (A B : book f64), whole_book A -> whole_book B ->
  match calculate_overlap A B, calculate_overlap (exact_book A) (exact_book B) with
  | Ret (v, e), Ret (v', e') => is_finite v = true /\ B2R v = v' /\ e = e'
  | Panic p, Panic p' => p = p'
  | _, _ => False
  end.
Proof. exact overlap_whole. Qed.
Lemma int_whole z : (0 <= z <= 2 ^ 53) -> whole (i2f z).
Proof. intros H. split; [apply i2f_finite; unfold exact_int; lia|]. exists z. split; [lia|]. apply i2f_B2R. unfold exact_int; lia. Qed.
Example C15_whole_example : whole_book ex_A /\ whole_book ex_B /\
  match calculate_overlap ex_A ex_B with Ret (v, None) => f2i v = 7 | _ => False end.
Proof.
  assert (forall z, 0 <= z <= 2 ^ 53 -> B2R (i2f z) = IZR z) as B by (intros z Hz; apply i2f_B2R; unfold exact_int; lia).
  split; [|split; [|vm_compute; reflexivity]].
  all: split; (split; [repeat (apply Forall_cons || apply Forall_nil); cbn [price volume mk]; split; apply int_whole; lia|]).
  all: cbn [asks bids ex_A ex_B map exact_row price volume accum mk value total_volume fold_right].
  all: rewrite !B by lia; split; rewrite <- ?mult_IZR, <- ?plus_IZR; apply IZR_le; lia.
Qed.
(** The same on float64: asks 1@1 and 3@1 against bid 4@2: expected |4 - 8|. *)
Example C15_float_example :
  match calculate_overlap (mkBook 0 [mk 1 1; mk 3 1] [mk 1 1] 5) (mkBook 0 [mk 9 1] [mk 4 2] 5) with
  | Ret (v, None) => f2i v = 0 | _ => False end.
Proof. vm_compute. reflexivity. Qed.
Example C15_hypotheses_met : exists (A B : book R) a0 la b0 lb,
  asks A = a0 :: la /\ bids B = b0 :: lb /\ ascending (asks A) /\ descending (bids B) /\
  (price a0 < price b0)%R /\
  (exists r, In r (asks A) /\ (price b0 < price r)%R) /\ (exists r, In r (bids B) /\ (price r < price a0)%R).
Proof.
  exists (mkBook 0 [mkRow 2 3 0; mkRow 9 1 0]%R [] 5), (mkBook 0 [] [mkRow 6 1 0; mkRow 1 4 0]%R 5).
  do 4 eexists. cbn [asks bids price]. do 2 (split; [reflexivity|]).
  split; [unfold ascending; repeat constructor; cbn; lra|]. split; [unfold descending; repeat constructor; cbn; lra|].
  cbn [price]. split; [lra|]. split; [exists (mkRow 9 1 0)%R|exists (mkRow 1 4 0)%R]; cbn; split; auto; lra.
Qed.

(** ** C17 *)
Theorem C17_ask_updates_commute : forall u v ob,
  ask_free ob u -> ask_free ob v -> f64_eq (u_price u) (u_price v) = false ->
  sizes_ok ob -> well_sorted ob ->
  zlen (asks ob) + 2 <= max_depth ob -> zlen (bids ob) <= max_depth ob ->
  exists ob', apply_updates [u; v] ob = Ret ob' /\ apply_updates [v; u] ob = Ret ob'.
Proof.
  intros u v ob Fu Fv D Sz W L1 L2. eexists. split; [now apply two_asks|].
  rewrite two_asks by assumption. destruct Fu as (_ & Hu & _), Fv as (_ & Hv & _), W as (Na & _ & Sa & _).
  do 2 f_equal. now apply upd_asks_comm.
Qed.
Theorem C17_bid_updates_commute : forall u v ob,
  bid_free ob u -> bid_free ob v -> f64_eq (u_price u) (u_price v) = false ->
  sizes_ok ob -> well_sorted ob ->
  zlen (bids ob) + 2 <= max_depth ob -> zlen (asks ob) <= max_depth ob ->
  exists ob', apply_updates [u; v] ob = Ret ob' /\ apply_updates [v; u] ob = Ret ob'.
Proof.
  intros u v ob Fu Fv D Sz W L1 L2. eexists. split; [now apply two_bids|].
  rewrite two_bids by assumption. destruct Fu as (_ & Hu & _), Fv as (_ & Hv & _), W as (_ & Nb & _ & Sb).
  do 2 f_equal. now apply upd_bids_comm.
Qed.
Example C17_example :
  ask_free ex_book (upd 8 1 "ask") /\ ask_free ex_book (upd 6 0 "ask") /\
  zlen (asks ex_book) + 2 <= max_depth ex_book /\
  shown (apply_updates [upd 8 1 "ask"; upd 6 0 "ask"] ex_book) = Some ([(5,1,0); (7,3,0); (8,1,0)], show (bids ex_book)).
Proof.
  split; [|split; [|split; [vm_compute; congruence|vm_compute; reflexivity]]].
  - split; [reflexivity|]. split; [reflexivity|]. intros _ b Hb. cbn in Hb.
    repeat (destruct Hb as [<-|Hb]; [reflexivity|]). destruct Hb.
  - split; [reflexivity|]. split; [reflexivity|]. intros _ b Hb. cbn in Hb.
    repeat (destruct Hb as [<-|Hb]; [reflexivity|]). destruct Hb.
Qed.
(** The opposite-side condition is needed: a crossing pair does not commute. *)
Example C17_crossing_pair :
  shown (apply_updates [upd 5 1 "bid"; upd 4 1 "ask"] (mkBook 0 [mk 6 1] [mk 3 1; mk 2 1] 9)) <>
  shown (apply_updates [upd 4 1 "ask"; upd 5 1 "bid"] (mkBook 0 [mk 6 1] [mk 3 1; mk 2 1] 9)).
Proof. vm_compute. discriminate. Qed.

(** ** C18 *)
Theorem C18_insert_delete_ask : forall u v ob, u_side u = "ask"%string -> u_side v = "ask"%string ->
  nonzero u -> zero v -> real_price u -> u_price v = u_price u -> sizes_ok ob -> well_sorted ob ->
  (forall r, In r (asks ob) -> f64_eq (price r) (u_price u) = false) ->
  (forall b, In b (bids ob) -> f64_lt (price b) (u_price u) = true) ->
  zlen (asks ob) < max_depth ob -> zlen (bids ob) <= max_depth ob ->
  apply_updates [u; v] ob = Ret ob.
Proof. exact insert_delete_ask. Qed.
Theorem C18_insert_delete_bid : forall u v ob, u_side u = "bid"%string -> u_side v = "bid"%string ->
  nonzero u -> zero v -> real_price u -> u_price v = u_price u -> sizes_ok ob -> well_sorted ob ->
  (forall r, In r (bids ob) -> f64_eq (price r) (u_price u) = false) ->
  (forall a, In a (asks ob) -> f64_lt (u_price u) (price a) = true) ->
  zlen (bids ob) < max_depth ob -> zlen (asks ob) <= max_depth ob ->
  apply_updates [u; v] ob = Ret ob.
Proof. exact insert_delete_bid. Qed.
Example C18_example :
  nonzero (upd 8 4 "ask") /\ zero (upd 8 0 "ask") /\ zlen (asks ex_book) < max_depth ex_book /\
  shown (apply_updates [upd 8 4 "ask"; upd 8 0 "ask"] ex_book) = shown (Ret ex_book).
Proof. repeat split; vm_compute; auto; congruence. Qed.

Print Assumptions C01_new_book_is_stable_sort_prefix.
Print Assumptions C02_accum_nondecreasing.
Print Assumptions C03_history_keeps_sides_sorted.
Print Assumptions C05_history_never_crosses.
Print Assumptions C07_bids_after_ask_update.
Print Assumptions C11_update_idempotent.
Print Assumptions C13_get_depth.
Print Assumptions C15_overlap_value_exact.
Print Assumptions C18_insert_delete_ask.
