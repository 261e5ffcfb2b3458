(** ApplyUpdate and NewOrderBook only compare prices: relational
    (parametricity) proofs, for any two float types. *)
From Coq Require Import Arith ZArith Lia Bool Reals Lra Sorting.Permutation.
From Flocq Require Import Core BinarySingleNaN.
From Verif Require Import Go.Outcome Go.Int64 Go.Slice Go.Sort Go.Float64 Go.FloatReal Go.Num Model.OrderBook
  Spec.SymmetrySpec Proofs.Lists Proofs.OrderBook Proofs.OrderBookHeap.
Open Scope list_scope.
Open Scope Z_scope.

(** ** Lists and outcomes *)
Definition grel {A B} (R : A -> B -> Prop) (x : go A) (y : go B) : Prop :=
  match x, y with
  | Ret a, Ret b => R a b
  | Panic p, Panic q => p = q
  | _, _ => False
  end.
Lemma grel_bind {A B A' B'} (R : A -> B -> Prop) (S : A' -> B' -> Prop) x y f g :
  grel R x y -> (forall a b, R a b -> grel S (f a) (g b)) -> grel S (bind x f) (bind y g).
Proof. intros H K. destruct x, y; cbn [grel bind] in *; try contradiction; auto. Qed.

Section Lists.
Context {A B : Type} (R : A -> B -> Prop).
Lemma f2_length l m : Forall2 R l m -> List.length l = List.length m.
Proof. intros H. induction H; cbn [List.length]; congruence. Qed.
Lemma f2_len l m : Forall2 R l m -> zlen l = zlen m.
Proof. intros H. unfold zlen. f_equal. now apply f2_length. Qed.
Lemma f2_firstn n l m : Forall2 R l m -> Forall2 R (firstn n l) (firstn n m).
Proof. intros H. revert n. induction H; intros [|n]; cbn [firstn]; constructor; auto. Qed.
Lemma f2_skipn n l m : Forall2 R l m -> Forall2 R (skipn n l) (skipn n m).
Proof. intros H. revert n. induction H; intros [|n]; cbn [skipn]; try constructor; auto. Qed.
Lemma f2_reslice l m i j : Forall2 R l m -> grel (Forall2 R) (reslice l i j) (reslice m i j).
Proof.
  intros H. unfold reslice. rewrite (f2_len l m H). destruct (_ && _); cbn [grel]; [|reflexivity].
  now apply f2_firstn, f2_skipn.
Qed.
Lemma f2_nth n l m : Forall2 R l m ->
  match nth_error l n, nth_error m n with Some a, Some b => R a b | None, None => True | _, _ => False end.
Proof. intros H. revert n. induction H; intros [|n]; cbn [nth_error]; auto. apply IHForall2. Qed.
Lemma f2_index l m i : Forall2 R l m -> grel R (index l i) (index m i).
Proof.
  intros H. unfold index. destruct (i <? 0); [reflexivity|]. pose proof (f2_nth (Z.to_nat i) l m H).
  destruct (nth_error l _), (nth_error m _); cbn [grel]; auto; contradiction.
Qed.
End Lists.

Section Rel.
Context {F G : Type} {NF : GoFloat F} {NG : GoFloat G}.
Context (Rp : F -> G -> Prop) (Rr : row F -> row G -> Prop).
Hypothesis Rr_price : forall a b, Rr a b -> Rp (price a) (price b).

Lemma find_rel s t l m i : (forall a b, Rr a b -> s a = t b) -> Forall2 Rr l m -> find_from s l i = find_from t m i.
Proof.
  intros H FA. revert i. induction FA as [|a b l m Hab FA IH]; intros i; cbn [find_from]; [reflexivity|].
  rewrite (H a b Hab). destruct (t b); [reflexivity|apply IH].
Qed.
Lemma cut_rel l m i : Forall2 Rr l m -> grel (fun x y => fst x = fst y /\ Forall2 Rr (snd x) (snd y)) (cut_from l i) (cut_from m i).
Proof.
  intros H. unfold cut_from. rewrite (f2_len Rr l m H). eapply grel_bind; [apply f2_reslice, H|].
  intros a b Hab. cbn [grel fst snd]. auto.
Qed.
Lemma limit_side_rel l m d : Forall2 Rr l m -> grel (Forall2 Rr) (limit_side l d) (limit_side m d).
Proof. intros H. unfold limit_side. rewrite (f2_len Rr l m H). destruct (_ <? _); [now apply f2_reslice|exact H]. Qed.
Lemma set_nth_rel i a b l m : Rr a b -> Forall2 Rr l m -> Forall2 Rr (set_nth i a l) (set_nth i b m).
Proof. intros Hab H. revert i. induction H; intros [|i]; cbn [set_nth]; constructor; auto. Qed.
Lemma remove_rel i l m : Forall2 Rr l m -> Forall2 Rr (remove_element l i) (remove_element m i).
Proof. intros H. unfold remove_element. apply Forall2_app; [now apply f2_firstn|now apply f2_skipn]. Qed.

Definition same_order (c : F -> F -> bool) (d : G -> G -> bool) : Prop :=
  forall x y x' y', Rp x x' -> Rp y y' -> c x y = d x' y'.

Lemma v_remove_rel before before' skip skip' p q l m :
  same_order before before' -> same_order skip skip' -> Rp p q -> Forall2 Rr l m ->
  grel (Forall2 Rr) (v_remove before skip p l) (v_remove before' skip' q m).
Proof.
  intros H1 H2 Hp H. unfold v_remove. rewrite (f2_len Rr l m H). destruct (_ =? _); [exact H|].
  eapply grel_bind; [apply f2_index, H|]. intros a b Hab. rewrite (H1 p (price a) q (price b)) by auto.
  destruct (before' q (price b)); [exact H|].
  rewrite (find_rel _ (fun r => negb (skip' (price r) q)) l m) by (auto; intros; f_equal; auto).
  destruct (find_from _ m 0) as [i|]; [|constructor].
  eapply grel_bind; [apply cut_rel, H|]. intros [n x] [n' y] [_ Hxy]. exact Hxy.
Qed.

Hypothesis eq_rel : same_order feq feq.

Lemma v_insert_eq {E} {NE : GoFloat E} better (l : list (row E)) new :
  v_insert better l new = Ret (match find_from (fun r => feq (price r) (price new)) l 0 with
    | Some i => set_nth (Z.to_nat i) new l
    | None => match find_from (fun r => better (price new) (price r)) l 0 with
              | Some i => firstn (Z.to_nat i) l ++ new :: skipn (Z.to_nat i) l
              | None => l ++ [new]
              end
    end).
Proof.
  unfold v_insert. cbv zeta. destruct (find_from (fun r => feq (price r) (price new)) l 0); [reflexivity|].
  exact (own_insert (fun r => better (price new) (price r)) new l _ (fun x => Ret x)).
Qed.
Lemma v_insert_rel better better' a b l m : same_order better better' -> Rr a b -> Forall2 Rr l m ->
  grel (Forall2 Rr) (v_insert better l a) (v_insert better' m b).
Proof.
  intros Hb Hab H. rewrite !v_insert_eq. cbn [grel].
  rewrite (find_rel (fun r => feq (price r) (price a)) (fun r => feq (price r) (price b)) l m) by (auto; intros; apply eq_rel; auto).
  destruct (find_from (fun r => feq (price r) (price b)) m 0) as [i|]; [now apply set_nth_rel|].
  rewrite (find_rel (fun r => better (price a) (price r)) (fun r => better' (price b) (price r)) l m) by (auto; intros; apply Hb; auto).
  destruct (find_from (fun r => better' (price b) (price r)) m 0) as [i|].
  - apply Forall2_app; [now apply f2_firstn|]. constructor; [exact Hab|now apply f2_skipn].
  - apply Forall2_app; [exact H|]. constructor; [exact Hab|constructor].
Qed.

(** Books related side by side. *)
Definition same_books (x : book F) (y : book G) : Prop :=
  b_time x = b_time y /\ Forall2 Rr (asks x) (asks y) /\ Forall2 Rr (bids x) (bids y) /\ max_depth x = max_depth y.
(** Books related with the sides exchanged. *)
Definition swapped_books (x : book F) (y : book G) : Prop :=
  b_time x = b_time y /\ Forall2 Rr (asks x) (bids y) /\ Forall2 Rr (bids x) (asks y) /\ max_depth x = max_depth y.
Definition with_err (RB : book F -> book G -> Prop) (x : book F * option err) (y : book G * option err) : Prop :=
  RB (fst x) (fst y) /\ snd x = snd y.

Lemma finish_same x y : same_books x y -> grel (with_err same_books) (finish x) (finish y).
Proof.
  intros (T & HA & HB & D). unfold finish, limit. rewrite D. eapply grel_bind with (R := same_books).
  - eapply grel_bind; [apply limit_side_rel, HA|]. intros a a' Ha. eapply grel_bind; [apply limit_side_rel, HB|]. intros b b' Hb.
    cbn [grel]. split; [exact T|]. auto.
  - intros a b Hab. cbn [grel]. split; auto.
Qed.
Lemma limit_side_panics {E} (l : list (row E)) d : match limit_side l d with Ret _ => True | Panic p => p = PSlice end.
Proof. unfold limit_side, reslice. destruct (_ <? _); [|exact I]. destruct (_ && _); [exact I|reflexivity]. Qed.
Lemma finish_swapped x y : swapped_books x y -> grel (with_err swapped_books) (finish x) (finish y).
Proof.
  intros (T & HA & HB & D). unfold finish, limit. rewrite D.
  pose proof (limit_side_rel _ _ (max_depth y) HA) as A. pose proof (limit_side_rel _ _ (max_depth y) HB) as C.
  pose proof (limit_side_panics (asks y) (max_depth y)) as E1. pose proof (limit_side_panics (bids y) (max_depth y)) as E2.
  destruct (limit_side (asks x) _) as [a|p], (limit_side (bids y) (max_depth y)) as [a'|p'],
    (limit_side (bids x) _) as [b|q], (limit_side (asks y) (max_depth y)) as [b'|q']; cbn [grel bind] in *; try contradiction; try congruence.
  split; [|reflexivity]. split; [exact T|]. auto.
Qed.

Definition same_update (u : update F) (w : update G) : Prop :=
  u_side u = u_side w /\ Rp (u_price u) (u_price w) /\ Rr (new_row u) (new_row w) /\ is_set u = is_set w.

Lemma update_same u w x y : same_order flt flt -> same_update u w -> same_books x y ->
  grel (with_err same_books) (apply_update u x) (apply_update w y).
Proof.
  intros Hlt (Es & Hp & Hn & Hv) HB. pose proof HB as (T & Ha & Hb & D). rewrite !apply_update_v. unfold v_update. cbv zeta. rewrite Es.
  change (mkRow (u_price u) (u_volume u) fzero) with (new_row u). change (mkRow (u_price w) (u_volume w) fzero) with (new_row w).
  change (negb (feq (u_volume u) fzero)) with (is_set u). change (negb (feq (u_volume w) fzero)) with (is_set w). rewrite Hv.
  assert (same_order (fun p q => flt q p) (fun p q => flt q p)) as Hgt by (intros a b a' b' H1 H2; now apply Hlt).
  assert (forall E (NE : GoFloat E), (fun p q : E => flt p q) = flt) as Eta by reflexivity.
  destruct (String.eqb (u_side w) "ask"); [|destruct (String.eqb (u_side w) "bid")].
  - destruct (is_set w).
    + eapply grel_bind; [apply v_remove_rel; [exact Hgt|exact Hgt|exact Hp|exact Hb]|]. intros lb lb' Hlb.
      eapply grel_bind; [apply v_insert_rel; [exact Hlt|exact Hn|exact Ha]|]. intros la la' Hla.
      apply finish_same. split; [exact T|]. auto.
    + rewrite (find_rel _ (fun r => feq (price r) (u_price w)) (asks x) (asks y)) by (auto; intros; apply eq_rel; auto).
      destruct (find_from _ (asks y) 0) as [i|]; [|split; [exact HB|reflexivity]].
      apply finish_same. split; [exact T|]. split; [now apply remove_rel|]. auto.
  - destruct (is_set w).
    + eapply grel_bind; [apply v_remove_rel; [exact Hlt|exact Hlt|exact Hp|exact Ha]|]. intros la la' Hla.
      eapply grel_bind; [apply v_insert_rel; [exact Hgt|exact Hn|exact Hb]|]. intros lb lb' Hlb.
      apply finish_same. split; [exact T|]. auto.
    + rewrite (find_rel _ (fun r => feq (price r) (u_price w)) (bids x) (bids y)) by (auto; intros; apply eq_rel; auto).
      destruct (find_from _ (bids y) 0) as [i|]; [|split; [exact HB|reflexivity]].
      apply finish_same. split; [exact T|]. split; [exact Ha|]. split; [now apply remove_rel|exact D].
  - split; [exact HB|reflexivity].
Qed.

Definition swapped_update (u : update F) (w : update G) : Prop :=
  u_side w = mirror_side (u_side u) /\ Rp (u_price u) (u_price w) /\ Rr (new_row u) (new_row w) /\ is_set u = is_set w.

Lemma update_swapped u w x y : same_order flt (fun a b => flt b a) -> swapped_update u w -> swapped_books x y ->
  grel (with_err swapped_books) (apply_update u x) (apply_update w y).
Proof.
  intros Hlt (Es & Hp & Hn & Hv) HB. pose proof HB as (T & Ha & Hb & D). rewrite !apply_update_v. unfold v_update. cbv zeta. rewrite Es.
  change (mkRow (u_price u) (u_volume u) fzero) with (new_row u). change (mkRow (u_price w) (u_volume w) fzero) with (new_row w).
  change (negb (feq (u_volume u) fzero)) with (is_set u). change (negb (feq (u_volume w) fzero)) with (is_set w). rewrite Hv.
  assert (same_order (fun p q => flt q p) flt) as Hgt by (intros a b a' b' H1 H2; now apply Hlt).
  unfold mirror_side. destruct (String.eqb (u_side u) "ask") eqn:Ea; [|destruct (String.eqb (u_side u) "bid") eqn:Eb].
  - change (String.eqb "bid" "ask") with false. change (String.eqb "bid" "bid") with true. cbv iota. destruct (is_set w).
    + eapply grel_bind; [apply v_remove_rel; [exact Hgt|exact Hgt|exact Hp|exact Hb]|]. intros lb lb' Hlb.
      eapply grel_bind; [apply v_insert_rel; [exact Hlt|exact Hn|exact Ha]|]. intros la la' Hla.
      apply finish_swapped. split; [exact T|]. auto.
    + rewrite (find_rel _ (fun r => feq (price r) (u_price w)) (asks x) (bids y)) by (auto; intros; apply eq_rel; auto).
      destruct (find_from _ (bids y) 0) as [i|]; [|split; [exact HB|reflexivity]].
      apply finish_swapped. split; [exact T|]. split; [now apply remove_rel|]. auto.
  - change (String.eqb "ask" "ask") with true. cbv iota. destruct (is_set w).
    + eapply grel_bind; [apply v_remove_rel; [exact Hlt|exact Hlt|exact Hp|exact Ha]|]. intros la la' Hla.
      eapply grel_bind; [apply v_insert_rel; [exact Hgt|exact Hn|exact Hb]|]. intros lb lb' Hlb.
      apply finish_swapped. split; [exact T|]. auto.
    + rewrite (find_rel _ (fun r => feq (price r) (u_price w)) (bids x) (asks y)) by (auto; intros; apply eq_rel; auto).
      destruct (find_from _ (asks y) 0) as [i|]; [|split; [exact HB|reflexivity]].
      apply finish_swapped. split; [exact T|]. split; [exact Ha|]. split; [now apply remove_rel|exact D].
  - rewrite Ea, Eb. split; [exact HB|reflexivity].
Qed.

Lemma history_same : same_order flt flt -> forall us ws, Forall2 same_update us ws -> forall x y, same_books x y ->
  grel same_books (apply_updates us x) (apply_updates ws y).
Proof.
  intros Hlt us ws H. induction H as [|u w us ws Hu Hus IH]; intros x y HB; cbn [apply_updates]; [exact HB|].
  eapply grel_bind; [apply (update_same u w x y Hlt Hu HB)|]. intros [a e] [b e'] [Hab _]. now apply IH.
Qed.
Lemma history_swapped : same_order flt (fun a b => flt b a) -> forall us ws, Forall2 swapped_update us ws -> forall x y, swapped_books x y ->
  grel swapped_books (apply_updates us x) (apply_updates ws y).
Proof.
  intros Hlt us ws H. induction H as [|u w us ws Hu Hus IH]; intros x y HB; cbn [apply_updates]; [exact HB|].
  eapply grel_bind; [apply (update_swapped u w x y Hlt Hu HB)|]. intros [a e] [b e'] [Hab _]. now apply IH.
Qed.
End Rel.

(** ** sort.SliceStable is parametric in the elements *)
Definition orel {A B} (R : A -> B -> Prop) (x : option A) (y : option B) : Prop :=
  match x, y with Some a, Some b => R a b | None, None => True | _, _ => False end.
Lemma orel_bind {A B A' B'} (R : A -> B -> Prop) (S : A' -> B' -> Prop) x y f g :
  orel R x y -> (forall a b, R a b -> orel S (f a) (g b)) -> orel S (obind x f) (obind y g).
Proof. intros H K. destruct x, y; cbn [orel obind] in *; try contradiction; auto. Qed.

Section SortRel.
Context {A B : Type} (R : A -> B -> Prop) (less : A -> A -> bool) (less' : B -> B -> bool).
Hypothesis less_rel : forall a b a' b', R a a' -> R b b' -> less a b = less' a' b'.
Notation L := (Forall2 R).

Lemma less_at_rel l m i j : L l m -> less_at less l i j = less_at less' m i j.
Proof.
  intros H. unfold less_at. pose proof (f2_nth R i l m H) as Hi. pose proof (f2_nth R j l m H) as Hj.
  destruct (nth_error l i), (nth_error m i); try contradiction; [|reflexivity].
  destruct (nth_error l j), (nth_error m j); try contradiction; [|reflexivity]. f_equal. now apply less_rel.
Qed.
Lemma put_rel i a b l m : R a b -> L l m -> L (put l i a) (put m i b).
Proof. intros Hab H. revert i. induction H; intros [|i]; cbn [put]; constructor; auto. Qed.
Lemma swap_rel l m i j : L l m -> orel L (swap l i j) (swap m i j).
Proof.
  intros H. unfold swap. pose proof (f2_nth R i l m H) as Hi. pose proof (f2_nth R j l m H) as Hj.
  destruct (nth_error l i), (nth_error m i); try contradiction; [|exact I].
  destruct (nth_error l j), (nth_error m j); try contradiction; [|exact I]. cbn [orel]. apply put_rel; [assumption|]. now apply put_rel.
Qed.
Lemma sift_rel k : forall l m a, L l m -> orel L (sift less l a k) (sift less' m a k).
Proof.
  induction k as [|k IH]; intros l m a H; cbn [sift]; [exact H|]. rewrite (less_at_rel l m _ _ H).
  destruct (less_at less' m _ _) as [[|]|]; cbn [obind]; [|exact H|exact I].
  eapply orel_bind; [apply swap_rel, H|]. intros l' m' H'. now apply IH.
Qed.
Lemma insertion_loop_rel c : forall l m a i, L l m -> orel L (insertion_loop less l a i c) (insertion_loop less' m a i c).
Proof.
  induction c as [|c IH]; intros l m a i H; cbn [insertion_loop]; [exact H|].
  eapply orel_bind; [apply sift_rel, H|]. intros l' m' H'. now apply IH.
Qed.
Lemma swap_range_rel n : forall l m a b, L l m -> orel L (swap_range l a b n) (swap_range m a b n).
Proof.
  induction n as [|n IH]; intros l m a b H; cbn [swap_range]; [exact H|].
  eapply orel_bind; [apply swap_rel, H|]. intros l' m' H'. now apply IH.
Qed.
Lemma rotate_rel fuel : forall l m p i j, L l m -> orel L (rotate_loop fuel l p i j) (rotate_loop fuel m p i j).
Proof.
  induction fuel as [|f IH]; intros l m p i j H; cbn [rotate_loop]; [exact I|].
  destruct (Nat.eqb i j); [now apply swap_range_rel|]. destruct (Nat.ltb j i);
    (eapply orel_bind; [apply swap_range_rel, H|]; intros l' m' H'; now apply IH).
Qed.
Lemma bisect_ext fuel (s t : nat -> option bool) : (forall n, s n = t n) -> forall i j, bisect fuel s i j = bisect fuel t i j.
Proof.
  intros E. induction fuel as [|f IH]; intros i j; cbn [bisect]; [reflexivity|]. destruct (Nat.ltb i j); [|reflexivity].
  rewrite E. destruct (t _) as [[|]|]; cbn [obind]; auto.
Qed.
Lemma swap_up_rel c : forall l m k, L l m -> orel L (swap_up l k c) (swap_up m k c).
Proof.
  induction c as [|c IH]; intros l m k H; cbn [swap_up]; [exact H|].
  eapply orel_bind; [apply swap_rel, H|]. intros l' m' H'. now apply IH.
Qed.
Lemma swap_down_rel c : forall l m k, L l m -> orel L (swap_down l k c) (swap_down m k c).
Proof.
  induction c as [|c IH]; intros l m k H; cbn [swap_down]; [exact H|].
  eapply orel_bind; [apply swap_rel, H|]. intros l' m' H'. now apply IH.
Qed.
Lemma sym_merge_rel fuel : forall l m a p b, L l m -> orel L (sym_merge less fuel l a p b) (sym_merge less' fuel m a p b).
Proof.
  induction fuel as [|f IH]; intros l m a p b H; cbn [sym_merge]; [exact I|].
  destruct (Nat.eqb (p - a) 1).
  { rewrite (bisect_ext _ _ (fun h => less_at less' m h a)) by (intros; now apply less_at_rel).
    destruct (bisect _ _ _ _); cbn [obind]; [now apply swap_up_rel|exact I]. }
  destruct (Nat.eqb (b - p) 1).
  { rewrite (bisect_ext _ _ (fun h => option_map negb (less_at less' m p h))) by (intros; f_equal; now apply less_at_rel).
    destruct (bisect _ _ _ _); cbn [obind]; [now apply swap_down_rel|exact I]. }
  cbv zeta. rewrite (bisect_ext _ _ (fun c => option_map negb (less_at less' m (Nat.div2 (a + b) + p - 1 - c) c))) by (intros; f_equal; now apply less_at_rel).
  destruct (bisect _ _ _ _); cbn [obind]; [|exact I].
  eapply orel_bind; [destruct (_ && _); [apply rotate_rel, H|exact H]|]. intros l1 m1 H1.
  eapply orel_bind; [destruct (_ && _); [apply IH, H1|exact H1]|]. intros l2 m2 H2.
  destruct (_ && _); [apply IH, H2|exact H2].
Qed.
Lemma sort_blocks_rel fuel : forall l m bs a n, L l m -> orel L (sort_blocks less fuel l bs a n) (sort_blocks less' fuel m bs a n).
Proof.
  induction fuel as [|f IH]; intros l m bs a n H; cbn [sort_blocks]; destruct (Nat.leb _ _); try (apply insertion_loop_rel, H); [exact I|].
  eapply orel_bind; [apply insertion_loop_rel, H|]. intros l' m' H'. now apply IH.
Qed.
Lemma merge_pass_rel fuel : forall l m bs a n, L l m -> orel L (merge_pass less fuel l bs a n) (merge_pass less' fuel m bs a n).
Proof.
  induction fuel as [|f IH]; intros l m bs a n H; cbn [merge_pass]; destruct (Nat.leb _ _);
    try (destruct (Nat.ltb _ _); [apply sym_merge_rel, H|exact H]); [exact I|].
  eapply orel_bind; [apply sym_merge_rel, H|]. intros l' m' H'. now apply IH.
Qed.
Lemma merge_passes_rel fuel : forall l m bs n, L l m -> orel L (merge_passes less fuel l bs n) (merge_passes less' fuel m bs n).
Proof.
  induction fuel as [|f IH]; intros l m bs n H; cbn [merge_passes]; destruct (Nat.ltb _ _); try exact H; [exact I|].
  eapply orel_bind; [apply merge_pass_rel, H|]. intros l' m' H'. now apply IH.
Qed.
Lemma slice_stable_rel l m : L l m -> L (slice_stable less l) (slice_stable less' m).
Proof.
  intros H. unfold slice_stable. rewrite (f2_length R l m H).
  assert (orel L (stable_func less l (List.length m)) (stable_func less' m (List.length m))) as S.
  { unfold stable_func. eapply orel_bind; [apply sort_blocks_rel, H|]. intros l' m' H'. now apply merge_passes_rel. }
  destruct (stable_func less l _), (stable_func less' m _); cbn [orel] in S; auto; contradiction.
Qed.
End SortRel.

(** ** Relations that are functions *)
Lemma f2_map {A B} (P : A -> Prop) (f : A -> B) l : Forall P l -> Forall2 (fun a b => P a /\ b = f a) l (map f l).
Proof. intros H. induction H; cbn [map]; constructor; auto. Qed.
Lemma f2_fun {A B} (P : A -> Prop) (f : A -> B) l m : Forall2 (fun a b => P a /\ b = f a) l m -> m = map f l.
Proof. intros H. induction H as [|a b l m [_ ->] _ IH]; cbn [map]; congruence. Qed.
Lemma f2_impl {A B} (R S : A -> B -> Prop) l m : (forall a b, R a b -> S a b) -> Forall2 R l m -> Forall2 S l m.
Proof. intros H F. induction F; constructor; auto. Qed.
Lemma forall_true {A} (l : list A) : Forall (fun _ => True) l.
Proof. induction l; constructor; auto. Qed.

(** *** Mirror *)
Definition neg_rel (a b : row f64) : Prop := True /\ b = negate_row a.
Definition neg_price (x y : f64) : Prop := y = f64_neg x.
Lemma neg_rel_price a b : neg_rel a b -> neg_price (price a) (price b).
Proof. intros [_ ->]. reflexivity. Qed.
Lemma neg_nan x : is_nan (f64_neg x) = is_nan x. Proof. destruct x; reflexivity. Qed.
Lemma neg_xr x : xr (f64_neg x) = (- xr x)%R.
Proof.
  destruct x as [s|s| |s m e B]; simpl; try lra; [destruct s; simpl; lra|].
  rewrite <- F2R_Zopp. now destruct s.
Qed.
Lemma neg_lt x y : f64_lt (f64_neg y) (f64_neg x) = f64_lt x y.
Proof.
  destruct (is_nan x) eqn:Nx; [destruct x; try discriminate; destruct y; reflexivity|].
  destruct (is_nan y) eqn:Ny; [destruct y; try discriminate; destruct x as [[|]|[|]| |[|]]; reflexivity|].
  rewrite !f64_lt_xr by (rewrite ?neg_nan; assumption). rewrite !neg_xr.
  destruct (Rlt_bool_spec (xr x) (xr y)); [rewrite Rlt_bool_true by lra|rewrite Rlt_bool_false by lra]; reflexivity.
Qed.
Lemma neg_eq x y : f64_eq (f64_neg x) (f64_neg y) = f64_eq x y.
Proof.
  destruct (is_nan x) eqn:Nx; [destruct x; try discriminate; destruct y; reflexivity|].
  destruct (is_nan y) eqn:Ny; [destruct y; try discriminate; destruct x as [[|]|[|]| |[|]]; reflexivity|].
  rewrite !f64_eq_xr by (rewrite ?neg_nan; assumption). rewrite !neg_xr.
  destruct (Req_bool_spec (xr x) (xr y)); [rewrite Req_bool_true by lra|rewrite Req_bool_false by lra]; reflexivity.
Qed.
Lemma neg_order : same_order neg_price (@flt f64 f64_num) (fun a b => @flt f64 f64_num b a).
Proof. intros x y x' y' -> ->. symmetry. apply neg_lt. Qed.
Lemma neg_eq_order : same_order neg_price (@feq f64 f64_num) (@feq f64 f64_num).
Proof. intros x y x' y' -> ->. symmetry. apply neg_eq. Qed.
Lemma mirror_rel ob : swapped_books neg_rel ob (mirror_book ob).
Proof. split; [reflexivity|]. split; [apply f2_map, forall_true|]. split; [apply f2_map, forall_true|reflexivity]. Qed.
Lemma mirror_inv x y : swapped_books neg_rel x y -> y = mirror_book x.
Proof.
  destruct y as [t a b d]. intros (T & HA & HB & D). cbn [asks bids b_time max_depth] in *. apply f2_fun in HA, HB. unfold mirror_book. now subst.
Qed.
Lemma mirror_upd u : swapped_update neg_price neg_rel u (mirror_update u).
Proof. split; [reflexivity|]. split; [reflexivity|]. split; [split; [exact I|reflexivity]|reflexivity]. Qed.

Lemma mirror_apply u ob :
  apply_update (mirror_update u) (mirror_book ob) = go_map (fun r => (mirror_book (fst r), snd r)) (apply_update u ob).
Proof.
  pose proof (update_swapped neg_price neg_rel neg_rel_price neg_eq_order u (mirror_update u) ob (mirror_book ob)
    neg_order (mirror_upd u) (mirror_rel ob)) as H.
  destruct (apply_update u ob) as [[x e]|p], (apply_update (mirror_update u) (mirror_book ob)) as [[y e']|q]; cbn [grel go_map fst snd] in *; try contradiction; [|congruence].
  destruct H as [H1 H2]. cbn [fst snd] in *. apply mirror_inv in H1. now subst.
Qed.
Lemma mirror_history us ob :
  apply_updates (map mirror_update us) (mirror_book ob) = go_map mirror_book (apply_updates us ob).
Proof.
  revert ob. induction us as [|u us IH]; intros ob; cbn [map apply_updates]; [reflexivity|].
  rewrite mirror_apply. destruct (apply_update u ob) as [[x e]|p]; cbn [go_map bind fst snd]; [apply IH|reflexivity].
Qed.

(** NewOrderBook, for rows of the same volumes. *)
Section New.
Context {F : Type} {N : GoFloat F} (Rp : F -> F -> Prop).
Definition vol_rel (a b : row F) : Prop := Rp (price a) (price b) /\ volume a = volume b /\ accum a = accum b.
Lemma accum_rel l m : Forall2 vol_rel l m -> forall prev, Forall2 vol_rel (accum_rows prev l) (accum_rows prev m).
Proof.
  intros H. induction H as [|a b l m (Hp & Hv & Ha) H IH]; intros prev; cbn [accum_rows]; [constructor|].
  rewrite Hv. constructor; [|apply IH]. split; [exact Hp|]. split; reflexivity.
Qed.
Lemma sort_same x y : same_order Rp flt flt -> same_books vol_rel x y -> grel (same_books vol_rel) (sort_book x) (sort_book y).
Proof.
  intros Hlt (T & HA & HB & D). unfold sort_book. cbv zeta. rewrite D.
  assert (Forall2 vol_rel (slice_stable (fun x y => flt (price x) (price y)) (asks x)) (slice_stable (fun x y => flt (price x) (price y)) (asks y))) as SA.
  { apply slice_stable_rel; [|exact HA]. intros a b a' b' (H1 & _) (H2 & _). now apply Hlt. }
  assert (Forall2 vol_rel (slice_stable (fun x y => flt (price y) (price x)) (bids x)) (slice_stable (fun x y => flt (price y) (price x)) (bids y))) as SB.
  { apply slice_stable_rel; [|exact HB]. intros a b a' b' (H1 & _) (H2 & _). now apply Hlt. }
  rewrite (f2_len _ _ _ SA), (f2_len _ _ _ SB).
  eapply grel_bind; [apply f2_reslice, SA|]. intros a a' Ha. eapply grel_bind; [apply f2_reslice, SB|]. intros b b' Hb.
  cbn [grel]. split; [exact T|]. split; [now apply accum_rel|]. split; [now apply accum_rel|reflexivity].
Qed.
Lemma reslice_panics {A} (l : list A) i j : match reslice l i j with Ret _ => True | Panic p => p = PSlice end.
Proof. unfold reslice. destruct (_ && _); [exact I|reflexivity]. Qed.
Lemma sort_swapped x y : same_order Rp flt (fun a b => flt b a) -> swapped_books vol_rel x y -> grel (swapped_books vol_rel) (sort_book x) (sort_book y).
Proof.
  intros Hlt (T & HA & HB & D). unfold sort_book. cbv zeta. rewrite D.
  assert (Forall2 vol_rel (slice_stable (fun x y => flt (price x) (price y)) (asks x)) (slice_stable (fun x y => flt (price y) (price x)) (bids y))) as SA.
  { apply slice_stable_rel; [|exact HA]. intros a b a' b' (H1 & _) (H2 & _). now apply Hlt. }
  assert (Forall2 vol_rel (slice_stable (fun x y => flt (price y) (price x)) (bids x)) (slice_stable (fun x y => flt (price x) (price y)) (asks y))) as SB.
  { apply slice_stable_rel; [|exact HB]. intros a b a' b' (H1 & _) (H2 & _). now apply Hlt. }
  rewrite (f2_len _ _ _ SA), (f2_len _ _ _ SB).
  pose proof (f2_reslice _ _ _ 0 (depth_of (zlen (slice_stable (fun x y => flt (price y) (price x)) (bids y))) (max_depth y)) SA) as A.
  pose proof (f2_reslice _ _ _ 0 (depth_of (zlen (slice_stable (fun x y => flt (price x) (price y)) (asks y))) (max_depth y)) SB) as B.
  match type of A with grel _ ?u ?v => pose proof (reslice_panics (slice_stable (fun x y => flt (price y) (price x)) (bids y)) 0 (depth_of (zlen (slice_stable (fun x y => flt (price y) (price x)) (bids y))) (max_depth y))) as E1; destruct u as [a|p], v as [a'|p'] end;
  match type of B with grel _ ?u ?v => pose proof (reslice_panics (slice_stable (fun x y => flt (price x) (price y)) (asks y)) 0 (depth_of (zlen (slice_stable (fun x y => flt (price x) (price y)) (asks y))) (max_depth y))) as E2; destruct u as [b|q], v as [b'|q'] end;
    cbn [grel bind] in *; try contradiction; try congruence.
  split; [exact T|]. split; [now apply accum_rel|]. split; [now apply accum_rel|reflexivity].
Qed.
End New.

Lemma neg_vol a b : neg_rel a b <-> vol_rel neg_price a b.
Proof.
  split.
  - intros [_ ->]. split; [reflexivity|]. split; reflexivity.
  - destruct b as [p v c]. intros (H1 & H2 & H3). cbn [price volume accum] in *. split; [exact I|]. unfold negate_row. rewrite H2, H3. unfold neg_price in H1. now rewrite H1.
Qed.
Lemma swapped_impl {F G} (R S : row F -> row G -> Prop) x y : (forall a b, R a b -> S a b) -> swapped_books R x y -> swapped_books S x y.
Proof.
  intros H (T & HA & HB & D). split; [exact T|]. split; [eapply f2_impl; eauto|]. split; [eapply f2_impl; eauto|exact D].
Qed.
Lemma same_impl {F G} (R S : row F -> row G -> Prop) x y : (forall a b, R a b -> S a b) -> same_books R x y -> same_books S x y.
Proof.
  intros H (T & HA & HB & D). split; [exact T|]. split; [eapply f2_impl; eauto|]. split; [eapply f2_impl; eauto|exact D].
Qed.
Lemma mirror_new now la lb d :
  new_order_book now (map negate_row lb) (map negate_row la) d = go_map mirror_book (new_order_book now la lb d).
Proof.
  unfold new_order_book.
  pose proof (sort_swapped neg_price (mkBook now la lb d) (mirror_book (mkBook now la lb d)) neg_order) as H.
  specialize (H (swapped_impl neg_rel (vol_rel neg_price) _ _ (fun a b => proj1 (neg_vol a b)) (mirror_rel _))).
  unfold mirror_book in H. cbn [b_time asks bids max_depth] in H.
  destruct (sort_book (mkBook now la lb d)) as [x|p], (sort_book (mkBook now (map negate_row lb) (map negate_row la) d)) as [y|q];
    cbn [grel go_map] in *; try contradiction; [|congruence].
  f_equal. apply mirror_inv. exact (swapped_impl _ _ _ _ (fun a b => proj2 (neg_vol a b)) H).
Qed.
Lemma neg_neg x : f64_neg (f64_neg x) = x. Proof. unfold f64_neg. apply Bopp_involutive. Qed.
Lemma mirror_mirror ob : mirror_book (mirror_book ob) = ob.
Proof.
  destruct ob as [t a b d]. unfold mirror_book. cbn [b_time asks bids max_depth]. rewrite !map_map.
  assert (forall l : list (row f64), map (fun r => negate_row (negate_row r)) l = l) as E.
  { intros l. rewrite <- (map_id l) at 2. apply map_ext. intros [p v c]. unfold negate_row. cbn [price volume accum]. now rewrite neg_neg. }
  now rewrite !E.
Qed.

(** *** Other labels *)
Section Label.
Context {G : Type} {NG : GoFloat G} (P : f64 -> Prop) (Q : f64 -> Prop) (p v : f64 -> G).
Hypothesis lt_p : forall x y, P x -> P y -> flt (p x) (p y) = f64_lt x y.
Hypothesis eq_p : forall x y, P x -> P y -> feq (p x) (p y) = f64_eq x y.
Hypothesis zero_v : v (i2f 0) = fofZ 0.
Hypothesis set_v : forall x, Q x -> feq (v x) (fofZ 0) = f64_eq x (i2f 0).

Definition okrow (r : row f64) : Prop := P (price r).
Definition lab_rel (a : row f64) (b : row G) : Prop := okrow a /\ b = relabel_row p v a.
Definition lab_price (x : f64) (y : G) : Prop := P x /\ y = p x.
Lemma lab_rel_price a b : lab_rel a b -> lab_price (price a) (price b).
Proof. intros [H ->]. split; [exact H|reflexivity]. Qed.
Lemma lab_order : same_order lab_price (@flt f64 f64_num) flt.
Proof. intros x y x' y' [Hx ->] [Hy ->]. symmetry. now apply lt_p. Qed.
Lemma lab_eq : same_order lab_price (@feq f64 f64_num) feq.
Proof. intros x y x' y' [Hx ->] [Hy ->]. symmetry. now apply eq_p. Qed.
Lemma lab_books ob : (forall x, book_price ob x -> P x) -> same_books lab_rel ob (relabel_book p v ob).
Proof.
  intros H. split; [reflexivity|].
  assert (forall l, (forall r, In r l -> In r (asks ob ++ bids ob)) -> Forall okrow l) as K.
  { intros l Hl. apply Forall_forall. intros r Hr. apply H. unfold book_price. apply in_map. now apply Hl. }
  split; [apply f2_map, K; intros; apply in_or_app; now left|]. split; [apply f2_map, K; intros; apply in_or_app; now right|reflexivity].
Qed.
Lemma lab_inv x y : same_books lab_rel x y -> y = relabel_book p v x.
Proof.
  destruct y as [t a b d]. intros (T & HA & HB & D). cbn [asks bids b_time max_depth] in *. apply f2_fun in HA, HB. unfold relabel_book. now subst.
Qed.
Lemma lab_upd u : P (u_price u) -> Q (u_volume u) -> same_update lab_price lab_rel u (relabel_update p v u).
Proof.
  intros H HQ. split; [reflexivity|]. split; [split; [exact H|reflexivity]|]. split.
  - split; [exact H|]. unfold new_row, relabel_row, relabel_update, fzero. cbn [u_price u_volume price volume accum]. now rewrite <- zero_v.
  - unfold is_set, relabel_update, fzero. cbn [u_volume]. now rewrite set_v.
Qed.
Lemma label_apply u ob : (forall x, book_price ob x -> P x) -> P (u_price u) -> Q (u_volume u) ->
  apply_update (relabel_update p v u) (relabel_book p v ob) = go_map (fun r => (relabel_book p v (fst r), snd r)) (apply_update u ob).
Proof.
  intros HB HU HQ.
  pose proof (update_same lab_price lab_rel lab_rel_price lab_eq u (relabel_update p v u) ob (relabel_book p v ob)
    lab_order (lab_upd u HU HQ) (lab_books ob HB)) as H.
  destruct (apply_update u ob) as [[x e]|n], (apply_update (relabel_update p v u) (relabel_book p v ob)) as [[y e']|q]; cbn [grel go_map fst snd] in *; try contradiction; [|congruence].
  destruct H as [H1 H2]. cbn [fst snd] in *. apply lab_inv in H1. now subst.
Qed.
Lemma label_history us ob : (forall x, book_price ob x -> P x) -> Forall (fun u => P (u_price u) /\ Q (u_volume u)) us ->
  apply_updates (map (relabel_update p v) us) (relabel_book p v ob) = go_map (relabel_book p v) (apply_updates us ob).
Proof.
  intros HB HU.
  assert (Forall2 (same_update lab_price lab_rel) us (map (relabel_update p v) us)) as F.
  { induction HU as [|u us [H1 H2] HU IH]; cbn [map]; constructor; [now apply lab_upd|exact IH]. }
  pose proof (history_same lab_price lab_rel lab_rel_price lab_eq lab_order us _ F ob (relabel_book p v ob) (lab_books ob HB)) as H.
  destruct (apply_updates us ob) as [x|n], (apply_updates (map _ us) _) as [y|q]; cbn [grel go_map] in *; try contradiction; [|congruence].
  apply lab_inv in H. now subst.
Qed.
End Label.

(** Prices only, over float64. *)
Lemma relabel_history (g : f64 -> f64) us ob :
  keeps_order (fun x => book_price ob x \/ In x (map u_price us)) g ->
  apply_updates (map (relabel_update g (fun v => v)) us) (relabel_book g (fun v => v) ob) = go_map (relabel_book g (fun v => v)) (apply_updates us ob).
Proof.
  intros K. apply (label_history (NG := f64_num) (fun x => book_price ob x \/ In x (map u_price us)) (fun _ => True)).
  - intros x y Hx Hy. now apply K.
  - intros x y Hx Hy. now apply K.
  - reflexivity.
  - reflexivity.
  - intros x Hx. now left.
  - apply Forall_forall. intros u Hu. split; [right; now apply in_map|exact I].
Qed.
Lemma relabel_apply (g : f64 -> f64) u ob :
  keeps_order (fun x => book_price ob x \/ x = u_price u) g ->
  apply_update (relabel_update g (fun v => v) u) (relabel_book g (fun v => v) ob) =
  go_map (fun r => (relabel_book g (fun v => v) (fst r), snd r)) (apply_update u ob).
Proof.
  intros K. apply (label_apply (NG := f64_num) (fun x => book_price ob x \/ x = u_price u) (fun _ => True)).
  - intros x y Hx Hy. now apply K.
  - intros x y Hx Hy. now apply K.
  - reflexivity.
  - reflexivity.
  - intros x Hx. now left.
  - now right.
  - exact I.
Qed.
Lemma relabel_new (g : f64 -> f64) now la lb d :
  keeps_order (fun x => In x (map price (la ++ lb))) g ->
  let f := relabel_row g (fun v => v) in
  new_order_book now (map f la) (map f lb) d = go_map (relabel_book g (fun v => v)) (new_order_book now la lb d).
Proof.
  intros K f. unfold new_order_book.
  set (P := fun x => In x (map price (la ++ lb))).
  pose proof (sort_same (lab_price P g) (mkBook now la lb d) (relabel_book g (fun v => v) (mkBook now la lb d))) as H.
  assert (forall a b, lab_rel P g (fun v => v) a b <-> vol_rel (lab_price P g) a b) as E.
  { intros a [p v c]. split.
    - intros [H1 H2]. injection H2 as -> -> ->. split; [split; [exact H1|reflexivity]|split; reflexivity].
    - intros ([H1 H2] & H3 & H4). cbn [price volume accum] in *. split; [exact H1|]. unfold relabel_row. now subst. }
  specialize (H (lab_order P g (fun x y Hx Hy => proj1 (K x y Hx Hy)))).
  specialize (H (same_impl _ _ _ _ (fun a b => proj1 (E a b)) (lab_books P g (fun v => v) (mkBook now la lb d) (fun x Hx => Hx)))).
  unfold relabel_book in H. cbn [b_time asks bids max_depth] in H. fold f in H.
  destruct (sort_book (mkBook now la lb d)) as [x|n], (sort_book (mkBook now (map f la) (map f lb) d)) as [y|q];
    cbn [grel go_map] in *; try contradiction; [|congruence].
  f_equal. apply (lab_inv P). exact (same_impl _ _ _ _ (fun a b => proj2 (E a b)) H).
Qed.

(** Finite floats read as the reals they denote. *)
Lemma real_history us ob : finite_book ob -> Forall finite_update us ->
  apply_updates (map real_update us) (real_book ob) = go_map real_book (apply_updates us ob).
Proof.
  intros [HA HB] HU. apply (label_history (NG := R_num) (fun x => is_finite x = true) (fun x => is_finite x = true)).
  - intros x y Hx Hy. cbn [flt R_num]. rewrite f64_lt_xr by (now apply finite_not_nan). now rewrite !xr_finite.
  - intros x y Hx Hy. cbn [feq R_num]. rewrite f64_eq_xr by (now apply finite_not_nan). now rewrite !xr_finite.
  - reflexivity.
  - intros x Hx. cbn [feq R_num fofZ]. rewrite f64_eq_xr by (try apply finite_not_nan; auto). rewrite (xr_finite x) by assumption. reflexivity.
  - intros x Hx. unfold book_price in Hx. apply in_map_iff in Hx as (r & <- & Hr). rewrite Forall_forall in HA, HB.
    apply in_app_or in Hr as [Hr|Hr]; [now apply HA|now apply HB].
  - exact HU.
Qed.
