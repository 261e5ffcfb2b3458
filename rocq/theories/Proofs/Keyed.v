(** The list operations of an update, for a side ordered by an integer key. *)
From Coq Require Import Sorting.Sorted Sorting.Permutation.
From Verif Require Import Go.Outcome Go.Slice Model.OrderBook Proofs.Lists Proofs.OrderBook.
Open Scope list_scope.
Open Scope Z_scope.

Section Keyed.
Context {F : Type}.
Variable P : row F -> Prop.
Variable kap : row F -> Z.
Variable p : Z.
Variables eqt gtt ltt : row F -> bool.
Hypothesis eqt_k : forall r, P r -> eqt r = (kap r =? p).
Hypothesis gtt_k : forall r, P r -> gtt r = (p <? kap r).
Hypothesis ltt_k : forall r, P r -> ltt r = (kap r <? p).

Notation SL := (StronglySorted (fun a b => kap a < kap b)).
Notation SE := (StronglySorted (fun a b => kap a <= kap b)).

Lemma sl_se l : SL l -> SE l.
Proof. apply ss_impl. intros; simpl in *; lia. Qed.

(** The opposite side: [kap] is the key of that side, [gtt] its early-return
    test, [ltt] its crossing test. *)
Lemma cut_cases l cr keep : Forall P l -> l = cr ++ keep ->
  Forall (fun r => kap r < p) cr -> Forall (fun r => p <= kap r) keep ->
  cut gtt ltt l =
  match cr, keep with
  | [], [] => []
  | [], x :: rest => if p <? kap x then keep else match rest with [] => [x] | _ => rest end
  | _ :: _, [] => []
  | _ :: _, x :: rest => match rest with [] => [x] | _ => rest end
  end.
Proof.
  intros HP -> Hc Hk. rewrite Forall_app in HP. destruct HP as [Pc Pk].
  assert (Forall (fun x => ltt x = true) cr) as Tc.
  { rewrite Forall_forall in *. intros x Hx. rewrite ltt_k by auto. apply Z.ltb_lt. now apply Hc. }
  destruct keep as [|x rest].
  - rewrite app_nil_r. destruct cr as [|c cr]; [reflexivity|].
    unfold cut. rewrite gtt_k by (inversion Pc; auto). inversion Hc; subst.
    destruct (Z.ltb_spec p (kap c)); [lia|]. now apply after_crossed_all.
  - inversion Pk; subst. inversion Hk; subst.
    assert (ltt x = false) as Tx by (rewrite ltt_k by auto; apply Z.ltb_ge; assumption).
    destruct cr as [|c cr].
    + simpl app. unfold cut. rewrite gtt_k by auto. destruct (p <? kap x); [reflexivity|].
      apply (after_crossed_app ltt [] x rest); auto.
    + unfold cut. simpl app at 1. cbv iota. rewrite gtt_k by (inversion Pc; auto). inversion Hc; subst.
      destruct (Z.ltb_spec p (kap c)); [lia|]. now apply after_crossed_app.
Qed.

Lemma split_at l : SE l -> exists cr keep, l = cr ++ keep /\
  Forall (fun r => kap r < p) cr /\ Forall (fun r => p <= kap r) keep.
Proof.
  induction l as [|x l IH]; intros S; [exists [], []; auto|].
  apply ss_cons in S as [S Sx]. destruct (Z.lt_ge_cases (kap x) p) as [L|L].
  - destruct (IH S) as (cr & keep & -> & Hc & Hk). exists (x :: cr), keep. auto.
  - exists [], (x :: l). repeat split; auto. constructor; [assumption|].
    rewrite Forall_forall. intros y Hy. specialize (Sx y Hy). simpl in Sx. lia.
Qed.

Lemma cut_ge l : Forall P l -> SE l -> Forall (fun r => p <= kap r) (cut gtt ltt l).
Proof.
  intros HP S. destruct (split_at l S) as (cr & keep & E & Hc & Hk).
  rewrite (cut_cases l cr keep HP E Hc Hk).
  destruct cr as [|c cr], keep as [|x rest]; try constructor.
  - inversion Hk; subst. destruct (p <? kap x); [assumption|]. destruct rest; auto.
  - inversion Hk; subst. destruct rest; auto.
Qed.

Lemma cut_idem l : Forall P l -> SL l -> cut gtt ltt (cut gtt ltt l) = cut gtt ltt l.
Proof.
  intros HP S. assert (forall m, Forall P m -> Forall (fun r => p < kap r) m -> cut gtt ltt m = m) as Out.
  { intros m Pm Hm. destruct m as [|x m]; [reflexivity|]. unfold cut. inversion Pm; inversion Hm; subst.
    rewrite gtt_k by auto. rewrite (proj2 (Z.ltb_lt _ _)) by assumption. reflexivity. }
  assert (forall x rest, P x -> Forall P rest -> SL (x :: rest) -> p <= kap x ->
     let m := match rest with [] => [x] | _ => rest end in cut gtt ltt m = m) as Tail.
  { intros x rest Px Pr Sx Hx. destruct rest as [|y rest]; cbv zeta.
    - rewrite (cut_cases [x] [] [x]); auto. now destruct (p <? kap x).
    - apply Out; [assumption|]. apply ss_cons in Sx as [_ Sx]. rewrite Forall_forall.
      intros z Hz. specialize (Sx z Hz). simpl in Sx. lia. }
  destruct (split_at l (sl_se l S)) as (cr & keep & E & Hc & Hk).
  rewrite (cut_cases l cr keep HP E Hc Hk).
  rewrite E in HP, S. rewrite Forall_app in HP. destruct HP as [Pc Pk]. apply ss_app in S as (_ & Sk & _).
  destruct cr as [|c cr], keep as [|x rest]; try reflexivity.
  - inversion Pk; inversion Hk; subst. destruct (Z.ltb_spec p (kap x)) as [L|L].
    + apply Out; [assumption|]. constructor; [assumption|].
      apply ss_cons in Sk as [_ Sx]. rewrite Forall_forall. intros z Hz. specialize (Sx z Hz). simpl in Sx. lia.
    + apply Tail; auto.
  - inversion Pk; inversion Hk; subst. apply Tail; auto.
Qed.

Lemma cut_out l : Forall P l -> Forall (fun r => p < kap r) l -> cut gtt ltt l = l.
Proof.
  intros Pm Hm. destruct l as [|x m]; [reflexivity|]. unfold cut. inversion Pm; inversion Hm; subst.
  rewrite gtt_k by auto. rewrite (proj2 (Z.ltb_lt _ _)) by assumption. reflexivity.
Qed.

Variable new : row F.
Hypothesis new_P : P new.
Hypothesis new_k : kap new = p.

Lemma own_set_P l : Forall P l -> Forall P (own_set eqt gtt new l).
Proof.
  intros H. destruct (own_set_shape eqt gtt new l) as (a & e & b & -> & -> & _ & _).
  rewrite !Forall_app in H. rewrite Forall_app, Forall_cons_iff. tauto.
Qed.
Lemma own_del_P l : Forall P l -> Forall P (own_del eqt l).
Proof.
  intros H. destruct (own_del_shape eqt l) as [(_ & -> & _)|(a & r & b & -> & -> & _)]; [assumption|].
  rewrite Forall_app, Forall_cons_iff in H. rewrite Forall_app. tauto.
Qed.

(** Where the new row goes. *)
Lemma own_set_split l : Forall P l -> SE l ->
  exists a e b, l = a ++ e ++ b /\ own_set eqt gtt new l = a ++ new :: b /\
    Forall (fun r => kap r < p) a /\ Forall (fun r => p <= kap r) b /\
    ((exists r, e = [r] /\ kap r = p) \/ (e = [] /\ Forall (fun r => kap r <> p) l)).
Proof.
  intros HP S. destruct (own_set_shape eqt gtt new l) as (a & e & b & E & E' & Ha & Hc).
  exists a, e, b. split; [assumption|]. split; [assumption|].
  rewrite E in HP, S. rewrite !Forall_app in HP. destruct HP as (Pa & Pe & Pb).
  apply ss_app in S as (Sa & S & Sab). apply ss_app in S as (Se & Sb & Seb).
  destruct Hc as [(r & -> & Hr)|(-> & Hl & Hg & Hb)].
  - rewrite eqt_k in Hr by (inversion Pe; auto). apply Z.eqb_eq in Hr.
    split; [|split].
    + rewrite Forall_forall in *. intros x Hx. specialize (Ha x Hx). rewrite eqt_k in Ha by auto.
      apply Z.eqb_neq in Ha. specialize (Sab x r Hx (or_introl eq_refl)). simpl in Sab. lia.
    + rewrite Forall_forall in *. intros x Hx. specialize (Seb r x (or_introl eq_refl) Hx). simpl in Seb. lia.
    + left. eauto.
  - assert (Forall (fun r => kap r <> p) l) as Hn.
    { rewrite E. simpl. rewrite E in Hl. simpl in Hl. rewrite !Forall_app in *. rewrite !Forall_forall in *.
      split; intros x Hx; [apply Ha in Hx as Hx'|apply (proj2 Hl) in Hx as Hx'];
        rewrite eqt_k in Hx' by auto; now apply Z.eqb_neq in Hx'. }
    assert (Hn' := Hn). rewrite E in Hn'. simpl in Hn'. rewrite Forall_app in Hn'. destruct Hn' as [Na Nb].
    split; [|split].
    + rewrite Forall_forall in *. intros x Hx. specialize (Hg x Hx). rewrite gtt_k in Hg by auto.
      apply Z.ltb_ge in Hg. specialize (Na x Hx). simpl in Na. lia.
    + destruct b as [|r b]; [constructor|].
      rewrite gtt_k in Hb by (inversion Pb; auto). apply Z.ltb_lt in Hb.
      apply ss_cons in Sb as [_ Sb]. constructor; [lia|]. rewrite Forall_forall.
      intros x Hx. specialize (Sb x Hx). simpl in Sb. lia.
    + right. auto.
Qed.

Lemma own_set_se l : Forall P l -> SE l -> SE (own_set eqt gtt new l).
Proof.
  intros HP S. destruct (own_set_split l HP S) as (a & e & b & E & -> & Ha & Hb & _).
  rewrite E in S. apply ss_app in S as (Sa & S & Sab). apply ss_app in S as (_ & Sb & _).
  rewrite Forall_forall in Ha, Hb. apply ss_app. repeat split; auto.
  - apply ss_cons. split; auto. intros y Hy. rewrite new_k. auto.
  - intros x y Hx [<-|Hy]; [rewrite new_k; specialize (Ha x Hx); simpl in *; lia|].
    apply Sab; auto. apply in_or_app; auto.
Qed.
Lemma own_set_sl l : Forall P l -> SL l ->
  SL (own_set eqt gtt new l) /\
  forall r, In r (own_set eqt gtt new l) <-> r = new \/ (In r l /\ kap r <> p).
Proof.
  intros HP S. destruct (own_set_split l HP (sl_se l S)) as (a & e & b & E & -> & Ha & Hb & Hc).
  rewrite E in S. apply ss_app in S as (Sa & S & Sab). apply ss_app in S as (Se & Sb & Seb).
  assert (Forall (fun r => p < kap r) b) as Hb'.
  { rewrite Forall_forall in *. intros x Hx. specialize (Hb x Hx). simpl in Hb.
    destruct Hc as [(r & -> & Hr)|(-> & Hn)].
    - specialize (Seb r x (or_introl eq_refl) Hx). simpl in Seb. lia.
    - rewrite E in Hn.
      assert (kap x <> p) by (apply Hn; simpl; apply in_or_app; auto). lia. }
  clear Hb. rewrite Forall_forall in Ha, Hb'. split.
  - apply ss_app. repeat split; auto.
    + apply ss_cons. split; auto. intros y Hy. rewrite new_k. auto.
    + intros x y Hx [<-|Hy]; [rewrite new_k; auto|].
      apply Sab; auto. apply in_or_app; auto.
  - intros r. rewrite E, !in_app_iff. simpl. split.
    + intros [H|[<-|H]]; auto; right.
      * specialize (Ha r H). simpl in Ha. split; [auto|lia].
      * specialize (Hb' r H). simpl in Hb'. split; [auto|lia].
    + intros [->|[[H|[H|H]] Hk]]; auto. exfalso.
      destruct Hc as [(r' & -> & Hr)|(-> & Hn)]; [|destruct H]. destruct H as [<-|[]]. auto.
Qed.

Lemma own_del_se l : SE l -> SE (own_del eqt l).
Proof.
  intros S. destruct (own_del_shape eqt l) as [(_ & -> & _)|(a & r & b & -> & -> & _)]; [assumption|].
  apply ss_app in S as (Sa & S & Sab). apply ss_cons in S as [Sb _]. apply ss_app. repeat split; auto.
  intros x y Hx Hy. apply Sab; simpl; auto.
Qed.
Lemma own_del_sl l : Forall P l -> SL l ->
  SL (own_del eqt l) /\ forall r, In r (own_del eqt l) <-> In r l /\ kap r <> p.
Proof.
  intros HP S. destruct (own_del_shape eqt l) as [(H & -> & _)|(a & r & b & -> & -> & Hr & Ha & _)].
  - split; [assumption|]. rewrite Forall_forall in *. intros r. split; [|tauto].
    intros Hr. split; [assumption|]. specialize (H r Hr). rewrite eqt_k in H by auto. now apply Z.eqb_neq in H.
  - rewrite Forall_app, Forall_cons_iff in HP. destruct HP as (Pa & Pr & Pb).
    rewrite eqt_k in Hr by auto. apply Z.eqb_eq in Hr.
    apply ss_app in S as (Sa & S & Sab). apply ss_cons in S as [Sb Sr]. split.
    + apply ss_app. repeat split; auto. intros x y Hx Hy. apply Sab; simpl; auto.
    + intros x. rewrite !in_app_iff. simpl. split.
      * intros [Hx|Hx].
        -- specialize (Sab x r Hx (or_introl eq_refl)). simpl in Sab. split; [auto|lia].
        -- specialize (Sr x Hx). simpl in Sr. split; [auto|lia].
      * intros [[Hx|[<-|Hx]] Hk]; auto. contradiction.
Qed.

(** Setting twice, with a truncation in between. *)
Lemma own_set_same a b : Forall P a -> Forall (fun r => kap r < p) a ->
  own_set eqt gtt new (a ++ new :: b) = a ++ new :: b.
Proof.
  intros Pa Ha. unfold own_set. rewrite find_from_app.
  - now rewrite zto_len, set_nth_app.
  - rewrite eqt_k by assumption. now apply Z.eqb_eq.
  - rewrite Forall_forall in *. intros x Hx. rewrite eqt_k by auto.
    apply Z.eqb_neq. specialize (Ha x Hx). simpl in Ha. lia.
Qed.
Lemma own_set_end a : Forall P a -> Forall (fun r => kap r < p) a ->
  own_set eqt gtt new a = a ++ [new].
Proof.
  intros Pa Ha. unfold own_set. rewrite !find_from_all; [reflexivity| |];
    rewrite Forall_forall in *; intros x Hx; rewrite ?gtt_k, ?eqt_k by auto;
    specialize (Ha x Hx); simpl in Ha; [apply Z.ltb_ge|apply Z.eqb_neq]; lia.
Qed.
Lemma own_set_idem d l : Forall P l -> SL l ->
  firstn d (own_set eqt gtt new (firstn d (own_set eqt gtt new l))) = firstn d (own_set eqt gtt new l).
Proof.
  intros HP S.
  destruct (own_set_split l HP (sl_se l S)) as (a & e & b & E & -> & Ha & _ & _).
  assert (Forall P a) as Pa by (rewrite E, Forall_app in HP; tauto).
  rewrite firstn_app. destruct (d - List.length a)%nat eqn:Q.
  - cbn [firstn]. rewrite app_nil_r. rewrite own_set_end.
    + rewrite firstn_app, firstn_firstn, Nat.min_id.
      replace (d - _)%nat with 0%nat; [cbn [firstn]; apply app_nil_r|].
      rewrite firstn_length. lia.
    + rewrite <- (firstn_skipn d a), Forall_app in Pa. tauto.
    + rewrite <- (firstn_skipn d a), Forall_app in Ha. tauto.
  - cbn [firstn]. rewrite (firstn_all2 a) by lia. rewrite own_set_same by assumption.
    rewrite firstn_app, Q. cbn [firstn]. rewrite (firstn_all2 a) by lia.
    rewrite firstn_firstn, Nat.min_id. reflexivity.
Qed.

Lemma own_del_absent l : Forall P l -> Forall (fun r => kap r <> p) l ->
  find_from eqt l 0 = None /\ own_del eqt l = l.
Proof.
  intros HP H. assert (find_from eqt l 0 = None) as E.
  { apply find_from_all. rewrite Forall_forall in *. intros x Hx. rewrite eqt_k by auto. apply Z.eqb_neq; auto. }
  split; [assumption|]. unfold own_del. now rewrite E.
Qed.

End Keyed.
