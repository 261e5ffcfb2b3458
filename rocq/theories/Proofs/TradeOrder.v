(** Order and partition of the trades of a position (C107). *)
From Coq Require Import Reals Lra Permutation.
From Flocq Require Import Core.
From Verif Require Import Go.Outcome Go.Float64 Go.Num Model.Asset Model.Pair Model.Entities Spec.EntitySpec Spec.TradeOrderSpec Proofs.Entities.
Open Scope string_scope.
Open Scope list_scope.
Open Scope R_scope.

Lemma signed_inc ty t x : increases ty (t_action t) -> signed ty t x = x.
Proof. unfold signed. intros [[-> ->]|[-> ->]]; reflexivity. Qed.
Lemma signed_red ty t x : reduces ty (t_action t) -> signed ty t x = - x.
Proof. unfold signed. intros [[-> ->]|[-> ->]]; reflexivity. Qed.
Lemma inc_not_red ty a : increases ty a -> reduces ty a -> False.
Proof. intros [[-> ->]|[-> ->]] [[H K]|[H K]]; discriminate. Qed.

Lemma position_ext {F} (p p' : position F) : ps_id p = ps_id p' -> ps_type p = ps_type p' -> ps_pair p = ps_pair p' -> ps_open p = ps_open p' ->
  ps_take_profit p = ps_take_profit p' -> ps_stop_loss p = ps_stop_loss p' -> ps_open_price p = ps_open_price p' -> ps_close_price p = ps_close_price p' ->
  ps_quantity p = ps_quantity p' -> ps_profit p = ps_profit p' -> ps_open_time p = ps_open_time p' -> ps_close_time p = ps_close_time p' ->
  ps_trades p = ps_trades p' -> ps_execution_id p = ps_execution_id p' -> ps_data p = ps_data p' -> p = p'.
Proof. destruct p, p'; cbn; intros; subst; reflexivity. Qed.

(** One step that leaves the position open. *)
Definition moved (p : position R) (t : trade R) : position R :=
  mkPosition (ps_id p) (ps_type p) (ps_pair p) (ps_open p) (ps_take_profit p) (ps_stop_loss p)
    ((ps_open_price p * ps_quantity p + signed (ps_type p) t (t_price t * t_quantity t)) / (ps_quantity p + signed (ps_type p) t (t_quantity t)))
    (ps_close_price p) (ps_quantity p + signed (ps_type p) t (t_quantity t)) (ps_profit p) (ps_open_time p) (ps_close_time p)
    (ps_trades p ++ [t_id t]) (ps_execution_id p) (ps_data p).
Lemma step_grow (p : position R) t : t_pair t = ps_pair p -> 0 < ps_quantity p -> 0 < t_quantity t -> increases (ps_type p) (t_action t) ->
  fst (modify p t) = moved p t.
Proof.
  intros E Q T I. rewrite modify_increase by auto. cbn [fst]. unfold moved. rewrite !signed_inc by assumption.
  apply position_ext; try reflexivity. cbn. field. lra.
Qed.
Lemma step_shrink (p : position R) t : t_pair t = ps_pair p -> 0 < t_quantity t < ps_quantity p -> reduces (ps_type p) (t_action t) ->
  fst (modify p t) = moved p t.
Proof.
  intros E T I. rewrite modify_reduce by auto. cbn [fst]. unfold moved. rewrite !signed_red by assumption.
  unfold pos_substract, f0. cbn [fsub flt fle fofZ R_num].
  rewrite (Rlt_bool_false (ps_quantity p - t_quantity t) 0) by lra. cbn [andb]. rewrite Rle_bool_false by lra.
  apply position_ext; try reflexivity. cbn. field. lra.
Qed.
Lemma closed_form ts : forall p, 0 < ps_quantity p -> stays_open (ps_pair p) (ps_type p) (ps_quantity p) ts ->
  0 < ps_quantity p + net_quantity (ps_type p) ts /\
  modify_all p ts = mkPosition (ps_id p) (ps_type p) (ps_pair p) (ps_open p) (ps_take_profit p) (ps_stop_loss p)
    ((ps_open_price p * ps_quantity p + net_value (ps_type p) ts) / (ps_quantity p + net_quantity (ps_type p) ts))
    (ps_close_price p) (ps_quantity p + net_quantity (ps_type p) ts) (ps_profit p) (ps_open_time p) (ps_close_time p)
    (ps_trades p ++ map t_id ts) (ps_execution_id p) (ps_data p).
Proof.
  induction ts as [|t ts IH]; intros p Q S.
  - cbn [net_quantity net_value fold_right map modify_all]. split; [lra|]. rewrite app_nil_r. apply position_ext; try reflexivity; cbn; [field|]; lra.
  - cbn [stays_open] in S. destruct S as (E & T & S). cbn [modify_all].
    assert (fst (modify p t) = moved p t /\ 0 < ps_quantity (moved p t) /\
      stays_open (ps_pair p) (ps_type p) (ps_quantity (moved p t)) ts) as (M & Q' & S').
    { destruct S as [[I S]|(I & L & S)].
      - split; [now apply step_grow|]. cbn. rewrite signed_inc by assumption. split; [lra|exact S].
      - split; [now apply step_shrink|]. cbn. rewrite signed_red by assumption. split; [lra|]. now replace (ps_quantity p + - t_quantity t) with (ps_quantity p - t_quantity t) by lra. }
    rewrite M. destruct (IH (moved p t) Q' S') as [A ->]. cbn in A, Q' |- *.
    fold (net_quantity (ps_type p) ts) in *. fold (net_value (ps_type p) ts) in *. split; [lra|].
    apply position_ext; try reflexivity; cbn; [|lra|rewrite <- app_assoc; reflexivity].
    field. lra.
Qed.

Lemma net_perm ty ts ts' : Permutation ts ts' -> net_quantity ty ts = net_quantity ty ts' /\ net_value ty ts = net_value ty ts'.
Proof.
  intros H. induction H as [|x l l' H IH|x y l|l l' l'' H IH H' IH']; cbn [net_quantity net_value fold_right].
  - auto.
  - destruct IH as [A B]. unfold net_quantity, net_value in A, B. rewrite A, B. auto.
  - split; lra.
  - destruct IH, IH'. split; congruence.
Qed.
Lemma reorder p ts ts' : 0 < ps_quantity p -> Permutation ts ts' ->
  stays_open (ps_pair p) (ps_type p) (ps_quantity p) ts -> stays_open (ps_pair p) (ps_type p) (ps_quantity p) ts' ->
  modify_all p ts' = with_trades (ps_trades p ++ map t_id ts') (modify_all p ts).
Proof.
  intros Q P S S'. destruct (net_perm (ps_type p) ts ts' P) as [A B]. destruct (closed_form ts p Q S) as [_ ->]. destruct (closed_form ts' p Q S') as [_ ->].
  unfold with_trades. cbn. now rewrite A, B.
Qed.
Lemma increases_stay pr ty ts : (forall t, In t ts -> t_pair t = pr /\ 0 < t_quantity t /\ increases ty (t_action t)) -> forall q, stays_open pr ty q ts.
Proof.
  induction ts as [|t ts IH]; intros H q; [exact I|]. cbn [stays_open]. destruct (H t (or_introl eq_refl)) as (A & B & C).
  split; [exact A|]. split; [exact B|]. left. split; [exact C|]. apply IH. intros; apply H; now right.
Qed.

Definition grows (ty : string) (t : trade R) : bool := String.eqb (t_action t) (if String.eqb ty "long" then "buy" else "sell").
Lemma grows_inc ty t : increases ty (t_action t) -> grows ty t = true.
Proof. unfold grows. intros [[-> ->]|[-> ->]]; reflexivity. Qed.
Lemma grows_red ty t : reduces ty (t_action t) -> grows ty t = false.
Proof. unfold grows. intros [[-> ->]|[-> ->]]; reflexivity. Qed.
(** A later increase may come earlier. *)
Lemma stays_more pr ty ts : forall q q', q <= q' -> stays_open pr ty q ts -> stays_open pr ty q' ts.
Proof.
  induction ts as [|t ts IH]; intros q q' L H; [exact I|]. cbn [stays_open] in *. destruct H as (A & B & [[C D]|(C & D & E)]); (split; [exact A|split; [exact B|]]).
  - left. split; [exact C|]. eapply IH; [|exact D]. lra.
  - right. split; [exact C|]. split; [lra|]. eapply IH; [|exact E]. lra.
Qed.
Lemma stays_swap pr ty t ts us : forall q, increases ty (t_action t) -> (forall u, In u us -> reduces ty (t_action u)) ->
  stays_open pr ty q (us ++ t :: ts) -> stays_open pr ty q (t :: us ++ ts).
Proof.
  induction us as [|u us IH]; intros q T U S; [exact S|]. cbn [app stays_open] in S. destruct S as (A & B & S).
  destruct S as [[C _]|(C & L & S)]; [destruct (inc_not_red _ _ C (U u (or_introl eq_refl)))|].
  apply IH in S; [|exact T|intros; apply U; now right]. cbn [stays_open] in S. destruct S as (A' & B' & S).
  destruct S as [[C' S]|(C' & _)]; [|destruct (inc_not_red _ _ T C')].
  cbn [app stays_open]. split; [exact A'|]. split; [exact B'|]. left. split; [exact C'|]. split; [exact A|]. split; [exact B|]. right. split; [exact C|]. split; [lra|].
  replace (q + t_quantity t - t_quantity u) with (q - t_quantity u + t_quantity t) by lra. exact S.
Qed.
Lemma increases_first pr ty ts : forall q us, (forall u, In u us -> reduces ty (t_action u)) -> stays_open pr ty q (us ++ ts) ->
  stays_open pr ty q (filter (grows ty) ts ++ us ++ filter (fun t => negb (grows ty t)) ts).
Proof.
  induction ts as [|t ts IH]; intros q us U S; [exact S|].
  assert (increases ty (t_action t) \/ reduces ty (t_action t)) as D.
  { assert (forall us q, stays_open pr ty q (us ++ t :: ts) -> increases ty (t_action t) \/ reduces ty (t_action t)) as G; [|exact (G us q S)].
    clear. induction us as [|u us IH]; intros q S; cbn [app stays_open] in S; destruct S as (_ & _ & [[C S]|(C & _ & S)]); eauto. }
  cbn [filter]. destruct D as [D|D].
  - rewrite (grows_inc _ _ D). cbn [negb app]. apply stays_swap in S; [|exact D|exact U]. cbn [stays_open] in *. destruct S as (A & B & S). split; [exact A|]. split; [exact B|].
    destruct S as [[C S]|(C & _)]; [left; split; [exact C|]; now apply IH|destruct (inc_not_red _ _ D C)].
  - rewrite (grows_red _ _ D). cbn [negb]. replace (us ++ t :: filter (fun t => negb (grows ty t)) ts) with ((us ++ [t]) ++ filter (fun t => negb (grows ty t)) ts) by (rewrite <- app_assoc; reflexivity).
    apply IH; [|now rewrite <- app_assoc]. intros u Hu. apply in_app_iff in Hu. destruct Hu as [Hu|[<-|[]]]; auto.
Qed.
Lemma filter_perm {A} (f : A -> bool) l : Permutation l (filter f l ++ filter (fun x => negb (f x)) l).
Proof.
  induction l as [|x l IH]; [reflexivity|]. cbn [filter]. destruct (f x); cbn [negb app].
  - now constructor.
  - rewrite <- Permutation_middle. now constructor.
Qed.
Lemma buys_first p ts : 0 < ps_quantity p -> stays_open (ps_pair p) (ps_type p) (ps_quantity p) ts ->
  exists ts', Permutation ts ts' /\ stays_open (ps_pair p) (ps_type p) (ps_quantity p) ts' /\
    (exists a b, ts' = a ++ b /\ (forall t, In t a -> increases (ps_type p) (t_action t)) /\ (forall t, In t b -> reduces (ps_type p) (t_action t))) /\
    modify_all p ts' = with_trades (ps_trades p ++ map t_id ts') (modify_all p ts).
Proof.
  intros Q S. set (ty := ps_type p) in *. exists (filter (grows ty) ts ++ filter (fun t => negb (grows ty t)) ts).
  assert (stays_open (ps_pair p) ty (ps_quantity p) (filter (grows ty) ts ++ filter (fun t => negb (grows ty t)) ts)) as S'.
  { apply (increases_first (ps_pair p) ty ts (ps_quantity p) []); [intros u []|exact S]. }
  split; [apply filter_perm|]. split; [exact S'|]. split; [|apply reorder; auto using filter_perm].
  assert (forall t, In t ts -> increases ty (t_action t) \/ reduces ty (t_action t)) as D.
  { clear - S. revert S. generalize (ps_quantity p). induction ts as [|u ts IH]; intros q S t H; [destruct H|]. cbn [stays_open] in S. destruct S as (_ & _ & [[C S]|(C & _ & S)]); destruct H as [->|H]; eauto. }
  exists (filter (grows ty) ts), (filter (fun t => negb (grows ty t)) ts). split; [reflexivity|]. split; intros t H; apply filter_In in H; destruct H as [H G]; destruct (D t H) as [C|C]; auto.
  - rewrite (grows_red _ _ C) in G. discriminate G.
  - rewrite (grows_inc _ _ C) in G. discriminate G.
Qed.

(** The list of trades is never read. *)
Lemma modify_trades {F} {N : GoFloat F} (p : position F) t l : exists l', fst (modify (with_trades l p) t) = with_trades l' (fst (modify p t)) /\ snd (modify (with_trades l p) t) = snd (modify p t).
Proof.
  unfold modify. cbn [with_trades ps_pair ps_type].
  destruct (negb (pair_eqb _ _)); [exists l; auto|].
  assert (exists l', fst (pos_substract (with_trades l p) t) = with_trades l' (fst (pos_substract p t))) as (l' & E).
  { unfold pos_substract. cbn [with_trades ps_quantity ps_open_price ps_type]. destruct (_ && _); [exists l; reflexivity|]. destruct (fle _ _); eexists; reflexivity. }
  destruct (_ && _); [exists (l ++ [t_id t]); auto|]. destruct (_ && _); [exists l'; cbn [fst snd]; auto|].
  destruct (_ && _); [exists l'; cbn [fst snd]; auto|]. destruct (_ && _); [exists (l ++ [t_id t]); auto|]. exists l. auto.
Qed.
Lemma with_with {F} (p : position F) l m : with_trades l (with_trades m p) = with_trades l p. Proof. reflexivity. Qed.
Lemma with_own {F} (p : position F) : with_trades (ps_trades p) p = p. Proof. destruct p. reflexivity. Qed.
Lemma same_with {F} (p p' : position F) : same_but_trades p p' -> p' = with_trades (ps_trades p') p.
Proof. intros H. unfold same_but_trades in H. rewrite <- (with_with p (ps_trades p') []), H, with_with. symmetry. apply with_own. Qed.
Lemma same_step {F} {N : GoFloat F} (p p' : position F) t : same_but_trades p p' ->
  same_but_trades (fst (modify p t)) (fst (modify p' t)) /\ snd (modify p t) = snd (modify p' t).
Proof.
  intros H. rewrite (same_with p p' H). destruct (modify_trades p t (ps_trades p')) as (l & E & E'). rewrite E, E'. split; reflexivity.
Qed.
Lemma same_later {F} {N : GoFloat F} ts : forall p p' : position F, same_but_trades p p' -> same_but_trades (modify_all p ts) (modify_all p' ts).
Proof. induction ts as [|t ts IH]; intros p p' H; [exact H|]. cbn [modify_all]. apply IH. now apply same_step. Qed.

(** ** Parts *)
Lemma stays_parts pr ty t t1 t2 b : forall a q, parts_of t t1 t2 -> stays_open pr ty q (a ++ t :: b) -> stays_open pr ty q (a ++ t1 :: t2 :: b).
Proof.
  intros a. induction a as [|x a IH]; intros q P S.
  - destruct P as (P1 & P2 & A1 & A2 & R1 & R2 & Q1 & Q2 & E). cbn [app stays_open] in *. rewrite A1, A2. destruct S as (S1 & S2 & [[C S]|(C & L & S)]).
    + split; [congruence|]. split; [exact Q1|]. left. split; [exact C|]. split; [congruence|]. split; [exact Q2|]. left. split; [exact C|].
      now replace (q + t_quantity t1 + t_quantity t2) with (q + t_quantity t) by lra.
    + split; [congruence|]. split; [exact Q1|]. right. split; [exact C|]. split; [lra|]. split; [congruence|]. split; [exact Q2|]. right. split; [exact C|]. split; [lra|].
      now replace (q - t_quantity t1 - t_quantity t2) with (q - t_quantity t) by lra.
  - cbn [app stays_open] in *. destruct S as (A & B & [[C S]|(C & L & S)]); (split; [exact A|split; [exact B|]]); [left|right]; auto.
Qed.
Lemma net_app ty a b : net_quantity ty (a ++ b) = net_quantity ty a + net_quantity ty b /\ net_value ty (a ++ b) = net_value ty a + net_value ty b.
Proof. unfold net_quantity, net_value. induction a as [|t a [IH1 IH2]]; cbn [app fold_right]; [split; lra|]. rewrite IH1, IH2. split; lra. Qed.
Lemma split_trade p a t t1 t2 b : 0 < ps_quantity p -> parts_of t t1 t2 -> stays_open (ps_pair p) (ps_type p) (ps_quantity p) (a ++ t :: b) ->
  same_but_trades (modify_all p (a ++ t1 :: t2 :: b)) (modify_all p (a ++ t :: b)).
Proof.
  intros Q P S. destruct (closed_form _ p Q S) as [_ ->]. destruct (closed_form _ p Q (stays_parts _ _ _ _ _ _ _ _ P S)) as [_ ->].
  destruct P as (_ & _ & A1 & A2 & R1 & R2 & _ & _ & E).
  assert (forall ty, net_quantity ty (a ++ t1 :: t2 :: b) = net_quantity ty (a ++ t :: b) /\ net_value ty (a ++ t1 :: t2 :: b) = net_value ty (a ++ t :: b)) as G.
  { intros ty. destruct (net_app ty a (t1 :: t2 :: b)) as [-> ->]. destruct (net_app ty a (t :: b)) as [-> ->].
    unfold net_quantity, net_value. cbn [fold_right]. unfold signed. rewrite A1, A2, R1, R2, <- E. destruct (String.eqb (t_action t) _); split; ring. }
  destruct (G (ps_type p)) as [-> ->]. reflexivity.
Qed.
Lemma close_in_parts p t t1 t2 : 0 < ps_quantity p -> parts_of t t1 t2 -> t_pair t = ps_pair p -> reduces (ps_type p) (t_action t) -> t_quantity t = ps_quantity p ->
  let whole := fst (modify p t) in let parts := modify_all p [t1; t2] in
  ps_open whole = false /\ ps_open parts = false /\ ps_profit parts = ps_profit whole /\ ps_close_price parts = ps_close_price whole.
Proof.
  intros Q (P1 & P2 & A1 & A2 & R1 & R2 & Q1 & Q2 & E) Hp Hr Hq. cbv zeta. cbn [modify_all].
  rewrite (step_shrink p t1) by (rewrite ?A1; try assumption; try congruence; lra).
  rewrite (modify_reduce p t) by (congruence || assumption). rewrite (modify_reduce (moved p t1) t2) by (cbn; rewrite ?A2; congruence || assumption).
  cbn [fst]. destruct (substract_cases p t) as (_ & C & _). destruct C as (C1 & _ & _ & C4 & C5); [lra|].
  destruct (substract_cases (moved p t1) t2) as (_ & D & _).
  assert (ps_quantity (moved p t1) = t_quantity t2) as M by (cbn; rewrite signed_red by (now rewrite A1); lra).
  destruct D as (D1 & _ & _ & D4 & D5); [lra|]. rewrite C1, D1, C4, D4, C5, D5, R2. repeat split.
  unfold unrealized_profit. change (ps_type (moved p t1)) with (ps_type p). rewrite M.
  assert (ps_open_price (moved p t1) * t_quantity t2 = ps_open_price p * ps_quantity p - t_price t * t_quantity t1) as V.
  { rewrite <- M. cbn. rewrite !signed_red by (now rewrite A1). rewrite R1. field. lra. }
  cbn [fsub fmul R_num]. destruct (String.eqb _ _); nra.
Qed.
