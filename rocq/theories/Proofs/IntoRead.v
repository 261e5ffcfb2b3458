(** Any JSON text read over an old value (C101). *)
From Coq Require Import Lia ZArith NArith List Bool Sorted Permutation String Ascii.
From Verif Require Import Go.Float64 Go.Json Go.JsonInto Spec.JsonSpec Spec.DecimalSpec Spec.JsonReadSpec Spec.IntoSpec
  Proofs.JsonText Proofs.JsonTree Proofs.JsonValue Proofs.JsonRead Proofs.JsonGrammar Proofs.JsonNesting Proofs.JsonDenote Proofs.Into.
Import ListNotations.
Open Scope list_scope.
Open Scope Z_scope.

Definition fields_over (ms : list (string * json)) : list (string * gotype) -> list goval -> list goval -> Prop :=
  fix fields (fs : list (string * gotype)) (os vs : list goval) : Prop :=
    match fs, os, vs with
    | [], [], [] => True
    | (n, t') :: fs', o :: os', v' :: vs' =>
        ((v' = o /\ Forall (fun m => ~ named n m) ms) \/
         exists before_it m after_it, ms = before_it ++ m :: after_it /\ named n m /\
           Forall (fun m => ~ named n m) (before_it ++ after_it) /\ denotes_over t' o (snd m) v') /\
        fields fs' os' vs'
    | _, _, _ => False
    end.
Lemma fields_over_inv fs ms os vs :
  Forall (fun f => forall old j v, well_cased (snd f) -> shaped (snd f) old -> denotes_over (snd f) old j v -> decode (snd f) old j = Some v) fs ->
  cased_fields fs -> Forall ascii_member ms -> shaped_fields fs os -> fields_over ms fs os vs -> inv fs os vs ms.
Proof.
  intros F. revert os vs. induction F as [|[n t] fs Ht _ IH]; intros os vs C A S D; destruct os as [|o os], vs as [|v vs]; try contradiction D; [exact I|].
  destruct C as (An & Ct & C). destruct D as [D Ds]. destruct S as [So S]. cbn [snd] in Ht. split; [|now apply IH].
  assert (Forall (fun m => ~ named n m <-> ~ called n m) ms) as Eq by (eapply Forall_impl; [|exact A]; intros m Hm; now rewrite (named_called n m Hm)).
  destruct D as [(-> & N)|(b & m & a & -> & Nm & N & Dm)]; [left|right]; cbn [fst snd].
  - split; [reflexivity|]. eapply Forall_iff; [|exact N]. exact Eq.
  - exists b, m, a. split; [reflexivity|]. apply Forall_app in A as [Ab Aa]. inversion Aa; subst.
    split; [now apply named_called|]. split; [|now apply Ht].
    eapply Forall_iff; [|exact N]. apply Forall_app in Eq as [E1 E2]. inversion E2; subst. apply Forall_app. now split.
Qed.

Lemma map_over t ms : forall news m0, Forall2 (fun m kv => unquote (fst m) = fst kv /\ decode t (zero t) (snd m) = Some (snd kv)) ms news ->
  NoDup (map fst news) -> StronglySorted before (map fst m0) ->
  exists r, map_fold t ms (Some m0) = Some r /\ StronglySorted before (map fst r) /\
    forall k x, In (k, x) r <-> In (k, x) news \/ (In (k, x) m0 /\ ~ In k (map fst news)).
Proof.
  intros news m0 F. revert m0. induction F as [|m [k0 v0] ms news [E D] _ IH]; intros m0 N S.
  - exists m0. split; [reflexivity|]. split; [exact S|]. intros k x. cbn [In map]. tauto.
  - cbn [fst snd] in E, D. cbn [map fst] in N. inversion N as [|? ? N0 N']; subst. set (k0 := unquote (fst m)) in *.
    destruct (put_keys k0 v0 m0 S) as [P1 P2]. destruct (IH (map_put k0 v0 m0) N' P1) as (r & R1 & R2 & R3).
    exists r. split; [unfold map_fold in *; cbn [fold_left]; rewrite D; exact R1|]. split; [exact R2|].
    intros k x. rewrite R3, P2. cbn [In map fst]. split.
    + intros [H|[[[-> ->]|[H1 H2]] H3]]; [auto|auto|]. right. split; [exact H1|]. intros [H4|H4]; [congruence|contradiction].
    + intros [[H|H]|[H1 H2]]; [injection H as H4 H5; subst k x; right; split; [auto|exact N0]|auto|].
      right. split; [right; split; [exact H1|]; intros H3; apply H2; auto|]. intros H3. apply H2. auto.
Qed.
Lemma sorted_members {A} (l l' : list (string * A)) : StronglySorted before (map fst l) -> StronglySorted before (map fst l') ->
  (forall k x, In (k, x) l <-> In (k, x) l') -> l = l'.
Proof.
  intros S S' H. apply sorted_unique; [exact S|exact S'|].
  assert (forall m : list (string * A), StronglySorted before (map fst m) -> NoDup m) as ND.
  { intros m Sm. apply (NoDup_map_inv fst). clear -Sm. induction (map fst m) as [|k l IHl]; [constructor|]. inversion Sm as [|? ? S' H]; subst.
    constructor; [|now apply IHl]. intros I. rewrite Forall_forall in H. specialize (H k I). destruct (before_lt _ _ H) as (K & K' & _). congruence. }
  apply NoDup_Permutation; [now apply ND|now apply ND|]. intros [k x]. apply H.
Qed.

Theorem over_decode t : forall old j v, well_cased t -> shaped t old -> denotes_over t old j v -> decode t old j = Some v.
Proof.
  assert (forall t old v, match t with TPtr _ | TSlice _ | TMap _ | TStruct _ => False | _ => True end -> forall j, j <> JNull ->
    well_cased t -> denotes t j v -> decode t old j = Some v) as Flat.
  { clear t. intros t old v H j Nj W D. rewrite <- (denotes_decode t j v W D). destruct t; try contradiction H; destruct j; try reflexivity; congruence. }
  induction t as [ | | | | |t IH|t IH|t IH|fs IH] using gotype_rec'; intros old j v W So [[-> ->]|[Nj D]]; try reflexivity; destruct v; try contradiction D.
  - now apply Flat.
  - now apply Flat.
  - now apply Flat.
  - now apply Flat.
  - now apply Flat.
  - destruct o as [v|]; [|contradiction D].
    assert (shaped t (match old with VPtr (Some o) => o | _ => zero t end)) as Ho.
    { destruct old as [ | | | | |[w|]| | | ]; try apply shaped_zero. exact So. }
    specialize (IH _ j v W Ho D). cbn [decode]. rewrite IH. destruct j; try reflexivity. congruence.
  - destruct o as [l|]; [|contradiction D]. destruct D as (js & -> & L & D). cbn [decode]. cbv zeta. rewrite (all_some_map _ _ l); [reflexivity|].
    set (olds := match old with VSlice (Some os) => os | _ => [] end) in *.
    assert (Forall (shaped t) olds) as Ho.
    { subst olds. destruct old as [ | | | | | |[w|]| | ]; try apply Forall_nil. exact So. }
    clearbody olds.
    assert (forall k, (forall i j' v', nth_error js i = Some j' -> nth_error l i = Some v' -> denotes_over t (nth (k + i) olds (zero t)) j' v') ->
      Forall2 (fun (a : nat * json) b => decode t (nth (fst a) olds (zero t)) (snd a) = Some b) (combine (seq k (List.length js)) js) l) as G; [|exact (G 0%nat D)].
    clear -L IH W Ho. revert l L. induction js as [|j js IHj]; intros [|v l] L k D; try discriminate L; [constructor|].
    cbn [List.length seq combine]. constructor.
    + cbn [fst snd]. apply IH; [exact W| |].
      * destruct (Nat.lt_ge_cases k (List.length olds)) as [K|K]; [|rewrite nth_overflow by exact K; apply shaped_zero].
        rewrite Forall_forall in Ho. apply Ho. now apply nth_In.
      * specialize (D 0%nat j v eq_refl eq_refl). now rewrite Nat.add_0_r in D.
    + apply IHj; [now injection L|]. intros i j' v' Hj Hv. specialize (D (S i) j' v' Hj Hv). now rewrite Nat.add_succ_r in D.
  - destruct o as [kvs|]; [|contradiction D]. destruct D as (ms & news & -> & F & Nd & S & M). cbn [decode]. cbv zeta.
    set (m0 := match old with VMap (Some os) => os | _ => [] end) in *.
    change (option_map (fun m => VMap (Some m)) (map_fold t ms (Some m0)) = Some (VMap (Some kvs))).
    assert (StronglySorted before (map fst m0)) as Hm.
    { subst m0. destruct old as [ | | | | | | |[w|]| ]; try apply SSorted_nil. exact (proj2 So). }
    destruct (map_over t ms news m0) as (r & -> & Sr & Mr); [|exact Nd|exact Hm|].
    { eapply Forall2_weaken; [|exact F]. cbv beta. intros m kv [C D]. split; [now apply contents_unquote|now apply denotes_decode]. }
    cbn [option_map]. do 3 f_equal. apply sorted_members; [exact Sr|exact S|]. intros k x. now rewrite Mr, M.
  - destruct D as (ms & os & -> & -> & A & D). destruct W as [Nd C]. cbn [decode]. cbv zeta.
    change (option_map VStruct (struct_fold fs ms (Some os)) = Some (VStruct vs)).
    rewrite (struct_denoted fs ms Nd (cased_ascii fs C) A _ vs); [reflexivity|]. now apply fields_over_inv.
Qed.

Lemma into_shallow t old s j : parse_json s = Some j -> ~ too_deep j -> unmarshal_into t old s = decode t old j.
Proof.
  intros E N. unfold unmarshal_into. rewrite E. rewrite deep_nesting in N.
  replace (nesting j <=? max_nesting) with true by (symmetry; apply Z.leb_le; lia). reflexivity.
Qed.
Theorem read_over t old j s v : well_cased t -> shaped t old -> document j s -> ~ too_deep j -> denotes_over t old j v ->
  unmarshal_into t old s = Some v.
Proof. intros W So D L N. rewrite (into_shallow t old s j (document_read j s D) L). now apply over_decode. Qed.
