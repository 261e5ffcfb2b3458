(** C101: an object is read member by member. *)
From Coq Require Import ZArith Lia List Bool String.
From Verif Require Import Go.Float64 Go.Json Go.JsonInto Spec.JsonSpec Spec.JsonReadSpec Spec.IntoSpec Proofs.JsonNesting Proofs.IntoRead Proofs.JsonStrict Proofs.JsonGrammar.
Import ListNotations.
Open Scope string_scope.
Open Scope list_scope.

Lemma fold_none {A B} (f : option A -> B -> option A) l : (forall b, f None b = None) -> fold_left f l None = None.
Proof. intros H. induction l as [|b l IH]; [reflexivity|]. cbn [fold_left]. now rewrite H. Qed.

Lemma decode_parts t : forall old ms ms',
  decode t old (JObj (ms ++ ms')) = match decode t old (JObj ms) with Some v => decode t v (JObj ms') | None => None end.
Proof.
  induction t as [| | | | |t IH|t IH|t IH|fs] using gotype_ind; intros old ms ms'; try reflexivity.
  - cbn [decode]. rewrite IH. destruct (decode t _ (JObj ms)); reflexivity.
  - cbn [decode]. rewrite fold_left_app. destruct (fold_left _ ms _) as [m|]; [reflexivity|]. cbn [option_map].
    rewrite fold_none; reflexivity.
  - cbn [decode]. rewrite fold_left_app. destruct (fold_left _ ms _) as [m|]; [reflexivity|]. cbn [option_map].
    rewrite fold_none; reflexivity.
Qed.
Lemma nesting_max l : (0 <= fold_right Z.max 0 l)%Z.
Proof. induction l as [|x l IH]; cbn [fold_right]; lia. Qed.
Lemma nesting_parts ms ms' : (nesting (JObj ms) <= nesting (JObj (ms ++ ms')))%Z /\ (nesting (JObj ms') <= nesting (JObj (ms ++ ms')))%Z.
Proof.
  cbn [nesting]. rewrite map_app. induction ms as [|m ms [IH1 IH2]]; cbn [map app fold_right].
  - pose proof (nesting_max (map (fun kv => nesting (snd kv)) ms')). lia.
  - lia.
Qed.
Lemma into_parts t old ms ms' s s1 s2 : parse_json s = Some (JObj (ms ++ ms')) -> parse_json s1 = Some (JObj ms) -> parse_json s2 = Some (JObj ms') ->
  ~ too_deep (JObj (ms ++ ms')) ->
  unmarshal_into t old s = match unmarshal_into t old s1 with Some v => unmarshal_into t v s2 | None => None end.
Proof.
  intros E E1 E2 D. destruct (nesting_parts ms ms') as [N1 N2].
  assert (~ too_deep (JObj ms) /\ ~ too_deep (JObj ms')) as [D1 D2] by (rewrite !deep_nesting in *; split; intros ?; apply D; eapply Z.lt_le_trans; eassumption).
  rewrite (into_shallow _ _ _ _ E D), (into_shallow _ _ _ _ E1 D1), decode_parts. destruct (decode t old (JObj ms)); [|reflexivity].
  now rewrite (into_shallow _ _ _ _ E2 D2).
Qed.

Lemma entry_put {A} k (v : A) m : entry k (map_put k v m) = Some v.
Proof.
  induction m as [|[k' v'] m IH]; cbn [map_put entry]; [now rewrite String.eqb_refl|]. destruct (String.eqb k k') eqn:E; cbn [entry].
  - now rewrite String.eqb_refl.
  - destruct (str_lt k k'); cbn [entry]; [now rewrite String.eqb_refl|]. now rewrite E.
Qed.
Lemma entry_put_other {A} k k' (v : A) m : k' <> k -> entry k' (map_put k v m) = entry k' m.
Proof.
  intros N. assert (String.eqb k' k = false) as F by now apply String.eqb_neq.
  induction m as [|[k1 v1] m IH]; cbn [map_put entry]; [now rewrite F|]. destruct (String.eqb k k1) eqn:E; cbn [entry].
  - apply String.eqb_eq in E. subst k1. now rewrite F.
  - destruct (str_lt k k1); cbn [entry]; [now rewrite F|]. now rewrite IH.
Qed.
Lemma nesting_last ms raw j : (nesting j <= nesting (JObj (ms ++ [(raw, j)])))%Z.
Proof. pose proof (proj2 (nesting_parts ms [(raw, j)])) as H. revert H. cbn [nesting map fold_right snd]. lia. Qed.
Lemma decode_map_last t old ms raw j m : decode (TMap t) old (JObj (ms ++ [(raw, j)])) = Some (VMap (Some m)) ->
  exists m0 v, decode (TMap t) old (JObj ms) = Some (VMap (Some m0)) /\ decode t (zero t) j = Some v /\ m = map_put (unquote raw) v m0.
Proof.
  rewrite decode_parts. cbn [decode]. destruct (fold_left _ ms _) as [m0|]; [|discriminate]. cbn [option_map fold_left fst snd].
  destruct (decode t (zero t) j) as [v|]; [|discriminate]. cbn [option_map]. intros E. injection E as <-. eauto.
Qed.
