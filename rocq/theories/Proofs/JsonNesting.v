(** Nesting of JSON trees (C83, C92, C93). *)
From Coq Require Import Lia ZArith List Bool String.
Import ListNotations.
From Verif Require Import Go.Outcome Go.Json Spec.JsonSpec Spec.JsonReadSpec Proofs.JsonValue.
Open Scope string_scope.
Open Scope list_scope.
Open Scope Z_scope.

Lemma max_in {A} (f : A -> Z) l x : In x l -> f x <= fold_right Z.max 0 (map f l).
Proof. induction l as [|y l IH]; intros []; cbn [map fold_right]; [subst; lia|]. specialize (IH H). lia. Qed.
Lemma max_attained {A} (f : A -> Z) l : fold_right Z.max 0 (map f l) = 0 \/ exists x, In x l /\ f x = fold_right Z.max 0 (map f l).
Proof.
  induction l as [|y l IH]; cbn [map fold_right]; [now left|].
  destruct (Z.max_spec (f y) (fold_right Z.max 0 (map f l))) as [[H ->]|[H ->]].
  - destruct IH as [E|(x & I & E)]; [now left|right; exists x; split; [now right|exact E]].
  - right. exists y. split; [now left|reflexivity].
Qed.

Lemma chain_nesting n j : chain n j -> n <= nesting j.
Proof.
  induction 1 as [l|l|n x j I _ IH]; cbn [nesting].
  - pose proof (max_nonneg (map nesting l)). lia.
  - pose proof (max_nonneg (map (fun kv => nesting (snd kv)) l)). lia.
  - destruct I as [l I|raw l I]; cbn [nesting].
    + pose proof (max_in nesting l x I). lia.
    + pose proof (max_in (fun kv => nesting (snd kv)) l (raw, x) I). cbn [snd] in H. lia.
Qed.
Lemma nesting_chain : forall j, nesting j = 0 \/ chain (nesting j) j.
Proof.
  fix IH 1. intros [|b|t|raw|l|l]; try (left; reflexivity); right; cbn [nesting].
  - assert (forall x, In x l -> nesting x = 0 \/ chain (nesting x) x) as G.
    { clear -IH. induction l as [|x l IHl]; intros y []; [subst y; exact (IH x)|now apply IHl]. }
    destruct (max_attained nesting l) as [->|(x & I & E)]; [exact (chain_arr l)|].
    destruct (G x I) as [Z|C]; rewrite <- E.
    + rewrite Z. exact (chain_arr l).
    + rewrite Z.add_comm. exact (chain_more _ x _ (inside_arr x l I) C).
  - assert (forall kv, In kv l -> nesting (snd kv) = 0 \/ chain (nesting (snd kv)) (snd kv)) as G.
    { clear -IH. induction l as [|[raw x] l IHl]; intros y []; [subst y; exact (IH x)|now apply IHl]. }
    destruct (max_attained (fun kv => nesting (snd kv)) l) as [->|([raw x] & I & E)]; [exact (chain_obj l)|].
    cbn [snd] in E. destruct (G (raw, x) I) as [Z|C]; rewrite <- E; cbn [snd] in *.
    + rewrite Z. exact (chain_obj l).
    + rewrite Z.add_comm. exact (chain_more _ x _ (inside_obj x raw l I) C).
Qed.
Theorem deep_nesting j : too_deep j <-> max_nesting < nesting j.
Proof.
  unfold too_deep, max_nesting. split.
  - intros (n & H & C). apply chain_nesting in C. lia.
  - intros H. destruct (nesting_chain j) as [E|C]; [lia|]. now exists (nesting j).
Qed.

(** The limit in json.Unmarshal. *)
Lemma unmarshal_shallow t s j : parse_json s = Some j -> ~ too_deep j -> unmarshal t s = decode t (zero t) j.
Proof. intros E N. unfold unmarshal. rewrite E. rewrite deep_nesting in N. replace (nesting j <=? max_nesting) with true by (symmetry; apply Z.leb_le; lia). reflexivity. Qed.
Lemma unmarshal_deep t s j : parse_json s = Some j -> too_deep j -> unmarshal t s = None.
Proof. intros E N. unfold unmarshal. rewrite E. apply deep_nesting in N. replace (nesting j <=? max_nesting) with false by (symmetry; apply Z.leb_gt; lia). reflexivity. Qed.
