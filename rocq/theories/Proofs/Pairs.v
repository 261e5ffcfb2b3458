(** Asset tables, pair symbols and the exchange symbol table. *)
From Coq Require Import Lia FMapPositive.
From Verif Require Import Go.Outcome Model.Asset Model.Pair Model.PairMappings Spec.EntitySpec.
Open Scope string_scope.
Open Scope list_scope.

(** ** Tables *)
Lemma lookup_some s tbl n : lookup s tbl = Some n -> In (s, n) tbl.
Proof.
  induction tbl as [|[k v] tbl IH]; simpl; [discriminate|]. destruct (String.eqb_spec s k); [intros [= ->]; subst; auto|auto].
Qed.
Lemma lookup_none s tbl : lookup s tbl = None <-> ~ In s (map fst tbl).
Proof.
  induction tbl as [|[k v] tbl IH]; simpl; [tauto|]. destruct (String.eqb_spec s k) as [E|E].
  - split; [discriminate|]. intros H. destruct H. auto.
  - rewrite IH. split; intros H; [intros [K|K]; [now symmetry in K|auto]|tauto].
Qed.
Definition nonempty (s : string) : bool := negb (String.eqb s "").
Lemma from_table_cases op tbl s :
  forallb (fun e => nonempty (fst e) && nonempty (snd e)) tbl = true ->
  (exists n, lookup s tbl = Some n /\ n <> "" /\ from_table op tbl s = (mkAsset n s "", None)) \/
  (lookup s tbl = None /\ from_table op tbl s = (empty_asset, Some (ENew op ENOTFOUND "No asset with matching symbol found"))).
Proof.
  intros H. unfold from_table. destruct (lookup s tbl) as [n|] eqn:E; [left|right; auto].
  exists n. split; [reflexivity|]. apply lookup_some in E. rewrite forallb_forall in H. specialize (H _ E).
  simpl in H. apply andb_prop in H as [H1 H2]. unfold nonempty in *. apply negb_true_iff in H1, H2.
  unfold new_asset. rewrite H1, H2. split; [now apply String.eqb_neq|reflexivity].
Qed.
Lemma disjoint_tables t1 t2 s :
  forallb (fun k => match lookup k t2 with None => true | _ => false end) (map fst t1) = true ->
  lookup s t1 = None \/ lookup s t2 = None.
Proof.
  intros H. destruct (lookup s t1) as [n|] eqn:E; [right|auto]. apply lookup_some in E.
  rewrite forallb_forall in H. specialize (H s (in_map fst _ _ E)). destruct (lookup s t2); [discriminate|reflexivity].
Qed.

(** ** Distinctness by a binary trie *)
Fixpoint bits (n : nat) (a : N) (p : positive) : positive :=
  match n with
  | O => p
  | S k => bits k (N.div2 a) (if N.odd a then xI p else xO p)
  end.
Fixpoint code_of (s : string) (p : positive) : positive :=
  match s with
  | EmptyString => p
  | String c r => code_of r (bits 8 (N_of_ascii c) p)
  end.
Fixpoint all_new (l : list positive) (m : PositiveMap.t unit) : bool :=
  match l with
  | [] => true
  | p :: r => match PositiveMap.find p m with
              | Some _ => false
              | None => all_new r (PositiveMap.add p tt m)
              end
  end.
Lemma all_new_spec l m : all_new l m = true ->
  NoDup l /\ forall p, In p l -> PositiveMap.find p m = None.
Proof.
  revert m. induction l as [|p l IH]; intros m H; [split; [constructor|intros ? []]|]. simpl in H.
  destruct (PositiveMap.find p m) eqn:E; [discriminate|]. apply IH in H. destruct H as [H1 H2]. split.
  - constructor; [|assumption]. intros K. specialize (H2 p K). rewrite PositiveMap.gss in H2. discriminate.
  - intros q [-> | K]; [assumption|]. destruct (Pos.eq_dec q p) as [-> | Hn]; [assumption|].
    specialize (H2 q K). now rewrite PositiveMap.gso in H2.
Qed.
Lemma distinct_by {A} (f : A -> string) (l : list A) :
  all_new (map (fun a => code_of (f a) 1) l) (PositiveMap.empty unit) = true -> NoDup (map f l).
Proof.
  intros H. apply all_new_spec in H. destruct H as [H _]. rewrite <- map_map with (g := fun s => code_of s 1) in H.
  now apply NoDup_map_inv in H.
Qed.

(** ** Pair.Symbol *)
Lemma first_split ch r a b c d : avoids ch a -> avoids ch c ->
  (a ++ String ch r ++ b)%string = (c ++ String ch r ++ d)%string -> a = c /\ b = d.
Proof.
  revert c. induction a as [|x a IH]; intros [|y c] Ha Hc H; simpl in *.
  - injection H as H. split; [reflexivity|]. revert H. induction r as [|z r IHr]; simpl; [auto|]. intros [= H]. auto.
  - injection H as H1 H2. destruct Hc as [Hc _]. congruence.
  - injection H as H1 H2. destruct Ha as [Ha _]. congruence.
  - injection H as -> H. destruct (IH c) as [-> ->]; tauto.
Qed.
Lemma avoids_app ch a b : avoids ch (a ++ b)%string <-> avoids ch a /\ avoids ch b.
Proof. induction a as [|x a IH]; simpl; [tauto|]. rewrite IH. tauto. Qed.
Lemma symbol_injective ch r p q :
  avoids ch (a_symbol (p_base p)) -> avoids ch (a_symbol (p_quote p)) ->
  avoids ch (a_symbol (p_base q)) -> avoids ch (a_symbol (p_quote q)) ->
  pair_symbol p (String ch r) = pair_symbol q (String ch r) ->
  a_symbol (p_base p) = a_symbol (p_base q) /\ a_symbol (p_quote p) = a_symbol (p_quote q).
Proof.
  intros H1 H2 H3 H4. unfold pair_symbol.
  destruct (String.eqb_spec (a_symbol (p_quote p)) "") as [Ep|Ep], (String.eqb_spec (a_symbol (p_quote q)) "") as [Eq|Eq].
  - intros H. split; congruence.
  - intros H. rewrite H in H1. apply avoids_app in H1 as [_ H1]. destruct H1 as [H1 _]. congruence.
  - intros H. rewrite <- H in H3. apply avoids_app in H3 as [_ H3]. destruct H3 as [H3 _]. congruence.
  - intros H. eapply first_split; eassumption.
Qed.
Lemma map_inj_in {A B} (f : A -> B) l a b : NoDup (map f l) -> In a l -> In b l -> f a = f b -> a = b.
Proof.
  induction l as [|x l IH]; simpl; [tauto|]. intros H Ha Hb E. inversion H as [|? ? H1 H2]; subst.
  destruct Ha as [-> | Ha], Hb as [-> | Hb]; auto; exfalso; apply H1.
  - rewrite E. now apply in_map.
  - rewrite <- E. now apply in_map.
Qed.
