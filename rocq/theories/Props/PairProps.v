(** Properties C50-C52: market/asset.go, market/asset_helpers.go,
    market/pair.go, market/pair_mappings.go.
    Model: Model/Asset.v, Model/Pair.v, Model/PairMappings.v. *)
From Coq Require Import Lia FMapPositive.
From Verif Require Import Go.Outcome Model.Asset Model.Pair Model.PairMappings Spec.EntitySpec Proofs.Pairs.
Open Scope string_scope.
Open Scope list_scope.

(** ** C50 *)
Theorem C50_new_asset : forall symbol name,
  (symbol <> "" -> name <> "" -> new_asset symbol name = (mkAsset name symbol "", None)) /\
  (symbol = "" \/ name = "" ->
   exists e, new_asset symbol name = (mkAsset "" "" "", Some e) /\ err_code e = Some EINVALID).
Proof.
  intros s n. unfold new_asset. destruct (String.eqb_spec s "") as [E|E].
  - split; [tauto|]. intros _. eexists. split; reflexivity.
  - destruct (String.eqb_spec n "") as [E'|E'].
    + split; [tauto|]. intros _. eexists. split; reflexivity.
    + split; [reflexivity|]. tauto.
Qed.
(** The three table constructors: requested symbol with a name, or ENOTFOUND. *)
Definition asset_or_not_found (f : string -> asset * option err) : Prop := forall symbol,
  (exists name, name <> "" /\ f symbol = (mkAsset name symbol "", None)) \/
  (exists e, f symbol = (mkAsset "" "" "", Some e) /\ err_code e = Some ENOTFOUND).
Theorem C50_table_constructors :
  asset_or_not_found new_crypto_asset /\ asset_or_not_found new_forex_asset /\ asset_or_not_found new_stock_asset.
Proof.
  assert (forall op tbl, forallb (fun e => nonempty (fst e) && nonempty (snd e)) tbl = true ->
    asset_or_not_found (from_table op tbl)) as H.
  { intros op tbl H s. destruct (from_table_cases op tbl s H) as [(n & _ & H1 & H2)|[_ H1]]; [left; eauto|right; eauto]. }
  repeat split; apply H; vm_compute; reflexivity.
Qed.
Theorem C50_tables_disjoint : forall symbol,
  let known f := snd (f symbol : asset * option err) = None in
  ~ (known new_crypto_asset /\ known new_forex_asset) /\
  ~ (known new_crypto_asset /\ known new_stock_asset) /\
  ~ (known new_forex_asset /\ known new_stock_asset).
Proof.
  intros s known.
  assert (forall op tbl, known (from_table op tbl) -> lookup s tbl <> None) as K.
  { intros op tbl. unfold known, from_table. destruct (lookup s tbl); [discriminate|]. cbn. discriminate. }
  assert (forall op1 op2 t1 t2,
    forallb (fun k => match lookup k t2 with None => true | _ => false end) (map fst t1) = true ->
    ~ (known (from_table op1 t1) /\ known (from_table op2 t2))) as D.
  { intros op1 op2 t1 t2 H [H1 H2]. apply K in H1, H2. destruct (disjoint_tables t1 t2 s H); contradiction. }
  repeat split; apply D; vm_compute; reflexivity.
Qed.
(** No symbol is listed twice, so source order does not matter. *)
Theorem C50_tables_functional :
  NoDup (map fst crypto_table) /\ NoDup (map fst forex_table) /\ NoDup (map fst stock_table).
Proof. repeat split; apply distinct_by; vm_compute; reflexivity. Qed.
Example C50_example : new_crypto_asset "BTC" = (mkAsset "Bitcoin" "BTC" "", None) /\
  snd (new_forex_asset "BTC") <> None.
Proof. split; [reflexivity|discriminate]. Qed.

(** ** C51 *)
(** The pair of an entry: the literals set only the two Symbol fields. *)
Definition entry_pair (e : string * (string * string)) : pair :=
  mkPair (mkAsset "" (fst (snd e)) "") (mkAsset "" (snd (snd e)) "").
Theorem C51_keys_spell_pairs : forall e, In e pair_table ->
  fst e <> "DYDXETH" -> pair_symbol (entry_pair e) "" = fst e.
Proof.
  intros e He Hn.
  assert (forallb (fun e => String.eqb (pair_symbol (entry_pair e) "") (fst e) || String.eqb (fst e) "DYDXETH") pair_table = true) as H
    by (vm_compute; reflexivity).
  rewrite forallb_forall in H. specialize (H e He). apply orb_prop in H. destruct H as [H|H]; apply String.eqb_eq in H; [exact H|contradiction].
Qed.
Theorem C51_every_key_refuted : exists e, In e pair_table /\ pair_symbol (entry_pair e) "" <> fst e.
Proof.
  assert (existsb (fun e => negb (String.eqb (pair_symbol (entry_pair e) "") (fst e))) pair_table = true) as H
    by (vm_compute; reflexivity).
  apply existsb_exists in H. destruct H as (e & H1 & H2). exists e. split; [assumption|].
  apply negb_true_iff in H2. now apply String.eqb_neq.
Qed.
Theorem C51_keys_distinct : NoDup (map fst pair_table).
Proof. apply distinct_by. vm_compute. reflexivity. Qed.
Theorem C51_base_differs_from_quote : forall e, In e pair_table ->
  fst (snd e) <> snd (snd e) /\ fst (snd e) <> "" /\ snd (snd e) <> "".
Proof.
  intros e He.
  assert (forallb (fun e => negb (String.eqb (fst (snd e)) (snd (snd e))) && (nonempty (fst (snd e)) && nonempty (snd (snd e)))) pair_table = true) as H
    by (vm_compute; reflexivity).
  rewrite forallb_forall in H. specialize (H e He). apply andb_prop in H as [H1 H2]. apply andb_prop in H2 as [H2 H3].
  unfold nonempty in *. apply negb_true_iff in H1, H2, H3. now apply String.eqb_neq in H1, H2, H3.
Qed.
Lemma pairs_distinct : NoDup (map (fun e => pair_symbol (entry_pair e) "/") pair_table).
Proof. apply distinct_by. vm_compute. reflexivity. Qed.
Theorem C51_pairs_distinct : forall e1 e2, In e1 pair_table -> In e2 pair_table ->
  entry_pair e1 = entry_pair e2 -> e1 = e2.
Proof. intros e1 e2 H1 H2 E. apply (map_inj_in _ _ _ _ pairs_distinct H1 H2). now rewrite E. Qed.
(** The one wrong entry. *)
Theorem C51_wrong_entry : forall e, In e pair_table ->
  (pair_symbol (entry_pair e) "" <> fst e <-> e = ("DYDXETH", ("OOKI", "ETH"))).
Proof.
  intros e He. split.
  - intros H. destruct (string_dec (fst e) "DYDXETH") as [E|E]; [|now apply C51_keys_spell_pairs in E].
    assert (existsb (fun e => String.eqb (fst e) "DYDXETH" && (String.eqb (fst (snd e)) "OOKI" && String.eqb (snd (snd e)) "ETH")) pair_table = true) as K
      by (vm_compute; reflexivity).
    apply existsb_exists in K. destruct K as ([k [b q]] & K1 & K2). cbn [fst snd] in K2.
    apply andb_prop in K2 as [K2 K3]. apply andb_prop in K3 as [K3 K4]. apply String.eqb_eq in K2, K3, K4. subst k b q.
    apply (map_inj_in fst pair_table _ _ C51_keys_distinct He K1). exact E.
  - intros ->. vm_compute. discriminate.
Qed.
Example C51_example : exists e, In e pair_table /\ fst e = "ETHBTC" /\ pair_symbol (entry_pair e) "/" = "ETH/BTC".
Proof. exists ("ETHBTC", ("ETH", "BTC")). split; [left; reflexivity|]. split; reflexivity. Qed.

(** ** C52 *)
Theorem C52_symbol_injective : forall ch r p q,
  avoids ch (a_symbol (p_base p)) -> avoids ch (a_symbol (p_quote p)) ->
  avoids ch (a_symbol (p_base q)) -> avoids ch (a_symbol (p_quote q)) ->
  pair_symbol p (String ch r) = pair_symbol q (String ch r) ->
  a_symbol (p_base p) = a_symbol (p_base q) /\ a_symbol (p_quote p) = a_symbol (p_quote q).
Proof. exact symbol_injective. Qed.
Theorem C52_empty_separator_refuted : exists p q,
  pair_symbol p "" = pair_symbol q "" /\ a_symbol (p_base p) <> a_symbol (p_base q) /\
  a_symbol (p_quote p) <> a_symbol (p_quote q).
Proof.
  exists (mkPair (mkAsset "" "BTC" "") (mkAsset "" "USDT" "")), (mkPair (mkAsset "" "BTCU" "") (mkAsset "" "SDT" "")).
  split; [reflexivity|]. split; discriminate.
Qed.
(** A separator whose first character does occur: the hypothesis is needed. *)
Theorem C52_occurring_separator_refuted : exists p q sep,
  sep <> "" /\ pair_symbol p sep = pair_symbol q sep /\ a_symbol (p_base p) <> a_symbol (p_base q).
Proof.
  exists (mkPair (mkAsset "" "A-B" "") (mkAsset "" "C" "")), (mkPair (mkAsset "" "A" "") (mkAsset "" "B-C" "")), "-".
  split; [discriminate|]. split; [reflexivity|discriminate].
Qed.
Example C52_example :
  let p := mkPair (mkAsset "" "BTC" "") (mkAsset "" "USD" "") in
  avoids "/"%char (a_symbol (p_base p)) /\ avoids "/"%char (a_symbol (p_quote p)) /\ pair_symbol p "/" = "BTC/USD".
Proof. cbv zeta. repeat split; discriminate. Qed.
