(** Only JSON texts are accepted, and none that contradicts the type (C93). *)
From Coq Require Import Lia ZArith NArith List Bool String Ascii Reals.
From Verif Require Import Go.Outcome Go.Float64 Go.Text Go.Num Go.Json Model.OrderBook Model.Stored Spec.DateSpec Spec.JsonSpec Spec.DecimalSpec Spec.JsonReadSpec
  Proofs.JsonStrict Proofs.JsonNesting Props.DecimalProps Props.JsonReadProps.
Import Spec.JsonReadSpec.
Import ListNotations.
Open Scope string_scope.
Open Scope list_scope.
Open Scope Z_scope.

(** The accepted texts are those of the grammar. *)
Theorem C93_accepts : forall j s, parse_json s = Some j <-> loose_document j s.
Proof. intros j s. exact (parse_iff s j). Qed.
Theorem C93_one_tree : forall j j' s, loose_document j s -> loose_document j' s -> j = j'.
Proof. intros j j' s D D'. apply parse_iff in D, D'. congruence. Qed.
Theorem C93_malformed : forall t s, (forall j, ~ loose_document j s) -> unmarshal t s = None.
Proof. intros t s N. unfold unmarshal. destruct (parse_json s) as [j|] eqn:E; [|reflexivity]. apply parse_iff in E. now apply N in E. Qed.
(** The texts of C92 are among them. *)
Theorem C93_well_formed : forall j s, document j s -> loose_document j s.
Proof. exact document_loose. Qed.
(** Times: exactly the RFC 3339 texts and the variants of [loose_moment]. *)
Theorem C93_time : forall raw off i, read_time raw = Some (off, i) <-> loose_moment raw off i.
Proof. exact time_iff. Qed.
Theorem C93_strict_time : forall raw off i, moment raw off i -> loose_moment raw off i.
Proof. exact moment_loose. Qed.
(** A tree that contradicts the type is refused, whatever the rest of it says. *)
Theorem C93_refused : forall t j s, well_cased t -> loose_document j s -> clash t j -> unmarshal t s = None.
Proof. intros t j s W D C. unfold unmarshal. apply parse_iff in D. rewrite D. destruct (nesting j <=? max_nesting); [exact (clash_decode t j W C (zero t))|reflexivity]. Qed.
(** More than 10000 levels of nesting are refused for every type, even inside
    a member that no field takes. *)
Theorem C93_too_deep : forall t j s, loose_document j s -> too_deep j -> unmarshal t s = None.
Proof. intros t j s D L. apply parse_iff in D. exact (unmarshal_deep t s j D L). Qed.
(** So nothing that clashes denotes a value. *)
Theorem C93_apart : forall t j v, well_cased t -> clash t j -> ~ denotes t j v.
Proof. intros t j v W C D. pose proof (clash_decode t j W C (zero t)) as N. apply JsonDenote.denotes_decode in D; [congruence|exact W]. Qed.

(** No trees: a comma too many, a leading zero, an infinity, two values, an
    open string, no quotes. *)
Example C93_example_malformed : Forall (fun s => forall t, unmarshal t s = None /\ forall j, ~ loose_document j s)
  ["[1,]"; "{""price"":01}"; "{""price"":Infinity}"; "1 2"; "{""price"":""1}"; "{price:1}"; "{""price"":.5}"; "{""price"":+5}"; ""].
Proof.
  assert (forall s, parse_json s = None -> forall t, unmarshal t s = None /\ forall j, ~ loose_document j s) as G.
  { intros s E t. assert (forall j, ~ loose_document j s) as N by (intros j D; apply parse_iff in D; congruence). split; [now apply C93_malformed|exact N]. }
  repeat (apply Forall_cons; [apply G; vm_compute; reflexivity|]). apply Forall_nil.
Qed.
(** A price in quotes, under a name in capitals. *)
Example C93_example_refused : let j := JObj [("volume", JNum "1"); ("PRICE", JStr "1.5")] in
  let s := "{""volume"":1,""PRICE"":""1.5""}" in clash row_type j /\ loose_document j s /\ unmarshal row_type s = None.
Proof.
  cbv zeta.
  assert (clash row_type (JObj [("volume", JNum "1"); ("PRICE", JStr "1.5")])) as C.
  { split; [discriminate|]. right. eexists. split; [reflexivity|]. left. apply Exists_cons_tl, Exists_cons_hd. split.
    - exists "PRICE". split; [plain|]. repeat (apply alike_byte; [vm_compute; reflexivity|]). constructor.
    - split; [discriminate|]. left. intros (t & E). discriminate E. }
  assert (loose_document (JObj [("volume", JNum "1"); ("PRICE", JStr "1.5")]) "{""volume"":1,""PRICE"":""1.5""}") as D by (apply C93_accepts; vm_compute; reflexivity).
  split; [exact C|]. split; [exact D|]. refine (C93_refused _ _ _ _ D C). exact (proj1 (Forall_forall _ _) C92_repo_types row_type ltac:(cbn [In]; tauto)).
Qed.
(** Ten thousand and one brackets; ten thousand are accepted. *)
Definition brackets (n : positive) : json := Pos.iter (fun j => JArr [j]) (JArr []) n.
Example C93_example_too_deep : let s := print (brackets 10000) in
  loose_document (brackets 10000) s /\ too_deep (brackets 10000) /\ (forall t, unmarshal t s = None) /\ ~ too_deep (brackets 9999).
Proof.
  cbv zeta. assert (forall n, JsonTree.wfj (brackets n)) as W.
  { intros n. unfold brackets. apply Pos.iter_invariant; [intros x H; constructor; constructor; [exact H|constructor]|constructor; constructor]. }
  assert (forall n, nesting (brackets n) = Zpos n + 1) as N.
  { intros n. unfold brackets. induction n as [|n IH] using Pos.peano_ind; [reflexivity|]. rewrite Pos.iter_succ. cbn [nesting map fold_right]. lia. }
  assert (loose_document (brackets 10000) (print (brackets 10000))) as D by (apply C93_accepts, JsonTree.parse_print, W).
  assert (too_deep (brackets 10000)) as L by (apply deep_nesting; rewrite N; unfold max_nesting; lia).
  split; [exact D|]. split; [exact L|]. split; [intros t; exact (C93_too_deep t _ _ D L)|]. rewrite deep_nesting, N. unfold max_nesting. lia.
Qed.
(** Whole numbers: 1.5, 1e3 and 2^63 are none. *)
Example C93_example_whole : clash TInt (JNum "1.5") /\ clash TInt (JNum "1e3") /\ clash TInt (JNum "9223372036854775808").
Proof.
  assert (forall w, (forall z, parse_int 64 w <> inl z) -> clash TInt (JNum w)) as G.
  { intros w N. split; [discriminate|]. intros (w' & z & [= <-] & (sg & neg & d & n & -> & Sg & Dd & Nd & ->) & B).
    apply (N (signed_Z neg n)). pose proof (Decimal.integer_read 64 (sg ++ d) (signed_Z neg n) eq_refl) as R. change (64 - 1) with 63 in R.
    rewrite R; [|exists sg, neg, d, n; auto]. unfold int64_ok in B.
    replace (- 2 ^ 63 <=? signed_Z neg n) with true by (symmetry; apply Z.leb_le; lia). replace (signed_Z neg n <? 2 ^ 63) with true by (symmetry; apply Z.ltb_lt; lia). reflexivity. }
  split; [|split]; apply G; intros z; vm_compute; discriminate.
Qed.
(** A day that is not in the calendar. *)
Example C93_example_day : clash TTime (JStr "2021-02-29T00:00:00Z").
Proof.
  split; [discriminate|]. intros (raw & off & i & [= <-] & M). apply C93_time in M. revert M. vm_compute. discriminate.
Qed.
(** The long s and the Kelvin sign. *)
Example C93_example_alike : alike ("a" ++ String "197" (String "191" (String "226" (String "132" (String "170" "S"))))) "asks".
Proof. cbn [append]. apply alike_byte; [reflexivity|]. apply alike_long_s; [reflexivity|]. apply alike_kelvin; [reflexivity|]. apply alike_byte; [reflexivity|]. constructor. Qed.
(** Time of day in one digit, decimal comma. *)
Example C93_example_loose : loose_moment "1970-01-01T9:00:00,25Z" 0 32400250000000.
Proof.
  exists 1970, 1, 1, 0, 9, "9", 0, 0, ",25", 250000000, "Z". split; [reflexivity|]. split; [exact day_epoch|]. split; [refine (hour_one 9 _); lia|].
  split; [lia|]. split; [lia|]. split; [refine (loose_part_some "," "25" 25 _ _ _); [cbn [In]; auto|dig|discriminate]|]. split; [constructor|reflexivity].
Qed.

Print Assumptions C93_accepts.
Print Assumptions C93_one_tree.
Print Assumptions C93_malformed.
Print Assumptions C93_well_formed.
Print Assumptions C93_time.
Print Assumptions C93_strict_time.
Print Assumptions C93_refused.
Print Assumptions C93_apart.
Print Assumptions C93_too_deep.
