(** JSON texts of any origin are read as the value they denote (C92). *)
From Coq Require Import Lia Lra ZArith NArith List Bool Permutation String Ascii Reals.
From Flocq Require Import Core BinarySingleNaN.
From Verif Require Import Go.Outcome Go.Float64 Go.Text Go.Num Go.Json Model.OrderBook Model.Stored Spec.DateSpec Spec.JsonSpec Spec.DecimalSpec Spec.JsonReadSpec
  Proofs.JsonGrammar Proofs.JsonMoment Proofs.JsonDenote Proofs.JsonNesting Props.DecimalProps.
Import Spec.JsonReadSpec.
Import ListNotations.
Open Scope string_scope.
Open Scope list_scope.
Open Scope Z_scope.

(** Every text of the grammar is accepted. *)
Theorem C92_text : forall j s, document j s -> parse_json s = Some j.
Proof. exact document_read. Qed.
(** Blanks do not matter. *)
Theorem C92_layout : forall t j s s', document j s -> document j s' -> unmarshal t s = unmarshal t s'.
Proof. intros t j s s' D D'. unfold unmarshal. now rewrite (document_read j s D), (document_read j s' D'). Qed.
Theorem C92_read : forall t j s v, well_cased t -> document j s -> ~ too_deep j -> denotes t j v -> unmarshal t s = Some v.
Proof. exact read_denoted. Qed.
(** A tree denotes one value at most. *)
Theorem C92_one_value : forall t j v v', well_cased t -> denotes t j v -> denotes t j v' -> v = v'.
Proof. intros t j v v' W D D'. apply (denotes_decode t j v W) in D. apply (denotes_decode t j v' W) in D'. congruence. Qed.
Theorem C92_member_order : forall t ms ms' s s' v, well_cased t -> document (JObj ms) s -> document (JObj ms') s' -> Permutation ms ms' ->
  ~ too_deep (JObj ms) -> denotes t (JObj ms) v -> unmarshal t s = Some v /\ unmarshal t s' = Some v.
Proof.
  intros t ms ms' s s' v W D D' P L N. split; [exact (read_denoted t _ s v W D L N)|]. apply (read_denoted t _ s' v W D').
  - intros L'. apply L. clear - P L'. destruct L' as (n & H & C). exists n. split; [exact H|]. apply Permutation_sym in P.
    inversion C as [|l|m x j I C']; subst; [lia|]. apply (chain_more m x); [|exact C']. inversion I as [|raw l I']; subst.
    apply (inside_obj x raw). now apply (Permutation_in _ P).
  - exact (members_any_order t ms ms' v P N).
Qed.
Theorem C92_repo_types : Forall well_cased
  [asset_type; pair_type; candle_type; row_type; update_type; book_type; ticker_type; trade_type; order_type; close_order_type; position_type;
   request_type; balance_snapshot_type; balance_type; assets_snapshot_type; annotation_type; create_order_type; update_order_type; cancel_order_type;
   update_position_type; close_position_type; actions_type; tick_type; fractal_type].
Proof.
  repeat (apply Forall_cons; [|]); [..|apply Forall_nil];
    cbv [asset_type pair_type candle_type row_type update_type book_type ticker_type trade_type order_type close_order_type position_type
      request_type balance_snapshot_type balance_type assets_snapshot_type annotation_type create_order_type update_order_type cancel_order_type
      update_position_type close_position_type actions_type tick_type fractal_type well_cased];
    repeat match goal with
    | |- _ /\ _ => split
    | |- True => exact I
    | |- all_ascii _ => vm_compute; repeat split
    | |- NoDup _ => vm_compute; repeat (constructor; [cbn; intuition discriminate|]); constructor
    end.
Qed.
(** Times: the calendar numbers every date, and RFC 3339 texts are read as the
    instants they name. *)
Theorem C92_calendar : forall y m d, valid_date y m d -> exists n, day_number y m d n.
Proof. exact date_numbered. Qed.
Theorem C92_time : forall raw off i, moment raw off i -> read_time raw = Some (off, i).
Proof. exact moment_read. Qed.
(** A candle without any of its numbers is not refused. *)
Theorem C92_complete_refuted : exists s, document (JObj []) s /\ unmarshal candle_type s = Some (zero candle_type).
Proof.
  exists "{}". split; [|vm_compute; reflexivity]. exists "", "{}", "". split; [reflexivity|]. split; [constructor|]. split; [|constructor].
  exact (text_no_members _ "" blank_nil).
Qed.
(** Nor is one with two different prices: the last one counts. *)
Theorem C92_duplicates_refuted : exists s, parse_json s = Some (JObj [("price", JNum "1"); ("PRICE", JNum "2")]) /\
  match unmarshal row_type s with
  | Some v => match row_of v with Some r => f64_eq (price r) (f64_of_dec false 2 0) | None => false end
  | None => false
  end = true.
Proof. exists "{""price"":1,""PRICE"":2}". split; vm_compute; reflexivity. Qed.

Ltac plain := repeat (apply contents_byte; [vm_compute; split; congruence|discriminate|discriminate|]); exact contents_nil.
Ltac blanks := repeat (apply blank_cons; [cbn [In]; tauto|]); exact blank_nil.
(** Blanks, another order, a name in capitals, an escaped letter, an unknown
    member, other notations of a number, a missing member. *)
Definition sample_text : string := "{ ""VOLUME"" : 15E-1, ""note"":[null,true ] ,""pric\u0065"":1.50}".
Definition sample_tree : json := JObj [("VOLUME", JNum "15E-1"); ("note", JArr [JNull; JBool true]); ("pric\u0065", JNum "1.50")].
Lemma sample_name : contents "pric\u0065" "price".
Proof.
  do 4 (apply contents_byte; [vm_compute; split; congruence|discriminate|discriminate|]).
  refine (contents_escape "\u0065" "e" 101 "" "" _ _ contents_nil).
  - refine (escaped_intro "0" "0" "6" "5" 0 0 6 5 _ _ _ _); left; (split; [vm_compute; split; congruence|reflexivity]).
  - refine (point_1 "e" _). vm_compute. reflexivity.
Qed.
Lemma sample_number : number "15E-1" /\ number "1.50" /\ number "0".
Proof.
  split; [|split].
  - exists "", "15", 15, "", 0, 0, "E-1", (-1). split; [reflexivity|]. split; [now left|]. split; [dig|]. split; [discriminate|].
    split; [right; discriminate|]. split; [constructor|]. split; [discriminate|].
    refine (exponent_some "E" "-" true "1" 1 _ sign_minus _ _); [auto|dig|discriminate].
  - exists "", "1", 1, ".50", 50, 2, "", 0. split; [reflexivity|]. split; [now left|]. split; [dig|]. split; [discriminate|].
    split; [right; discriminate|]. split; [refine (fraction_some "50" 50 _); dig|]. split; [discriminate|]. constructor.
  - exists "", "0", 0, "", 0, 0, "", 0. split; [reflexivity|]. split; [now left|]. split; [dig|]. split; [discriminate|].
    split; [now left|]. split; [constructor|]. split; [discriminate|]. constructor.
Qed.
Example C92_example_text : document sample_tree sample_text.
Proof.
  exists "", sample_text, "". split; [reflexivity|]. split; [constructor|]. split; [|constructor].
  destruct sample_number as (N1 & N2 & _). set (well := fun raw => exists s, contents raw s).
  assert (elements_text well [JNull; JBool true] "null,true ") as E.
  { refine (elements_more _ "" JNull "null" "" [JBool true] "true " _ (text_null _) _ _); [blanks|blanks|].
    refine (elements_last _ "" (JBool true) "true" " " _ (text_true _) _); blanks. }
  assert (well "VOLUME") as C1 by (exists "VOLUME"; plain). assert (well "note") as C2 by (exists "note"; plain).
  assert (well "pric\u0065") as C3 by (exists "price"; exact sample_name). assert (blank " " /\ blank "") as [B1 B0] by (split; blanks).
  exact (text_obj _ _ _
    (members_more _ _ _ _ _ (member_intro _ " " "VOLUME" " " " " (JNum "15E-1") "15E-1" "" B1 C1 B1 B1 (text_num _ _ N1) B0)
    (members_more _ _ _ _ _ (member_intro _ " " "note" "" "" (JArr [JNull; JBool true]) "[null,true ]" " " B1 C2 B0 B0 (text_arr _ _ _ E) B1)
    (members_last _ _ _ (member_intro _ "" "pric\u0065" "" "" (JNum "1.50") "1.50" "" B0 C3 B0 B0 (text_num _ _ N2) B0))))).
Qed.
Example C92_example_value : exists x, is_nearest x false (3 / 2) /\ let v := VStruct [VFloat x; VFloat x; VFloat (B754_zero false)] in
  denotes row_type sample_tree v /\ unmarshal row_type sample_text = Some v.
Proof.
  destruct C91_example as (D1 & _ & S1 & _ & R & _). destruct sample_number as (_ & N2 & _).
  assert (decimal "15E-1" false (3 / 2)) as D2.
  { exists "", "15", 15, "", 0, 0, "E-1", (-1). split; [reflexivity|]. split; [constructor|]. split; [dig|].
    split; [constructor|]. split; [refine (exponent_some "E" "-" true "1" 1 _ sign_minus _ _); [auto|dig|discriminate]|].
    split; [left; discriminate|]. cbn [signed_R]. simpl. lra. }
  assert (short "15E-1") as S2 by (vm_compute; reflexivity).
  destruct (C91_read _ _ _ S1 D1 R) as (x & _ & Nx). exists x. split; [exact Nx|]. cbv zeta.
  assert (contents "VOLUME" "VOLUME") as C1 by plain. assert (contents "note" "note") as C2 by plain. pose proof sample_name as C3.
  assert (denotes row_type sample_tree (VStruct [VFloat x; VFloat x; VFloat (B754_zero false)])) as D.
  { right. split; [discriminate|]. eexists. split; [reflexivity|]. split.
    { apply Forall_cons; [exists "VOLUME"; split; [exact C1|vm_compute; repeat split]|].
      apply Forall_cons; [exists "note"; split; [exact C2|vm_compute; repeat split]|].
      apply Forall_cons; [exists "price"; split; [exact C3|vm_compute; repeat split]|]. apply Forall_nil. }
    assert (forall n raw k j, contents raw k -> in_lower_case k <> in_lower_case n -> ~ named n (raw, j)) as Other.
    { intros n raw k j C N (k' & C' & E). apply JsonRead.contents_unquote in C. apply JsonRead.contents_unquote in C'. cbn [fst] in C'. congruence. }
    split; [|split; [|split; [|exact I]]].
    - right. eexists [_; _], _, []. split; [reflexivity|]. split; [exists "price"; split; [exact C3|reflexivity]|]. split.
      + apply Forall_cons; [apply (Other _ _ _ _ C1); vm_compute; congruence|]. apply Forall_cons; [apply (Other _ _ _ _ C2); vm_compute; congruence|]. apply Forall_nil.
      + right. split; [discriminate|]. exists "1.50", false, (3 / 2)%R. split; [reflexivity|]. split; [exact D1|]. split; [exact S1|]. split; [exact R|exact Nx].
    - right. eexists [], _, [_; _]. split; [reflexivity|]. split; [exists "VOLUME"; split; [exact C1|reflexivity]|]. split.
      + apply Forall_cons; [apply (Other _ _ _ _ C2); vm_compute; congruence|]. apply Forall_cons; [apply (Other _ _ _ _ C3); vm_compute; congruence|]. apply Forall_nil.
      + right. split; [discriminate|]. exists "15E-1", false, (3 / 2)%R. split; [reflexivity|]. split; [exact D2|]. split; [exact S2|]. split; [exact R|exact Nx].
    - left. split; [reflexivity|]. apply Forall_cons; [apply (Other _ _ _ _ C1); vm_compute; congruence|]. apply Forall_cons; [apply (Other _ _ _ _ C2); vm_compute; congruence|].
      apply Forall_cons; [apply (Other _ _ _ _ C3); vm_compute; congruence|]. apply Forall_nil. }
  split; [exact D|]. refine (C92_read row_type sample_tree sample_text _ _ C92_example_text _ D); [|rewrite deep_nesting; vm_compute; discriminate].
  exact (proj1 (Forall_forall _ _) C92_repo_types row_type ltac:(cbn [In]; tauto)).
Qed.
(** Half past eleven of the last evening of 1969, one hour west. *)
Example C92_example_time : moment "1969-12-31T23:30:00.5-01:00" (-3600) 1800500000000.
Proof.
  exists 1969, 12, 31, (-1), 23, 30, 0, ".5", 500000000, "-01:00". split; [reflexivity|]. split.
  - refine (day_earlier 1969 12 31 0 1970 1 1 day_epoch _ _).
    + exists 31. split; [left; split; [cbn [In]; tauto|reflexivity]|]. lia.
    + split; [lia|]. split; [lia|]. split; [lia|]. exists 31. split; [left; split; [cbn [In]; tauto|reflexivity]|lia].
  - split; [lia|]. split; [lia|]. split; [lia|]. split; [refine (part_some "5" 5 _ _); [dig|discriminate]|]. split; [|reflexivity].
    refine (zone_west 1 0 _ _); lia.
Qed.

Print Assumptions C92_text.
Print Assumptions C92_layout.
Print Assumptions C92_read.
Print Assumptions C92_one_value.
Print Assumptions C92_member_order.
Print Assumptions C92_repo_types.
Print Assumptions C92_calendar.
Print Assumptions C92_time.
Print Assumptions C92_complete_refuted.
Print Assumptions C92_duplicates_refuted.
