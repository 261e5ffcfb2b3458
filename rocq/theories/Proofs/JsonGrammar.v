(** Every text of the JSON grammar is read as its tree (C92). *)
From Coq Require Import Lia ZArith NArith List Bool String Ascii.
Import ListNotations.
From Verif Require Import Go.Outcome Go.Text Go.Json Spec.JsonSpec Spec.DecimalSpec Spec.JsonReadSpec Proofs.Lex
  Proofs.JsonText Proofs.JsonTree Proofs.Decimal Proofs.JsonRead.
Import Spec.JsonReadSpec.
Open Scope string_scope.
Open Scope list_scope.
Open Scope Z_scope.

(** *** Numbers *)
Lemma lex_exponent ex e r : exponent ex e -> num_end r -> lex_exp (ex ++ r) = Some (ex, r).
Proof.
  intros [|c sg neg d e' Hc Hs Hd Hn] E.
  - cbn [append]. destruct r as [|c r]; [reflexivity|]. destruct E as (_ & _ & E1 & E2). cbn [lex_exp]. now rewrite E1, E2.
  - destruct (digits_model d e' Hd) as [D _].
    assert (forall x, x = d -> span_digits (x ++ r) = (d, r)) as SD by (intros x ->; apply span_app; [assumption|now apply num_end_digit]).
    pose proof (eqb_nil_false d Hn) as Nn.
    cbn [append lex_exp]. replace (Ascii.eqb c "e" || Ascii.eqb c "E") with true by (destruct Hc as [-> | ->]; reflexivity).
    cbv iota. rewrite sapp_assoc.
    destruct Hs; cbn [append].
    + destruct d as [|c0 d]; [congruence|]. cbn [all_digits] in D. apply andb_true_iff in D as [D0 D].
      specialize (SD (String c0 d) eq_refl). cbn [append] in SD |- *.
      assert (Ascii.eqb c0 "+" || Ascii.eqb c0 "-" = false) as ->.
      { destruct (Ascii.eqb_spec c0 "+") as [->|_]; [discriminate|]. destruct (Ascii.eqb_spec c0 "-") as [->|_]; [discriminate|reflexivity]. }
      rewrite SD. rewrite Nn. reflexivity.
    + change (Ascii.eqb "+" "+" || Ascii.eqb "+" "-") with true. cbv iota. rewrite SD by reflexivity. rewrite Nn. reflexivity.
    + change (Ascii.eqb "-" "+" || Ascii.eqb "-" "-") with true. cbv iota. rewrite SD by reflexivity. rewrite Nn. reflexivity.
Qed.
Lemma exponent_starts ex e r : exponent ex e -> num_end r -> starts_digit (ex ++ r) = false.
Proof. intros [|c sg neg d e' Hc Hs Hd Hn] E; [now apply num_end_digit|]. destruct Hc as [-> | ->]; reflexivity. Qed.
Lemma lex_fraction fr m k ex e r : fraction fr m k -> fr <> "." -> exponent ex e -> num_end r -> lex_frac (fr ++ ex ++ r) = Some (fr, (ex ++ r)%string).
Proof.
  intros [|d m' Hd] N X E.
  - cbn [append]. destruct X as [|c sg neg d e' Hc Hs Hd Hn]; cbn [append].
    + destruct r as [|c r]; [reflexivity|]. destruct E as (_ & E1 & _ & _). cbn [lex_frac]. now rewrite E1.
    + destruct Hc as [-> | ->]; reflexivity.
  - destruct (digits_model d m' Hd) as [D _]. assert (d <> "") as Dn by congruence.
    cbn [append lex_frac]. change (Ascii.eqb "." ".") with true. cbv iota.
    rewrite span_app by (assumption || now apply (exponent_starts ex e)). rewrite eqb_nil_false by assumption. reflexivity.
Qed.
Theorem number_numeral t : number t -> numeral t.
Proof.
  intros (sg & ip & n & fr & m & k & ex & e & -> & Hs & Hi & Hn & Hz & Hf & Hd & He).
  destruct (digits_model ip n Hi) as [ID _]. destruct ip as [|c ip]; [congruence|]. clear Hn.
  assert (is_digit c = true) as Hc by (cbn [all_digits] in ID; now apply andb_true_iff in ID).
  split.
  { destruct Hs as [-> | ->]; cbn [append]; eauto. }
  intros r E.
  assert (starts_digit (fr ++ ex ++ r) = false) as SD.
  { destruct Hf as [|d m Hd']; [now apply (exponent_starts ex e)|reflexivity]. }
  assert ((match (sg ++ String c ip ++ fr ++ ex) ++ r with
    | String c r0 => if Ascii.eqb c "-" then ("-", r0) else ("", String c r0)
    | EmptyString => ("", ((sg ++ String c ip ++ fr ++ ex) ++ r)%string)
    end)%string = (sg, (String c ip ++ fr ++ ex ++ r)%string)) as E1.
  { destruct Hs as [-> | ->]; cbn [append].
    - destruct (Ascii.eqb_spec c "-") as [->|_]; [discriminate Hc|]. now rewrite !sapp_assoc.
    - change (Ascii.eqb "-" "-") with true. cbv iota. now rewrite !sapp_assoc. }
  assert (Ascii.eqb c "0" && negb (String.eqb ip "") = false) as IZ.
  { destruct (Ascii.eqb_spec c "0") as [->|_]; [|reflexivity]. destruct Hz as [Hz|Hz]; [injection Hz as ->; reflexivity|destruct (Hz ip eq_refl)]. }
  unfold lex_num. revert E1. destruct ((sg ++ String c ip ++ fr ++ ex) ++ r)%string as [|q t] eqn:Q.
  { destruct Hs as [-> | ->]; discriminate Q. }
  intros E1. rewrite E1. rewrite span_app by assumption. rewrite IZ. rewrite (lex_fraction fr m k ex e), (lex_exponent ex e) by assumption. reflexivity.
Qed.

(** *** Blanks *)
Lemma blank_ws c s : blank (String c s) -> is_ws c = true.
Proof. intros H. inversion H as [|? ? I ?]; subst. cbn [In] in I. repeat (destruct I as [<-|I]; [reflexivity|]). destruct I. Qed.
Lemma skip_blank a s : blank a -> skip_ws (a ++ s) = skip_ws s.
Proof. induction 1 as [|c a I B IH]; [reflexivity|]. cbn [append skip_ws]. rewrite (blank_ws c a) by (constructor; assumption). exact IH. Qed.
Lemma blank_end b c r : blank b -> num_end (String c "") -> num_end (b ++ String c r).
Proof.
  intros B H. destruct B as [|d b I B]; [exact H|]. cbn [append num_end]. cbn [In] in I.
  repeat (destruct I as [<-|I]; [repeat split; reflexivity|]). destruct I.
Qed.
Lemma blank_end_nil b : blank b -> num_end b.
Proof.
  intros [|d b' I B]; [exact I|]. cbn [num_end]. cbn [In] in I.
  repeat (destruct I as [<-|I]; [repeat split; reflexivity|]). destruct I.
Qed.
Lemma value_blank n a s : blank a -> value n (a ++ s) = value n s.
Proof. intros B. destruct n as [|n]; [reflexivity|]. cbn [value]. now rewrite skip_blank. Qed.

(** *** The grammar *)
Scheme text_mut := Minimality for text Sort Prop
  with elements_mut := Minimality for elements_text Sort Prop
  with members_mut := Minimality for members_text Sort Prop
  with member_mut := Minimality for member_text Sort Prop.

Section Grammar.
Variable well : string -> Prop.
Hypothesis well_literal : forall raw, well raw -> literal raw.
Definition solid (c : ascii) : Prop := is_ws c = false /\ Ascii.eqb c "]" = false /\ Ascii.eqb c "}" = false.
Definition P_text (j : json) (x : string) : Prop :=
  (exists c t, x = String c t /\ solid c) /\
  forall n rest, num_end rest -> (String.length x < n)%nat -> value n (x ++ rest) = Some (j, rest).
Definition P_elements (l : list json) (e : string) : Prop :=
  (List.length l <= String.length e)%nat /\ (forall r, exists c t, skip_ws (e ++ r) = String c t /\ Ascii.eqb c "]" = false) /\
  forall n k rest, (String.length e < n)%nat -> (List.length l <= k)%nat -> elements (value n) k (e ++ String "]" rest) = Some (l, rest).
Definition P_members (l : list (string * json)) (e : string) : Prop :=
  (List.length l <= String.length e)%nat /\ (forall r, exists t, skip_ws (e ++ r) = String quote t) /\
  forall n k rest, (String.length e < n)%nat -> (List.length l <= k)%nat -> members (value n) k (e ++ String "}" rest) = Some (l, rest).
Definition P_member (m : string * json) (x : string) : Prop :=
  (1 <= String.length x)%nat /\ (forall r, exists t, skip_ws (x ++ r) = String quote t) /\
  forall n k rest, (String.length x < n)%nat ->
    members (value n) (S k) (x ++ String "}" rest) = Some ([m], rest) /\
    members (value n) (S k) (x ++ String "," rest) = match members (value n) k rest with Some (l, r) => Some (m :: l, r) | None => None end.

Lemma read_null rest n : value (S n) ("null" ++ rest) = Some (JNull, rest). Proof. reflexivity. Qed.
Lemma read_num t : number t -> P_text (JNum t) t.
Proof.
  intros H. apply number_numeral in H. destruct (print_head (JNum t) (wf_num t H)) as (c & r & E & W & B). cbn [print] in E. split.
  - exists c, r. split; [exact E|]. split; [exact W|]. split; [exact B|]. destruct H as [(c' & r' & E' & Hc) _]. rewrite E in E'. injection E' as <- <-.
    destruct Hc as [Hc| ->]; [|reflexivity]. destruct (Ascii.eqb_spec c "}") as [->|_]; [discriminate Hc|reflexivity].
  - intros n rest En L. exact (value_print n (JNum t) rest (wf_num t H) En L).
Qed.
Lemma read_str raw : well raw -> P_text (JStr raw) (in_quotes raw).
Proof.
  intros H. apply well_literal in H. split; [exists quote; eexists; split; [reflexivity|repeat split]|].
  intros n rest En L. exact (value_print n (JStr raw) rest (wf_str raw H) En L).
Qed.
Lemma solid_skip x s : (exists c t, x = String c t /\ solid c) -> skip_ws (x ++ s) = (x ++ s)%string /\ exists c t, (x ++ s)%string = String c t /\ solid c.
Proof. intros (c & t & -> & S). cbn [append skip_ws]. destruct S as (S1 & S2). rewrite S1. split; [reflexivity|]. exists c. eexists. split; [reflexivity|split; assumption]. Qed.
Lemma solid_len x : (exists c t, x = String c t /\ solid c) -> (1 <= String.length x)%nat.
Proof. intros (c & t & -> & _). cbn. lia. Qed.

Lemma no_elements w : blank w -> P_text (JArr []) ("[" ++ w ++ "]").
Proof.
  intros B. split; [eexists _, _; split; [reflexivity|repeat split]|]. intros n rest E L. destruct n as [|n]; [lia|].
  cbn [append value skip_ws]. change (is_ws "[") with false. cbv iota. change (Ascii.eqb "[" "{") with false. change (Ascii.eqb "[" "[") with true. cbv iota.
  rewrite sapp_assoc, skip_blank by assumption. reflexivity.
Qed.
Lemma no_members w : blank w -> P_text (JObj []) ("{" ++ w ++ "}").
Proof.
  intros B. split; [eexists _, _; split; [reflexivity|repeat split]|]. intros n rest E L. destruct n as [|n]; [lia|].
  cbn [append value skip_ws]. change (is_ws "{") with false. cbv iota. change (Ascii.eqb "{" "{") with true. cbv iota.
  rewrite sapp_assoc, skip_blank by assumption. reflexivity.
Qed.
Lemma some_elements l e : P_elements l e -> P_text (JArr l) ("[" ++ e ++ "]").
Proof.
  intros (Ln & Hd & Rd). split; [eexists _, _; split; [reflexivity|repeat split]|]. intros n rest E L. destruct n as [|n]; [lia|].
  cbn [append String.length] in L. rewrite slen_app in L. cbn [String.length] in L.
  cbn [append value skip_ws]. change (is_ws "[") with false. cbv iota. change (Ascii.eqb "[" "{") with false. change (Ascii.eqb "[" "[") with true. cbv iota.
  rewrite sapp_assoc. change ("]" ++ rest)%string with (String "]" rest). destruct (Hd (String "]" rest)) as (c & t & E1 & E2).
  assert (match skip_ws (e ++ String "]" rest) with
      | "" => None
      | String c' r' => if Ascii.eqb c' "]" then Some (JArr [], r') else
         match elements (value n) (S (String.length (e ++ String "]" rest))) (e ++ String "]" rest) with
         | Some (l, r'') => Some (JArr l, r'') | None => None end
      end = Some (JArr l, rest)) as G; [|exact G].
  rewrite E1, E2. rewrite Rd; [reflexivity|lia|rewrite slen_app; lia].
Qed.
Lemma some_members l e : P_members l e -> P_text (JObj l) ("{" ++ e ++ "}").
Proof.
  intros (Ln & Hd & Rd). split; [eexists _, _; split; [reflexivity|repeat split]|]. intros n rest E L. destruct n as [|n]; [lia|].
  cbn [append String.length] in L. rewrite slen_app in L. cbn [String.length] in L.
  cbn [append value skip_ws]. change (is_ws "{") with false. cbv iota. change (Ascii.eqb "{" "{") with true. cbv iota.
  rewrite sapp_assoc. change ("}" ++ rest)%string with (String "}" rest). destruct (Hd (String "}" rest)) as (t & E1).
  assert (match skip_ws (e ++ String "}" rest) with
      | "" => None
      | String c' r' => if Ascii.eqb c' "}" then Some (JObj [], r') else
         match members (value n) (S (String.length (e ++ String "}" rest))) (e ++ String "}" rest) with
         | Some (l, r'') => Some (JObj l, r'') | None => None end
      end = Some (JObj l, rest)) as G; [|exact G].
  rewrite E1. change (Ascii.eqb quote "}") with false. cbv iota. rewrite Rd; [reflexivity|lia|rewrite slen_app; lia].
Qed.
Lemma skip_head b c r : blank b -> is_ws c = false -> skip_ws (b ++ String c r) = String c r.
Proof. intros B W. rewrite skip_blank by assumption. cbn [skip_ws]. now rewrite W. Qed.
Lemma last_element a j x b : blank a -> P_text j x -> blank b -> P_elements [j] (a ++ x ++ b).
Proof.
  intros A (Hd & Rd) B. pose proof (solid_len x Hd) as Lx. split; [rewrite !slen_app; cbn [List.length]; lia|]. split.
  - intros r. rewrite sapp_assoc, skip_blank by assumption. rewrite sapp_assoc. destruct (solid_skip x (b ++ r)%string Hd) as (-> & c & t & E & S).
    exists c, t. split; [exact E|apply S].
  - intros n k rest L K. destruct k as [|k]; [cbn in K; lia|]. cbn [elements]. rewrite sapp_assoc, value_blank by assumption. rewrite sapp_assoc.
    rewrite !slen_app in L. rewrite Rd by (lia || (apply blank_end; [assumption|repeat split])). rewrite skip_head by (assumption || reflexivity). reflexivity.
Qed.
Lemma more_elements a j x b l e : blank a -> P_text j x -> blank b -> P_elements l e -> P_elements (j :: l) (a ++ x ++ b ++ "," ++ e).
Proof.
  intros A (Hd & Rd) B (Le & _ & Re). pose proof (solid_len x Hd) as Lx. split; [rewrite !slen_app; cbn [List.length String.length]; lia|]. split.
  - intros r. rewrite sapp_assoc, skip_blank by assumption. rewrite sapp_assoc. destruct (solid_skip x ((b ++ "," ++ e) ++ r)%string Hd) as (-> & c & t & E & S).
    exists c, t. split; [exact E|apply S].
  - intros n k rest L K. destruct k as [|k]; [cbn in K; lia|]. cbn [List.length] in K. cbn [elements]. rewrite sapp_assoc, value_blank by assumption. rewrite !sapp_assoc.
    rewrite !slen_app in L. cbn [String.length] in L. cbn [append].
    rewrite Rd by (lia || (apply blank_end; [assumption|repeat split])). rewrite skip_head by (assumption || reflexivity).
    change (Ascii.eqb "," "]") with false. change (Ascii.eqb "," ",") with true. cbv iota. rewrite Re by lia. reflexivity.
Qed.
Lemma a_member a raw b c j x d : blank a -> well raw -> blank b -> blank c -> P_text j x -> blank d ->
  P_member (raw, j) (a ++ in_quotes raw ++ b ++ ":" ++ c ++ x ++ d).
Proof.
  intros A Ct B C (Hd & Rd) D. apply well_literal in Ct. split; [rewrite !slen_app; unfold in_quotes; cbn [String.length]; lia|]. split.
  - intros r. rewrite sapp_assoc, skip_blank by assumption. unfold in_quotes. cbn [append skip_ws]. change (is_ws "034") with false. cbv iota. eexists. reflexivity.
  - intros n k rest L. rewrite !slen_app in L. cbn [String.length] in L.
    assert (forall q, num_end (String q "") -> is_ws q = false -> members (value n) (S k) ((a ++ in_quotes raw ++ b ++ ":" ++ c ++ x ++ d) ++ String q rest) =
      (if Ascii.eqb q "}" then Some ([(raw, j)], rest)
       else if Ascii.eqb q "," then match members (value n) k rest with Some (l, r'') => Some ((raw, j) :: l, r'') | None => None end else None)) as K.
    { intros q Eq Wq. assert (((a ++ in_quotes raw ++ b ++ ":" ++ c ++ x ++ d) ++ String q rest)%string =
        (a ++ String quote (raw ++ String quote (b ++ String ":" (c ++ x ++ d ++ String q rest))))%string) as ->.
      { rewrite !sapp_assoc. f_equal. change (in_quotes raw) with (quoted raw). rewrite quoted_app. reflexivity. }
      cbn [members]. rewrite skip_head by (assumption || reflexivity). change (Ascii.eqb quote quote) with true. cbv iota. rewrite Ct.
      rewrite skip_head by (assumption || reflexivity). change (Ascii.eqb ":" ":") with true. cbv iota.
      rewrite value_blank by assumption. rewrite Rd by (lia || (apply blank_end; assumption)). rewrite skip_head by assumption. reflexivity. }
    split; [exact (K "}"%char ltac:(repeat split) eq_refl)|exact (K ","%char ltac:(repeat split) eq_refl)].
Qed.
Lemma last_member m x : P_member m x -> P_members [m] x.
Proof.
  intros (Lx & Hd & Rd). split; [cbn; lia|]. split; [exact Hd|]. intros n k rest L K. destruct k as [|k]; [cbn in K; lia|]. exact (proj1 (Rd n k rest L)).
Qed.
Lemma more_members m x l e : P_member m x -> P_members l e -> P_members (m :: l) (x ++ "," ++ e).
Proof.
  intros (Lx & Hd & Rd) (Le & _ & Re). split; [rewrite !slen_app; cbn [List.length String.length]; lia|]. split.
  - intros r. rewrite sapp_assoc. apply Hd.
  - intros n k rest L K. destruct k as [|k]; [cbn in K; lia|]. cbn [List.length] in K. rewrite !slen_app in L. cbn [String.length] in L.
    rewrite !sapp_assoc. cbn [append]. rewrite (proj2 (Rd n k (e ++ String "}" rest)%string ltac:(lia))). rewrite Re by lia. reflexivity.
Qed.
Theorem text_read j x : text well j x -> P_text j x.
Proof.
  intros H. refine (text_mut well P_text P_elements P_members P_member _ _ _ _ _ _ _ _ _ _ _ _ _ _ j x H).
  - split; [eexists _, _; split; [reflexivity|repeat split]|]. intros n rest E L. destruct n; [lia|reflexivity].
  - split; [eexists _, _; split; [reflexivity|repeat split]|]. intros n rest E L. destruct n; [lia|reflexivity].
  - split; [eexists _, _; split; [reflexivity|repeat split]|]. intros n rest E L. destruct n; [lia|reflexivity].
  - exact read_num.
  - exact read_str.
  - exact no_elements.
  - intros l e _. exact (some_elements l e).
  - exact no_members.
  - intros l e _. exact (some_members l e).
  - intros a j' x' b A _ P B. exact (last_element a j' x' b A P B).
  - intros a j' x' b l e A _ P B _ Q. exact (more_elements a j' x' b l e A P B Q).
  - intros k x' _. exact (last_member k x').
  - intros k x' l e _ P _ Q. exact (more_members k x' l e P Q).
  - intros a raw b c j' x' d A Ct B C _ P D. exact (a_member a raw b c j' x' d A Ct B C P D).
Qed.
Theorem whole_read j s : whole well j s -> parse_json s = Some j.
Proof.
  intros (a & x & b & -> & A & T & B). destruct (text_read j x T) as (_ & Rd). unfold parse_json. rewrite value_blank by assumption.
  rewrite Rd; [|now apply blank_end_nil|rewrite !slen_app; lia]. rewrite <- (sapp_nil_r b), skip_blank by assumption. reflexivity.
Qed.
End Grammar.
Theorem document_read j s : document j s -> parse_json s = Some j.
Proof. apply whole_read. intros raw [s' H]. exact (contents_literal raw s' H). Qed.
