(** JSON trees written and read back (C83). *)
From Coq Require Import Lia ZArith NArith List Bool String Ascii.
Import ListNotations.
From Verif Require Import Go.Outcome Go.Text Go.Json Spec.JsonSpec Proofs.Lex Proofs.JsonTime Proofs.JsonText.
Open Scope string_scope.
Open Scope list_scope.
Open Scope Z_scope.

Definition literal (raw : string) : Prop := forall r, scan_str (raw ++ String quote r) = Some (raw, r).
Inductive wfj : json -> Prop :=
| wf_null : wfj JNull
| wf_bool b : wfj (JBool b)
| wf_num t : numeral t -> wfj (JNum t)
| wf_str raw : literal raw -> wfj (JStr raw)
| wf_arr l : Forall wfj l -> wfj (JArr l)
| wf_obj l : Forall (fun kv => literal (fst kv) /\ wfj (snd kv)) l -> wfj (JObj l).

Lemma print_head j : wfj j -> exists c r, print j = String c r /\ is_ws c = false /\ Ascii.eqb c "]" = false.
Proof.
  intros H. destruct H as [|[]|t [(c & r & -> & [Hc|Hc]) _]|raw H|l H|l H]; try (eexists _, _; split; [reflexivity|split; reflexivity]).
  - exists c, r. split; [reflexivity|]. split.
    + unfold is_ws. destruct (Ascii.eqb_spec c " ") as [->|_]; [discriminate Hc|]. destruct (Ascii.eqb_spec c "009") as [->|_]; [discriminate Hc|].
      destruct (Ascii.eqb_spec c "010") as [->|_]; [discriminate Hc|]. destruct (Ascii.eqb_spec c "013") as [->|_]; [discriminate Hc|reflexivity].
    + destruct (Ascii.eqb_spec c "]") as [->|_]; [discriminate Hc|reflexivity].
  - subst c. eexists _, _. split; [reflexivity|split; reflexivity].
Qed.
Lemma skip_ws_head s : (exists c r, s = String c r /\ is_ws c = false) -> skip_ws s = s.
Proof. intros (c & r & -> & H). cbn [skip_ws]. now rewrite H. Qed.

Definition member_text (kv : string * json) : string := (quoted (fst kv) ++ ":" ++ print (snd kv))%string.
Lemma print_obj l : print (JObj l) = ("{" ++ sep_by "," (map member_text l) ++ "}")%string.
Proof. reflexivity. Qed.
Lemma quoted_app k r : (quoted k ++ r)%string = String quote (k ++ String quote r).
Proof. unfold quoted. cbn [append]. rewrite sapp_assoc. reflexivity. Qed.

Section Lists.
Variable val : string -> option (json * string).
Let reads (j : json) : Prop := forall r, num_end r -> val (print j ++ r) = Some (j, r).
Lemma elements_ok l : forall k rest, l <> [] -> (List.length l <= k)%nat -> Forall reads l ->
  elements val k (sep_by "," (map print l) ++ String "]" rest) = Some (l, rest).
Proof.
  induction l as [|j l IH]; intros k rest N L F; [congruence|]. inversion F as [|? ? Hj Fl]; subst.
  destruct k as [|k]; [cbn in L; lia|]. cbn [List.length] in L. cbn [elements]. destruct l as [|j' l].
  - cbn [map sep_by]. rewrite Hj by (repeat split; reflexivity). cbn [skip_ws]. change (is_ws "]") with false. cbv iota.
    change (Ascii.eqb "]" "]") with true. reflexivity.
  - change (sep_by "," (map print (j :: j' :: l))) with (print j ++ "," ++ sep_by "," (map print (j' :: l)))%string.
    rewrite !sapp_assoc. rewrite Hj by (repeat split; reflexivity). cbn [append skip_ws]. change (is_ws ",") with false. cbv iota.
    change (Ascii.eqb "," "]") with false. change (Ascii.eqb "," ",") with true. cbv iota.
    rewrite IH; [reflexivity|discriminate|cbn [List.length] in *; lia|assumption].
Qed.
Lemma members_ok l : forall k rest, l <> [] -> (List.length l <= k)%nat -> Forall (fun kv => literal (fst kv) /\ reads (snd kv)) l ->
  members val k (sep_by "," (map member_text l) ++ String "}" rest) = Some (l, rest).
Proof.
  induction l as [|[n j] l IH]; intros k rest N L F; [congruence|]. inversion F as [|? ? [Hn Hj] Fl]; subst. cbn [fst snd] in *.
  destruct k as [|k]; [cbn in L; lia|]. cbn [List.length] in L. cbn [members].
  assert (forall r, sep_by "," (map member_text ((n, j) :: l)) ++ r = String quote (n ++ String quote (":" ++ print j ++
    match l with [] => r | _ => "," ++ sep_by "," (map member_text l) ++ r end)))%string as E.
  { intros r. destruct l as [|nj l].
    - cbn [map sep_by]. unfold member_text. cbn [fst snd]. rewrite sapp_assoc, quoted_app, sapp_assoc. reflexivity.
    - change (sep_by "," (map member_text ((n, j) :: nj :: l))) with (member_text (n, j) ++ "," ++ sep_by "," (map member_text (nj :: l)))%string.
      unfold member_text at 1. cbn [fst snd]. rewrite !sapp_assoc, quoted_app. reflexivity. }
  rewrite E. cbn [skip_ws]. change (is_ws quote) with false. cbv iota. change (Ascii.eqb quote quote) with true. cbv iota.
  rewrite Hn. cbn [append skip_ws]. change (is_ws ":") with false. cbv iota. change (Ascii.eqb ":" ":") with true. cbv iota.
  destruct l as [|nj l].
  - rewrite Hj by (repeat split; reflexivity). cbn [skip_ws]. change (is_ws "}") with false. cbv iota. change (Ascii.eqb "}" "}") with true. reflexivity.
  - rewrite Hj by (repeat split; reflexivity). cbn [skip_ws]. change (is_ws ",") with false. cbv iota.
    change (Ascii.eqb "," "}") with false. change (Ascii.eqb "," ",") with true. cbv iota.
    rewrite IH; [reflexivity|discriminate|cbn [List.length] in *; lia|assumption].
Qed.
End Lists.

Lemma sep_len_gen {A} (f : A -> string) l : Forall (fun j => (1 <= String.length (f j))%nat) l ->
  (List.length l <= S (String.length (sep_by "," (map f l))))%nat /\ Forall (fun j => (String.length (f j) <= String.length (sep_by "," (map f l)))%nat) l.
Proof.
  induction l as [|j l IH]; intros F; [split; [cbn; lia|constructor]|]. inversion F as [|? ? Hj Fl]; subst. destruct (IH Fl) as [I1 I2].
  destruct l as [|j' l].
  - cbn [map sep_by List.length]. split; [lia|]. constructor; [lia|constructor].
  - change (sep_by "," (map f (j :: j' :: l))) with (f j ++ "," ++ sep_by "," (map f (j' :: l)))%string. rewrite !slen_app. cbn [String.length List.length] in *.
    split; [lia|]. constructor; [lia|]. eapply Forall_impl; [|exact I2]. cbv beta. intros a Ha. lia.
Qed.
Lemma print_len j : wfj j -> (1 <= String.length (print j))%nat.
Proof. intros H. destruct (print_head j H) as (c & r & -> & _). cbn. lia. Qed.
Lemma sep_head {A} (f : A -> string) l r (P : ascii -> Prop) : l <> [] -> Forall (fun j => exists c t, f j = String c t /\ P c) l ->
  exists c t, (sep_by "," (map f l) ++ r)%string = String c t /\ P c.
Proof.
  intros N F. destruct F as [|j l (c & t & E & H) _]; [congruence|]. destruct l as [|j' l].
  - cbn [map sep_by]. rewrite E. exists c. eexists. split; [reflexivity|exact H].
  - change (sep_by "," (map f (j :: j' :: l))) with (f j ++ "," ++ sep_by "," (map f (j' :: l)))%string. rewrite E. exists c. eexists. split; [reflexivity|exact H].
Qed.

Theorem value_print n : forall j rest, wfj j -> num_end rest -> (String.length (print j) < n)%nat -> value n (print j ++ rest) = Some (j, rest).
Proof.
  induction n as [|n IH]; intros j rest W E L; [lia|].
  destruct W as [|b|t H|raw H|l H|l H].
  - reflexivity.
  - destruct b; reflexivity.
  - cbn [print]. destruct H as [(c & r & -> & Hc) Lx]. specialize (Lx rest E). cbn [append] in *. cbn [value].
    assert (is_ws c = false /\ Ascii.eqb c "{" = false /\ Ascii.eqb c "[" = false /\ Ascii.eqb c quote = false /\ Ascii.eqb "n" c = false
      /\ Ascii.eqb "t" c = false /\ Ascii.eqb "f" c = false) as (E0 & E1 & E2 & E3 & E4 & E5 & E6).
    { destruct Hc as [Hc| ->]; [|repeat split].
      assert (forall d, is_digit d = false -> Ascii.eqb c d = false /\ Ascii.eqb d c = false) as K.
      { intros d Hd. split; [destruct (Ascii.eqb_spec c d)|destruct (Ascii.eqb_spec d c)]; subst; congruence. }
      unfold is_ws. rewrite !(fun d Hd => proj1 (K d Hd)) by reflexivity. rewrite !(fun d Hd => proj2 (K d Hd)) by reflexivity. repeat split. }
    cbn [skip_ws]. rewrite E0. rewrite E1, E2, E3. cbn [strip_prefix]. rewrite E4, E5, E6. rewrite Lx. reflexivity.
  - cbn [print]. rewrite quoted_app. cbn [value skip_ws]. change (is_ws quote) with false. cbv iota.
    change (Ascii.eqb quote "{") with false. change (Ascii.eqb quote "[") with false. change (Ascii.eqb quote quote) with true. cbv iota.
    rewrite H. reflexivity.
  - destruct l as [|j0 l]; [reflexivity|]. remember (j0 :: l) as l' eqn:El. assert (l' <> []) as N by (subst; discriminate). clear El j0 l.
    assert (Forall (fun j => (1 <= String.length (print j))%nat) l') as F1 by (eapply Forall_impl; [|exact H]; exact print_len).
    pose proof (sep_len_gen print l' F1) as [SL SF].
    assert (print (JArr l') ++ rest = String "[" (sep_by "," (map print l') ++ String "]" rest))%string as E1.
    { cbn [print append]. rewrite sapp_assoc. reflexivity. }
    assert (String.length (print (JArr l')) = S (String.length (sep_by "," (map print l')) + 1)) as E2.
    { cbn [print append String.length]. rewrite slen_app. reflexivity. }
    rewrite E1. cbn [value skip_ws]. change (is_ws "[") with false. cbv iota. change (Ascii.eqb "[" "{") with false. change (Ascii.eqb "[" "[") with true. cbv iota.
    destruct (sep_head print l' (String "]" rest) (fun c => is_ws c = false /\ Ascii.eqb c "]" = false) N) as (c & t & E3 & Hw & Hb).
    { eapply Forall_impl; [|exact H]. exact print_head. }
    assert (match skip_ws (sep_by "," (map print l') ++ String "]" rest) with
      | "" => None
      | String c' r' => if Ascii.eqb c' "]" then Some (JArr [], r') else
         match elements (value n) (S (String.length (sep_by "," (map print l') ++ String "]" rest))) (sep_by "," (map print l') ++ String "]" rest) with
         | Some (l, r'') => Some (JArr l, r'') | None => None end
      end = Some (JArr l', rest)) as G; [|exact G].
    rewrite E3 at 1. cbn [skip_ws]. rewrite Hw, Hb. rewrite elements_ok; [reflexivity|assumption|rewrite slen_app; cbn [String.length]; lia|].
    apply Forall_forall. intros j Hj r Hr. rewrite Forall_forall in H, SF. apply IH; [now apply H|assumption|].
    specialize (SF j Hj). cbv beta in SF. lia.
  - destruct l as [|j0 l]; [reflexivity|]. remember (j0 :: l) as l' eqn:El. assert (l' <> []) as N by (subst; discriminate). clear El j0 l.
    assert (Forall (fun kv => (1 <= String.length (member_text kv))%nat) l') as F1.
    { eapply Forall_impl; [|exact H]. intros kv _. unfold member_text, quoted. cbn. lia. }
    pose proof (sep_len_gen member_text l' F1) as [SL SF].
    assert (print (JObj l') ++ rest = String "{" (sep_by "," (map member_text l') ++ String "}" rest))%string as E1.
    { rewrite print_obj. cbn [append]. rewrite sapp_assoc. reflexivity. }
    assert (String.length (print (JObj l')) = S (String.length (sep_by "," (map member_text l')) + 1)) as E2.
    { rewrite print_obj. cbn [append String.length]. rewrite slen_app. reflexivity. }
    rewrite E1. cbn [value skip_ws]. change (is_ws "{") with false. cbv iota. change (Ascii.eqb "{" "{") with true. cbv iota.
    destruct (sep_head member_text l' (String "}" rest) (fun c => is_ws c = false /\ Ascii.eqb c "}" = false) N) as (c & t & E3 & Hw & Hb).
    { eapply Forall_impl; [|exact H]. intros [k v] _. unfold member_text. rewrite quoted_app. eexists _, _. split; [reflexivity|]. split; reflexivity. }
    assert (match skip_ws (sep_by "," (map member_text l') ++ String "}" rest) with
      | "" => None
      | String c' r' => if Ascii.eqb c' "}" then Some (JObj [], r') else
         match members (value n) (S (String.length (sep_by "," (map member_text l') ++ String "}" rest))) (sep_by "," (map member_text l') ++ String "}" rest) with
         | Some (l, r'') => Some (JObj l, r'') | None => None end
      end = Some (JObj l', rest)) as G; [|exact G].
    rewrite E3 at 1. cbn [skip_ws]. rewrite Hw, Hb. rewrite members_ok; [reflexivity|assumption|rewrite slen_app; cbn [String.length]; lia|].
    apply Forall_forall. intros [k j] Hj. rewrite Forall_forall in H, SF. destruct (H _ Hj) as [H1 H2]. cbn [fst snd] in *. split; [assumption|].
    intros r Hr. apply IH; [assumption|assumption|].
    specialize (SF _ Hj). cbv beta in SF. assert (S (String.length (print j)) <= String.length (member_text (k, j)))%nat by (unfold member_text; cbn [fst snd]; rewrite !slen_app; cbn [String.length]; lia). lia.
Qed.
Theorem parse_print j : wfj j -> parse_json (print j) = Some j.
Proof.
  intros W. unfold parse_json. rewrite <- (sapp_nil_r (print j)) at 2. rewrite value_print by (assumption || exact I || lia). reflexivity.
Qed.
