(** json.Marshal followed by json.Unmarshal (C83, C84). *)
From Coq Require Import Lia ZArith NArith List Bool Sorted String Ascii.
Import ListNotations.
From Flocq Require Import Core BinarySingleNaN.
From Verif Require Import Go.Outcome Go.Int64 Go.Float64 Go.Text Go.Json Model.Date Spec.JsonSpec Proofs.Lex Proofs.FileText
  Proofs.JsonTime Proofs.JsonText Proofs.JsonTree.
Open Scope string_scope.
Open Scope list_scope.
Open Scope Z_scope.

Section Ind.
Variable P : gotype -> Prop.
Hypothesis HS : P TStr.
Hypothesis HI : P TInt.
Hypothesis HF : P TFloat.
Hypothesis HB : P TBool.
Hypothesis HT : P TTime.
Hypothesis HP : forall t, P t -> P (TPtr t).
Hypothesis HL : forall t, P t -> P (TSlice t).
Hypothesis HM : forall t, P t -> P (TMap t).
Hypothesis HR : forall fs, Forall (fun f => P (snd f)) fs -> P (TStruct fs).
Fixpoint gotype_rec' (t : gotype) : P t :=
  match t with
  | TStr => HS | TInt => HI | TFloat => HF | TBool => HB | TTime => HT
  | TPtr t' => HP t' (gotype_rec' t')
  | TSlice t' => HL t' (gotype_rec' t')
  | TMap t' => HM t' (gotype_rec' t')
  | TStruct fs =>
      HR fs ((fix go (fs : list (string * gotype)) : Forall (fun f => P (snd f)) fs :=
                match fs with
                | [] => Forall_nil _
                | f :: r => Forall_cons f (gotype_rec' (snd f)) (go r)
                end) fs)
  end.
End Ind.

(** Strings read back are valid UTF-8, so only those survive. *)
Lemma utf8_escape s : utf8 (unquote (escape s)).
Proof.
  remember (String.length s) as n eqn:En. assert (String.length s <= n)%nat as L by lia. clear En. revert s L.
  induction n as [|n IH]; intros s L.
  { destruct s; [constructor|cbn in L; lia]. }
  destruct s as [|c s]; [constructor|]. cbn [String.length] in L.
  destruct (N.lt_ge_cases (code c) 128) as [A|A].
  - rewrite escape_ascii, unquote_byte by assumption. apply utf8_1; [exact A|]. apply IH. lia.
  - assert (forall a b x, within a b x = true -> (a <= N_of_ascii x <= b)%N) as W.
    { intros a b x K. unfold within in K. apply andb_true_iff in K. destruct K as [K1 K2]. apply N.leb_le in K1, K2. auto. }
    assert (utf8 (unquote (String backslash "ufffd" ++ escape s))) as Bad.
    { change (unquote (String backslash "ufffd" ++ escape s)) with (String (chr 239) (String (chr 191) (String (chr 189) (unquote (escape s))))).
      apply utf8_3; [vm_compute; split; congruence|vm_compute; split; congruence|vm_compute; split; congruence|vm_compute; congruence|vm_compute; congruence|]. apply IH. lia. }
    cbn [escape]. destruct (N.ltb_spec (code c) 128); [lia|].
    destruct (rune_size (String c s)) as [|[|[|[|[|]]]]] eqn:R; try exact Bad.
    + destruct s as [|c1 t]; [constructor|]. pose proof R as R'. cbn [rune_size] in R'. destruct (N.ltb_spec (code c) 128); [lia|].
      destruct (within 194 223 c) eqn:W0; [|destruct t as [|c2 t]; [discriminate|]; destruct (within 224 239 c); [destruct (_ && _); discriminate|]; destruct t; [discriminate|]; destruct (within 240 244 c); [destruct (_ && _); discriminate|discriminate]].
      destruct (cont c1) eqn:W1; [|discriminate]. apply W in W0, W1.
      cbn [unquote]. rewrite high_not_backslash by (exact A). destruct (N.ltb_spec (code c) 128); [lia|]. rewrite size2 by assumption.
      apply utf8_2; [assumption|assumption|]. apply IH. cbn [String.length] in L. lia.
    + destruct s as [|c1 [|c2 t]]; [constructor|constructor|]. pose proof R as R'. cbn [rune_size] in R'. destruct (N.ltb_spec (code c) 128); [lia|].
      destruct (within 194 223 c) eqn:W0; [destruct (cont c1); discriminate|].
      destruct (within 224 239 c) eqn:W1; [|destruct t; [discriminate|]; destruct (within 240 244 c); [destruct (_ && _); discriminate|discriminate]].
      destruct (_ && cont c2) eqn:W2 in R'; [|discriminate]. apply andb_true_iff in W2. destruct W2 as [W2 W3]. apply W in W1, W3.
      assert ((128 <= N_of_ascii c1 <= 191)%N /\ (N_of_ascii c = 224 -> 160 <= N_of_ascii c1)%N /\ (N_of_ascii c = 237 -> N_of_ascii c1 <= 159)%N) as (B1 & B2 & B3).
      { unfold code in W2. destruct (N.eqb_spec (N_of_ascii c) 224); [apply W in W2; lia|]. destruct (N.eqb_spec (N_of_ascii c) 237); apply W in W2; lia. }
      destruct (_ && _) eqn:E.
      * apply andb_true_iff in E. destruct E as [_ E2]. unfold code in E2.
        assert (c2 = chr 168 \/ c2 = chr 169) as K
          by (apply orb_true_iff in E2; destruct E2 as [E2|E2]; apply N.eqb_eq in E2; rewrite <- (ascii_N_embedding c2), E2; auto).
        assert (forall r, unquote (String backslash (String "u" (String "2" (String "0" (String "2" (String (hex_char (code c2 mod 16)) ""))))) ++ r)%string
          = String (chr 226) (String (chr 128) (String c2 (unquote r)))) as ->.
        { intros r. destruct K as [-> | ->]; reflexivity. }
        apply utf8_3; [vm_compute; split; congruence|vm_compute; split; congruence|exact W3|vm_compute; congruence|vm_compute; congruence|]. apply IH. cbn [String.length] in L. lia.
      * cbn [unquote]. rewrite high_not_backslash by exact A. destruct (N.ltb_spec (code c) 128); [lia|]. rewrite size3 by assumption.
        apply utf8_3; try assumption. apply IH. cbn [String.length] in L. lia.
    + destruct s as [|c1 [|c2 [|c3 t]]]; [constructor|constructor|constructor|]. pose proof R as R'. cbn [rune_size] in R'. destruct (N.ltb_spec (code c) 128); [lia|].
      destruct (within 194 223 c) eqn:W0; [destruct (cont c1); discriminate|].
      destruct (within 224 239 c) eqn:W1; [destruct (_ && _); discriminate|].
      destruct (within 240 244 c) eqn:W2; [|discriminate].
      destruct (_ && cont c3) eqn:W3 in R'; [|discriminate]. apply andb_true_iff in W3. destruct W3 as [W3 W4]. apply andb_true_iff in W3. destruct W3 as [W3 W5].
      apply W in W2, W4, W5.
      assert ((128 <= N_of_ascii c1 <= 191)%N /\ (N_of_ascii c = 240 -> 144 <= N_of_ascii c1)%N /\ (N_of_ascii c = 244 -> N_of_ascii c1 <= 143)%N) as (B1 & B2 & B3).
      { unfold code in W3. destruct (N.eqb_spec (N_of_ascii c) 240); [apply W in W3; lia|]. destruct (N.eqb_spec (N_of_ascii c) 244); apply W in W3; lia. }
      cbn [unquote]. rewrite high_not_backslash by exact A. destruct (N.ltb_spec (code c) 128); [lia|]. rewrite size4 by assumption.
      apply utf8_4; try assumption. apply IH. cbn [String.length] in L. lia.
Qed.
Theorem string_survives s : unquote (escape s) = s <-> utf8 s.
Proof. split; [intros <-; apply utf8_escape|apply unquote_escape]. Qed.

(** *** Maps *)
Lemma before_lt a b : before a b -> str_lt a b = true /\ str_lt b a = false /\ String.eqb b a = false.
Proof.
  induction 1 as [c s|c c' s s' H|c s s' _ IH].
  - repeat split.
  - cbn [str_lt String.eqb]. unfold code. repeat split.
    + now rewrite (proj2 (N.ltb_lt _ _) H).
    + destruct (N.ltb_spec (N_of_ascii c') (N_of_ascii c)); [lia|]. destruct (N.eqb_spec (N_of_ascii c') (N_of_ascii c)); [lia|reflexivity].
    + destruct (Ascii.eqb_spec c' c); [subst; lia|reflexivity].
  - destruct IH as (I1 & I2 & I3). cbn [str_lt String.eqb]. rewrite N.ltb_irrefl, N.eqb_refl, Ascii.eqb_refl. auto.
Qed.
Lemma map_put_last {A} k (v : A) m : Forall (fun kv => before (fst kv) k) m -> map_put k v m = m ++ [(k, v)].
Proof.
  induction m as [|[k' v'] m IH]; intros F; [reflexivity|]. inversion F as [|? ? H Fm]; subst. cbn [fst] in H.
  destruct (before_lt _ _ H) as (_ & H2 & H3). cbn [map_put app]. rewrite H3, H2, IH by assumption. reflexivity.
Qed.

(** *** Structs *)
Lemma index_exact ns key pre post : ns = pre ++ key :: post -> NoDup ns -> index_of (fun n => String.eqb n key) ns = Some (List.length pre).
Proof.
  intros ->. induction pre as [|n pre IH]; intros N; cbn [app index_of List.length].
  - now rewrite String.eqb_refl.
  - inversion N as [|? ? Hn Np]; subst. destruct (String.eqb_spec n key) as [->|_]; [exfalso; apply Hn, in_elt|]. now rewrite IH.
Qed.
Lemma set_field_at D pre n t post don v0 tail : List.length don = List.length pre ->
  set_field D (pre ++ (n, t) :: post) (don ++ v0 :: tail) (List.length pre) = option_map (fun v' => don ++ v' :: tail) (D t v0).
Proof.
  revert don. induction pre as [|f pre IH]; intros don L; destruct don as [|d don]; try discriminate L; cbn [app List.length set_field].
  - destruct (D t v0); reflexivity.
  - destruct f as [n' t']. injection L as L. rewrite IH by assumption. destruct (D t v0); reflexivity.
Qed.

Lemma Forall2_weaken {A B} (P Q : A -> B -> Prop) l l' : (forall a b, P a b -> Q a b) -> Forall2 P l l' -> Forall2 Q l l'.
Proof. intros H. induction 1; constructor; auto. Qed.
Lemma all_some_map {A B} (f : A -> option B) l l' : Forall2 (fun a b => f a = Some b) l l' -> all_some (map f l) = Some l'.
Proof. induction 1 as [|a b l l' H _ IH]; [reflexivity|]. cbn [map all_some]. now rewrite H, IH. Qed.

Definition struct_fold (fs : list (string * gotype)) (ms : list (string * json)) (vs : option (list goval)) : option (list goval) :=
  fold_left (fun acc kv =>
    match acc with
    | None => None
    | Some vs =>
        match field_index (map fst fs) (unquote (fst kv)) with
        | None => Some vs
        | Some i => set_field (fun t' v => decode t' v (snd kv)) fs vs i
        end
    end) ms vs.
Definition enc_fields : list (string * gotype) -> list goval -> option (list (string * json)) :=
  fix fields (fs : list (string * gotype)) (vs : list goval) : option (list (string * json)) :=
    match fs, vs with
    | [], [] => Some []
    | (n, t') :: fs', v' :: vs' =>
        match encode t' v', fields fs' vs' with
        | Some j, Some l => Some ((escape n, j) :: l)
        | _, _ => None
        end
    | _, _ => None
    end.
Definition storable_fields : list (string * gotype) -> list goval -> Prop :=
  fix fields (fs : list (string * gotype)) (vs : list goval) : Prop :=
    match fs, vs with
    | [], [] => True
    | (_, t') :: fs', v' :: vs' => storable t' v' /\ fields fs' vs'
    | _, _ => False
    end.
Definition named_fields : list (string * gotype) -> Prop :=
  fix fields (fs : list (string * gotype)) : Prop :=
    match fs with
    | [] => True
    | (n, t') :: fs' => utf8 n /\ well_named t' /\ fields fs'
    end.

Definition back (t : gotype) (v : goval) : Prop :=
  exists j, encode t v = Some j /\ wfj j /\ (has_nil t = false -> j <> JNull) /\ decode t (zero t) j = Some v.

Lemma fields_back all pre fs vs don :
  Forall (fun f => forall v, well_named (snd f) -> storable (snd f) v -> back (snd f) v) fs ->
  all = pre ++ fs -> NoDup (map fst all) -> named_fields fs -> storable_fields fs vs -> List.length don = List.length pre ->
  exists ms, enc_fields fs vs = Some ms /\ Forall (fun kv => literal (fst kv) /\ wfj (snd kv)) ms /\
    struct_fold all ms (Some (don ++ map (fun f => zero (snd f)) fs)) = Some (don ++ vs).
Proof.
  intros F. revert pre don vs. induction F as [|[n t] fs Ht _ IH]; intros pre don vs Ea Nd Nm Sv L; destruct vs as [|v vs]; try contradiction Sv.
  - exists []. split; [reflexivity|]. split; [constructor|reflexivity].
  - cbn [snd] in Ht. destruct Nm as (Un & Wt & Nm). destruct Sv as (Sv & Svs).
    destruct (Ht v Wt Sv) as (j & Ej & Wj & _ & Dj).
    destruct (IH (pre ++ [(n, t)]) (don ++ [v]) vs) as (ms & Em & Wm & Dm); [rewrite <- app_assoc; exact Ea|assumption|assumption|assumption|rewrite !app_length; cbn; lia|].
    exists ((escape n, j) :: ms). split; [cbn [enc_fields]; fold enc_fields; now rewrite Ej, Em|].
    split; [constructor; [split; [exact (scan_escape n)|exact Wj]|exact Wm]|].
    unfold struct_fold. cbn [fold_left fst snd map]. rewrite unquote_escape by assumption.
    assert (field_index (map fst all) n = Some (List.length pre)) as ->.
    { unfold field_index. rewrite (index_exact (map fst all) n (map fst pre) (map fst fs)); [now rewrite map_length| |assumption].
      rewrite Ea, map_app. reflexivity. }
    pose proof (set_field_at (fun t' v0 => decode t' v0 j) pre n t fs don (zero t) (map (fun f => zero (snd f)) fs) L) as SF.
    rewrite <- Ea in SF. rewrite SF, Dj. cbn [option_map].
    rewrite <- !app_assoc in Dm. exact Dm.
Qed.

Theorem encode_decode t : forall v, well_named t -> storable t v -> back t v.
Proof.
  induction t as [ | | | | |t IH|t IH|t IH|fs IH] using gotype_rec'; intros v W S; destruct v; try contradiction S.
  - eexists. split; [reflexivity|]. split; [constructor; exact (scan_escape s)|]. split; [discriminate|]. cbn [decode]. now rewrite unquote_escape.
  - eexists. split; [reflexivity|]. split; [constructor; apply fmt_int_numeral|]. split; [discriminate|]. cbn [decode]. rewrite parse_fmt_int by (lia || exact S). reflexivity.
  - cbn [storable] in S. destruct (json_float_back x S) as (s & E1 & E2 & E3). exists (JNum s). split; [cbn [encode]; now rewrite E1|].
    split; [now constructor|]. split; [discriminate|]. cbn [decode]. now rewrite E3.
  - exists (JBool b). split; [reflexivity|]. split; [constructor|]. split; [discriminate|reflexivity].
  - cbn [storable] in S. destruct S as (S1 & S2 & S3). destruct (time_back off t (conj S1 S2) S3) as (raw & E1 & E2).
    exists (JStr raw). split; [cbn [encode]; now rewrite E1|]. split; [constructor; intros r; apply plain_text; exact (time_plain off t raw (conj S1 S2) S3 E1)|].
    split; [discriminate|]. cbn [decode]. now rewrite E2.
  - destruct o as [v|].
    + destruct S as [S0 S]. destruct (IH v W S) as (j & E1 & E2 & E3 & E4). exists j. split; [exact E1|]. split; [exact E2|]. split; [discriminate|].
      specialize (E3 S0). cbn [decode zero]. rewrite E4. destruct j; try reflexivity. congruence.
    + exists JNull. split; [reflexivity|]. split; [constructor|]. split; [discriminate|reflexivity].
  - destruct o as [l|].
    + cbn [storable] in S. cbn [well_named] in W.
      assert (exists js, Forall2 (fun v j => encode t v = Some j /\ wfj j /\ decode t (zero t) j = Some v) l js) as (js & F).
      { induction S as [|v l Sv _ [js F]]; [exists []; constructor|]. destruct (IH v W Sv) as (j & E1 & E2 & _ & E4). exists (j :: js). constructor; auto. }
      exists (JArr js). split; [|split; [|split; [discriminate|]]].
      * cbn [encode]. erewrite all_some_map; [reflexivity|]. eapply Forall2_weaken; [|exact F]. cbv beta. now intros a b (H & _).
      * constructor. clear -F. induction F as [|v j l js (_ & H & _) _ IHF]; constructor; auto.
      * cbn [decode zero]. cbv zeta. rewrite (all_some_map _ _ l); [reflexivity|].
        assert (forall k, Forall2 (fun (a : nat * json) b => decode t (nth (fst a) [] (zero t)) (snd a) = Some b) (combine (seq k (List.length js)) js) l) as G; [|exact (G 0%nat)].
        clear -F. induction F as [|v j l js (_ & _ & H) _ IHF]; intros k; [constructor|]. cbn [List.length seq combine]. constructor; [|apply IHF].
        cbn [fst snd]. replace (nth k [] (zero t)) with (zero t) by (now destruct k). exact H.
    + exists JNull. split; [reflexivity|]. split; [constructor|]. split; [discriminate|reflexivity].
  - destruct o as [l|].
    + destruct S as [S O]. cbn [well_named] in W.
      assert (exists ms, Forall2 (fun kv m => option_map (pair (escape (fst kv))) (encode t (snd kv)) = Some m /\ literal (fst m) /\ wfj (snd m) /\
        unquote (fst m) = fst kv /\ decode t (zero t) (snd m) = Some (snd kv)) l ms) as (ms & F).
      { clear O. induction S as [|kv l [Sk Sv] _ [ms F]]; [exists []; constructor|]. destruct (IH (snd kv) W Sv) as (j & E1 & E2 & _ & E4).
        exists ((escape (fst kv), j) :: ms). constructor; [|exact F]. rewrite E1. cbn [option_map fst snd].
        split; [reflexivity|]. split; [exact (scan_escape _)|]. split; [exact E2|]. split; [now apply unquote_escape|exact E4]. }
      exists (JObj ms). split; [|split; [|split; [discriminate|]]].
      * cbn [encode]. erewrite all_some_map; [reflexivity|]. eapply Forall2_weaken; [|exact F]. cbv beta. now intros a b (H & _).
      * constructor. clear -F. induction F as [|v j l js (_ & H1 & H2 & _) _ IHF]; constructor; auto.
      * cbn [decode zero]. cbv zeta.
        assert (forall m0, Forall (fun kv => Forall (fun kv' => before (fst kv) (fst kv')) l) m0 ->
          fold_left (fun acc kv => match acc, decode t (zero t) (snd kv) with
            | Some m, Some v => Some (map_put (unquote (fst kv)) v m) | _, _ => None end) ms (Some m0) = Some (m0 ++ l)) as G.
        { clear -F O. induction F as [|kv m l ms (_ & _ & _ & E1 & E2) _ IHF]; intros m0 Hm; [now rewrite app_nil_r|].
          cbn [fold_left]. rewrite E2, E1. cbn [map] in O. inversion O as [|? ? O1 O2]; subst.
          rewrite map_put_last by (eapply Forall_impl; [|exact Hm]; cbv beta; intros a Ha; now inversion Ha).
          rewrite IHF; [rewrite <- app_assoc; destruct kv; reflexivity|assumption|].
          apply Forall_app. split.
          - eapply Forall_impl; [|exact Hm]. cbv beta. intros a Ha. now inversion Ha.
          - constructor; [|constructor]. cbn [fst]. clear -O2. rewrite Forall_map in O2. exact O2. }
        rewrite (G [] (Forall_nil _)). reflexivity.
    + exists JNull. split; [reflexivity|]. split; [constructor|]. split; [discriminate|reflexivity].
  - destruct W as [Nd Nm].
    destruct (fields_back fs [] fs vs [] IH eq_refl Nd Nm S eq_refl) as (ms & E1 & E2 & E3).
    exists (JObj ms). split; [|split; [now constructor|split; [discriminate|]]].
    + cbn [encode]. change (option_map JObj (enc_fields fs vs) = Some (JObj ms)). now rewrite E1.
    + cbn [decode zero]. cbv zeta. change (option_map VStruct (struct_fold fs ms (Some (map (fun f => zero (snd f)) fs))) = Some (VStruct vs)).
      cbn [app] in E3. now rewrite E3.
Qed.

(** Values of a type are not nested deeper than the type. *)
Fixpoint type_levels (t : gotype) : Z :=
  match t with
  | TPtr t' => type_levels t'
  | TSlice t' | TMap t' => 1 + type_levels t'
  | TStruct fs => 1 + fold_right Z.max 0 (map (fun f => type_levels (snd f)) fs)
  | _ => 0
  end.
Lemma max_nonneg l : 0 <= fold_right Z.max 0 l. Proof. induction l; cbn [fold_right]; lia. Qed.
Lemma type_levels_nonneg t : 0 <= type_levels t.
Proof. induction t using gotype_rec'; cbn [type_levels]; try lia. pose proof (max_nonneg (map (fun f => type_levels (snd f)) fs)). lia. Qed.
Lemma encode_levels t : forall v j, encode t v = Some j -> nesting j <= type_levels t.
Proof.
  assert (forall {A} (f : A -> option json) d l js, 0 <= d -> (forall a j, f a = Some j -> nesting j <= d) -> all_some (map f l) = Some js ->
    fold_right Z.max 0 (map nesting js) <= d) as All.
  { intros A f d l. induction l as [|a l IH]; intros js Hd Hf E; cbn [map all_some] in E; [injection E as <-; exact Hd|].
    destruct (f a) as [j|] eqn:Ea; [|discriminate E]. destruct (all_some (map f l)) as [r|] eqn:Er; [|discriminate E]. injection E as <-.
    cbn [map fold_right]. specialize (IH r Hd Hf eq_refl). specialize (Hf a j Ea). lia. }
  induction t as [ | | | | |t IH|t IH|t IH|fs IH] using gotype_rec'; intros v j E; destruct v; try discriminate E; cbn [encode] in E; cbn [type_levels].
  - injection E as <-. cbn. lia.
  - injection E as <-. cbn. lia.
  - destruct (json_float x); [injection E as <-; cbn; lia|discriminate E].
  - injection E as <-. cbn. lia.
  - destruct (json_time _ _) in E; [injection E as <-; cbn; lia|discriminate E].
  - destruct o as [v|]; [now apply (IH v)|]. injection E as <-. cbn [nesting]. apply type_levels_nonneg.
  - pose proof (type_levels_nonneg t). destruct o as [l|]; [|injection E as <-; cbn [nesting]; lia].
    destruct (all_some (map (encode t) l)) as [js|] eqn:El; [|discriminate E]. injection E as <-. cbn [nesting].
    pose proof (All _ _ _ _ _ H IH El). lia.
  - pose proof (type_levels_nonneg t). destruct o as [l|]; [|injection E as <-; cbn [nesting]; lia].
    destruct (all_some _) as [ms|] eqn:El in E; [|discriminate E]. injection E as <-. cbn [nesting].
    assert (fold_right Z.max 0 (map (fun kv => nesting (snd kv)) ms) <= type_levels t).
    { clear -El IH H. revert ms El. induction l as [|kv l IHl]; intros ms El; cbn [map all_some] in El; [injection El as <-; exact H|].
      destruct (encode t (snd kv)) as [j|] eqn:Ej; [|discriminate El]. cbn [option_map] in El.
      destruct (all_some _) as [r|] eqn:Er in El; [|discriminate El]. injection El as <-. cbn [map fold_right snd].
      specialize (IHl r Er). specialize (IH _ _ Ej). lia. }
    lia.
  - change (option_map JObj (enc_fields fs vs) = Some j) in E. destruct (enc_fields fs vs) as [ms|] eqn:Em; [|discriminate E]. injection E as <-.
    cbn [nesting]. assert (fold_right Z.max 0 (map (fun kv => nesting (snd kv)) ms) <= fold_right Z.max 0 (map (fun f => type_levels (snd f)) fs)); [|lia].
    revert vs ms Em. induction fs as [|[n t] fs IHf]; intros [|v vs] ms Em; try discriminate Em.
    + injection Em as <-. cbn. lia.
    + change (match encode t v, enc_fields fs vs with Some j, Some l => Some ((escape n, j) :: l) | _, _ => None end = Some ms) in Em.
      destruct (encode t v) as [j|] eqn:Ej; [|discriminate Em]. destruct (enc_fields fs vs) as [l|] eqn:El; [|discriminate Em]. injection Em as <-.
      cbn [map fold_right snd]. inversion IH as [|? ? IH1 IH2]; subst. specialize (IH1 _ _ Ej). specialize (IHf IH2 vs l El). cbn [snd] in IH1. lia.
Qed.

Theorem marshal_unmarshal t v : (type_levels t <=? max_nesting) = true -> well_named t -> storable t v ->
  exists s, marshal t v = Some s /\ unmarshal t s = Some v.
Proof.
  intros L W S. destruct (encode_decode t v W S) as (j & E1 & E2 & _ & E3). exists (print j). unfold marshal, unmarshal.
  rewrite E1. split; [reflexivity|]. rewrite parse_print by assumption. apply Z.leb_le in L. pose proof (encode_levels t v j E1).
  replace (nesting j <=? max_nesting) with true by (symmetry; apply Z.leb_le; lia). exact E3.
Qed.

(** *** What the writer refuses *)
Lemma all_some_none {A} (l : list (option A)) : all_some l = None <-> Exists (fun o => o = None) l.
Proof.
  induction l as [|[a|] l IH]; cbn [all_some].
  - split; [discriminate|]. intros H. inversion H.
  - rewrite Exists_cons. destruct (all_some l); [|tauto]. split; [discriminate|]. intros [H|H]; [discriminate|]. apply IH in H. discriminate.
  - rewrite Exists_cons. tauto.
Qed.
Lemma option_map_none {A B} (f : A -> B) o : option_map f o = None <-> o = None.
Proof. destruct o; cbn; split; congruence. Qed.
Lemma Exists_ext_in {A} (P Q : A -> Prop) l : (forall a, In a l -> P a <-> Q a) -> Exists P l <-> Exists Q l.
Proof. intros H. rewrite !Exists_exists. split; intros (x & I & K); exists x; split; trivial; now apply H. Qed.
Definition typed_fields : list (string * gotype) -> list goval -> Prop :=
  fix fields (fs : list (string * gotype)) (vs : list goval) : Prop :=
    match fs, vs with
    | [], [] => True
    | (_, t') :: fs', v' :: vs' => typed t' v' /\ fields fs' vs'
    | _, _ => False
    end.
Definition beyond_fields : list (string * gotype) -> list goval -> Prop :=
  fix fields (fs : list (string * gotype)) (vs : list goval) : Prop :=
    match fs, vs with
    | (_, t') :: fs', v' :: vs' => beyond_json t' v' \/ fields fs' vs'
    | _, _ => False
    end.
Theorem encode_none t : forall v, typed t v -> (encode t v = None <-> beyond_json t v).
Proof.
  induction t as [ | | | | |t IH|t IH|t IH|fs IH] using gotype_rec'; intros v T; destruct v; try contradiction T; cbn [encode beyond_json].
  - split; [discriminate|tauto].
  - split; [discriminate|tauto].
  - rewrite option_map_none. apply json_float_none.
  - split; [discriminate|tauto].
  - rewrite option_map_none. destruct T as (T1 & T2 & T3). apply json_time_none. unfold local_seconds.
    assert (absolute_to_unix <= - 2 ^ 62 - 86400) by (apply Z.leb_le; vm_compute; reflexivity). lia.
  - destruct o as [v|]; [now apply IH|]. split; [discriminate|tauto].
  - destruct o as [l|]; [|split; [discriminate|tauto]]. cbn [typed] in T. rewrite option_map_none, all_some_none, Exists_map. apply Exists_ext_in.
    intros a Ha. apply IH. rewrite Forall_forall in T. now apply T.
  - destruct o as [l|]; [|split; [discriminate|tauto]]. cbn [typed] in T. destruct T as [T _].
    rewrite option_map_none, all_some_none, Exists_map. apply Exists_ext_in.
    intros a Ha. rewrite option_map_none. apply IH. rewrite Forall_forall in T. now apply T.
  - rewrite option_map_none. change (enc_fields fs vs = None <-> beyond_fields fs vs). change (typed_fields fs vs) in T.
    revert vs T. induction IH as [|[n t] fs Ht _ IHfs]; intros [|v vs] T; try contradiction T.
    + split; [discriminate|contradiction].
    + destruct T as [T Ts]. cbn [snd] in Ht. specialize (Ht v T). specialize (IHfs vs Ts).
      change (match encode t v, enc_fields fs vs with Some j, Some l => Some ((escape n, j) :: l) | _, _ => None end = None <-> beyond_json t v \/ beyond_fields fs vs).
      rewrite <- Ht, <- IHfs. destruct (encode t v); [|split; auto]. destruct (enc_fields fs vs); split; intros H; auto; try discriminate.
      destruct H; discriminate.
Qed.
Theorem marshal_none t v : typed t v -> (marshal t v = None <-> beyond_json t v).
Proof. intros T. unfold marshal. rewrite option_map_none. now apply encode_none. Qed.
