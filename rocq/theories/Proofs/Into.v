(** JSON read over an old value (C101). *)
From Coq Require Import ZArith Lia List Sorted Bool String Ascii.
From Verif Require Import Go.Float64 Go.Json Go.JsonInto Model.Asset Model.Pair Model.Candle Model.OrderBook Model.Entities Model.Strings
  Model.Strategy Model.Indicators Model.Stored Spec.JsonSpec Spec.StoredSpec Spec.IntoSpec Proofs.JsonText Proofs.JsonTree Proofs.JsonValue Proofs.JsonDenote Proofs.Stored.
Import ListNotations.
Open Scope list_scope.
Open Scope Z_scope.

(** *** Maps *)
Lemma put_keys {A} k (v : A) m : StronglySorted before (map fst m) ->
  StronglySorted before (map fst (map_put k v m)) /\
  forall k' x, In (k', x) (map_put k v m) <-> (k' = k /\ x = v) \/ (In (k', x) m /\ k' <> k).
Proof.
  induction m as [|[k0 v0] m IH]; intros O; cbn [map_put].
  - split; [constructor; constructor|]. intros k' x. cbn [In]. split; [intros [E|[]]; injection E as <- <-; auto|]. intros [[-> ->]|[[] _]]; auto.
  - cbn [map fst] in O. inversion O as [|? ? O1 O2]; subst. destruct (IH O1) as [I1 I2].
    destruct (String.eqb_spec k k0) as [->|Hk].
    + split; [exact O|]. intros k' x. cbn [In]. split.
      * intros [E|H]; [injection E as <- <-; auto|]. right. split; [auto|]. intros ->. rewrite Forall_forall in O2.
        specialize (O2 k0 (in_map fst m (k0, x) H)). destruct (before_lt _ _ O2) as (_ & _ & E). rewrite String.eqb_refl in E. discriminate E.
      * intros [[-> ->]|[[E|H] N]]; [auto|injection E as <- <-; congruence|auto].
    + destruct (str_lt k k0) eqn:L.
      * apply lt_before in L. split.
        -- cbn [map fst]. constructor; [exact O|]. constructor; [exact L|]. eapply Forall_impl; [|exact O2]. cbv beta. intros a. now apply before_trans.
        -- intros k' x. cbn [In]. split.
           ++ intros [E|H]; [injection E as <- <-; auto|]. right. split; [exact H|]. intros ->. destruct H as [E|H]; [injection E as <- _; congruence|].
              rewrite Forall_forall in O2. specialize (O2 k (in_map fst m (k, x) H)). pose proof (before_trans _ _ _ L O2) as B.
              destruct (before_lt _ _ B) as (_ & _ & E). rewrite String.eqb_refl in E. discriminate E.
           ++ intros [[-> ->]|[H N]]; auto.
      * apply (total_before k k0) in L; [|exact Hk]. split.
        -- cbn [map fst]. constructor; [exact I1|]. apply Forall_forall. intros k' Hk'. apply in_map_iff in Hk' as ([k1 x] & E & H). cbn [fst] in E. subst k1.
           apply I2 in H as [[-> ->]|[H _]]; [exact L|]. rewrite Forall_forall in O2. apply O2. exact (in_map fst m (k', x) H).
        -- intros k' x. cbn [In]. rewrite I2. split.
           ++ intros [E|[H|[H N]]]; [injection E as <- <-; right; split; [auto|congruence]|auto|auto].
           ++ intros [H|[[H|H] N]]; auto.
Qed.

(** *** Any type *)
Definition shaped_fields : list (string * gotype) -> list goval -> Prop :=
  fix fields (fs : list (string * gotype)) (vs : list goval) : Prop :=
    match fs, vs with
    | [], [] => True
    | (_, t') :: fs', v' :: vs' => shaped t' v' /\ fields fs' vs'
    | _, _ => False
    end.
Definition over_fields : list (string * gotype) -> list goval -> list goval -> list goval -> Prop :=
  fix fields (fs : list (string * gotype)) (os ws rs : list goval) : Prop :=
    match fs, os, ws, rs with
    | [], [], [], [] => True
    | (_, t') :: fs', o :: os', w :: ws', x :: rs' => over t' o w x /\ fields fs' os' ws' rs'
    | _, _, _, _ => False
    end.
Definition lands (t : gotype) (v : goval) : Prop :=
  forall j old, encode t v = Some j -> shaped t old -> exists r, decode t old j = Some r /\ over t old v r.

Lemma fields_land all pre fs vs os don :
  Forall (fun f => forall v, well_named (snd f) -> storable (snd f) v -> lands (snd f) v) fs ->
  all = pre ++ fs -> NoDup (map fst all) -> named_fields fs -> storable_fields fs vs -> shaped_fields fs os -> List.length don = List.length pre ->
  exists ms rs, enc_fields fs vs = Some ms /\ struct_fold all ms (Some (don ++ os)) = Some (don ++ rs) /\ over_fields fs os vs rs.
Proof.
  intros F. revert pre don vs os. induction F as [|[n t] fs Ht _ IH]; intros pre don vs os Ea Nd Nm Sv So L;
    destruct vs as [|v vs]; try contradiction Sv; destruct os as [|o os]; try contradiction So.
  - exists [], []. split; [reflexivity|]. split; [reflexivity|exact I].
  - cbn [snd] in Ht. destruct Nm as (Un & Wt & Nm). destruct Sv as (Sv & Svs). destruct So as (So & Sos).
    destruct (encode_decode t v Wt Sv) as (j & Ej & _). destruct (Ht v Wt Sv j o Ej So) as (x & Dj & Ov).
    destruct (IH (pre ++ [(n, t)]) (don ++ [x]) vs os) as (ms & rs & Em & Dm & Om);
      [rewrite <- app_assoc; exact Ea|assumption|assumption|assumption|assumption|rewrite !app_length; cbn; lia|].
    exists ((escape n, j) :: ms), (x :: rs). split; [cbn [enc_fields]; fold enc_fields; now rewrite Ej, Em|]. split; [|split; assumption].
    unfold struct_fold. cbn [fold_left fst snd map]. rewrite unquote_escape by assumption.
    assert (field_index (map fst all) n = Some (List.length pre)) as ->.
    { unfold field_index. rewrite (index_exact (map fst all) n (map fst pre) (map fst fs)); [now rewrite map_length| |assumption].
      rewrite Ea, map_app. reflexivity. }
    pose proof (set_field_at (fun t' v0 => decode t' v0 j) pre n t fs don o os L) as SF.
    rewrite <- Ea in SF. rewrite SF, Dj. cbn [option_map].
    rewrite <- !app_assoc in Dm. exact Dm.
Qed.

Lemma shaped_zero t : shaped t (zero t).
Proof.
  induction t as [ | | | | |t IH|t IH|t IH|fs IH] using gotype_rec'; cbn [shaped zero]; auto.
  change (shaped_fields fs (map (fun f => zero (snd f)) fs)). induction IH as [|[n t] fs H _ IHf]; [exact I|]. cbn [map snd]. split; [exact H|exact IHf].
Qed.

(** Types whose decoding does not look at [old]. *)
Lemma lands_flat t v : (forall j old, encode t v = Some j -> decode t old j = decode t (zero t) j) ->
  (forall old r, over t old v r <-> r = v) -> back t v -> lands t v.
Proof.
  intros H1 H2 (j & E & _ & _ & D) j' old E' _. rewrite E in E'. injection E' as <-. exists v. split; [now rewrite (H1 j old E)|]. now apply H2.
Qed.

Theorem encode_over t : forall v, well_named t -> storable t v -> lands t v.
Proof.
  induction t as [ | | | | |t IH|t IH|t IH|fs IH] using gotype_rec'; intros v W S; pose proof (encode_decode _ v W S) as B; destruct v; try contradiction S.
  - apply lands_flat; [|intros; reflexivity|exact B]. intros j old E. injection E as <-. reflexivity.
  - apply lands_flat; [|intros; reflexivity|exact B]. intros j old E. injection E as <-. reflexivity.
  - apply lands_flat; [|intros; reflexivity|exact B]. intros j old E. cbn [encode] in E. destruct (json_float x); [|discriminate E]. injection E as <-. reflexivity.
  - apply lands_flat; [|intros; reflexivity|exact B]. intros j old E. injection E as <-. reflexivity.
  - apply lands_flat; [|intros; reflexivity|exact B]. intros j old E. cbn [encode] in E. destruct (json_time _ _) in E; [|discriminate E]. injection E as <-. reflexivity.
  - destruct o as [v|].
    + destruct S as [S0 S]. intros j old E So. cbn [encode] in E.
      destruct (encode_decode t v W S) as (j0 & E1 & _ & E3 & _). rewrite E in E1. injection E1 as <-. specialize (E3 S0).
      set (o := match old with VPtr (Some w) => w | _ => zero t end).
      assert (shaped t o) as Ho.
      { subst o. destruct old as [ | | | | |[w|]| | | ]; try apply shaped_zero. exact So. }
      destruct (IH v W S j o E Ho) as (x & D & O). exists (VPtr (Some x)). split.
      * cbn [decode]. fold o. rewrite D. destruct j; try reflexivity. congruence.
      * cbn [over]. destruct old as [ | | | | |[w|]| | | ]; try contradiction So; [exists x; split; [reflexivity|exact O]|].
        subst o. destruct B as (j1 & F1 & _ & _ & F4). cbn [encode] in F1. rewrite E in F1. injection F1 as <-.
        cbn [decode zero] in F4. rewrite D in F4. destruct j; try (injection F4 as <-; reflexivity). congruence.
    + intros j old E _. injection E as <-. exists (VPtr None). split; [reflexivity|]. cbn [over]. destruct old as [ | | | | |[w|]| | | ]; reflexivity.
  - destruct o as [l|].
    + cbn [storable] in S. cbn [well_named] in W. intros j old E So. cbn [encode] in E.
      destruct (all_some (map (encode t) l)) as [js|] eqn:Ej; [|discriminate E]. injection E as <-.
      set (olds := match old with VSlice (Some vs) => vs | _ => [] end).
      assert (Forall (shaped t) olds) as Ho.
      { subst olds. destruct old as [ | | | | | |[w|]| | ]; try apply Forall_nil. exact So. }
      assert (forall k, exists rs, List.length rs = List.length l /\
        all_some (map (fun ij => decode t (nth (fst ij) olds (zero t)) (snd ij)) (combine (seq k (List.length js)) js)) = Some rs /\
        forall i w x, nth_error l i = Some w -> nth_error rs i = Some x ->
          match nth_error olds (k + i) with Some o => over t o w x | None => x = w end) as G.
      { clearbody olds. clear old So B. revert js Ej. induction S as [|v l Sv _ IHl]; intros js Ej k; cbn [map all_some] in Ej.
        - injection Ej as <-. exists []. split; [reflexivity|]. split; [reflexivity|]. intros i w x H. destruct i; discriminate H.
        - destruct (encode t v) as [j|] eqn:E; [|discriminate Ej]. destruct (all_some (map (encode t) l)) as [js'|] eqn:E'; [|discriminate Ej].
          injection Ej as <-. destruct (IHl js' eq_refl (S k)) as (rs & R1 & R2 & R3).
          assert (exists x, decode t (nth k olds (zero t)) j = Some x /\ match nth_error olds k with Some o => over t o v x | None => x = v end) as (x & D & O).
          { destruct (nth_error olds k) as [o|] eqn:No.
            - rewrite (nth_error_nth _ _ (zero t) No). apply (IH v W Sv j o E). rewrite Forall_forall in Ho. apply Ho. eapply nth_error_In. exact No.
            - apply nth_error_None in No. rewrite nth_overflow by exact No. exists v. split; [|reflexivity].
              destruct (encode_decode t v W Sv) as (j0 & F1 & _ & _ & F4). rewrite E in F1. injection F1 as <-. exact F4. }
          exists (x :: rs). cbn [List.length seq combine map all_some fst snd]. rewrite D, R2. split; [now rewrite R1|]. split; [reflexivity|].
          intros [|i] w y Hw Hy; cbn [nth_error] in Hw, Hy.
          + injection Hw as <-. injection Hy as <-. rewrite Nat.add_0_r. exact O.
          + specialize (R3 i w y Hw Hy). rewrite Nat.add_succ_r. exact R3. }
      destruct (G 0%nat) as (rs & R1 & R2 & R3). exists (VSlice (Some rs)). split.
      * cbn [decode]. cbv zeta. fold olds. now rewrite R2.
      * cbn [over]. destruct old as [ | | | | | |[w|]| | ]; try contradiction So; [exists rs; split; [reflexivity|]; split; [exact R1|exact R3]|].
        f_equal. f_equal. subst olds. cbn [nth_error] in R3. clear -R1 R3. revert rs R1 R3.
        induction l as [|a l IHl]; intros [|b rs] R1 R3; try discriminate R1; [reflexivity|].
        pose proof (R3 0%nat a b eq_refl eq_refl) as H0. cbn in H0. subst b. f_equal. apply IHl; [now injection R1|].
        intros i w x Hw Hx. pose proof (R3 (S i) w x Hw Hx) as H. cbn [plus nth_error] in H. replace (nth_error [] (0 + i)) with (@None goval) by (now destruct i). exact H.
    + intros j old E _. injection E as <-. exists (VSlice None). split; [reflexivity|]. cbn [over]. destruct old as [ | | | | | |[w|]| | ]; reflexivity.
  - destruct o as [l|].
    + destruct S as [S O]. cbn [well_named] in W. intros j old E So. cbn [encode] in E.
      destruct (all_some _) as [ms|] eqn:Ej in E; [|discriminate E]. injection E as <-.
      set (m0 := match old with VMap (Some m) => m | _ => [] end).
      assert (StronglySorted before (map fst m0)) as Hm.
      { subst m0. destruct old as [ | | | | | | |[w|]| ]; try apply SSorted_nil. exact (proj2 So). }
      assert (forall m0, StronglySorted before (map fst m0) -> exists rs,
        fold_left (fun acc kv => match acc, decode t (zero t) (snd kv) with
          | Some m, Some v => Some (map_put (unquote (fst kv)) v m) | _, _ => None end) ms (Some m0) = Some rs /\
        StronglySorted before (map fst rs) /\
        forall k x, In (k, x) rs <-> In (k, x) l \/ (In (k, x) m0 /\ ~ In k (map fst l))) as G.
      { clearbody m0. clear old So B m0 Hm. revert ms Ej. induction S as [|[k0 v0] l [Sk Sv] _ IHl]; intros ms Ej m0 Hm; cbn [map all_some] in Ej.
        - injection Ej as <-. exists m0. split; [reflexivity|]. split; [exact Hm|]. intros k x. cbn [In map]. tauto.
        - cbn [fst snd] in Sk, Sv, Ej. destruct (encode t v0) as [j|] eqn:E; [|discriminate Ej]. cbn [option_map] in Ej.
          destruct (all_some _) as [ms'|] eqn:E' in Ej; [|discriminate Ej]. injection Ej as <-.
          destruct (encode_decode t v0 W Sv) as (j0 & F1 & _ & _ & F4). rewrite E in F1. injection F1 as <-.
          cbn [map fst] in O. inversion O as [|? ? O1 O2]; subst.
          destruct (put_keys k0 v0 m0 Hm) as [P1 P2]. destruct (IHl O1 ms' E' (map_put k0 v0 m0) P1) as (rs & R1 & R2 & R3).
          exists rs. cbn [fold_left fst snd]. rewrite F4, unquote_escape by exact Sk. split; [exact R1|]. split; [exact R2|].
          intros k x. rewrite R3, P2. cbn [In map fst].
          assert (~ In k0 (map fst l)) as N0.
          { intros H. rewrite Forall_forall in O2. destruct (before_lt _ _ (O2 k0 H)) as (_ & _ & X). rewrite String.eqb_refl in X. discriminate X. }
          split.
          + intros [H|[[[-> ->]|[H1 H2]] H3]]; [auto|auto|]. right. split; [exact H1|]. intros [->|H4]; [congruence|contradiction].
          + intros [[H|H]|[H1 H2]]; [injection H as <- <-; right; split; [auto|exact N0]|auto|].
            right. split; [right; split; [exact H1|]; intros ->; apply H2; auto|]. intros H3. apply H2. auto. }
      destruct (G m0 Hm) as (rs & R1 & R2 & R3). exists (VMap (Some rs)). split.
      * cbn [decode]. cbv zeta. fold m0. now rewrite R1.
      * cbn [over]. destruct old as [ | | | | | | |[w|]| ]; try contradiction So; [exists rs; split; [reflexivity|]; split; [exact R2|exact R3]|].
        destruct B as (j1 & F1 & _ & _ & F4). cbn [encode] in F1. rewrite Ej in F1. injection F1 as <-.
        cbn [decode zero] in F4. cbv zeta in F4. subst m0. rewrite R1 in F4. injection F4 as <-. reflexivity.
    + intros j old E _. injection E as <-. exists (VMap None). split; [reflexivity|]. cbn [over]. destruct old as [ | | | | | | |[w|]| ]; reflexivity.
  - destruct W as [Nd Nm]. intros j old E So. destruct old as [ | | | | | | | |os]; try contradiction So.
    destruct (fields_land fs [] fs vs os [] IH eq_refl Nd Nm S So eq_refl) as (ms & rs & E1 & E2 & E3).
    change (option_map JObj (enc_fields fs vs) = Some j) in E. rewrite E1 in E. injection E as <-.
    exists (VStruct rs). split; [|exact E3].
    cbn [decode]. cbv zeta. change (option_map VStruct (struct_fold fs ms (Some os)) = Some (VStruct rs)). cbn [app] in E2. now rewrite E2.
Qed.

Theorem marshal_into t v old : (type_levels t <=? max_nesting) = true -> well_named t -> storable t v -> shaped t old ->
  exists s r, marshal t v = Some s /\ unmarshal_into t old s = Some r /\ over t old v r.
Proof.
  intros L W S So. destruct (encode_decode t v W S) as (j & E1 & E2 & _). destruct (encode_over t v W S j old E1 So) as (r & D & O).
  exists (print j), r. unfold marshal, unmarshal_into. rewrite E1. split; [reflexivity|]. split; [|exact O].
  rewrite parse_print by assumption. apply Z.leb_le in L. pose proof (encode_levels t v j E1).
  replace (nesting j <=? max_nesting) with true by (symmetry; apply Z.leb_le; lia). exact D.
Qed.

(** Without maps nothing of the old value is left. *)
Lemma over_no_maps t : without_maps t -> forall old v r, over t old v r -> r = v.
Proof.
  induction t as [ | | | | |t IH|t IH|t IH|fs IH] using gotype_rec'; intros M old v r O; try exact O.
  - cbn [over] in O. destruct old as [ | | | | |[o|]| | | ]; try exact O. destruct v as [ | | | | |[w|]| | | ]; try exact O.
    destruct O as (x & -> & O). now rewrite (IH M o w x O).
  - cbn [over] in O. destruct old as [ | | | | | |[o|]| | ]; try exact O. destruct v as [ | | | | | |[w|]| | ]; try exact O.
    destruct O as (rs & -> & L & O). f_equal. f_equal. cbn [without_maps] in M. clear -IH M L O. revert o rs L O.
    induction w as [|a w IHw]; intros o [|b rs] L O; try discriminate L; [reflexivity|].
    pose proof (O 0%nat a b eq_refl eq_refl) as H0. cbn [nth_error] in H0. f_equal.
    + destruct o as [|c o]; cbn [nth_error] in H0; [exact H0|]. now apply (IH M c).
    + apply (IHw (tl o)); [now injection L|]. intros i x y Hx Hy. pose proof (O (S i) x y Hx Hy) as H. cbn [nth_error] in H.
      destruct o as [|c o]; cbn [tl]; [|exact H]. replace (nth_error [] i) with (@None goval) by (now destruct i). exact H.
  - contradiction M.
  - cbn [over] in O. destruct old as [ | | | | | | | |os]; try contradiction O. destruct v as [ | | | | | | | |ws]; try contradiction O.
    destruct r as [ | | | | | | | |rs]; try contradiction O. f_equal. change (over_fields fs os ws rs) in O. cbn [without_maps] in M.
    revert M os ws rs O. induction IH as [|[n t] fs Ht _ IHf]; intros M os ws rs O;
      destruct os as [|o os], ws as [|w ws], rs as [|x rs]; try contradiction O; [reflexivity|].
    destruct O as [O1 O2]. destruct M as [M1 M2]. cbn [snd] in Ht, M1. f_equal; [now apply (Ht M1 o)|now apply (IHf M2 os)].
Qed.

(** ** The structs of the repository *)
Lemma replace_all {A} t (val : A -> goval) of a : (type_levels t <=? max_nesting) = true -> without_maps t ->
  well_named t -> storable t (val a) -> of (val a) = Some a -> replaces t val of a.
Proof.
  intros L M W S B. destruct (encode_decode t (val a) W S) as (j & E1 & _).
  exists (print j). split; [unfold marshal; now rewrite E1|]. intros old So.
  destruct (marshal_into t (val a) old L W S So) as (s & r & M1 & U & O). unfold marshal in M1. rewrite E1 in M1. injection M1 as <-.
  rewrite (over_no_maps t M old (val a) r O) in U. exists (val a). auto.
Qed.
Ltac repl := apply replace_all; [vm_compute; reflexivity|cbn; tauto| | |].
Theorem asset_replaces a : asset_ok a -> replaces asset_type asset_val asset_of a.
Proof. intros H. repl; [exact named_asset|now apply asset_store|apply asset_back]. Qed.
Theorem pair_replaces p : pair_ok p -> replaces pair_type pair_val pair_of p.
Proof. intros H. repl; [exact named_pair|now apply pair_store|apply pair_back]. Qed.
Theorem candle_replaces c : candle_ok c -> replaces candle_type candle_val candle_of c.
Proof. intros H. repl; [exact named_candle| |destruct c; reflexivity]. unfold candle_ok in H. alls. cbn. auto 10. Qed.
Theorem row_replaces r : row_ok r -> replaces row_type row_val row_of r.
Proof. intros H. repl; [exact named_row|now apply row_store|apply row_back]. Qed.
Theorem update_replaces u : update_ok u -> replaces update_type update_val update_of u.
Proof. intros H. repl; [exact named_update| |destruct u; reflexivity]. unfold update_ok in H. alls. cbn. auto. Qed.
Theorem book_replaces na nb b : book_ok b -> replaces book_type (book_val na nb) book_of b.
Proof.
  intros (H1 & H2 & H3 & H4). repl; [exact named_book| |].
  - split; [exact H1|]. split; [apply slice_store; eapply Forall_impl; [exact row_store|exact H3]|].
    split; [apply slice_store; eapply Forall_impl; [exact row_store|exact H4]|]. split; [exact H2|exact I].
  - destruct b as [t a d m]. unfold book_val. cbn [book_of b_time asks bids max_depth]. now rewrite !(slice_back _ _ _ _ row_back).
Qed.
Theorem ticker_replaces t : ticker_ok t -> replaces ticker_type ticker_val ticker_of t.
Proof. intros H. repl; [exact named_ticker| |destruct t; reflexivity]. unfold ticker_ok in H. alls. cbn. auto 10. Qed.
Theorem trade_replaces z t : trade_ok z t -> replaces trade_type (trade_val z) trade_of t.
Proof.
  intros H. repl; [exact named_trade|now apply trade_store|].
  unfold trade_val. cbn [trade_of]. rewrite pair_back. destruct t; reflexivity.
Qed.
Theorem order_replaces z z' nil o : order_ok z z' o -> replaces order_type (order_val z z' nil) order_of o.
Proof.
  intros H. repl; [exact named_order|now apply order_store|].
  unfold order_val. cbn [order_of]. rewrite (ptr_back _ _ _ pair_back), (slice_back VStr str_of) by reflexivity. destruct o; reflexivity.
Qed.
Theorem position_replaces z z' nil p : position_ok z z' p -> replaces position_type (position_val z z' nil) position_of p.
Proof.
  intros H. repl; [exact named_position|now apply position_store|].
  unfold position_val. cbn [position_of].
    rewrite pair_back, !close_back, (slice_back VStr str_of) by reflexivity. destruct p; reflexivity.
Qed.
Theorem request_replaces r : request_ok r -> replaces request_type request_val request_of r.
Proof.
  intros H. repl; [exact named_request| |].
  - destruct H as (H1 & H2 & H3). apply pair_store in H2. alls. do 2 (split; [assumption|]). split; [exact H2|]. cbn. auto 10.
  - unfold request_val. cbn [request_of]. rewrite pair_back. destruct r; reflexivity.
Qed.
Theorem balance_snapshot_replaces b : balance_snapshot_ok b -> replaces balance_snapshot_type balance_snapshot_val balance_snapshot_of b.
Proof. intros H. repl; [exact named_balance_snapshot| |destruct b; reflexivity]. unfold balance_snapshot_ok in H. alls. cbn. auto. Qed.
Theorem balance_replaces b : balance_ok b -> replaces balance_type balance_val balance_of b.
Proof. intros H. repl; [exact named_balance|now apply balance_store|apply balance_back]. Qed.
Theorem assets_snapshot_replaces nil a : assets_snapshot_ok a -> replaces assets_snapshot_type (assets_snapshot_val nil) assets_snapshot_of a.
Proof.
  intros [H1 H2]. repl; [exact named_assets_snapshot| |].
  - split; [exact H1|]. split; [|exact I]. apply slice_store. eapply Forall_impl; [exact balance_store|exact H2].
  - unfold assets_snapshot_val. cbn [assets_snapshot_of]. rewrite (slice_back _ _ _ _ balance_back). destruct a; reflexivity.
Qed.
Theorem annotation_replaces a : annotation_ok a -> replaces annotation_type annotation_val annotation_of a.
Proof. intros H. repl; [exact named_annotation|now apply annotation_store|destruct a; reflexivity]. Qed.
Theorem create_order_replaces c : create_order_ok c -> replaces create_order_type create_order_val create_order_of c.
Proof. intros H. repl; [exact named_create| |destruct c; reflexivity]. unfold create_order_ok in H. alls. cbn. auto 10. Qed.
Theorem update_order_replaces u : update_order_ok u -> replaces update_order_type update_order_val update_order_of u.
Proof. intros H. repl; [exact named_upd_order| |destruct u; reflexivity]. unfold update_order_ok in H. alls. cbn. auto 10. Qed.
Theorem cancel_order_replaces c : cancel_order_ok c -> replaces cancel_order_type cancel_order_val cancel_order_of c.
Proof. intros H. repl; [exact named_cancel| |destruct c; reflexivity]. unfold cancel_order_ok in H. alls. cbn. auto. Qed.
Theorem update_position_replaces u : update_position_ok u -> replaces update_position_type update_position_val update_position_of u.
Proof. intros H. repl; [exact named_upd_pos| |destruct u; reflexivity]. unfold update_position_ok in H. alls. cbn. auto 10. Qed.
Theorem close_position_replaces c : close_position_ok c -> replaces close_position_type close_position_val close_position_of c.
Proof. intros H. repl; [exact named_close_pos| |destruct c; reflexivity]. unfold close_position_ok in H. alls. cbn. auto. Qed.
Theorem fractal_replaces f : fractal_ok f -> replaces fractal_type fractal_val fractal_of f.
Proof.
  intros [H1 H2]. repl; [exact named_fractal| |destruct f as [? ? []]; reflexivity].
  split; [exact H1|]. split; [exact H2|]. split; [|exact I]. destruct (fr_type f); cbn [ftype_text storable]; text.
Qed.
