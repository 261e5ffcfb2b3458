(** Trees are decoded to the value they denote (C92). *)
From Coq Require Import Lia ZArith NArith List Bool Sorted Permutation String Ascii Reals.
Import ListNotations.
From Flocq Require Import Core BinarySingleNaN.
From Verif Require Import Go.Outcome Go.Float64 Go.Text Go.Json Spec.JsonSpec Spec.DecimalSpec Spec.JsonReadSpec Proofs.Lex
  Proofs.JsonText Proofs.JsonTree Proofs.JsonValue Proofs.Decimal Proofs.JsonRead Proofs.JsonGrammar Proofs.JsonMoment Proofs.JsonNesting.
Import Spec.JsonReadSpec.
Open Scope string_scope.
Open Scope list_scope.
Open Scope Z_scope.

(** *** Member names *)
Lemma lower_case_model c : lower c = lower_case c.
Proof.
  unfold lower, lower_case. rewrite byte_code. unfold code.
  replace (65 <=? Z.of_N (N_of_ascii c)) with (65 <=? N_of_ascii c)%N by (destruct (N.leb_spec 65 (N_of_ascii c)); destruct (Z.leb_spec 65 (Z.of_N (N_of_ascii c))); lia).
  replace (Z.of_N (N_of_ascii c) <=? 90) with (N_of_ascii c <=? 90)%N by (destruct (N.leb_spec (N_of_ascii c) 90); destruct (Z.leb_spec (Z.of_N (N_of_ascii c)) 90); lia).
  destruct (_ && _); [|reflexivity]. f_equal. lia.
Qed.
Lemma fold_ascii s : all_ascii s -> fold_name s = in_lower_case s.
Proof.
  induction s as [|c r IH]; [reflexivity|]. intros [Hc Hr]. specialize (IH Hr). rewrite byte_code in Hc.
  change (in_lower_case (String c r)) with (String (lower_case c) (in_lower_case r)). rewrite <- IH, <- lower_case_model. cbn [fold_name].
  assert (forall k, (128 <= k)%N -> (code c =? k)%N = false) as N by (intros k Hk; apply N.eqb_neq; lia).
  rewrite !N by lia. cbn [andb]. destruct r as [|c1 [|c2 r]]; reflexivity.
Qed.
Lemma index_of_some p ns i : index_of p ns = Some i -> exists pre n post, ns = pre ++ n :: post /\ List.length pre = i /\ p n = true.
Proof.
  revert i. induction ns as [|n ns IH]; intros i; cbn [index_of]; [discriminate|]. destruct (p n) eqn:E.
  - intros [= <-]. exists [], n, ns. auto.
  - destruct (index_of p ns) as [j|]; [|discriminate]. intros [= <-]. destruct (IH j eq_refl) as (pre & m & post & -> & <- & H). exists (n :: pre), m, post. auto.
Qed.
Lemma index_of_none p ns : index_of p ns = None -> Forall (fun n => p n = false) ns.
Proof.
  induction ns as [|n ns IH]; cbn [index_of]; [constructor|]. destruct (p n) eqn:E; [discriminate|]. destruct (index_of p ns); [discriminate|]. constructor; auto.
Qed.
Lemma index_of_found p pre n post : p n = true -> Forall (fun m => p m = false) pre -> index_of p (pre ++ n :: post) = Some (List.length pre).
Proof. intros H F. induction F as [|m pre E _ IH]; cbn [app index_of List.length]; [now rewrite H|]. now rewrite E, IH. Qed.
Lemma index_of_absent p ns : Forall (fun n => p n = false) ns -> index_of p ns = None.
Proof. induction 1 as [|n ns E _ IH]; cbn [index_of]; [reflexivity|]. now rewrite E, IH. Qed.

Lemma field_found pre n post k : NoDup (map in_lower_case (pre ++ n :: post)) -> Forall all_ascii (pre ++ n :: post) -> all_ascii k ->
  in_lower_case k = in_lower_case n -> field_index (pre ++ n :: post) k = Some (List.length pre).
Proof.
  intros Nd A Ak E. assert (forall m, In m pre -> in_lower_case m <> in_lower_case n) as D.
  { intros m I C. rewrite map_app in Nd. cbn [map] in Nd. apply NoDup_remove in Nd. destruct Nd as [_ Nd]. apply Nd, in_or_app. left. rewrite <- C. now apply in_map. }
  unfold field_index. destruct (index_of (fun n => String.eqb n k) (pre ++ n :: post)) as [i|] eqn:X.
  - apply index_of_some in X. destruct X as (pre' & n' & post' & Ea & <- & En). apply String.eqb_eq in En. subst n'. f_equal.
    apply (proj1 (NoDup_nth_error (map in_lower_case (pre ++ n :: post))) Nd).
    + rewrite Ea, map_length, app_length. cbn. lia.
    + rewrite Ea at 1. rewrite !map_app. cbn [map]. rewrite !nth_error_app2 by (rewrite map_length; lia). rewrite !map_length, !Nat.sub_diag. cbn. now rewrite E.
  - apply index_of_found.
    + apply String.eqb_eq. apply Forall_app in A as [_ A]. inversion A; subst. rewrite !fold_ascii by assumption. now symmetry.
    + apply Forall_app in A as [A _]. apply Forall_forall. intros m I. apply String.eqb_neq. rewrite Forall_forall in A. rewrite !fold_ascii by auto.
      rewrite E. now apply D.
Qed.
Lemma field_absent ns k : Forall all_ascii ns -> all_ascii k -> Forall (fun n => in_lower_case n <> in_lower_case k) ns -> field_index ns k = None.
Proof.
  intros A Ak F. unfold field_index. rewrite !index_of_absent; [reflexivity| |].
  - rewrite Forall_forall in *. intros n I. apply String.eqb_neq. rewrite !fold_ascii by auto. now apply F.
  - rewrite Forall_forall in *. intros n I. apply String.eqb_neq. intros ->. now apply (F k I).
Qed.

(** *** Structs *)
Definition called (n : string) (m : string * json) : Prop := in_lower_case (unquote (fst m)) = in_lower_case n.
Definition ascii_member (m : string * json) : Prop := exists k, contents (fst m) k /\ all_ascii k.
Lemma named_called n m : ascii_member m -> (named n m <-> called n m).
Proof.
  intros (k & C & _). unfold named, called. rewrite (contents_unquote _ _ C). split.
  - intros (k' & C' & <-). rewrite <- (contents_unquote _ _ C'). now rewrite (contents_unquote _ _ C).
  - intros <-. now exists k.
Qed.
Definition pending (f : string * gotype) (v w : goval) (ms : list (string * json)) : Prop :=
  (v = w /\ Forall (fun m => ~ called (fst f) m) ms) \/
  (exists b m a, ms = b ++ m :: a /\ called (fst f) m /\ Forall (fun m => ~ called (fst f) m) (b ++ a) /\ decode (snd f) v (snd m) = Some w).
Fixpoint inv (fs : list (string * gotype)) (vs ws : list goval) (ms : list (string * json)) : Prop :=
  match fs, vs, ws with
  | [], [], [] => True
  | f :: fs', v :: vs', w :: ws' => pending f v w ms /\ inv fs' vs' ws' ms
  | _, _, _ => False
  end.
Lemma pending_skip f v w m ms : ~ called (fst f) m -> pending f v w (m :: ms) -> pending f v w ms.
Proof.
  intros N [(-> & F)|(b & m' & a & E & C & F & D)].
  - left. split; [reflexivity|]. now inversion F.
  - destruct b as [|m0 b]; injection E as -> ->; [contradiction|]. right. exists b, m', a. inversion F; auto.
Qed.
Lemma pending_take f v w m ms : called (fst f) m -> pending f v w (m :: ms) -> decode (snd f) v (snd m) = Some w /\ Forall (fun m => ~ called (fst f) m) ms.
Proof.
  intros C [(-> & F)|(b & m' & a & E & C' & F & D)].
  - inversion F; contradiction.
  - destruct b as [|m0 b]; injection E as -> ->; [auto|]. inversion F; contradiction.
Qed.
Lemma inv_skip fs vs ws m ms : Forall (fun f => ~ called (fst f) m) fs -> inv fs vs ws (m :: ms) -> inv fs vs ws ms.
Proof.
  revert vs ws. induction fs as [|f fs IH]; intros [|v vs] [|w ws] F H; try contradiction H; [exact I|]. destruct H as [H1 H2]. inversion F; subst.
  split; [now apply (pending_skip _ _ _ m)|now apply IH].
Qed.
Lemma inv_split pre f post vs ws ms : inv (pre ++ f :: post) vs ws ms ->
  exists vp v vq wp w wq, vs = vp ++ v :: vq /\ ws = wp ++ w :: wq /\ List.length vp = List.length pre /\
    inv pre vp wp ms /\ pending f v w ms /\ inv post vq wq ms.
Proof.
  revert vs ws. induction pre as [|g pre IH]; intros [|v vs] [|w ws] H; try contradiction H; destruct H as [H1 H2].
  - exists [], v, vs, [], w, ws. repeat split; auto.
  - destruct (IH vs ws H2) as (vp & v' & vq & wp & w' & wq & -> & -> & L & I1 & P & I2). exists (v :: vp), v', vq, (w :: wp), w', wq.
    repeat split; auto. cbn. now rewrite L.
Qed.
Lemma inv_join pre f post vp v vq wp w wq ms : inv pre vp wp ms -> pending f v w ms -> inv post vq wq ms -> inv (pre ++ f :: post) (vp ++ v :: vq) (wp ++ w :: wq) ms.
Proof.
  revert vp wp. induction pre as [|g pre IH]; intros [|x vp] [|y wp] H P Q; try contradiction H; cbn; [auto|]. destruct H as [H1 H2]. split; auto.
Qed.
Lemma inv_end fs vs ws : inv fs vs ws [] -> vs = ws.
Proof.
  revert vs ws. induction fs as [|f fs IH]; intros [|v vs] [|w ws] H; try contradiction H; [reflexivity|]. destruct H as [H1 H2]. f_equal; [|now apply IH].
  destruct H1 as [(-> & _)|(b & m & a & E & _)]; [reflexivity|]. destruct b; discriminate E.
Qed.
Lemma called_dec (fs : list (string * gotype)) m : {exists pre f post, fs = pre ++ f :: post /\ called (fst f) m} + {Forall (fun f => ~ called (fst f) m) fs}.
Proof.
  induction fs as [|f fs [IH|IH]].
  - right. constructor.
  - left. destruct IH as (pre & g & post & -> & C). exists (f :: pre), g, post. auto.
  - destruct (string_dec (in_lower_case (unquote (fst m))) (in_lower_case (fst f))) as [E|E].
    + left. exists [], f, fs. auto.
    + right. constructor; assumption.
Qed.
Lemma struct_denoted fs ms : NoDup (map (fun f => in_lower_case (fst f)) fs) -> Forall (fun f => all_ascii (fst f)) fs -> Forall ascii_member ms ->
  forall vs ws, inv fs vs ws ms -> struct_fold fs ms (Some vs) = Some ws.
Proof.
  intros Nd A Am. induction Am as [|m ms (k & Ck & Ak) _ IH]; intros vs ws H.
  - unfold struct_fold. cbn. f_equal. now apply (inv_end fs).
  - unfold struct_fold. cbn [fold_left]. pose proof (contents_unquote _ _ Ck) as Uk.
    destruct (called_dec fs m) as [(pre & f & post & Ef & C)|N].
    + assert (field_index (map fst fs) (unquote (fst m)) = Some (List.length pre)) as ->.
      { rewrite Ef, map_app. cbn [map]. rewrite <- (map_length (@fst string gotype) pre). apply field_found.
        - rewrite Ef in Nd. rewrite <- map_map in Nd. now rewrite map_app in Nd.
        - rewrite Ef in A. rewrite <- Forall_map in A. now rewrite map_app in A.
        - now rewrite Uk.
        - exact C. }
      assert (forall g, In g (pre ++ post) -> ~ called (fst g) m) as O.
      { intros g Ig Cg. rewrite Ef, map_app in Nd. cbn [map] in Nd. apply NoDup_remove in Nd as [_ Nd]. apply Nd.
        rewrite <- map_app. apply in_map_iff. exists g. split; [|exact Ig]. unfold called in *. congruence. }
      rewrite Ef in H. destruct (inv_split _ _ _ _ _ _ H) as (vp & v & vq & wp & w & wq & -> & -> & L & I1 & P & I2).
      destruct (pending_take _ _ _ _ _ C P) as (D & F). destruct f as [n t]. cbn [fst snd] in *.
      pose proof (set_field_at (fun t' v => decode t' v (snd m)) pre n t post vp v vq L) as SF. rewrite <- Ef, D in SF. cbn [option_map] in SF.
      rewrite SF. apply IH. rewrite Ef. apply inv_join.
      * apply (inv_skip _ _ _ m); [|exact I1]. apply Forall_forall. intros g Ig. apply O, in_or_app. now left.
      * left. split; [reflexivity|exact F].
      * apply (inv_skip _ _ _ m); [|exact I2]. apply Forall_forall. intros g Ig. apply O, in_or_app. now right.
    + rewrite field_absent.
      * apply IH. now apply (inv_skip _ _ _ m).
      * now rewrite Forall_map.
      * now rewrite Uk.
      * rewrite Forall_map. eapply Forall_impl; [|exact N]. cbv beta. intros f Hf E. apply Hf. unfold called. now symmetry.
Qed.

(** *** Maps *)
Lemma lt_before a b : str_lt a b = true -> before a b.
Proof.
  revert b. induction a as [|x a IH]; intros [|y b]; cbn [str_lt]; try discriminate; [constructor|].
  intros H. apply orb_true_iff in H as [H|H]; [constructor; now apply N.ltb_lt|]. apply andb_true_iff in H as [E H]. apply N.eqb_eq in E.
  assert (x = y) as -> by (rewrite <- (ascii_N_embedding x), <- (ascii_N_embedding y); now f_equal). apply before_tail. now apply IH.
Qed.
Lemma total_before a b : a <> b -> str_lt a b = false -> before b a.
Proof.
  revert b. induction a as [|x a IH]; intros [|y b]; cbn [str_lt]; try discriminate; [congruence|constructor|].
  intros N H. apply orb_false_iff in H as [H1 H2]. apply N.ltb_ge in H1. apply andb_false_iff in H2.
  destruct (N.eq_dec (code x) (code y)) as [E|E].
  - assert (x = y) as -> by (rewrite <- (ascii_N_embedding x), <- (ascii_N_embedding y); now f_equal). apply before_tail. apply IH; [congruence|].
    destruct H2 as [H2|H2]; [|exact H2]. now apply N.eqb_neq in H2.
  - apply before_head. unfold code in *. lia.
Qed.

Lemma before_trans a b c : before a b -> before b c -> before a c.
Proof.
  intros H. revert c. induction H as [x s|x y s s' H|x s s' _ IH]; intros c K.
  - inversion K; constructor.
  - inversion K; subst; constructor; lia.
  - inversion K; subst; [now constructor|]. apply before_tail. now apply IH.
Qed.
Lemma map_put_new {A} k (v : A) m : StronglySorted before (map fst m) -> ~ In k (map fst m) ->
  StronglySorted before (map fst (map_put k v m)) /\ Permutation ((k, v) :: m) (map_put k v m).
Proof.
  induction m as [|[k' v'] m IH]; intros S N.
  - split; [constructor; constructor|reflexivity].
  - cbn [map fst] in S, N. inversion S as [|? ? S' F]; subst. cbn [map_put]. destruct (String.eqb_spec k k') as [->|Nk]; [exfalso; apply N; now left|].
    destruct (str_lt k k') eqn:L.
    + split; [|reflexivity]. cbn [map fst]. constructor; [exact S|]. constructor; [now apply lt_before|].
      eapply Forall_impl; [|exact F]. intros a Ha. apply (before_trans _ k'); [now apply lt_before|exact Ha].
    + destruct IH as [IS IP]; [assumption|intros I; apply N; now right|]. split.
      * cbn [map fst]. constructor; [exact IS|]. assert (Permutation (k :: map fst m) (map fst (map_put k v m))) as P by (apply (Permutation_map fst) in IP; exact IP).
        eapply Permutation_Forall; [exact P|]. constructor; [now apply total_before|exact F].
      * rewrite perm_swap. now constructor.
Qed.
Lemma sorted_unique {A} (l l' : list (string * A)) : StronglySorted before (map fst l) -> StronglySorted before (map fst l') -> Permutation l l' -> l = l'.
Proof.
  revert l'. induction l as [|a l IH]; intros l' S S' P.
  - apply Permutation_nil in P. now subst.
  - destruct l' as [|b l']; [apply Permutation_sym, Permutation_nil in P; discriminate|].
    cbn [map] in S, S'. inversion S as [|? ? S1 F1]; inversion S' as [|? ? S2 F2]; subst.
    assert (a = b) as ->.
    { assert (In a (b :: l')) as Ia by (eapply Permutation_in; [exact P|now left]).
      assert (In b (a :: l)) as Ib by (eapply Permutation_in; [apply Permutation_sym; exact P|now left]).
      destruct Ia as [->|Ia]; [reflexivity|]. destruct Ib as [<-|Ib]; [reflexivity|].
      rewrite Forall_forall in F1, F2. specialize (F1 _ (in_map fst _ _ Ib)). specialize (F2 _ (in_map fst _ _ Ia)).
      destruct (before_lt _ _ F1) as (_ & K & _). destruct (before_lt _ _ F2) as (K' & _). congruence. }
    f_equal. apply IH; [assumption|assumption|]. now apply Permutation_cons_inv in P.
Qed.
Definition map_fold (t : gotype) (ms : list (string * json)) (m0 : option (list (string * goval))) : option (list (string * goval)) :=
  fold_left (fun acc kv =>
    match acc, decode t (zero t) (snd kv) with
    | Some m, Some v => Some (map_put (unquote (fst kv)) v m)
    | _, _ => None
    end) ms m0.
Lemma map_denoted t ms kvs m0 : Forall2 (fun m kv => unquote (fst m) = fst kv /\ decode t (zero t) (snd m) = Some (snd kv)) ms kvs ->
  StronglySorted before (map fst m0) -> NoDup (map fst (kvs ++ m0)) ->
  exists r, map_fold t ms (Some m0) = Some r /\ StronglySorted before (map fst r) /\ Permutation (kvs ++ m0) r.
Proof.
  intros F. revert m0. induction F as [|m [k v] ms kvs [E D] _ IH]; intros m0 S N.
  - exists m0. split; [reflexivity|]. split; [exact S|reflexivity].
  - cbn [fst snd] in E, D. cbn [app map fst] in N. inversion N as [|? ? Nk N']; subst.
    assert (~ In (unquote (fst m)) (map fst m0)) as Nm by (intros I; apply Nk; rewrite map_app; apply in_or_app; now right).
    destruct (map_put_new (unquote (fst m)) v m0 S Nm) as [S1 P1].
    destruct (IH (map_put (unquote (fst m)) v m0)) as (r & R & Sr & Pr); [exact S1| |].
    + apply (Permutation_NoDup (l := map fst ((unquote (fst m), v) :: kvs ++ m0))); [|exact N].
      apply Permutation_map. rewrite Permutation_middle. now apply Permutation_app_head.
    + exists r. split; [|split; [exact Sr|]].
      * unfold map_fold in *. cbn [fold_left]. rewrite D. exact R.
      * rewrite <- Pr, <- P1. cbn [app]. apply Permutation_middle.
Qed.

(** *** All types *)
Definition fields_denote (ms : list (string * json)) : list (string * gotype) -> list goval -> Prop :=
  fix fields (fs : list (string * gotype)) (vs : list goval) : Prop :=
    match fs, vs with
    | [], [] => True
    | (n, t') :: fs', v' :: vs' =>
        ((v' = zero t' /\ Forall (fun m => ~ named n m) ms) \/
         exists before_it m after_it, ms = before_it ++ m :: after_it /\ named n m /\
           Forall (fun m => ~ named n m) (before_it ++ after_it) /\ denotes t' (snd m) v') /\
        fields fs' vs'
    | _, _ => False
    end.
Definition cased_fields : list (string * gotype) -> Prop :=
  fix fields (fs : list (string * gotype)) : Prop :=
    match fs with
    | [] => True
    | (n, t') :: fs' => all_ascii n /\ well_cased t' /\ fields fs'
    end.
Lemma Forall_iff {A} (P Q : A -> Prop) l : Forall (fun a => P a <-> Q a) l -> Forall P l -> Forall Q l.
Proof. intros H. induction H as [|a l E _ IH]; intros F; [constructor|]. inversion F; subst. constructor; [now apply E|auto]. Qed.
Lemma fields_inv fs ms vs :
  Forall (fun f => forall j v, well_cased (snd f) -> denotes (snd f) j v -> decode (snd f) (zero (snd f)) j = Some v) fs ->
  cased_fields fs -> Forall ascii_member ms -> fields_denote ms fs vs -> inv fs (map (fun f => zero (snd f)) fs) vs ms.
Proof.
  intros F. revert vs. induction F as [|[n t] fs Ht _ IH]; intros vs C A D; destruct vs as [|v vs]; try contradiction D; [exact I|].
  destruct C as (An & Ct & C). destruct D as [D Ds]. cbn [snd] in Ht. split; [|now apply IH].
  assert (Forall (fun m => ~ named n m <-> ~ called n m) ms) as Eq by (eapply Forall_impl; [|exact A]; intros m Hm; now rewrite (named_called n m Hm)).
  destruct D as [(-> & N)|(b & m & a & -> & Nm & N & Dm)]; [left|right]; cbn [fst snd].
  - split; [reflexivity|]. eapply Forall_iff; [|exact N]. exact Eq.
  - exists b, m, a. split; [reflexivity|]. apply Forall_app in A as [Ab Aa]. inversion Aa; subst.
    split; [now apply named_called|]. split; [|now apply Ht].
    eapply Forall_iff; [|exact N]. apply Forall_app in Eq as [E1 E2]. inversion E2; subst. apply Forall_app. now split.
Qed.
Lemma cased_ascii fs : cased_fields fs -> Forall (fun f => all_ascii (fst f)) fs.
Proof. induction fs as [|[n t] fs IH]; intros H; [constructor|]. destruct H as (A & _ & H). constructor; [exact A|now apply IH]. Qed.

Theorem denotes_decode t : forall j v, well_cased t -> denotes t j v -> decode t (zero t) j = Some v.
Proof.
  induction t as [ | | | | |t IH|t IH|t IH|fs IH] using gotype_rec'; intros j v W [[-> ->]|[Nj D]]; try reflexivity; destruct v; try contradiction D; cbn [zero].
  - destruct D as (raw & -> & C). cbn [decode]. now rewrite (contents_unquote _ _ C).
  - destruct D as (w & -> & I & B). cbn [decode]. rewrite (integer_read 64 w z) by (lia || assumption).
    destruct B as [B1 B2]. change (64 - 1) with 63. rewrite (proj2 (Z.leb_le _ _) B1), (proj2 (Z.ltb_lt _ _) B2). reflexivity.
  - destruct D as (w & neg & r & -> & Dw & Sh & Rg & Nr). cbn [decode].
    destruct (decimal_in_range w neg r Sh Dw Rg) as (x' & -> & N'). f_equal. f_equal.
    destruct Nr as (F & S & V). destruct N' as (F' & S' & V'). apply B2R_Bsign_inj; congruence.
  - subst j. reflexivity.
  - destruct D as (raw & -> & M). cbn [decode]. rewrite (moment_read _ _ _ M). reflexivity.
  - destruct o as [v|]; [|contradiction D]. cbn [decode]. specialize (IH j v W D). rewrite IH. destruct j; try reflexivity. congruence.
  - destruct o as [l|]; [|contradiction D]. destruct D as (js & -> & F). cbn [decode]. cbv zeta. rewrite (all_some_map _ _ l); [reflexivity|].
    assert (forall k, Forall2 (fun (a : nat * json) b => decode t (nth (fst a) [] (zero t)) (snd a) = Some b) (combine (seq k (List.length js)) js) l) as G; [|exact (G 0%nat)].
    clear -F IH W. induction F as [|j v js l H _ IHF]; intros k; [constructor|]. cbn [List.length seq combine]. constructor; [|apply IHF].
    cbn [fst snd]. replace (nth k [] (zero t)) with (zero t) by (now destruct k). now apply IH.
  - destruct o as [kvs|]; [|contradiction D]. destruct D as (ms & ms' & -> & P & S & F). cbn [decode]. cbv zeta.
    change (option_map (fun m => VMap (Some m)) (map_fold t ms (Some [])) = Some (VMap (Some kvs))).
    assert (Forall2 (fun m kv => unquote (fst m) = fst kv /\ decode t (zero t) (snd m) = Some (snd kv)) ms' kvs) as F'.
    { eapply Forall2_weaken; [|exact F]. cbv beta. intros m kv [C D]. split; [now apply contents_unquote|now apply IH]. }
    destruct (Permutation_Forall2 (Permutation_sym P) F') as (kvs' & P' & F'').
    assert (NoDup (map fst kvs)) as Nd.
    { clear -S. induction (map fst kvs) as [|k l IHl]; [constructor|]. inversion S as [|? ? S' H]; subst. constructor; [|now apply IHl].
      intros I. rewrite Forall_forall in H. specialize (H k I). destruct (before_lt _ _ H) as (K & K' & _). congruence. }
    destruct (map_denoted t ms kvs' [] F'') as (r & -> & Sr & Pr); [constructor|rewrite app_nil_r; eapply Permutation_NoDup; [|exact Nd]; now apply Permutation_map|].
    cbn [option_map]. do 3 f_equal. apply sorted_unique; [exact Sr|exact S|]. rewrite app_nil_r in Pr. now rewrite <- Pr, P'.
  - destruct D as (ms & -> & A & D). destruct W as [Nd C]. cbn [decode]. cbv zeta.
    change (option_map VStruct (struct_fold fs ms (Some (map (fun f => zero (snd f)) fs))) = Some (VStruct vs)).
    rewrite (struct_denoted fs ms Nd (cased_ascii fs C) A _ vs); [reflexivity|]. now apply fields_inv.
Qed.
Theorem read_denoted t j s v : well_cased t -> document j s -> ~ too_deep j -> denotes t j v -> unmarshal t s = Some v.
Proof. intros W D L N. rewrite (unmarshal_shallow t s j (document_read j s D) L). now apply denotes_decode. Qed.

(** *** Order of the members *)
Lemma split_permuted {A} (b : list A) m a l : Permutation (b ++ m :: a) l -> exists b' a', l = b' ++ m :: a' /\ Permutation (b ++ a) (b' ++ a').
Proof.
  intros P. assert (In m l) as I by (eapply Permutation_in; [exact P|apply in_elt]). apply in_split in I as (b' & a' & ->).
  exists b', a'. split; [reflexivity|]. now apply Permutation_app_inv in P.
Qed.
Theorem members_any_order t : forall ms ms' v, Permutation ms ms' -> denotes t (JObj ms) v -> denotes t (JObj ms') v.
Proof.
  induction t as [ | | | | |t IH|t IH|t IH|fs IH] using gotype_rec'; intros ms ms' v P [[E _]|[_ D]]; try discriminate E; right; (split; [discriminate|]);
    destruct v; try contradiction D.
  - destruct D as (raw & E & _). discriminate E.
  - destruct D as (w & E & _). discriminate E.
  - destruct D as (w & neg & r & E & _). discriminate E.
  - discriminate D.
  - destruct D as (raw & E & _). discriminate E.
  - destruct o as [v|]; [|contradiction D]. exact (IH ms ms' v P D).
  - destruct o as [l|]; [|contradiction D]. destruct D as (js & E & _). discriminate E.
  - destruct o as [kvs|]; [|contradiction D]. destruct D as (ms0 & ms1 & [= <-] & P1 & S & F). exists ms', ms1. split; [reflexivity|]. split; [|split; assumption].
    now rewrite <- P.
  - destruct D as (ms0 & [= <-] & A & D). exists ms'. split; [reflexivity|]. split; [now apply (Permutation_Forall P)|].
    change (fields_denote ms fs vs) in D. change (fields_denote ms' fs vs). clear IH A. revert vs D. induction fs as [|[n t] fs IHf]; intros [|v vs] D; try contradiction D; [exact I|].
    destruct D as [D Ds]. split; [|now apply IHf]. destruct D as [(-> & N)|(b & m & a & -> & Nm & N & Dm)].
    + left. split; [reflexivity|]. now apply (Permutation_Forall P).
    + right. destruct (split_permuted _ _ _ _ P) as (b' & a' & -> & P'). exists b', m, a'. split; [reflexivity|]. split; [exact Nm|]. split; [|exact Dm].
      now apply (Permutation_Forall P').
Qed.
