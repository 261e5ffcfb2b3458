(** Candle files after failed writes. *)
From Coq Require Import ZArith NArith Lia Reals List String Ascii.
Import ListNotations.
From Flocq Require Import Core BinarySingleNaN.
From Verif Require Import Go.Outcome Go.Int64 Go.Slice Go.Float64 Go.Text Model.Candle Model.CandleFile
  Spec.FileSpec Spec.DecimalSpec Spec.JsonReadSpec Spec.NumberSpec Spec.FaultSpec
  Proofs.Lists Proofs.DecNum Proofs.Lex Proofs.RoundTrip Proofs.FileText Proofs.CandleFile Proofs.FileParts
  Proofs.Decimal Proofs.Number Proofs.Shortest.
Open Scope string_scope.
Open Scope list_scope.
Open Scope Z_scope.

Local Notation "a +++ b" := (String.append a b) (at level 60, right associativity).
Local Notation reads := FileSpec.reads.

(** ** Braces in numbers *)

Definition brace (ch : ascii) : Prop := ch = "{"%char \/ ch = "}"%char.
Lemma brace_lower ch c : brace ch -> c = ch -> lower_case c = ch.
Proof. intros [-> | ->] ->; reflexivity. Qed.
Lemma lower_without ch s : brace ch -> without ch (in_lower_case s) -> without ch s.
Proof.
  intros B. induction s as [|c r IH]; [intros; exact I|]. intros [H1 H2]. split; [|auto].
  intros E. apply H1. now apply brace_lower.
Qed.
Lemma bare_without ch s : brace ch -> without ch (bare s) -> without ch s.
Proof.
  intros B. induction s as [|c r IH]; [intros; exact I|]. cbn [bare]. destruct (Ascii.eqb_spec c "_") as [->|N]; intros H.
  - split; [destruct B as [-> | ->]; discriminate|auto].
  - destruct H as [H1 H2]. split; auto.
Qed.
Lemma hex_digits_without ch s n : brace ch -> hex_digits s n -> without ch s.
Proof.
  intros B. induction 1 as [|s n c v H IH Hc]; [exact I|]. apply without_app. split; [assumption|]. split; [|exact I].
  intros ->. destruct B as [-> | ->]; inversion Hc as [? Hb|? Hb|? Hb]; vm_compute in Hb; destruct Hb as [Hb1 Hb2]; congruence.
Qed.
Lemma num_char_without ch s : brace ch -> str_all num_char s = true -> without ch s.
Proof. intros B H. eapply without_all; [exact H|]. destruct B as [-> | ->]; reflexivity. Qed.
Lemma sign_without ch sg neg : brace ch -> sign sg neg -> without ch sg.
Proof. intros B H. destruct B as [-> | ->]; inversion H; subst; repeat split; discriminate. Qed.
Lemma float_without ch w x : brace ch -> parse_float w = inl x -> without ch w.
Proof.
  intros B H. assert (parse_float w <> inr PSyntax) as A by (rewrite H; discriminate).
  apply accepted in A as [[y S]|(neg & r & [(_ & D)|(sg & c & h & r' & -> & Hs & Hx & _ & Hb & _)])].
  - destruct S as [s E|sg s neg Hs E].
    + apply lower_without; [assumption|]. rewrite E. destruct B as [-> | ->]; repeat split; discriminate.
    + apply without_app. split; [eapply sign_without; eassumption|]. apply lower_without; [assumption|].
      destruct E as [<-|[<-|[]]]; destruct B as [-> | ->]; repeat split; discriminate.
  - apply bare_without; [assumption|]. apply num_char_without; [assumption|]. eapply decimal_chars. exact D.
  - apply without_app. split; [eapply sign_without; eassumption|]. split; [destruct B as [-> | ->]; discriminate|].
    split; [destruct B as [-> | ->], Hx as [-> | ->]; discriminate|]. apply bare_without; [assumption|].
    destruct Hb as (ip & n & fr & m & k & ex & e & E & H1 & H2 & H3 & _). rewrite E.
    apply without_app. split; [eapply hex_digits_without; eassumption|]. apply without_app. split.
    + destruct H2; [exact I|]. split; [destruct B as [-> | ->]; discriminate|]. eapply hex_digits_without; eassumption.
    + destruct H3 as [q sg' neg' d e Hq Hsg Hd _]. split; [destruct B as [-> | ->], Hq as [-> | ->]; discriminate|].
      apply without_app. split; [eapply sign_without; eassumption|]. apply num_char_without; [assumption|]. eapply digits_chars. exact Hd.
Qed.
Lemma int_without ch bits w z : brace ch -> parse_int bits w = inl z -> without ch w.
Proof.
  intros B H. unfold parse_int in H. destruct (take_sign w) as [neg r] eqn:T.
  destruct (take_sign_inv _ _ _ T) as (sg & -> & Hs & _). apply without_app. split; [eapply sign_without; eassumption|].
  destruct (all_digits r) eqn:D; [|rewrite andb_false_r in H; discriminate].
  rewrite all_digits_str in D. eapply without_all; [exact D|]. destruct B as [-> | ->]; reflexivity.
Qed.
Lemma field_without ch i w : brace ch -> field_ok i w -> without ch w.
Proof. intros B. destruct i as [|i]; intros [x H]; [eapply int_without|eapply float_without]; eassumption. Qed.

(** ** Spaces *)

Fixpoint spaces (s : string) : nat :=
  match s with
  | "" => 0%nat
  | String c r => ((if Ascii.eqb c " " then 1 else 0) + spaces r)%nat
  end.
Lemma spaces_app a b : spaces (a +++ b) = (spaces a + spaces b)%nat.
Proof. induction a as [|c r IH]; [reflexivity|]. cbn [String.append spaces]. rewrite IH. lia. Qed.
Lemma spaces_without w : without " " w -> spaces w = 0%nat.
Proof. induction w as [|c r IH]; [reflexivity|]. intros [H1 H2]. cbn [spaces]. destruct (Ascii.eqb_spec c " "); [congruence|]. auto. Qed.
Lemma spaces_joined ws : Forall (without " ") ws -> spaces (joined ws) = Nat.pred (List.length ws).
Proof.
  induction 1 as [|w ws Hw H IH]; [reflexivity|]. destruct ws as [|w' ws]; [now apply spaces_without|].
  change (joined (w :: w' :: ws)) with (w +++ String " " (joined (w' :: ws))). rewrite spaces_app. cbn [spaces].
  rewrite IH, spaces_without by assumption. reflexivity.
Qed.
Lemma line_spaces c : spaces (candle_line c) = 5%nat.
Proof. rewrite candle_line_joined. cbn [spaces]. rewrite spaces_app, spaces_joined by apply line_words_ok. reflexivity. Qed.

(** A brace in the words stands behind as many spaces as there are words
    without one in front. *)
Lemma brace_after ch ws : brace ch -> forall n p q, Forall (without " ") ws ->
  (forall i w, (i < n)%nat -> nth_error ws i = Some w -> without ch w) ->
  joined ws = p +++ String ch q -> (n <= spaces p)%nat.
Proof.
  intros B. induction ws as [|w ws IH]; intros n p q F W E; [destruct p; discriminate|].
  destruct n as [|n]; [lia|]. inversion F as [|? ? Fw Fr]; subst.
  pose proof (W 0%nat w ltac:(lia) eq_refl) as Ww.
  assert (forall p s, w +++ s = p +++ String ch q -> exists p', p = w +++ p' /\ s = p' +++ String ch q) as K.
  { clear -Ww. induction w as [|c r IHw]; intros p s E; [exists p; auto|]. destruct Ww as [W1 W2].
    destruct p as [|c' p]; cbn [String.append] in E; injection E as -> E; [congruence|].
    destruct (IHw W2 p s E) as (p' & -> & ->). exists p'. auto. }
  destruct ws as [|w' ws].
  - cbn [joined] in E. destruct (K p "" ltac:(now rewrite sapp_nil_r)) as (p' & _ & E'). destruct p'; discriminate.
  - change (joined (w :: w' :: ws)) with (w +++ String " " (joined (w' :: ws))) in E.
    destruct (K p _ E) as (p' & -> & E'). destruct p' as [|c p']; cbn [String.append] in E'; injection E' as Ec E'; subst.
    { destruct B as [B|B]; discriminate B. }
    rewrite spaces_app. cbn [spaces]. change (Ascii.eqb " " " ") with true. cbv iota.
    assert (n <= spaces p')%nat; [|lia]. apply (IH n p' q Fr); [|exact E'].
    intros i u L. exact (W (S i) u ltac:(lia)).
Qed.

(** A line with a brace among its words is rejected. *)
Lemma brace_rejected ch a p q b : brace ch -> (spaces p <= 5)%nat -> rejected (String a ((p +++ String ch q) +++ String b "")).
Proof.
  intros B S. set (t := String a _).
  destruct (load_line t) as [[c|e]|pn] eqn:E; [exfalso| |exfalso].
  - apply reads_iff in E as (a' & b' & w0 & w1 & w2 & w3 & w4 & w5 & more & E & F & P0 & P1 & P2 & P3 & P4 & P5).
    unfold t in E. apply ends_inj in E as (_ & E & _). symmetry in E.
    assert (6 <= spaces p)%nat; [|lia]. apply (brace_after ch _ B 6 p q F); [|exact E].
    intros i w L N. do 6 (destruct i as [|i]; [injection N as <-; first [eapply int_without; eassumption|eapply float_without; eassumption]|]). lia.
  - apply rejected_iff. eauto.
  - assert (exists pn, load_line t = Panic pn) as X by eauto. apply crashes_iff in X as [L|(a' & b' & ws & E' & F & L & W)].
    { unfold t in L. cbn [String.length] in L. rewrite !slen_app in L. cbn [String.length] in L. lia. }
    unfold t in E'. apply ends_inj in E' as (_ & E' & _). symmetry in E'.
    assert (List.length ws <= spaces p)%nat as K.
    { apply (brace_after ch _ B (List.length ws) p q F); [|exact E']. intros i w _ N. eapply field_without; [exact B|]. eapply W; exact N. }
    pose proof (spaces_joined ws F) as Sj. rewrite E' in Sj. rewrite spaces_app in Sj. lia.
Qed.

(** ** What failed writes leave *)

Inductive made : list (candle f64) -> list (candle f64) -> string -> Prop :=
| made_nil : made [] [] ""
| made_whole c cs l s : made cs l s -> made (c :: cs) (c :: l) (candle_line c +++ String newline s)
| made_part c cs l p s : prefix_of p (candle_line c) -> made cs l s -> made (c :: cs) l (p +++ s).

Lemma substring_all k s : (String.length s <= k)%nat -> substring 0 k s = s.
Proof. revert k. induction s as [|c r IH]; intros [|k] L; cbn in *; try lia; try reflexivity. f_equal. apply IH. lia. Qed.
Lemma substring_front k a b : (k <= String.length a)%nat -> substring 0 k (a +++ b) = substring 0 k a.
Proof. revert k. induction a as [|c r IH]; intros [|k] L; cbn in *; try lia; try (now destruct b); try reflexivity. f_equal. apply IH. lia. Qed.
Lemma made_save faults cs : forall i, made cs (arrived faults i cs) (save_loop faults i cs).
Proof.
  induction cs as [|c cs IH]; intros i; [constructor|]. cbn [arrived save_loop]. unfold println.
  assert (candle_line c +++ String newline "" +++ save_loop faults (S i) cs = candle_line c +++ String newline (save_loop faults (S i) cs)) as E by reflexivity.
  unfold entire, write. destruct (faults i) as [k|].
  - destruct (Nat.ltb_spec (String.length (candle_line c)) k) as [L|L].
    + rewrite substring_all by (rewrite slen_app; cbn [String.length]; lia). rewrite sapp_assoc. apply made_whole. apply IH.
    + rewrite substring_front by assumption. apply made_part; [apply prefix_substring|apply IH].
  - rewrite sapp_assoc. apply made_whole. apply IH.
Qed.
Lemma made_empty cs : made cs [] "".
Proof. induction cs as [|c cs IH]; [constructor|]. apply (made_part c cs [] "" ""); [apply prefix_nil|exact IH]. Qed.
Lemma prefix_app t p s : prefix_of t (p +++ s) -> prefix_of t p \/ exists q, t = p +++ q /\ prefix_of q s.
Proof.
  revert t. induction p as [|c p IH]; intros t H; [right; exists t; auto|].
  destruct t as [|c' t]; [left; apply prefix_nil|]. destruct H as [r H]. cbn [String.append] in H. injection H as -> H.
  destruct (IH t (ex_intro _ r H)) as [[r' E]|(q & -> & Hq)].
  - left. exists r'. cbn [String.append]. now rewrite E.
  - right. exists q. auto.
Qed.
Lemma made_prefix cs l s : made cs l s -> forall t, prefix_of t s -> exists j, made cs (firstn j l) t.
Proof.
  induction 1 as [|c cs l s H IH|c cs l p s Hp H IH]; intros t Ht.
  - exists 0%nat. destruct Ht as [r Ht]. destruct t; [constructor|discriminate].
  - apply prefix_split in Ht as [Ht|(q & -> & Hq)].
    + exists 0%nat. rewrite <- (sapp_nil_r t). apply made_part; [exact Ht|apply made_empty].
    + destruct (IH q Hq) as [j M]. exists (S j). cbn [firstn]. now apply made_whole.
  - apply prefix_app in Ht as [Ht|(q & -> & Hq)].
    + exists 0%nat. rewrite <- (sapp_nil_r t). apply made_part; [|apply made_empty].
      destruct Ht as [r <-], Hp as [r' <-]. exists (r +++ r'). now rewrite sapp_assoc.
    + destruct (IH q Hq) as [j M]. exists j. now apply made_part.
Qed.

(** Nothing, or something that begins with a brace. *)
Definition braced (s : string) : Prop := s = "" \/ exists r, s = String "{" r.
Lemma prefix_braced p c : prefix_of p (candle_line c) -> braced p.
Proof.
  intros [r E]. destruct p as [|x p]; [left; reflexivity|]. right. exists p. rewrite candle_line_joined in E.
  cbn [String.append] in E. now injection E as -> _.
Qed.
Lemma made_first cs l s : made cs l s ->
  (without newline s /\ without cr s /\ braced s) \/
  exists u v rest, s = String "{" (u +++ String "}" (String newline rest)) /\ v = String "{" (u +++ "}") /\ without newline v /\ without cr v.
Proof.
  induction 1 as [|c cs l s H IH|c cs l p s Hp H IH].
  - left. repeat split. now left.
  - right. exists (joined (line_words c)), (candle_line c), s. split; [|split; [apply candle_line_joined|split; apply candle_line_without; auto]].
    rewrite candle_line_joined. cbn [String.append]. rewrite sapp_assoc. reflexivity.
  - assert (without newline p /\ without cr p) as [Wn Wc] by (split; (eapply prefix_without; [exact Hp|]; apply candle_line_without; auto)).
    pose proof (prefix_braced _ _ Hp) as Bp. destruct IH as [(I1 & I2 & I3)|(u & v & rest & -> & -> & I1 & I2)].
    + left. split; [now apply without_app|]. split; [now apply without_app|]. destruct Bp as [->|[r ->]]; [exact I3|right]. eexists. reflexivity.
    + right. destruct Bp as [->|[r ->]].
      * exists u, (String "{" (u +++ "}")), rest. auto.
      * exists (r +++ String "{" u), (String "{" ((r +++ String "{" u) +++ "}")), rest.
        split; [cbn [String.append]; rewrite !sapp_assoc; reflexivity|]. split; [reflexivity|].
        assert (String "{" ((r +++ String "{" u) +++ "}") = String "{" r +++ String "{" (u +++ "}")) as -> by (cbn [String.append]; rewrite sapp_assoc; reflexivity).
        split; apply without_app; auto.
Qed.

(** ** Loading it *)

Lemma load_one t rest : without cr t ->
  load_lines (t :: rest) [] = if 65536 <=? Z.of_nat (String.length t) then Ret ([], None)
    else match load_line t with Ret (inl c) => with_first [c] (load_lines rest []) | Ret (inr e) => Ret ([], Some e) | Panic p => Panic p end.
Proof.
  intros W. cbn [load_lines]. unfold max_token, str_len. destruct (65536 <=? _); [reflexivity|]. rewrite drop_cr_no by assumption.
  destruct (load_line t) as [[c|e]|p]; cbn [bind]; [|reflexivity|reflexivity]. apply load_acc.
Qed.

Lemma part_spaces p c : prefix_of p (candle_line c) -> (spaces p <= 5)%nat.
Proof. intros [r E]. pose proof (line_spaces c) as L. rewrite <- E, spaces_app in L. lia. Qed.

(** A torn line and what came after it. *)
Lemma torn_rejected p c q b : prefix_of p (candle_line c) -> p <> "" -> rejected (p +++ String "{" (q +++ String b "")).
Proof.
  intros Hp Np. pose proof (part_spaces _ _ Hp) as S. destruct p as [|a p]; [congruence|]. cbn [String.append].
  assert (p +++ String "{" (q +++ String b "") = (p +++ String "{" q) +++ String b "") as -> by (rewrite sapp_assoc; reflexivity).
  apply brace_rejected; [now left|]. cbn [spaces] in S. lia.
Qed.
Lemma not_reads t c : rejected t -> ~ reads t c.
Proof. intros R H. apply rejected_iff in R as [e R]. apply reads_iff in H. congruence. Qed.
Lemma torn_reads p c s c' : fits32 c -> prefix_of p (candle_line c) -> p <> "" -> braced s -> reads (p +++ s) c' -> curtailed c c'.
Proof.
  intros Hf Hp Np [->|[r ->]] R.
  - rewrite sapp_nil_r in R. unfold curtailed. now apply (cut_line_reads c p c').
  - destruct r as [|x r].
    + (* only the brace: the line reads as if it were the last byte *)
      rewrite candle_line_joined in Hp. destruct p as [|a p]; [congruence|].
      destruct Hp as [r Hp]. cbn [String.append] in Hp. injection Hp as -> Hp.
      assert (prefix_of p (joined (line_words c) +++ String "}" "")) as Hp' by (now exists r).
      apply prefix_split in Hp' as [Hq|(q & -> & Hq)].
      * destruct (split_prefix (line_words c) p (line_words_ok c) ltac:(discriminate) Hq) as (j & w & u & Hj & Hu & Hs).
        destruct R as (a & b & w0 & w1 & w2 & w3 & w4 & w5 & more & E & F & P0 & P1 & P2 & P3 & P4 & P5).
        apply ends_inj in E as (_ & E & _). subst p. rewrite split_joined in Hs by (assumption || discriminate).
        assert (j = 5%nat) as ->.
        { pose proof (f_equal (@List.length string) Hs) as L. rewrite !app_length, firstn_length in L.
          assert (nth_error (line_words c) j <> None) as B by congruence. apply nth_error_Some in B. simpl in L, B. lia. }
        simpl in Hs, Hj. injection Hj as <-. injection Hs as -> -> -> -> -> -> Hm.
        unfold curtailed. rewrite parse_fmt_int in P0 by (lia || exact Hf). rewrite !parse_fmt_v in *.
        injection P0 as <-. injection P1 as <-. injection P2 as <-. injection P3 as <-. injection P4 as <-. eauto 10.
      * exfalso. apply (not_reads (String "{" (joined (line_words c) +++ String "}" q) +++ String "{" "") c'); [|exact R].
        destruct Hq as [r' Hq]. destruct q as [|y q]; [|discriminate]. cbn [String.append].
        apply (brace_rejected "}" "{" (joined (line_words c)) "" "{"); [now right|].
        rewrite spaces_joined by apply line_words_ok. cbn. lia.
    + exfalso. assert (exists q b, String x r = q +++ String b "") as (q & b & Eq).
      { destruct (two_ends (String "0" (String x r)) ltac:(cbn; lia)) as (a & q & b & E). injection E as _ E. eauto. }
      rewrite Eq in R. exact (not_reads _ _ (torn_rejected p c q b Hp Np) R).
Qed.

(** A torn line spoils everything after it. *)
Definition nothing_or (good : list (candle f64) -> Prop) (r : go (list (candle f64) * option err)) : Prop :=
  match r with
  | Panic _ => True
  | Ret (l, Some _) => l = []
  | Ret (l, None) => good l
  end.
Lemma load_torn p c cs l s : fits32 c -> prefix_of p (candle_line c) -> p <> "" -> made cs l s ->
  nothing_or (fun out => out = [] \/ exists c', out = [c'] /\ curtailed c c') (load_lines (raw_lines (p +++ s)) []).
Proof.
  intros Hf Hp Np M.
  assert (without newline p /\ without cr p) as [Wn Wc] by (split; (eapply prefix_without; [exact Hp|]; apply candle_line_without; auto)).
  destruct (made_first _ _ _ M) as [(I1 & I2 & I3)|(u & v & rest & -> & -> & I1 & I2)].
  - rewrite raw_tail by now apply without_app.
    assert (p +++ s <> "") as Ne by (destruct p; [congruence|discriminate]).
    destruct (p +++ s) as [|x t] eqn:E; [congruence|]. rewrite <- E in *. rewrite load_one by (now apply without_app).
    destruct (65536 <=? _); [now left|]. destruct (load_line (p +++ s)) as [[c'|e]|pn] eqn:El; [|reflexivity|exact I].
    cbn. right. exists c'. split; [reflexivity|]. apply reads_iff in El. now apply (torn_reads p c s c').
  - assert (p +++ String "{" (u +++ String "}" (String newline rest)) = (p +++ String "{" (u +++ "}")) +++ String newline rest) as ->.
    { rewrite sapp_assoc. cbn [String.append]. rewrite sapp_assoc. reflexivity. }
    rewrite raw_line by now apply without_app. rewrite load_one by now apply without_app.
    destruct (65536 <=? _); [now left|].
    pose proof (torn_rejected p c u "}" Hp Np) as R. apply rejected_iff in R as [e R]. rewrite R. reflexivity.
Qed.

Definition kept (cs l out : list (candle f64)) : Prop :=
  exists j, out = firstn j l \/ exists c c', In c cs /\ curtailed c c' /\ out = firstn j l ++ [c'].
Lemma load_made cs l s : Forall fits32 cs -> made cs l s -> nothing_or (kept cs l) (load_lines (raw_lines s) []).
Proof.
  intros F M. induction M as [|c cs l s M IH|c cs l p s Hp M IH].
  - exists 0%nat. now left.
  - inversion F as [|? ? Fc Fr]; subst. specialize (IH Fr). rewrite raw_line by (apply candle_line_without; auto).
    rewrite load_one by (apply candle_line_without; auto).
    pose proof (candle_line_scannable c (fits32_int64 c Fc)) as Sc. unfold scannable in Sc.
    destruct (Z.leb_spec 65536 (Z.of_nat (String.length (candle_line c)))); [lia|].
    pose proof (candle_line_reads c Fc) as R. apply reads_iff in R. rewrite R.
    destruct (load_lines (raw_lines s) []) as [[out [e|]]|pn]; cbn [with_first nothing_or] in *; [reflexivity| |exact I].
    destruct IH as [j [->|(c1 & c' & H1 & H2 & ->)]]; exists (S j); cbn [firstn app]; [now left|].
    right. exists c1, c'. split; [now right|]. split; [assumption|reflexivity].
  - inversion F as [|? ? Fc Fr]; subst. specialize (IH Fr). destruct p as [|x p].
    + cbn [String.append]. destruct (load_lines (raw_lines s) []) as [[out [e|]]|pn]; cbn [nothing_or] in *; auto.
      destruct IH as [j [->|(c1 & c' & H1 & H2 & ->)]]; exists j; [now left|]. right. exists c1, c'. split; [now right|]. auto.
    + pose proof (load_torn (String x p) c cs l s Fc Hp ltac:(discriminate) M) as T.
      destruct (load_lines (raw_lines (String x p +++ s)) []) as [[out [e|]]|pn]; cbn [nothing_or] in *; auto.
      destruct T as [->|(c' & -> & T)]; exists 0%nat; [now left|]. right. exists c, c'. split; [now left|]. auto.
Qed.

(** ** All or nothing *)

Lemma load_clean faults cs : Forall fits32 cs -> (forall i, faults i = None \/ faults i = Some 0%nat) -> forall i,
  load_lines (raw_lines (save_loop faults i cs)) [] = Ret (arrived faults i cs, None).
Proof.
  intros F H. induction F as [|c cs Fc F IH]; intros i; [reflexivity|]. cbn [save_loop arrived]. unfold println, write, entire.
  destruct (H i) as [-> | ->].
  - rewrite sapp_assoc. cbn [String.append]. rewrite raw_line by (apply candle_line_without; auto).
    rewrite load_one by (apply candle_line_without; auto).
    pose proof (candle_line_scannable c (fits32_int64 c Fc)) as Sc. unfold scannable in Sc.
    destruct (Z.leb_spec 65536 (Z.of_nat (String.length (candle_line c)))); [lia|].
    pose proof (candle_line_reads c Fc) as R. apply reads_iff in R. rewrite R, IH. reflexivity.
  - assert (substring 0 0 (candle_line c +++ String newline "") = "") as -> by (now destruct (candle_line c)).
    cbn [String.append]. change (Nat.ltb (String.length (candle_line c)) 0) with false. cbv iota. apply IH.
Qed.

(** ** One torn write in the middle *)

Lemma fmt_v_brief x : Z.of_nat (String.length (fmt_v x)) <= 75.
Proof.
  destruct x as [[|]|[|]| |s m e B]; [vm_compute; discriminate..|].
  unfold fmt_v. pose proof (shortest_bounds s m e B) as H. pose proof (shortest_spec s m e B) as D. cbv zeta in D.
  destruct (shortest s m e _) as [d e10]. destruct H as (_ & _ & P). destruct D as (_ & D & _).
  pose proof (layout_len d e10 P) as L. rewrite slen_app. destruct s; cbn [sign_str String.length]; lia.
Qed.
Lemma candle_line_brief c : in_int64 (c_time c) -> Z.of_nat (String.length (candle_line c)) < 500.
Proof.
  intros H. rewrite candle_line_joined. unfold line_words. cbn [joined].
  cbn [String.length]. repeat (rewrite !slen_app; cbn [String.length]).
  pose proof (fmt_int_len (c_time c) H). pose proof (fmt_v_brief (c_open c)). pose proof (fmt_v_brief (c_high c)).
  pose proof (fmt_v_brief (c_low c)). pose proof (fmt_v_brief (c_close c)). pose proof (fmt_v_brief (c_volume c)). lia.
Qed.
Lemma save_app faults a b : forall i, save_loop faults i (a ++ b) = save_loop faults i a +++ save_loop faults (i + List.length a) b.
Proof.
  induction a as [|c a IH]; intros i; cbn [app save_loop List.length].
  - now rewrite Nat.add_0_r.
  - rewrite IH, sapp_assoc, Nat.add_succ_comm. reflexivity.
Qed.
Lemma save_same f g cs : forall i, (forall j, (i <= j < i + List.length cs)%nat -> f j = g j) -> save_loop f i cs = save_loop g i cs.
Proof.
  induction cs as [|c cs IH]; intros i H; [reflexivity|]. cbn [save_loop]. cbn [List.length] in H. rewrite (H i) by lia.
  rewrite (IH (S i)); [reflexivity|]. intros j L. apply H. lia.
Qed.
Lemma load_one_torn faults pre c c2 post : Forall fits32 (pre ++ [c; c2]) ->
  (forall j, (j < List.length pre)%nat -> faults j = None) -> torn (faults (List.length pre)) c -> entire (faults (S (List.length pre))) c2 = true ->
  exists e, load_lines (raw_lines (save_loop faults 0 (pre ++ c :: c2 :: post))) [] = Ret ([], Some e).
Proof.
  intros F Hpre (k & Ek & Lk) E2. apply Forall_app in F as [Fp F]. inversion F as [|? ? Fc F']; subst. inversion F' as [|? ? F2 _]; subst.
  rewrite save_app. rewrite (save_same faults no_faults pre 0) by (intros; apply Hpre; lia).
  rewrite load_after by assumption. cbn [Nat.add save_loop]. rewrite Ek. cbn [write]. unfold println.
  rewrite substring_front by lia.
  assert (write (faults (S (List.length pre))) (candle_line c2 +++ String newline "") = candle_line c2 +++ String newline "") as ->.
  { unfold entire in E2. destruct (faults (S (List.length pre))) as [k2|]; [|reflexivity]. cbn [write]. apply Nat.ltb_lt in E2.
    apply substring_all. rewrite slen_app. cbn [String.length]. lia. }
  set (p := substring 0 k (candle_line c)). set (rest := save_loop _ _ post).
  assert (prefix_of p (candle_line c)) as Hp by apply prefix_substring.
  assert (p <> "") as Np.
  { intros E. pose proof (substring_len (candle_line c) k ltac:(lia)) as L. fold p in L. rewrite E in L. cbn in L. lia. }
  assert (p +++ (candle_line c2 +++ String newline "") +++ rest = (p +++ candle_line c2) +++ String newline rest) as ->.
  { rewrite !sapp_assoc. reflexivity. }
  assert (forall ch, ch = newline \/ ch = cr -> without ch (p +++ candle_line c2)) as W.
  { intros ch H. apply without_app. split; [|now apply candle_line_without]. eapply prefix_without; [exact Hp|]. now apply candle_line_without. }
  rewrite raw_line by (apply W; auto). rewrite load_one by (apply W; auto).
  assert (Z.of_nat (String.length (p +++ candle_line c2)) < 65536) as L.
  { rewrite slen_app. pose proof (candle_line_brief c (fits32_int64 c Fc)). pose proof (candle_line_brief c2 (fits32_int64 c2 F2)).
    apply prefix_len in Hp. lia. }
  destruct (Z.leb_spec 65536 (Z.of_nat (String.length (p +++ candle_line c2)))); [lia|].
  pose proof (torn_rejected p c (joined (line_words c2)) "}" Hp Np) as R. rewrite candle_line_joined. cbn [String.append].
  apply rejected_iff in R as [e R]. rewrite R. exists e. reflexivity.
Qed.

(** ** Many torn writes *)

Lemma save_ones faults c n : forall i, (forall j, (i <= j < i + n)%nat -> faults j = Some 1%nat) ->
  let s := save_loop faults i (repeat c n) in String.length s = n /\ without newline s /\ without cr s.
Proof.
  induction n as [|n IH]; intros i H; [repeat split|]. cbn [repeat save_loop]. rewrite (H i) by lia. cbn [write]. unfold println.
  destruct (IH (S i) ltac:(intros; apply H; lia)) as (I1 & I2 & I3).
  rewrite candle_line_joined. cbn [String.append substring].
  assert (substring 0 0 ((joined (line_words c) +++ "}") +++ String newline "") = "") as -> by (now destruct (joined (line_words c))).
  cbn [String.append String.length]. rewrite I1. split; [reflexivity|]. split; (split; [discriminate|assumption]).
Qed.
Lemma arrived_ones faults c n : forall i, (forall j, (i <= j < i + n)%nat -> faults j = Some 1%nat) -> arrived faults i (repeat c n) = [].
Proof.
  induction n as [|n IH]; intros i H; [reflexivity|]. cbn [repeat arrived]. rewrite (H i) by lia. unfold entire.
  assert (Nat.ltb (String.length (candle_line c)) 1 = false) as ->.
  { apply Nat.ltb_ge. rewrite candle_line_joined. cbn [String.length]. lia. }
  apply IH. intros; apply H; lia.
Qed.
Lemma arrived_app faults a b : forall i, arrived faults i (a ++ b) = arrived faults i a ++ arrived faults (i + List.length a) b.
Proof.
  induction a as [|c a IH]; intros i; cbn [app arrived List.length].
  - now rewrite Nat.add_0_r.
  - rewrite IH, Nat.add_succ_comm. now destruct (entire (faults i) c).
Qed.
Lemma load_overlong faults c n : Z.of_nat n = 65536 -> (forall j, (j < n)%nat -> faults j = Some 1%nat) -> faults n = None ->
  load_lines (raw_lines (save_loop faults 0 (repeat c n ++ [c]))) [] = Ret ([], None) /\ arrived faults 0 (repeat c n ++ [c]) = [c].
Proof.
  intros N H H0. split.
  - rewrite save_app. destruct (save_ones faults c n 0 ltac:(intros; apply H; lia)) as (S1 & S2 & S3).
    set (s := save_loop faults 0 (repeat c n)) in *. rewrite repeat_length. cbn [Nat.add save_loop]. rewrite H0. cbn [write]. rewrite sapp_nil_r. unfold println.
    rewrite <- sapp_assoc. rewrite raw_line by (apply without_app; split; [assumption|apply candle_line_without; auto]).
    rewrite load_one by (apply without_app; split; [assumption|apply candle_line_without; auto]).
    rewrite slen_app, S1. destruct (Z.leb_spec 65536 (Z.of_nat (n + String.length (candle_line c)))); [reflexivity|lia].
  - rewrite arrived_app, arrived_ones by (intros; apply H; lia). rewrite repeat_length. cbn [Nat.add arrived]. rewrite H0. reflexivity.
Qed.
