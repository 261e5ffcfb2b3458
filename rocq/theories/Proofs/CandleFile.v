(** The candle file: lines read and written. *)
From Coq Require Import Lia.
From Flocq Require Import Core BinarySingleNaN.
From Verif Require Import Go.Outcome Go.Int64 Go.Slice Go.Float64 Go.Text Model.Candle Model.CandleFile
  Spec.FileSpec Proofs.Lists Proofs.DecNum Proofs.Lex Proofs.RoundTrip Proofs.FileText.
Open Scope string_scope.
Open Scope list_scope.
Open Scope Z_scope.

Local Notation "a +++ b" := (String.append a b) (at level 60, right associativity).

(** ** One line *)

Lemma two_ends t : (2 <= String.length t)%nat -> exists a m b, t = String a (m +++ String b "").
Proof.
  destruct t as [|a r]; simpl; [lia|]. intros H.
  assert (forall r, (1 <= String.length r)%nat -> exists m b, r = m +++ String b "") as K.
  { clear. induction r as [|x r IH]; simpl; [lia|]. intros _. destruct r as [|y r].
    - exists "", x. reflexivity.
    - destruct IH as (m & b & E); [simpl; lia|]. exists (String x m), b. simpl. congruence. }
  destruct (K r ltac:(lia)) as (m & b & ->). eauto.
Qed.
Lemma strip_ok a m b : strip_braces (String a (m +++ String b "")) = Ret m.
Proof.
  unfold strip_braces, str_len. simpl String.length. rewrite slen_app. simpl String.length.
  destruct (Z.ltb_spec (Z.of_nat (S (String.length m + 1)) - 1) 1); [lia|]. f_equal.
  replace (S (String.length m + 1) - 2)%nat with (String.length m) by lia.
  simpl. apply substring_0_app.
Qed.
Lemma strip_short t : (String.length t < 2)%nat -> strip_braces t = Panic PSlice.
Proof.
  intros H. unfold strip_braces, str_len. destruct (Z.ltb_spec (Z.of_nat (String.length t) - 1) 1); [reflexivity|lia].
Qed.

(** Reading the words. *)
Definition read_fields (ws : list string) : go (candle f64 + err) :=
  a0 <- index ws 0 ;;
  match parse_int 32 a0 with
  | inr _ => Ret (inr (parse_fail "strconv.ParseInt"))
  | inl t =>
  a1 <- index ws 1 ;;
  match parse_float a1 with
  | inr _ => Ret (inr (parse_fail "strconv.ParseFloat"))
  | inl o =>
  a2 <- index ws 2 ;;
  match parse_float a2 with
  | inr _ => Ret (inr (parse_fail "strconv.ParseFloat"))
  | inl h =>
  a3 <- index ws 3 ;;
  match parse_float a3 with
  | inr _ => Ret (inr (parse_fail "strconv.ParseFloat"))
  | inl l =>
  a4 <- index ws 4 ;;
  match parse_float a4 with
  | inr _ => Ret (inr (parse_fail "strconv.ParseFloat"))
  | inl c =>
  a5 <- index ws 5 ;;
  match parse_float a5 with
  | inr _ => Ret (inr (parse_fail "strconv.ParseFloat"))
  | inl v => Ret (inl (mkCandle t o h l c v))
  end end end end end end.

Lemma load_line_words a ws b : Forall (without " ") ws -> ws <> [] ->
  load_line (String a (joined ws +++ String b "")) = read_fields ws.
Proof. intros H N. unfold load_line. rewrite strip_ok, bind_ret, split_joined by assumption. reflexivity. Qed.

Lemma index_nat {A} (l : list A) i : index l (Z.of_nat i) = match nth_error l i with Some a => Ret a | None => Panic PIndex end.
Proof.
  unfold index. destruct (Z.ltb_spec (Z.of_nat i) 0); [lia|]. rewrite Nat2Z.id. reflexivity.
Qed.

Lemma field0_inv w z : parse_int 32 w = z -> match z with inl _ => field_ok 0 w | inr _ => ~ field_ok 0 w end.
Proof. intros H. destruct z; simpl; [eauto|]. intros [x E]. congruence. Qed.
Lemma fieldS_inv i w z : parse_float w = z -> match z with inl _ => field_ok (S i) w | inr _ => ~ field_ok (S i) w end.
Proof. intros H. destruct z; simpl; [eauto|]. intros [x E]. congruence. Qed.

(** All outcomes of reading the words. *)
Definition words_spec (ws : list string) (o : go (candle f64 + err)) : Prop :=
  match o with
  | Ret (inl c) => exists w0 w1 w2 w3 w4 w5 more, ws = [w0; w1; w2; w3; w4; w5] ++ more /\
      parse_int 32 w0 = inl (c_time c) /\ parse_float w1 = inl (c_open c) /\
      parse_float w2 = inl (c_high c) /\ parse_float w3 = inl (c_low c) /\
      parse_float w4 = inl (c_close c) /\ parse_float w5 = inl (c_volume c)
  | Ret (inr e) => (exists s, e = EWrap load_op (EExt s)) /\ exists i w, (i < 6)%nat /\ nth_error ws i = Some w /\ ~ field_ok i w /\
      forall j u, (j < i)%nat -> nth_error ws j = Some u -> field_ok j u
  | Panic p => p = PIndex /\ (List.length ws < 6)%nat /\ forall j u, nth_error ws j = Some u -> field_ok j u
  end.
Ltac index_step := match goal with
  | |- words_spec ?ws (bind (index (?w :: ?r) 0) _) => change (index (w :: r) 0) with (@Ret string w); rewrite bind_ret
  end.
Lemma lt_cases (P : nat -> string -> Prop) (ws pre : list string) (i : nat) :
  i = List.length pre -> firstn i ws = pre -> (forall j u, nth_error pre j = Some u -> P j u) ->
  forall j u, (j < i)%nat -> nth_error ws j = Some u -> P j u.
Proof.
  intros -> E H j u Hj Hu. apply H. rewrite <- E. clear -Hj Hu.
  revert pre j Hj Hu. induction ws as [|w ws IH]; intros pre j Hj Hu; destruct j; try discriminate; destruct pre; simpl in *; try lia; auto.
  apply IH; [lia|assumption].
Qed.

Lemma read_fields_spec ws : words_spec ws (read_fields ws).
Proof.
  unfold read_fields.
  destruct ws as [|w0 ws].
  { simpl. split; [reflexivity|]. split; [lia|]. intros [|j] u; discriminate. }
  change (index (w0 :: ws) 0) with (@Ret string w0). rewrite bind_ret.
  destruct (parse_int 32 w0) as [t|] eqn:E0; pose proof (field0_inv _ _ E0) as F0; cbn match in F0;
    [|simpl; split; [eexists; reflexivity|]; exists 0%nat, w0; split; [lia|]; split; [reflexivity|]; split; [assumption|intros; lia]].
  destruct ws as [|w1 ws].
  { simpl. split; [reflexivity|]. split; [lia|]. intros [|j] u; [injection 1 as <-; exact F0|destruct j; discriminate]. }
  change (index (w0 :: w1 :: ws) 1) with (@Ret string w1). rewrite bind_ret.
  destruct (parse_float w1) as [o|] eqn:E1; pose proof (fieldS_inv 0 _ _ E1) as F1; cbn match in F1;
    [|simpl; split; [eexists; reflexivity|]; exists 1%nat, w1; split; [lia|]; split; [reflexivity|]; split; [assumption|];
      intros [|j] u Hj; [injection 1 as <-; exact F0|lia]].
  destruct ws as [|w2 ws].
  { simpl. split; [reflexivity|]. split; [lia|]. intros [|[|j]] u; [injection 1 as <-; assumption..|destruct j; discriminate]. }
  change (index (w0 :: w1 :: w2 :: ws) 2) with (@Ret string w2). rewrite bind_ret.
  destruct (parse_float w2) as [h|] eqn:E2; pose proof (fieldS_inv 1 _ _ E2) as F2; cbn match in F2;
    [|simpl; split; [eexists; reflexivity|]; exists 2%nat, w2; split; [lia|]; split; [reflexivity|]; split; [assumption|];
      intros [|[|j]] u Hj; [injection 1 as <-; assumption..|lia]].
  destruct ws as [|w3 ws].
  { simpl. split; [reflexivity|]. split; [lia|]. intros [|[|[|j]]] u; [injection 1 as <-; assumption..|destruct j; discriminate]. }
  change (index (w0 :: w1 :: w2 :: w3 :: ws) 3) with (@Ret string w3). rewrite bind_ret.
  destruct (parse_float w3) as [l|] eqn:E3; pose proof (fieldS_inv 2 _ _ E3) as F3; cbn match in F3;
    [|simpl; split; [eexists; reflexivity|]; exists 3%nat, w3; split; [lia|]; split; [reflexivity|]; split; [assumption|];
      intros [|[|[|j]]] u Hj; [injection 1 as <-; assumption..|lia]].
  destruct ws as [|w4 ws].
  { simpl. split; [reflexivity|]. split; [lia|]. intros [|[|[|[|j]]]] u; [injection 1 as <-; assumption..|destruct j; discriminate]. }
  change (index (w0 :: w1 :: w2 :: w3 :: w4 :: ws) 4) with (@Ret string w4). rewrite bind_ret.
  destruct (parse_float w4) as [c|] eqn:E4; pose proof (fieldS_inv 3 _ _ E4) as F4; cbn match in F4;
    [|simpl; split; [eexists; reflexivity|]; exists 4%nat, w4; split; [lia|]; split; [reflexivity|]; split; [assumption|];
      intros [|[|[|[|j]]]] u Hj; [injection 1 as <-; assumption..|lia]].
  destruct ws as [|w5 ws].
  { simpl. split; [reflexivity|]. split; [lia|]. intros [|[|[|[|[|j]]]]] u; [injection 1 as <-; assumption..|destruct j; discriminate]. }
  change (index (w0 :: w1 :: w2 :: w3 :: w4 :: w5 :: ws) 5) with (@Ret string w5). rewrite bind_ret.
  destruct (parse_float w5) as [v|] eqn:E5; pose proof (fieldS_inv 4 _ _ E5) as F5; cbn match in F5;
    [|simpl; split; [eexists; reflexivity|]; exists 5%nat, w5; split; [lia|]; split; [reflexivity|]; split; [assumption|];
      intros [|[|[|[|[|j]]]]] u Hj; [injection 1 as <-; assumption..|lia]].
  cbn [words_spec]. exists w0, w1, w2, w3, w4, w5, ws. auto 10.
Qed.

(** The three outcomes of a line, each exactly characterised. *)
Definition line_spec (t : string) (o : go (candle f64 + err)) : Prop :=
  match o with
  | Ret (inl c) => reads t c
  | Ret (inr e) => rejected t /\ exists s, e = EWrap load_op (EExt s)
  | Panic _ => crashes t
  end.
Lemma load_line_spec t : line_spec t (load_line t).
Proof.
  destruct (Nat.lt_ge_cases (String.length t) 2) as [L|L].
  - unfold load_line. rewrite strip_short by assumption. left. assumption.
  - destruct (two_ends t L) as (a & m & b & ->).
    destruct (split_spec m) as (N & F & J). rewrite <- J.
    rewrite load_line_words by assumption.
    pose proof (read_fields_spec (split_space m)) as S. set (ws := split_space m) in *.
    destruct (read_fields ws) as [[c|e]|p]; simpl in S |- *.
    + destruct S as (w0 & w1 & w2 & w3 & w4 & w5 & more & E & P). rewrite E in *.
      exists a, b, w0, w1, w2, w3, w4, w5, more. tauto.
    + destruct S as [[s ->] (i & w & P1 & P2 & P3 & P4)]. split; [|eauto]. exists a, b, ws, i, w. auto 10.
    + right. destruct S as (_ & P1 & P2). exists a, b, ws. repeat split; auto.
      destruct ws; [congruence|simpl; lia].
Qed.

(** The specification is deterministic. *)
Lemma ends_inj a m b a' m' b' : String a (m +++ String b "") = String a' (m' +++ String b' "") -> a = a' /\ m = m' /\ b = b'.
Proof.
  injection 1 as -> H. split; [reflexivity|]. revert m' H. induction m as [|x m IH]; intros [|y m'] H; simpl in H.
  - injection H as ->. auto.
  - injection H as -> H. destruct m'; discriminate.
  - injection H as -> H. destruct m; discriminate.
  - injection H as -> H. apply IH in H as [-> ->]. auto.
Qed.
Lemma reads_iff t c : load_line t = Ret (inl c) <-> reads t c.
Proof.
  split.
  - intros H. pose proof (load_line_spec t) as S. rewrite H in S. exact S.
  - intros (a & b & w0 & w1 & w2 & w3 & w4 & w5 & more & -> & F & P0 & P1 & P2 & P3 & P4 & P5).
    rewrite load_line_words by (assumption || discriminate).
    unfold read_fields. simpl app.
    change (index (w0 :: ?r) 0) with (@Ret string w0). rewrite bind_ret, P0.
    change (index (w0 :: w1 :: ?r) 1) with (@Ret string w1). rewrite bind_ret, P1.
    change (index (w0 :: w1 :: w2 :: ?r) 2) with (@Ret string w2). rewrite bind_ret, P2.
    change (index (w0 :: w1 :: w2 :: w3 :: ?r) 3) with (@Ret string w3). rewrite bind_ret, P3.
    change (index (w0 :: w1 :: w2 :: w3 :: w4 :: ?r) 4) with (@Ret string w4). rewrite bind_ret, P4.
    change (index (w0 :: w1 :: w2 :: w3 :: w4 :: w5 :: ?r) 5) with (@Ret string w5). rewrite bind_ret, P5.
    destruct c; reflexivity.
Qed.
Lemma no_words_dec (ws : list string) i w : nth_error ws i = Some w -> ws <> [].
Proof. now destruct ws, i. Qed.
Lemma joined_words t a b ws a' b' ws' : t = String a (joined ws +++ String b "") -> t = String a' (joined ws' +++ String b' "") ->
  Forall (without " ") ws -> Forall (without " ") ws' -> ws <> [] -> ws' <> [] -> ws = ws'.
Proof. intros E E' F F' N N'. subst t. apply ends_inj in E' as (_ & E' & _). apply joined_unique; auto. Qed.
Lemma rejected_iff t : (exists e, load_line t = Ret (inr e)) <-> rejected t.
Proof.
  split.
  - intros [e H]. pose proof (load_line_spec t) as S. rewrite H in S. apply S.
  - intros (a & b & ws & i & w & E & F & Hi & Hw & Hb & Hj).
    assert (ws <> []) as N by (eapply no_words_dec; eassumption).
    pose proof (read_fields_spec ws) as S. rewrite E, load_line_words by assumption.
    destruct (read_fields ws) as [[c|e]|p]; [|eauto|].
    + exfalso. destruct S as (w0 & w1 & w2 & w3 & w4 & w5 & more & -> & P0 & P1 & P2 & P3 & P4 & P5).
      apply Hb. do 6 (destruct i as [|i]; [injection Hw as <-; simpl; eauto|]). lia.
    + exfalso. destruct S as (_ & _ & S). apply Hb. now apply S.
Qed.
Lemma crashes_iff t : (exists p, load_line t = Panic p) <-> crashes t.
Proof.
  split.
  - intros [e H]. pose proof (load_line_spec t) as S. rewrite H in S. apply S.
  - intros [H|(a & b & ws & E & F & Hl & Hj)].
    + exists PSlice. unfold load_line. now rewrite strip_short.
    + assert (ws <> []) as N by (intros ->; simpl in Hl; lia).
      pose proof (read_fields_spec ws) as S. rewrite E, load_line_words by assumption.
      destruct (read_fields ws) as [[c|e]|p]; [| |eauto].
      * exfalso. destruct S as (w0 & w1 & w2 & w3 & w4 & w5 & more & -> & _). simpl in Hl. lia.
      * exfalso. destruct S as (_ & i & w & P1 & P2 & P3 & P4). apply P3. eauto.
Qed.

(** ** A file *)

Lemma load_lines_app ls1 cs acc ls2 :
  Forall2 (fun l c => scannable l /\ load_line (drop_cr l) = Ret (inl c)) ls1 cs ->
  load_lines (ls1 ++ ls2) acc = load_lines ls2 (acc ++ cs).
Proof.
  intros H. revert acc. induction H as [|l c ls cs [H1 H2] H IH]; intros acc; simpl.
  - now rewrite app_nil_r.
  - unfold scannable in H1. unfold max_token, str_len. destruct (Z.leb_spec 65536 (Z.of_nat (String.length l))); [lia|].
    rewrite H2, bind_ret, IH, <- app_assoc. reflexivity.
Qed.

Definition stops (l : string) : Prop :=
  ~ scannable l \/ rejected (drop_cr l) \/ crashes (drop_cr l).
Lemma lines_cases ls : exists good cs rest,
  ls = good ++ rest /\ Forall2 (fun l c => scannable l /\ reads (drop_cr l) c) good cs /\
  (rest = [] \/ exists l r, rest = l :: r /\ stops l).
Proof.
  induction ls as [|l ls (good & cs & rest & -> & F & E)].
  - exists [], [], []. repeat split; auto.
  - destruct (Z_lt_le_dec (Z.of_nat (String.length l)) 65536) as [L|L].
    + pose proof (load_line_spec (drop_cr l)) as S. destruct (load_line (drop_cr l)) as [[c|e]|p]; simpl in S.
      * exists (l :: good), (c :: cs), rest. repeat split; auto.
      * exists [], [], (l :: good ++ rest). repeat split; auto. right. do 2 eexists. split; [reflexivity|]. right; left. apply S.
      * exists [], [], (l :: good ++ rest). repeat split; auto. right. do 2 eexists. split; [reflexivity|]. right; right. apply S.
    + exists [], [], (l :: good ++ rest). repeat split; auto. right. do 2 eexists. split; [reflexivity|]. left. unfold scannable. lia.
Qed.
Lemma load_lines_good good cs rest :
  Forall2 (fun l c => scannable l /\ reads (drop_cr l) c) good cs ->
  load_lines (good ++ rest) [] = load_lines rest cs.
Proof.
  intros H. rewrite (load_lines_app good cs); [reflexivity|].
  induction H as [|l c ls cs' [A B] H IH]; constructor; [|assumption]. split; [assumption|]. now apply reads_iff.
Qed.
Lemma load_lines_stop l r cs : stops l ->
  (~ scannable l -> load_lines (l :: r) cs = Ret (cs, None)) /\
  (scannable l -> rejected (drop_cr l) -> exists s, load_lines (l :: r) cs = Ret ([], Some (EWrap load_op (EExt s)))) /\
  (scannable l -> crashes (drop_cr l) -> exists p, load_lines (l :: r) cs = Panic p).
Proof.
  intros _. cbn [load_lines]. unfold scannable, max_token, str_len.
  destruct (Z.leb_spec 65536 (Z.of_nat (String.length l))) as [L|L].
  - repeat split; intros; lia || auto.
  - split; [intros; lia|]. split; intros _ H.
    + apply rejected_iff in H as [e H]. pose proof (load_line_spec (drop_cr l)) as S. rewrite H in *. destruct S as [_ [s ->]].
      rewrite bind_ret. eauto.
    + apply crashes_iff in H as [p H]. rewrite H. eexists. reflexivity.
Qed.

(** ** A saved file *)

Definition line_words (c : candle f64) : list string :=
  [fmt_int (c_time c); fmt_v (c_open c); fmt_v (c_high c); fmt_v (c_low c); fmt_v (c_close c); fmt_v (c_volume c)].
Lemma candle_line_joined c : candle_line c = String "{" (joined (line_words c) +++ "}").
Proof.
  unfold candle_line, line_words, joined.
  change ("{" +++ ?x) with (String "{" x). f_equal. rewrite !sapp_assoc. cbn [String.append]. rewrite !sapp_assoc. cbn [String.append].
  rewrite !sapp_assoc. cbn [String.append]. rewrite !sapp_assoc. cbn [String.append]. rewrite !sapp_assoc. reflexivity.
Qed.
Lemma line_words_chars ch c : numchar ch = false -> Forall (without ch) (line_words c).
Proof.
  intros H. unfold line_words.
  repeat apply Forall_cons; try apply Forall_nil; (eapply without_all; [apply fmt_int_chars || apply fmt_v_chars|exact H]).
Qed.
Lemma line_words_ok c : Forall (without " ") (line_words c).
Proof. apply line_words_chars. reflexivity. Qed.
Lemma joined_without ch ws : ch <> " "%char -> Forall (without ch) ws -> without ch (joined ws).
Proof.
  intros Hc. induction 1 as [|w ws Hw H IH]; [exact I|]. destruct ws as [|w' ws]; [exact Hw|].
  change (joined (w :: w' :: ws)) with (w +++ String " " (joined (w' :: ws))).
  apply without_app. split; [assumption|]. split; [congruence|assumption].
Qed.
Lemma candle_line_without ch c : ch = newline \/ ch = cr -> without ch (candle_line c).
Proof.
  intros H. rewrite candle_line_joined.
  assert (ch <> " " /\ ch <> "{" /\ ch <> "}" /\ numchar ch = false)%char as (N1 & N2 & N3 & N4).
  { destruct H as [ -> | -> ]; repeat split; discriminate. }
  split; [congruence|]. apply without_app. split; [|split; [congruence|exact I]].
  apply joined_without; [assumption|]. now apply line_words_chars.
Qed.
Lemma candle_line_scannable c : in_int64 (c_time c) -> scannable (candle_line c).
Proof.
  intros H. unfold scannable. rewrite candle_line_joined. unfold line_words. cbn [joined].
  cbn [String.length]. repeat (rewrite !slen_app; cbn [String.length]).
  pose proof (fmt_int_len (c_time c) H). pose proof (fmt_v_len (c_open c)). pose proof (fmt_v_len (c_high c)).
  pose proof (fmt_v_len (c_low c)). pose proof (fmt_v_len (c_close c)). pose proof (fmt_v_len (c_volume c)). lia.
Qed.
Lemma candle_line_reads c : fits32 c -> reads (candle_line c) c.
Proof.
  intros H. rewrite candle_line_joined. exists "{"%char, "}"%char. do 6 eexists. exists [].
  split; [reflexivity|]. split; [rewrite app_nil_r; apply line_words_ok|].
  split; [apply parse_fmt_int; [lia|exact H]|]. repeat split; apply parse_fmt_v.
Qed.
Lemma fits32_int64 c : fits32 c -> in_int64 (c_time c).
Proof. unfold fits32, in_int64, int64_min, int64_max. lia. Qed.

Lemma save_text cs i : save_loop no_faults i cs = text_of (map candle_line cs) "".
Proof.
  revert i. induction cs as [|c cs IH]; intros i; [reflexivity|]. simpl save_loop. rewrite IH.
  unfold println. rewrite sapp_assoc. reflexivity.
Qed.
Lemma lines_no_newline cs : Forall (without newline) (map candle_line cs).
Proof. rewrite Forall_map. apply Forall_forall. intros c _. apply candle_line_without. auto. Qed.
Lemma saved_good cs : Forall fits32 cs ->
  Forall2 (fun l c => scannable l /\ reads (drop_cr l) c) (map candle_line cs) cs.
Proof.
  induction 1 as [|c cs H Hs IH]; simpl; constructor; [|assumption].
  split; [now apply candle_line_scannable, fits32_int64|]. rewrite drop_cr_no by (apply candle_line_without; auto).
  now apply candle_line_reads.
Qed.
Lemma load_saved cs : Forall fits32 cs -> load_lines (raw_lines (save_loop no_faults 0 cs)) [] = Ret (cs, None).
Proof.
  intros H. rewrite save_text, raw_text by (apply lines_no_newline || exact I).
  rewrite (load_lines_good _ cs) by now apply saved_good. reflexivity.
Qed.
Lemma wide_time_rejected c : ~ fits32 c -> rejected (candle_line c).
Proof.
  intros H. rewrite candle_line_joined. exists "{"%char, "}"%char, (line_words c), 0%nat, (fmt_int (c_time c)).
  split; [reflexivity|]. split; [apply line_words_ok|]. split; [lia|]. split; [reflexivity|].
  split; [|intros; lia]. intros [z E]. rewrite parse_fmt_int_range in E; [discriminate| |lia].
  unfold fits32 in H. change (32 - 1) with 31. lia.
Qed.
Lemma load_wide pre c post : Forall fits32 pre -> ~ fits32 c -> in_int64 (c_time c) ->
  exists s, load_lines (raw_lines (save_loop no_faults 0 (pre ++ c :: post))) [] = Ret ([], Some (EWrap load_op (EExt s))).
Proof.
  intros Hp Hc Hi. rewrite save_text, raw_text by (apply lines_no_newline || exact I).
  rewrite map_app, <- app_assoc. rewrite (load_lines_good _ pre) by now apply saved_good.
  simpl map. simpl app.
  assert (rejected (drop_cr (candle_line c))) as R.
  { rewrite drop_cr_no by (apply candle_line_without; auto). now apply wide_time_rejected. }
  assert (stops (candle_line c)) as S by (right; left; assumption).
  destruct (load_lines_stop (candle_line c) (map candle_line post ++ tail_line "") pre S) as (_ & K & _).
  apply K; [now apply candle_line_scannable|assumption].
Qed.

(** ** A cut file *)

Lemma prefix_len p s : prefix_of p s -> (String.length p <= String.length s)%nat.
Proof. intros [r <-]. rewrite slen_app. lia. Qed.
Lemma prefix_ends p a m b : prefix_of p (String a (m +++ String b "")) ->
  (String.length p < 2)%nat \/ exists q z, p = String a (q +++ String z "") /\ prefix_of q m.
Proof.
  intros H. destruct (Nat.lt_ge_cases (String.length p) 2) as [L|L]; [left; assumption|right].
  destruct (two_ends p L) as (a' & q & z & ->). destruct H as [r H]. simpl in H. injection H as -> H.
  exists q, z. split; [reflexivity|]. clear L. revert m H. induction q as [|x q IH]; intros m H; [apply prefix_nil|].
  destruct m as [|y m]; simpl in H.
  - injection H as _ H. destruct q; discriminate.
  - injection H as -> H. destruct (IH _ H) as [r' E]. exists r'. simpl. congruence.
Qed.
Lemma cut_line_reads c p c' : fits32 c -> prefix_of p (candle_line c) -> reads p c' ->
  c_time c' = c_time c /\ c_open c' = c_open c /\ c_high c' = c_high c /\ c_low c' = c_low c /\ c_close c' = c_close c /\
  exists w, prefix_of w (fmt_v (c_volume c)) /\ parse_float w = inl (c_volume c').
Proof.
  intros Hf Hp Hr. rewrite candle_line_joined in Hp. apply prefix_ends in Hp as [L|(q & z & -> & Hq)].
  { destruct Hr as (a & b & w0 & w1 & w2 & w3 & w4 & w5 & more & -> & _). simpl in L. rewrite slen_app in L. simpl in L. lia. }
  destruct (split_prefix (line_words c) q (line_words_ok c) ltac:(discriminate) Hq) as (j & w & u & Hj & Hu & Hs).
  destruct Hr as (a & b & w0 & w1 & w2 & w3 & w4 & w5 & more & E & F & P0 & P1 & P2 & P3 & P4 & P5).
  apply ends_inj in E as (_ & E & _). subst q. rewrite split_joined in Hs by (assumption || discriminate).
  assert (j = 5%nat) as ->.
  { pose proof (f_equal (@List.length string) Hs) as L. rewrite !app_length, firstn_length in L.
    assert (nth_error (line_words c) j <> None) as B by congruence. apply nth_error_Some in B. simpl in L, B. lia. }
  simpl in Hs, Hj. injection Hj as <-. injection Hs as -> -> -> -> -> -> Hm.
  rewrite parse_fmt_int in P0 by (lia || exact Hf). rewrite !parse_fmt_v in *.
  injection P0 as <-. injection P1 as <-. injection P2 as <-. injection P3 as <-. injection P4 as <-. eauto 10.
Qed.

Lemma load_cut cs k : Forall fits32 cs ->
  exists j, (j <= List.length cs)%nat /\
  let result := load_lines (raw_lines (substring 0 k (save_loop no_faults 0 cs))) [] in
  (exists p, result = Panic p) \/ (exists e, result = Ret ([], Some e)) \/
  result = Ret (firstn j cs, None) \/
  exists c c' w, nth_error cs j = Some c /\ result = Ret (firstn j cs ++ [c'], None) /\
    c_time c' = c_time c /\ c_open c' = c_open c /\ c_high c' = c_high c /\ c_low c' = c_low c /\ c_close c' = c_close c /\
    prefix_of w (fmt_v (c_volume c)) /\ parse_float w = inl (c_volume c').
Proof.
  intros H. rewrite save_text.
  destruct (prefix_text (map candle_line cs) (substring 0 k (text_of (map candle_line cs) "")) (prefix_substring _ _))
    as (j & u & E & Hj & Hu).
  rewrite map_length in Hj. exists j. split; [assumption|]. cbv zeta. rewrite E.
  assert (Forall (without newline) (firstn j (map candle_line cs))) as Nl.
  { rewrite <- (firstn_skipn j (map candle_line cs)) in *. pose proof (lines_no_newline cs) as L.
    rewrite <- (firstn_skipn j (map candle_line cs)) in L. apply Forall_app in L as [L _].
    rewrite firstn_skipn. exact L. }
  assert (Forall fits32 (firstn j cs)) as Hf.
  { rewrite <- (firstn_skipn j cs) in H. now apply Forall_app in H. }
  assert (without newline u) as Wu.
  { destruct Hu as [->|(l & Hl & Hp)]; [exact I|]. rewrite nth_error_map in Hl. destruct (nth_error cs j); [|discriminate].
    injection Hl as <-. eapply prefix_without; [exact Hp|]. apply candle_line_without; auto. }
  rewrite raw_text by assumption. rewrite firstn_map. rewrite (load_lines_good _ (firstn j cs)) by now apply saved_good.
  destruct u as [|x u]; [right; right; left; reflexivity|]. cbn [tail_line].
  destruct Hu as [Hu|(l & Hl & Hp)]; [discriminate|]. rewrite nth_error_map in Hl.
  destruct (nth_error cs j) as [c|] eqn:Ec; [|discriminate]. injection Hl as <-.
  assert (fits32 c) as Hc by (rewrite Forall_forall in H; apply H; eapply nth_error_In; eassumption).
  assert (without cr (String x u)) as Wc.
  { eapply prefix_without; [exact Hp|]. apply candle_line_without; auto. }
  assert (scannable (String x u)) as Sc.
  { pose proof (candle_line_scannable c (fits32_int64 c Hc)) as S. apply prefix_len in Hp. unfold scannable in *. lia. }
  cbn [load_lines]. unfold max_token, str_len, scannable in *.
  destruct (Z.leb_spec 65536 (Z.of_nat (String.length (String x u)))); [lia|].
  rewrite drop_cr_no by assumption.
  destruct (load_line (String x u)) as [[c'|e]|p] eqn:El.
  - right; right; right. rewrite bind_ret. apply reads_iff in El.
    destruct (cut_line_reads c _ c' Hc Hp El) as (T1 & T2 & T3 & T4 & T5 & w & T6 & T7).
    exists c, c', w. auto 12.
  - right; left. rewrite bind_ret. eauto.
  - left. eexists. reflexivity.
Qed.
(** Whole lines load exactly. *)
Lemma load_lines_complete cs j : Forall fits32 cs ->
  load_lines (raw_lines (save_loop no_faults 0 (firstn j cs))) [] = Ret (firstn j cs, None).
Proof. intros H. apply load_saved. rewrite <- (firstn_skipn j cs) in H. now apply Forall_app in H. Qed.
