(** Candle files put together, edited and saved again. *)
From Coq Require Import Lia.
From Flocq Require Import Core BinarySingleNaN.
From Verif Require Import Go.Outcome Go.Int64 Go.Slice Go.Float64 Go.Text Model.Candle Model.CandleFile
  Spec.FileSpec Proofs.Lists Proofs.DecNum Proofs.Lex Proofs.RoundTrip Proofs.FileText Proofs.CandleFile.
Open Scope string_scope.
Open Scope list_scope.
Open Scope Z_scope.

Local Notation "a +++ b" := (String.append a b) (at level 60, right associativity).

(** ** One file after the other *)

Lemma raw_after ls s : Forall (without newline) ls -> raw_lines (text_of ls "" +++ s) = ls ++ raw_lines s.
Proof.
  induction 1 as [|l ls Hl H IH]; [reflexivity|]. cbn [text_of]. rewrite sapp_assoc. cbn [String.append].
  rewrite raw_line by assumption. rewrite IH. reflexivity.
Qed.
Lemma load_acc ls acc : load_lines ls acc = with_first acc (load_lines ls []).
Proof.
  revert acc. induction ls as [|l ls IH]; intros acc; cbn [load_lines].
  - cbn [with_first]. now rewrite app_nil_r.
  - destruct (max_token <=? str_len l); [cbn [with_first]; now rewrite app_nil_r|].
    destruct (load_line (drop_cr l)) as [[c|e]|p]; cbn [bind].
    + rewrite (IH (acc ++ [c])), (IH ([] ++ [c])). destruct (load_lines ls []) as [[l' [e|]]|p]; cbn [with_first app]; try reflexivity.
      rewrite <- app_assoc. reflexivity.
    + reflexivity.
    + reflexivity.
Qed.
Lemma load_after cs s : Forall fits32 cs ->
  load_lines (raw_lines (save_loop no_faults 0 cs +++ s)) [] = with_first cs (load_lines (raw_lines s) []).
Proof.
  intros H. rewrite save_text, raw_after by apply lines_no_newline.
  rewrite (load_lines_good _ cs) by now apply saved_good. apply load_acc.
Qed.

(** ** Whatever was loaded can be saved *)

Lemma parse_int_range w z : parse_int 32 w = inl z -> - 2 ^ 31 <= z < 2 ^ 31.
Proof.
  unfold parse_int. destruct (take_sign w) as [neg r]. destruct (_ && _); [|discriminate].
  change (32 - 1) with 31. pose proof (N2Z.is_nonneg (digits_val r 0)) as P. set (v := Z.of_N (digits_val r 0)) in *.
  destruct neg.
  - destruct (Z.leb_spec v (2 ^ 31)); [|discriminate]. injection 1 as <-. lia.
  - destruct (Z.ltb_spec v (2 ^ 31)); [|discriminate]. injection 1 as <-. lia.
Qed.
Lemma reads_fits t c : reads t c -> fits32 c.
Proof. intros (a & b & w0 & w1 & w2 & w3 & w4 & w5 & more & _ & _ & P & _). exact (parse_int_range _ _ P). Qed.
Lemma loaded_fits ls acc l e : Forall fits32 acc -> load_lines ls acc = Ret (l, e) -> Forall fits32 l.
Proof.
  revert acc. induction ls as [|x ls IH]; intros acc H; cbn [load_lines].
  - injection 1 as <- <-. assumption.
  - destruct (max_token <=? str_len x); [injection 1 as <- <-; assumption|].
    destruct (load_line (drop_cr x)) as [[c|e']|p] eqn:E; cbn [bind].
    + apply IH. apply Forall_app. split; [assumption|]. constructor; [|constructor].
      apply reads_iff in E. exact (reads_fits _ _ E).
    + injection 1 as <- <-. constructor.
    + discriminate.
Qed.

(** ** Line endings *)

Lemma crlf_app a b : crlf (a +++ b) = crlf a +++ crlf b.
Proof. induction a as [|c a IH]; [reflexivity|]. cbn [String.append crlf]. destruct (Ascii.eqb c newline); cbn [String.append]; now rewrite IH. Qed.
Lemma crlf_line l : without newline l -> crlf l = l.
Proof. induction l as [|c l IH]; [reflexivity|]. intros [H1 H2]. cbn [crlf]. destruct (Ascii.eqb_spec c newline); [congruence|]. now rewrite IH. Qed.
Lemma crlf_text ls : Forall (without newline) ls -> crlf (text_of ls "") = text_of (map (fun l => l +++ String cr "") ls) "".
Proof.
  induction 1 as [|l ls Hl H IH]; [reflexivity|]. cbn [text_of map]. rewrite crlf_app, crlf_line by assumption.
  change (crlf (String newline (text_of ls ""))) with (String cr (String newline (crlf (text_of ls "")))). rewrite IH.
  rewrite sapp_assoc. reflexivity.
Qed.
Lemma drop_cr_end l : drop_cr (l +++ String cr "") = l.
Proof.
  induction l as [|c l IH]; [reflexivity|]. cbn [String.append]. destruct (l +++ String cr "") as [|d r] eqn:E.
  - destruct l; discriminate.
  - change (drop_cr (String c (String d r))) with (String c (drop_cr (String d r))). now rewrite IH.
Qed.
Lemma candle_line_short c : in_int64 (c_time c) -> Z.of_nat (String.length (candle_line c)) < 65535.
Proof.
  intros H. rewrite candle_line_joined. unfold line_words. cbn [joined].
  cbn [String.length]. repeat (rewrite !slen_app; cbn [String.length]).
  pose proof (fmt_int_len (c_time c) H). pose proof (fmt_v_len (c_open c)). pose proof (fmt_v_len (c_high c)).
  pose proof (fmt_v_len (c_low c)). pose proof (fmt_v_len (c_close c)). pose proof (fmt_v_len (c_volume c)). lia.
Qed.
Lemma load_crlf cs : Forall fits32 cs -> load_lines (raw_lines (crlf (save_loop no_faults 0 cs))) [] = Ret (cs, None).
Proof.
  intros H. rewrite save_text, crlf_text by apply lines_no_newline. rewrite raw_text; [| |exact I].
  - rewrite (load_lines_good _ cs); [reflexivity|].
    induction H as [|c cs H Hs IH]; cbn [map]; constructor; [|assumption]. split.
    + unfold scannable. rewrite slen_app. cbn [String.length]. pose proof (candle_line_short c (fits32_int64 c H)). lia.
    + rewrite drop_cr_end. now apply candle_line_reads.
  - rewrite Forall_map. eapply Forall_impl; [|apply lines_no_newline]. intros l Hl. apply without_app. split; [assumption|].
    split; [discriminate|exact I].
Qed.
Lemma chop_line l : substring 0 (String.length (l +++ String newline "") - 1) (l +++ String newline "") = l.
Proof. rewrite slen_app. cbn [String.length]. replace (String.length l + 1 - 1)%nat with (String.length l) by lia. apply substring_0_app. Qed.
Lemma text_last ls l : text_of (ls ++ [l]) "" = text_of ls l +++ String newline "".
Proof. induction ls as [|x ls IH]; cbn [app text_of]; [reflexivity|]. rewrite IH, sapp_assoc. reflexivity. Qed.
Lemma load_chopped cs : Forall fits32 cs -> load_lines (raw_lines (chopped (save_loop no_faults 0 cs))) [] = Ret (cs, None).
Proof.
  intros H. rewrite save_text. destruct cs as [|c cs _] using rev_ind; [reflexivity|].
  pose proof (lines_no_newline (cs ++ [c])) as N. rewrite map_app in *. cbn [map] in *.
  unfold chopped. rewrite text_last, chop_line.
  apply Forall_app in N as [N1 N2]. rewrite raw_text; [|assumption|exact (Forall_inv N2)].
  assert (tail_line (candle_line c) = map candle_line [c]) as -> by (cbn [map]; rewrite candle_line_joined; reflexivity).
  rewrite <- map_app, <- (app_nil_r (map candle_line (cs ++ [c]))).
  rewrite (load_lines_good _ (cs ++ [c])) by now apply saved_good. reflexivity.
Qed.

(** ** Different candles, different files *)

Lemma candle_line_inj c c' : in_int64 (c_time c) -> in_int64 (c_time c') -> candle_line c = candle_line c' -> c = c'.
Proof.
  intros H H' E. rewrite !candle_line_joined in E. injection E as E.
  assert (joined (line_words c) = joined (line_words c')) as J.
  { assert (forall a b, a +++ "}" = b +++ "}" -> a = b) as K.
    { clear. induction a as [|x a IH]; intros [|y b] E; cbn [String.append] in E.
      - reflexivity.
      - injection E as _ E. destruct b; discriminate.
      - injection E as _ E. destruct a; discriminate.
      - injection E as -> E. now rewrite (IH _ E). }
    now apply K. }
  apply joined_unique in J; try apply line_words_ok; try discriminate.
  assert (parse_int 64 (fmt_int (c_time c)) = inl (c_time c)) as P by (apply parse_fmt_int; [lia|unfold in_int64, int64_min, int64_max in H; lia]).
  assert (parse_int 64 (fmt_int (c_time c')) = inl (c_time c')) as P' by (apply parse_fmt_int; [lia|unfold in_int64, int64_min, int64_max in H'; lia]).
  pose proof (parse_fmt_v (c_open c)) as P1. pose proof (parse_fmt_v (c_high c)) as P2. pose proof (parse_fmt_v (c_low c)) as P3.
  pose proof (parse_fmt_v (c_close c)) as P4. pose proof (parse_fmt_v (c_volume c)) as P5.
  unfold line_words in J. injection J as E0 E1 E2 E3 E4 E5.
  rewrite E0 in P. rewrite E1, parse_fmt_v in P1. rewrite E2, parse_fmt_v in P2. rewrite E3, parse_fmt_v in P3.
  rewrite E4, parse_fmt_v in P4. rewrite E5, parse_fmt_v in P5.
  destruct c as [t o h l k v], c' as [t' o' h' l' k' v']. cbn [c_time c_open c_high c_low c_close c_volume] in *.
  congruence.
Qed.
Lemma map_inj_forall {A B} (P : A -> Prop) (f : A -> B) : (forall x y, P x -> P y -> f x = f y -> x = y) ->
  forall l l', Forall P l -> Forall P l' -> map f l = map f l' -> l = l'.
Proof.
  intros K l. induction l as [|x l IH]; intros [|y l'] H H' E; try discriminate; [reflexivity|].
  cbn [map] in E. injection E as E1 E2. inversion H; subst. inversion H'; subst. f_equal; auto.
Qed.
Lemma save_inj cs cs' : Forall (fun c => in_int64 (c_time c)) cs -> Forall (fun c => in_int64 (c_time c)) cs' ->
  save_loop no_faults 0 cs = save_loop no_faults 0 cs' -> cs = cs'.
Proof.
  intros H H' E. rewrite !save_text in E. apply (f_equal raw_lines) in E.
  rewrite !raw_text in E by (apply lines_no_newline || exact I). cbn [tail_line] in E. rewrite !app_nil_r in E.
  revert E. apply (map_inj_forall (fun c => in_int64 (c_time c))); [|assumption..]. intros x y. apply candle_line_inj.
Qed.
