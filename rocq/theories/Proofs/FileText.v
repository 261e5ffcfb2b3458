(** Lines, words and lengths of the candle file text. *)
From Coq Require Import Lia.
From Flocq Require Import Core BinarySingleNaN.
From Verif Require Import Go.Outcome Go.Int64 Go.Slice Go.Float64 Go.Text Model.Candle Model.CandleFile
  Spec.FileSpec Proofs.Lists Proofs.DecNum Proofs.Lex Proofs.RoundTrip.
Open Scope string_scope.
Open Scope list_scope.
Open Scope Z_scope.

Notation "a +++ b" := (String.append a b) (at level 60, right associativity).

(** ** [without] *)

Lemma without_app ch a b : without ch (a +++ b) <-> without ch a /\ without ch b.
Proof. induction a; simpl; tauto. Qed.
Lemma without_all ch p s : str_all p s = true -> p ch = false -> without ch s.
Proof.
  intros H Hc. induction s as [|c r IH]; simpl in *; [exact I|].
  apply andb_true_iff in H as [H1 H2]. split; [congruence|auto].
Qed.
Lemma prefix_nil s : prefix_of "" s.
Proof. now exists s. Qed.
Lemma prefix_without ch p s : prefix_of p s -> without ch s -> without ch p.
Proof. intros [r <-] H. now apply without_app in H. Qed.
Lemma prefix_refl s : prefix_of s s.
Proof. exists "". apply sapp_nil_r. Qed.

(** A prefix of [a ++ c :: b] ends inside [a] or goes beyond [c]. *)
Lemma prefix_split p a c b : prefix_of p (a +++ String c b) ->
  prefix_of p a \/ exists q, p = a +++ String c q /\ prefix_of q b.
Proof.
  intros [r H]. revert p H. induction a as [|x a IH]; intros p H; simpl in H.
  - destruct p as [|y p]; [left; apply prefix_nil|]. simpl in H. injection H as -> H.
    right. exists p. split; [reflexivity|now exists r].
  - destruct p as [|y p]; [left; apply prefix_nil|]. simpl in H. injection H as -> H.
    destruct (IH _ H) as [[q Hq]|(q & -> & Hq)].
    + left. exists q. simpl. congruence.
    + right. exists q. split; [reflexivity|assumption].
Qed.
Lemma prefix_substring k s : prefix_of (substring 0 k s) s.
Proof.
  destruct (Nat.le_gt_cases k (String.length s)) as [L|L].
  - eexists. apply (substring_split s k L).
  - assert (substring 0 k s = s) as ->; [|apply prefix_refl].
    revert k L. induction s as [|c r IH]; intros [|k] L; simpl in *; try lia; [reflexivity|].
    f_equal. apply IH. lia.
Qed.

(** ** Words *)

Lemma split_word w rest : without " " w -> split_space (w +++ String " " rest) = w :: split_space rest.
Proof.
  induction w as [|c r IH]; simpl; [reflexivity|]. intros [H1 H2].
  destruct (Ascii.eqb_spec c " "); [congruence|]. now rewrite IH.
Qed.
Lemma split_last w : without " " w -> split_space w = [w].
Proof.
  induction w as [|c r IH]; simpl; [reflexivity|]. intros [H1 H2].
  destruct (Ascii.eqb_spec c " "); [congruence|]. now rewrite IH.
Qed.
Lemma split_joined ws : Forall (without " ") ws -> ws <> [] -> split_space (joined ws) = ws.
Proof.
  induction 1 as [|w ws Hw H IH]; [congruence|]. intros _. destruct ws as [|w' ws].
  - now apply split_last.
  - change (joined (w :: w' :: ws)) with (w +++ String " " (joined (w' :: ws))).
    rewrite split_word by assumption. rewrite IH; [reflexivity|discriminate].
Qed.
Lemma split_spec s : split_space s <> [] /\ Forall (without " ") (split_space s) /\ joined (split_space s) = s.
Proof.
  induction s as [|c r (N & F & J)]; simpl.
  - repeat constructor. discriminate.
  - destruct (Ascii.eqb_spec c " ") as [->|Hc].
    + split; [discriminate|]. split; [constructor; [exact I|assumption]|].
      destruct (split_space r) as [|w ws] eqn:E; [congruence|].
      change (joined ("" :: w :: ws)) with (String " " (joined (w :: ws))). now rewrite J.
    + destruct (split_space r) as [|w ws] eqn:E; [congruence|].
      inversion F; subst. split; [discriminate|]. split; [constructor; [split; assumption|assumption]|].
      destruct ws as [|w' ws]; simpl in *; congruence.
Qed.
Lemma joined_unique ws ws' : Forall (without " ") ws -> Forall (without " ") ws' -> ws <> [] -> ws' <> [] ->
  joined ws = joined ws' -> ws = ws'.
Proof. intros. rewrite <- (split_joined ws), <- (split_joined ws') by assumption. now f_equal. Qed.

(** Words of a prefix. *)
Lemma split_prefix ws p : Forall (without " ") ws -> ws <> [] -> prefix_of p (joined ws) ->
  exists j w u, nth_error ws j = Some w /\ prefix_of u w /\ split_space p = firstn j ws ++ [u].
Proof.
  intros H. revert p. induction H as [|w ws Hw H IH]; intros p Hne Hp; [congruence|].
  destruct ws as [|w' ws].
  - simpl in Hp. exists 0%nat, w, p. split; [reflexivity|]. split; [assumption|].
    apply split_last. eapply prefix_without; eassumption.
  - change (joined (w :: w' :: ws)) with (w +++ String " " (joined (w' :: ws))) in Hp.
    apply prefix_split in Hp as [Hp|(q & -> & Hq)].
    + exists 0%nat, w, p. split; [reflexivity|]. split; [assumption|].
      apply split_last. eapply prefix_without; eassumption.
    + destruct (IH q ltac:(discriminate) Hq) as (j & x & u & H1 & H2 & H3).
      exists (S j), x, u. split; [assumption|]. split; [assumption|].
      rewrite split_word by assumption. rewrite H3. reflexivity.
Qed.

(** ** Lines *)

Lemma raw_line l rest : without newline l -> raw_lines (l +++ String newline rest) = l :: raw_lines rest.
Proof.
  induction l as [|c r IH]; simpl; [reflexivity|]. intros [H1 H2].
  destruct (Ascii.eqb_spec c newline); [congruence|]. now rewrite IH.
Qed.
Lemma raw_tail l : without newline l -> raw_lines l = match l with EmptyString => [] | _ => [l] end.
Proof.
  induction l as [|c r IH]; simpl; [reflexivity|]. intros [H1 H2].
  destruct (Ascii.eqb_spec c newline); [congruence|]. rewrite IH by assumption. now destruct r.
Qed.
Definition tail_line (t : string) : list string := match t with EmptyString => [] | _ => [t] end.
Lemma raw_text ls t : Forall (without newline) ls -> without newline t ->
  raw_lines (text_of ls t) = ls ++ tail_line t.
Proof.
  intros H Ht. induction H as [|l ls Hl H IH]; simpl; [now apply raw_tail|].
  rewrite raw_line by assumption. now rewrite IH.
Qed.
Lemma text_exists s : exists ls t, s = text_of ls t /\ Forall (without newline) ls /\ without newline t.
Proof.
  induction s as [|c r (ls & t & E & F & W)].
  - exists [], "". repeat constructor.
  - destruct (Ascii.eqb_spec c newline) as [->|N].
    + exists ("" :: ls), t. subst r. repeat constructor; auto.
    + destruct ls as [|l ls].
      * exists [], (String c t). simpl in *. subst. repeat split; auto.
      * inversion F; subst. exists (String c l :: ls), t. repeat split; auto. constructor; [split; assumption|assumption].
Qed.
Lemma prefix_text ls p : prefix_of p (text_of ls "") ->
  exists j u, p = text_of (firstn j ls) u /\ (j <= List.length ls)%nat /\
    (u = "" \/ exists l, nth_error ls j = Some l /\ prefix_of u l).
Proof.
  revert p. induction ls as [|l ls IH]; intros p H; simpl in H.
  - destruct H as [r H]. destruct p; [|discriminate]. exists 0%nat, "". simpl. auto.
  - apply prefix_split in H as [H|(q & -> & Hq)].
    + exists 0%nat, p. simpl. split; [reflexivity|]. split; [lia|]. right. eauto.
    + destruct (IH q Hq) as (j & u & -> & Hj & Hu). exists (S j), u. simpl. split; [reflexivity|]. split; [lia|assumption].
Qed.

Lemma drop_cr_no s : without cr s -> drop_cr s = s.
Proof.
  induction s as [|c r IH]; [reflexivity|]. intros [H1 H2]. simpl. destruct r as [|c' r].
  - destruct (Ascii.eqb_spec c cr); [congruence|reflexivity].
  - f_equal. auto.
Qed.

(** ** Numbers as words *)

Definition numchar (c : ascii) : bool :=
  plain c || Ascii.eqb c "N" || Ascii.eqb c "a" || Ascii.eqb c "I" || Ascii.eqb c "n" || Ascii.eqb c "f".
Lemma plain_numchar s : str_all plain s = true -> str_all numchar s = true.
Proof. apply str_all_impl. intros c H. unfold numchar. now rewrite H. Qed.
Lemma fmt_v_chars x : str_all numchar (fmt_v x) = true.
Proof.
  destruct x as [s|[|]| |s m e He]; try reflexivity; [destruct s; reflexivity|].
  simpl fmt_v. destruct (shortest _ _ _ _) as [d e10]. apply plain_numchar, plain_sign, plain_layout.
Qed.
Lemma fmt_int_chars z : str_all numchar (fmt_int z) = true.
Proof.
  unfold fmt_int. pose proof (plain_digits _ (dec_digits (Z.abs_N z))) as P.
  destruct (z <? 0); apply plain_numchar; simpl; exact P.
Qed.

Lemma parse_fmt_int bits z : 1 <= bits -> - 2 ^ (bits - 1) <= z < 2 ^ (bits - 1) -> parse_int bits (fmt_int z) = inl z.
Proof.
  intros Hb H. unfold parse_int, fmt_int.
  pose proof (dec_digits (Z.abs_N z)) as D. pose proof (dec_nonempty (Z.abs_N z)) as N.
  pose proof (dec_val (Z.abs_N z) 0) as V. rewrite N.mul_0_l, N.add_0_l in V.
  destruct (Z.ltb_spec z 0) as [L|L].
  - change (take_sign ("-" +++ dec (Z.abs_N z))) with (true, dec (Z.abs_N z)).
    cbv beta iota. rewrite D, V.
    destruct (String.eqb_spec (dec (Z.abs_N z)) ""); [congruence|]. simpl negb. simpl andb.
    rewrite N2Z.inj_abs_N. destruct (Z.leb_spec (Z.abs z) (2 ^ (bits - 1))); [|lia]. f_equal. lia.
  - assert (take_sign (dec (Z.abs_N z)) = (false, dec (Z.abs_N z))) as ->.
    { destruct (dec (Z.abs_N z)) as [|c r]; [reflexivity|]. simpl in D. apply andb_true_iff in D as [D _]. simpl.
      destruct (Ascii.eqb_spec c "+"); [subst; discriminate|].
      destruct (Ascii.eqb_spec c "-"); [subst; discriminate|]. reflexivity. }
    cbv beta iota. rewrite D, V.
    destruct (String.eqb_spec (dec (Z.abs_N z)) ""); [congruence|]. simpl negb. simpl andb.
    rewrite N2Z.inj_abs_N. destruct (Z.ltb_spec (Z.abs z) (2 ^ (bits - 1))); [|lia]. f_equal. lia.
Qed.
Lemma parse_fmt_int_range bits z : z < - 2 ^ (bits - 1) \/ 2 ^ (bits - 1) <= z -> 1 <= bits ->
  parse_int bits (fmt_int z) = inr PRange.
Proof.
  intros H Hb. unfold parse_int, fmt_int.
  assert (0 < 2 ^ (bits - 1)) as Hp by (apply Z.pow_pos_nonneg; lia).
  pose proof (dec_digits (Z.abs_N z)) as D. pose proof (dec_nonempty (Z.abs_N z)) as N.
  pose proof (dec_val (Z.abs_N z) 0) as V. rewrite N.mul_0_l, N.add_0_l in V.
  destruct (Z.ltb_spec z 0) as [L|L].
  - change (take_sign ("-" +++ dec (Z.abs_N z))) with (true, dec (Z.abs_N z)).
    cbv beta iota. rewrite D, V.
    destruct (String.eqb_spec (dec (Z.abs_N z)) ""); [congruence|]. simpl negb. simpl andb.
    rewrite N2Z.inj_abs_N. destruct (Z.leb_spec (Z.abs z) (2 ^ (bits - 1))); [lia|reflexivity].
  - assert (take_sign (dec (Z.abs_N z)) = (false, dec (Z.abs_N z))) as ->.
    { destruct (dec (Z.abs_N z)) as [|c r]; [reflexivity|]. simpl in D. apply andb_true_iff in D as [D _]. simpl.
      destruct (Ascii.eqb_spec c "+"); [subst; discriminate|].
      destruct (Ascii.eqb_spec c "-"); [subst; discriminate|]. reflexivity. }
    cbv beta iota. rewrite D, V.
    destruct (String.eqb_spec (dec (Z.abs_N z)) ""); [congruence|]. simpl negb. simpl andb.
    rewrite N2Z.inj_abs_N. destruct (Z.ltb_spec (Z.abs z) (2 ^ (bits - 1))); [lia|reflexivity].
Qed.

(** ** Lengths *)

Lemma size_nat_le n k : (n < 2 ^ N.of_nat k)%N -> (N.size_nat n <= k)%nat.
Proof.
  intros H. assert (N.of_nat (N.size_nat n) <= N.of_nat k)%N; [|lia].
  replace (N.of_nat (N.size_nat n)) with (N.size n).
  - destruct (N.eq_dec n 0) as [->|Hn]; [simpl; lia|]. rewrite N.size_log2 by assumption.
    apply N.le_succ_l, N.log2_lt_pow2; [lia|assumption].
  - destruct n as [|p]; [reflexivity|]. simpl. clear. induction p; simpl; lia.
Qed.
Lemma ndig_le f n : (ndig f n <= S f)%nat.
Proof. revert n. induction f as [|f IH]; intros n; simpl; [lia|]. destruct (n <? 10)%N; [lia|]. specialize (IH (n / 10)%N). lia. Qed.
Lemma num_digits_le n k : (n < 2 ^ N.of_nat k)%N -> (num_digits n <= S k)%nat.
Proof. intros H. unfold num_digits. pose proof (ndig_le (N.size_nat n) n). pose proof (size_nat_le n k H). lia. Qed.

Lemma find_scale_le f k num den : (find_scale f k num den <= f + k)%nat.
Proof. revert k num. induction f as [|f IH]; intros k num; cbn [find_scale]; [lia|]. destruct (den <=? num)%N; [lia|]. specialize (IH (S k) (10 * num)%N). lia. Qed.
Lemma dec_point_low num den : -399 <= dec_point num den.
Proof.
  unfold dec_point. destruct (den <=? num)%N; [lia|]. pose proof (find_scale_le 400 0 num den). lia.
Qed.
Lemma round_ratio_le num den : (round_ratio num den <= num / den + 1)%N.
Proof. unfold round_ratio. destruct (_ ?= _)%N; [destruct (N.even _)| |]; lia. Qed.

Lemma div_le (a b : N) : (a / b <= a)%N.
Proof.
  destruct (N.eq_dec b 0) as [->|Hb]; [destruct a; apply N.le_0_l|]. apply N.div_le_upper_bound; [assumption|]. nia.
Qed.
Lemma pow10_le p : (p <= 416)%N -> (10 ^ p <= 2 ^ 1664)%N.
Proof.
  intros H. transitivity (16 ^ p)%N; [apply N.pow_le_mono_l; lia|].
  change 16%N with (2 ^ 4)%N. rewrite <- N.pow_mul_r. apply N.pow_le_mono_r; lia.
Qed.

Lemma pow_pos k : (1 <= 2 ^ k)%N.
Proof. assert (2 ^ k <> 0)%N by (apply N.pow_nonzero; lia). lia. Qed.
Lemma try_digits_le s x num den dp n d : (n <= 17)%nat -> -399 <= dp -> (num <= 2 ^ 1024)%N ->
  try_digits s x num den dp n = Some d -> (d <= 2 ^ 1024 * 2 ^ 1664 + 1)%N.
Proof.
  intros Hn Hdp Hnum H. unfold try_digits in H.
  set (num' := match Z.of_nat n - dp with Zpos p => (num * 10 ^ Npos p)%N | _ => num end) in H.
  set (den' := match Z.of_nat n - dp with Zneg p => (den * 10 ^ Npos p)%N | _ => den end) in H.
  assert (num' <= 2 ^ 1024 * 2 ^ 1664)%N as B.
  { assert (1 <= 2 ^ 1664)%N as P1 by apply pow_pos.
    unfold num'. destruct (Z.of_nat n - dp) as [|p|p] eqn:E; try nia.
    apply N.mul_le_mono; [assumption|]. apply pow10_le. lia. }
  pose proof (div_le num' den') as Q. pose proof (round_ratio_le num' den') as Rr.
  cbv zeta in H.
  destruct (back s x (num' / den')%N _), (back s x (num' / den' + 1)%N _); try discriminate H;
    injection H as <-; lia.
Qed.
Lemma search_le fuel n s x num den dp d e : (fuel + n <= 18)%nat -> -399 <= dp -> (num <= 2 ^ 1024)%N ->
  search_digits fuel n s x num den dp = Some (d, e) -> (d <= 2 ^ 1024 * 2 ^ 1664 + 1)%N.
Proof.
  revert n. induction fuel as [|f IH]; intros n Hn Hdp Hnum H; cbn [search_digits] in H; [discriminate|].
  destruct (try_digits s x num den dp n) as [d'|] eqn:E.
  - destruct (back _ _ _ _); [|discriminate]. injection H as <- _. eapply try_digits_le; [| | |exact E]; (lia || assumption).
  - eapply (IH (S n)); eauto. lia.
Qed.
Lemma strip_le f d e : (fst (strip_zeros f d e) <= d)%N.
Proof.
  revert d e. induction f as [|f IH]; intros d e; simpl; [lia|]. destruct (_ =? 0)%N; [|simpl; lia].
  specialize (IH (d / 10)%N (e + 1)). pose proof (div_le d 10). lia.
Qed.
Lemma bounded_num m e : SpecFloat.bounded 53 1024 m e = true -> (pow2_num m e <= 2 ^ 1024)%N /\ (Npos m < 2 ^ 53)%N /\ -1074 <= e.
Proof.
  intros H. pose proof (Go.FloatOrder.bounded_range m e H) as (B1 & B2 & B3).
  assert (Npos m < 2 ^ 53)%N as Hm by lia.
  split; [|split; [assumption|lia]].
  unfold pow2_num. destruct e as [|p|p].
  - transitivity (2 ^ 53)%N; [lia|]. apply N.pow_le_mono_r; lia.
  - transitivity (2 ^ 53 * 2 ^ 971)%N; [|rewrite <- N.pow_add_r; apply N.pow_le_mono_r; lia].
    apply N.mul_le_mono; [lia|]. apply N.pow_le_mono_r; lia.
  - transitivity (2 ^ 53)%N; [lia|]. apply N.pow_le_mono_r; lia.
Qed.
Lemma pow_lt_3300 k : (k < 3300)%N -> (2 ^ k < 2 ^ 3300)%N.
Proof. intros H. apply N.pow_lt_mono_r; lia. Qed.
Lemma shortest_digits s m e (H : SpecFloat.bounded 53 1024 m e = true) x :
  (num_digits (fst (shortest s m e x)) <= 3301)%nat.
Proof.
  apply (num_digits_le _ 3300). change (N.of_nat 3300) with 3300%N.
  destruct (bounded_num m e H) as (B1 & B2 & B3).
  unfold shortest.
  assert (forall d e10, (d < 2 ^ 3300)%N -> (fst (strip_zeros (num_digits d) d e10) < 2 ^ 3300)%N) as K.
  { intros d e10 Hd. pose proof (strip_le (num_digits d) d e10). lia. }
  destruct (search_digits 17 1 s x (pow2_num m e) (pow2_den e) _) as [[d e10]|] eqn:E.
  - apply K. apply search_le in E; [|lia|apply dec_point_low|assumption].
    rewrite <- N.pow_add_r in E. pose proof (pow_lt_3300 (1024 + 1664 + 1) ltac:(lia)) as P.
    rewrite (N.pow_add_r 2 (1024 + 1664) 1) in P. 
    assert (1 <= 2 ^ (1024 + 1664))%N as P1 by apply pow_pos.
    change (2 ^ 1)%N with 2%N in P. generalize dependent (2 ^ (1024 + 1664))%N. generalize (2 ^ 3300)%N. intros; lia.
  - assert (pow2_num m e < 2 ^ 3300)%N as G.
    { eapply N.le_lt_trans; [exact B1|]. apply pow_lt_3300. lia. }
    destruct e as [|p|p]; [apply K; exact G|apply K; exact G|].
    clear G. apply K. eapply N.lt_le_trans with (2 ^ 53 * 8 ^ Npos p)%N.
    + apply N.mul_lt_mono_nonneg; [lia|assumption|lia|apply N.pow_lt_mono_l; lia].
    + change 8%N with (2 ^ 3)%N. rewrite <- N.pow_mul_r, <- N.pow_add_r. apply N.pow_le_mono_r; lia.
Qed.

Lemma substring_len_le i k s : (String.length (substring i k s) <= String.length s)%nat.
Proof.
  revert i k. induction s as [|c r IH]; intros [|i] [|k]; simpl; try lia.
  - specialize (IH 0%nat k). lia.
  - specialize (IH i 0%nat). lia.
  - specialize (IH i (S k)). lia.
Qed.
Lemma fmt_exp_len x : -1100 < x < 1100 -> (String.length (fmt_exp x) <= 20)%nat.
Proof.
  intros H. unfold fmt_exp. assert (num_digits (Z.abs_N x) <= 12)%nat as L.
  { apply num_digits_le. change (2 ^ N.of_nat 11)%N with 2048%N. lia. }
  rewrite !slen_app. pose proof (dec_len (Z.abs_N x)) as L2.
  destruct (x <? 0), (_ <? 10)%N; rewrite ?slen_app, L2; simpl String.length; lia.
Qed.
Lemma layout_len d e10 : -1080 < e10 + Z.of_nat (num_digits d) < 1030 ->
  (String.length (layout_g d e10) <= 2 * num_digits d + 40)%nat.
Proof.
  intros Hb. unfold layout_g. pose proof (dec_len d) as L. set (ds := dec d) in *. set (nd := num_digits d) in *.
  assert (forall i k, (String.length (substring i k ds) <= nd)%nat) as Ls.
  { intros i k. rewrite <- L. apply substring_len_le. }
  set (dp := e10 + Z.of_nat nd) in *.
  destruct (Z.ltb_spec (dp - 1) (-4)), (Z.leb_spec g_threshold (dp - 1)) as [G|G]; cbv [orb];
    try (rewrite !slen_app; pose proof (fmt_exp_len (dp - 1) ltac:(lia)); pose proof (Ls 0%nat 1%nat);
      pose proof (Ls 1%nat (nd - 1)%nat); destruct (nd =? 1)%nat; rewrite ?slen_app; simpl String.length; lia).
  unfold g_threshold in G.
  destruct (Z.leb_spec dp 0); [|destruct (Z.leb_spec (Z.of_nat nd) dp)].
  - rewrite !slen_app, zeros_len, L. simpl String.length. lia.
  - rewrite !slen_app, zeros_len, L. lia.
  - rewrite !slen_app. pose proof (Ls 0%nat (Z.to_nat dp)). pose proof (Ls (Z.to_nat dp) (nd - Z.to_nat dp)%nat).
    simpl String.length. lia.
Qed.
Lemma fmt_v_len x : Z.of_nat (String.length (fmt_v x)) <= 7000.
Proof.
  destruct x as [[|]|[|]| |s m e B]; [vm_compute; discriminate..|].
  unfold fmt_v. pose proof (shortest_bounds s m e B) as H. pose proof (shortest_digits s m e B (B754_finite s m e B)) as D.
  destruct (shortest s m e _) as [d e10]. destruct H as (_ & _ & P). simpl in D.
  pose proof (layout_len d e10 P) as L. rewrite slen_app. destruct s; simpl sign_str; simpl String.length; lia.
Qed.
Lemma fmt_int_len z : in_int64 z -> Z.of_nat (String.length (fmt_int z)) <= 100.
Proof.
  intros H. unfold fmt_int. assert (num_digits (Z.abs_N z) <= 66)%nat as L.
  { apply num_digits_le. change (2 ^ N.of_nat 65)%N with 36893488147419103232%N. unfold in_int64, int64_min, int64_max in H. lia. }
  pose proof (dec_len (Z.abs_N z)). destruct (z <? 0); rewrite ?slen_app; simpl String.length; lia.
Qed.
