(** Property C116: candle files on a failing disk (market/candle_load.go).
    Model: Model/CandleFile.v; vocabulary: Spec/FaultSpec.v. *)
From Coq Require Import ZArith NArith Lia List String Ascii.
Import ListNotations.
From Flocq Require Import Core BinarySingleNaN.
From Verif Require Import Go.Outcome Go.Int64 Go.Slice Go.Float64 Go.Text Model.Candle Model.CandleFile
  Spec.FileSpec Spec.FaultSpec Proofs.FileText Proofs.CandleFile Proofs.FileParts Proofs.Faults Props.FileProps.
Open Scope string_scope.
Open Scope list_scope.
Open Scope Z_scope.

Lemma load_saved_file d path cs faults short :
  load_candles None short (fst (save_candles None faults d cs path)) path = load_lines (raw_lines (write short (save_loop faults 0 cs))) [].
Proof. unfold load_candles, save_candles, fs_set. cbn [fst]. now rewrite String.eqb_refl. Qed.

(** Whichever writes failed and wherever reading stops: what is loaded is a
    beginning of the candles that were written entirely, in order, and at most
    one more, which has the first five fields of a saved one. *)
Theorem C116_only_saved : forall d path cs faults short out e, Forall fits32 cs ->
  load_candles None short (fst (save_candles None faults d cs path)) path = Ret (out, e) ->
  (e <> None /\ out = []) \/
  (e = None /\ exists j, out = firstn j (arrived faults 0 cs) \/
     exists c c', In c cs /\ curtailed c c' /\ out = firstn j (arrived faults 0 cs) ++ [c']).
Proof.
  intros d path cs faults short out e F. rewrite load_saved_file.
  assert (exists j, made cs (firstn j (arrived faults 0 cs)) (write short (save_loop faults 0 cs))) as [j M].
  { eapply made_prefix; [apply made_save|]. destruct short as [k|]; [apply prefix_substring|apply prefix_refl]. }
  pose proof (load_made _ _ _ F M) as G. intros E. rewrite E in G. destruct e as [e|]; cbn in G.
  - left. split; [discriminate|exact G].
  - right. split; [reflexivity|]. destruct G as [i G]. exists (Nat.min i j). rewrite <- firstn_firstn. exact G.
Qed.

(** If every write left all or nothing, exactly the candles written are loaded. *)
Theorem C116_all_or_nothing : forall d path cs faults, Forall fits32 cs ->
  (forall i, faults i = None \/ faults i = Some 0%nat) ->
  load_candles None None (fst (save_candles None faults d cs path)) path = Ret (arrived faults 0 cs, None).
Proof. intros d path cs faults F H. rewrite load_saved_file. cbn [write]. now apply load_clean. Qed.

(** A first torn write followed by an entire one makes the whole file
    unreadable, the candles before it included; the save reported nothing. *)
Theorem C116_one_torn_write : forall d path faults pre c c2 post, Forall fits32 (pre ++ [c; c2]) ->
  (forall j, (j < List.length pre)%nat -> faults j = None) ->
  torn (faults (List.length pre)) c -> entire (faults (S (List.length pre))) c2 = true ->
  let '(d', e) := save_candles None faults d (pre ++ c :: c2 :: post) path in
  e = None /\ exists e', load_candles None None d' path = Ret ([], Some e').
Proof.
  intros d path faults pre c c2 post F H T E. destruct (save_candles None faults d (pre ++ c :: c2 :: post) path) as [d' e] eqn:S.
  split; [unfold save_candles in S; congruence|]. replace d' with (fst (save_candles None faults d (pre ++ c :: c2 :: post) path)) by (now rewrite S).
  rewrite load_saved_file. cbn [write]. now apply load_one_torn.
Qed.

(** That a candle written entirely is either loaded or an error reported is
    false: enough torn writes make a line too long to be seen. *)
Theorem C116_loss_reported_refuted : exists cs faults d path,
  Forall fits32 cs /\ arrived faults 0 cs <> [] /\
  load_candles None None (fst (save_candles None faults d cs path)) path = Ret ([], None).
Proof.
  set (n := Z.to_nat 65536). assert (Z.of_nat n = 65536) as N by (unfold n; rewrite Z2Nat.id; lia). clearbody n.
  set (c := mkCandle 60 (i2f 1) (i2f 1) (i2f 1) (i2f 1) (i2f 1)).
  set (faults := fun i : nat => if Nat.ltb i n then Some 1%nat else None).
  assert (forall j, (j < n)%nat -> faults j = Some 1%nat) as F1 by (intros j L; unfold faults; apply Nat.ltb_lt in L; now rewrite L).
  assert (faults n = None) as F2 by (unfold faults; now rewrite Nat.ltb_irrefl).
  destruct (load_overlong faults c n N F1 F2) as [H1 H2].
  exists (repeat c n ++ [c]), faults, (fun _ => None), "f". split.
  - apply Forall_app. split; [|constructor; [vm_compute; split; congruence|constructor]].
    apply Forall_forall. intros x Hx. apply repeat_spec in Hx. subst x. vm_compute. split; congruence.
  - rewrite H2. split; [discriminate|]. rewrite load_saved_file. exact H1.
Qed.

(** A read that fails is never reported: it loads as the bytes before it. *)
Theorem C116_short_read : forall d path content k, d path = Some content ->
  load_candles None (Some k) d path = load_candles None None (fs_set d path (substring 0 k content)) path.
Proof. intros d path content k H. unfold load_candles, fs_set. rewrite H, String.eqb_refl. reflexivity. Qed.
(** A file that is not there or cannot be opened is reported, without candles. *)
Theorem C116_not_opened : forall d path open_err short, (exists m, open_err = Some m) \/ d path = None ->
  exists e, load_candles open_err short d path = Ret ([], Some e).
Proof.
  intros d path open_err short [[m ->]|H]; unfold load_candles; [eauto|]. rewrite H. destruct open_err; eauto.
Qed.
(** A save writes to no other file. *)
Theorem C116_other_files : forall create_err d cs path faults q, q <> path ->
  fst (save_candles create_err faults d cs path) q = d q.
Proof.
  intros create_err d cs path faults q H. unfold save_candles. destruct create_err; [reflexivity|]. cbn [fst]. unfold fs_set.
  destruct (String.eqb_spec q path); [contradiction|reflexivity].
Qed.

(** The second write stopped after 14 bytes, the third after one: the brace
    closes the line. *)
Example C116_wrong_last_candle :
  loads_as (load_candles None None (fst (save_candles None
    (fun i => match i with 1%nat => Some 14%nat | 2%nat => Some 1%nat | _ => None end) (fun _ => None)
    [mkCandle 60 (i2f 7) (i2f 7) (i2f 7) (i2f 7) (i2f 1); mkCandle 61 (i2f 7) (i2f 7) (i2f 7) (i2f 8) (i2f 12345);
     mkCandle 62 (i2f 7) (i2f 7) (i2f 7) (i2f 7) (i2f 7)] "f")) "f")
  = Some ([(60, 7, 1); (61, 8, 12)], None).
Proof. vm_compute. reflexivity. Qed.
Example C116_torn_example : exists e,
  load_candles None None (fst (save_candles None
    (fun i => match i with 1%nat => Some 14%nat | _ => None end) (fun _ => None)
    [mkCandle 60 (i2f 7) (i2f 7) (i2f 7) (i2f 7) (i2f 1); mkCandle 61 (i2f 7) (i2f 7) (i2f 7) (i2f 8) (i2f 12345);
     mkCandle 62 (i2f 7) (i2f 7) (i2f 7) (i2f 7) (i2f 7)] "f")) "f" = Ret ([], Some e).
Proof.
  match goal with |- exists e, ?o = _ => set (x := o) end.
  assert (match x with Ret ([], Some _) => true | _ => false end = true) as E by (vm_compute; reflexivity).
  destruct x as [[[|] [e|]]|]; try discriminate E. eauto.
Qed.
Example C116_example : 
  let f := fun i => match i with 1%nat => Some 0%nat | _ => None end in
  map (fun c => c_time c) (arrived f 0 [mkCandle 60 (i2f 7) (i2f 7) (i2f 7) (i2f 7) (i2f 1); mkCandle 61 (i2f 7) (i2f 7) (i2f 7) (i2f 8) (i2f 12345);
     mkCandle 62 (i2f 7) (i2f 7) (i2f 7) (i2f 7) (i2f 7)]) = [60; 62].
Proof. vm_compute. reflexivity. Qed.
