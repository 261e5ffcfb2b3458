(** Property C118: the memory ModifyInterval reads and returns.  Model:
    Model/CandleHeap.v; vocabulary: Spec/HeapSpec.v. *)
From Coq Require Import Lia Arith.
From Verif Require Import Go.Outcome Go.Slice Go.Float64 Go.Num Go.Heap Model.Candle Model.CandleHeap
  Spec.HeapSpec Proofs.Heap Proofs.CandleHeap.
Open Scope list_scope.
Open Scope Z_scope.
Local Notation length := List.length.

(** Reading memory while the result grows gives what the value-level model
    gives, and nothing that existed before is changed, not even elements beyond
    the length of a slice ([t] may be any header, also one that shares the
    array of the argument). *)
Theorem C118_agrees : forall spare tz (h : heap (candle f64)) s n, valid h s ->
  match modify_interval tz (view h s) n with
  | Panic p => h_modify_interval spare tz h s n = Panic p
  | Ret (cs, e) => exists h' r, h_modify_interval spare tz h s n = Ret (h', r, e) /\ valid h' r /\ view h' r = cs /\
      forall t, valid h t -> valid h' t /\ view h' t = view h t
  end.
Proof.
  intros spare tz h s n V. pose proof (modify_interval_sim spare tz h s n V) as Q.
  destruct (modify_interval tz (view h s) n) as [[cs e]|p]; [|exact Q]. destruct Q as (h' & r & E & K).
  exists h', r. split; [exact E|]. destruct K as [(_ & -> & -> & ->)|(_ & G)]; [auto|].
  split; [exact (proj1 (proj1 G))|]. split; [exact (proj2 G)|]. intros t Vt.
  destruct (grown_other _ _ _ _ t G Vt) as (A & B & _). auto.
Qed.

(** With any number of candles but one, the result shares no memory with
    anything that existed: later stores and appends on either side are not seen
    on the other. *)
Theorem C118_result_is_own : forall spare tz (h : heap (candle f64)) s n h' r e, valid h s -> s_len s <> 1%nat ->
  h_modify_interval spare tz h s n = Ret (h', r, e) ->
  forall t, valid h t -> disjoint r t /\
    (forall i c h2, set_elem h' r i c = Ret h2 -> view h2 t = view h t) /\
    (forall i c h2, set_elem h' t i c = Ret h2 -> view h2 r = view h' r) /\
    (forall k cs, view (fst (append_slice zero_candle k h' r cs)) t = view h t) /\
    (forall k cs, view (fst (append_slice zero_candle k h' t cs)) r = view h' r).
Proof.
  intros spare tz h s n h' r e V L E t Vt. pose proof (modify_interval_sim spare tz h s n V) as Q. rewrite E in Q.
  destruct (modify_interval tz (view h s) n) as [[cs e']|p]; [|discriminate]. destruct Q as (h1 & r1 & E1 & K).
  injection E1 as <- <- <-. destruct K as [(L1 & _)|(_ & G)]; [congruence|].
  destruct (grown_other _ _ _ _ t G Vt) as (Vt' & Wt & D). pose proof (proj1 (proj1 G)) as Vr.
  assert (forall a b i c h2, valid h' a -> valid h' b -> disjoint a b -> set_elem h' a i c = Ret h2 -> view h2 b = view h' b) as Set_.
  { intros a b i c h2 Va Vb Dab Q. unfold set_elem in Q.
    destruct (Z.ltb_spec i 0); [discriminate|]. destruct (Z.leb_spec (Z.of_nat (s_len a)) i); [discriminate|].
    destruct (set_elem_ok h' a i c Va ltac:(lia)) as (h3 & Q3 & St & _). unfold set_elem in Q3.
    destruct (Z.ltb_spec i 0); [lia|]. destruct (Z.leb_spec (Z.of_nat (s_len a)) i); [lia|].
    cbn [orb] in *. rewrite Q in Q3. injection Q3 as <-. eapply step_view; eassumption. }
  assert (forall a b k xs, valid h' a -> valid h' b -> disjoint a b -> view (fst (append_slice zero_candle k h' a xs)) b = view h' b) as App.
  { intros a b k xs Va Vb Dab. destruct (append_ok zero_candle k h' a xs Va) as (St & _ & _). eapply step_view; eassumption. }
  split; [assumption|]. rewrite <- Wt. pose proof (disjoint_sym _ _ D) as D'. repeat split; intros; eauto.
Qed.

(** One candle: the result is the caller's slice, with its spare capacity. *)
Theorem C118_single : forall spare tz (h : heap (candle f64)) s n, s_len s = 1%nat ->
  h_modify_interval spare tz h s n = Ret (h, s, None).
Proof. intros spare tz h s n L. unfold h_modify_interval. rewrite L. reflexivity. Qed.

(** That the result can always be changed without changing the argument is
    false: a store into the result of a single candle changes the caller's
    candle, and an append to it overwrites the caller's next one. *)
Definition at_time (t : Z) : candle f64 := mkCandle t (f64_of_dec false 1 0) (f64_of_dec false 1 0) (f64_of_dec false 1 0) (f64_of_dec false 1 0) (f64_of_dec false 1 0).
Theorem C118_result_is_own_refuted : exists spare tz (h : heap (candle f64)) s all n h' r,
  valid h s /\ valid h all /\ h_modify_interval spare tz h s n = Ret (h', r, None) /\
  map c_time (view h' s) = [60] /\ map c_time (view h' all) = [60; 120] /\
  (exists h2, set_elem h' r 0 (at_time 0) = Ret h2 /\ map c_time (view h2 s) = [0]) /\
  map c_time (view (fst (append_slice zero_candle 0 h' r [at_time 180])) all) = [60; 180].
Proof.
  exists (fun _ => O), (fun _ => 0), [[at_time 60; at_time 120]], (mkSlice 0 0 1 2), (mkSlice 0 0 2 2), 5.
  do 2 eexists. split; [unfold valid; cbn; lia|]. split; [unfold valid; cbn; lia|]. split; [reflexivity|].
  split; [reflexivity|]. split; [reflexivity|]. split; [|reflexivity]. eexists. split; reflexivity.
Qed.

(** Four one-minute candles in the middle of an array, resampled to two
    minutes: two candles in new memory, the array as before. *)
Example C118_example :
  let h := [[at_time 0; at_time 60; at_time 120; at_time 180; at_time 240; at_time 300]] in
  match h_modify_interval (fun k => k) (fun _ => 0) h (mkSlice 0 0 4 6) 2 with
  | Ret (h', r, None) => map c_time (view h' r) = [0; 120] /\ map c_time (nth 0 h' []) = [0; 60; 120; 180; 240; 300] /\
                         s_arr r = 1%nat
  | _ => False
  end.
Proof. vm_compute. repeat split. Qed.

Print Assumptions C118_agrees.
Print Assumptions C118_result_is_own.
Print Assumptions C118_single.
Print Assumptions C118_result_is_own_refuted.
