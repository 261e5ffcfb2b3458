(** Property C117: strategy/actions.go with maps as references.  Model:
    Model/ActionsHeap.v; vocabulary: Spec/SharedSpec.v. *)
From Coq Require Import Lia Arith.
From Verif Require Import Go.Outcome Go.Slice Go.Float64 Go.Num Go.Heap Model.Entities Model.Strategy Model.ActionsHeap
  Spec.HeapSpec Spec.SharedSpec Proofs.Heap Proofs.Shared.
Open Scope string_scope.
Open Scope list_scope.
Local Notation length := List.length.

(** Two Actions that hold no map and no array together: each shows exactly what
    the same calls make of a plain value, whatever is called on the other. *)
Theorem C117_separate : forall spare cs (m : amem f64) a b, mem_ok m a -> mem_ok m b -> no_sharing a b ->
  exists m' a' b', h_calls2 spare cs m a b = Ret (m', a', b') /\
    v_calls (calls true cs) (act_view m a) = Ret (act_view m' a') /\
    v_calls (calls false cs) (act_view m b) = Ret (act_view m' b').
Proof.
  intros spare cs m a b (A1 & A2 & A3 & A4 & A5 & A6) (B1 & B2 & B3 & B4 & B5 & B6) (S1 & S2 & S3 & S4 & S5 & S6).
  destruct (tracks_calls spare false false false false false true cs m a b (act_view m a) (act_view m b) (act_view m a))
    as (m' & a' & b' & va & vb & vall & E & Ea & Eb & _ & (T1 & T2 & T3 & T4 & T5 & T6)).
  { unfold tracks, track, unseen. cbn. repeat match goal with |- _ /\ _ => split end; auto. }
  exists m', a', b'. split; [exact E|]. rewrite Ea, Eb.
  destruct T1 as (_ & _ & _ & P1 & Q1), T2 as (_ & _ & _ & P2 & Q2), T3 as (_ & _ & _ & P3 & Q3),
    T4 as (_ & _ & _ & P4 & Q4), T5 as (_ & _ & _ & P5 & Q5), (T6 eq_refl) as (_ & _ & _ & P6 & Q6).
  unfold act_view. rewrite P1, P2, P3, P4, P5, P6, Q1, Q2, Q3, Q4, Q5, Q6. destruct va, vb. auto.
Qed.

(** One Actions on its own: as the plain value of Model/Strategy.v. *)
Theorem C117_alone : forall spare cs (m : amem f64) a, mem_ok m a ->
  exists m' a' b', h_calls2 spare (map (pair true) cs) m a (mkHAct None None None None None nil_slice) = Ret (m', a', b') /\
    v_calls cs (act_view m a) = Ret (act_view m' a').
Proof.
  intros spare cs m a O.
  destruct (C117_separate spare (map (pair true) cs) m a (mkHAct None None None None None nil_slice) O) as (m' & a' & b' & E & Ea & _).
  - unfold mem_ok, valid. cbn. repeat split; auto; lia.
  - unfold no_sharing, other_map, disjoint. cbn.
    repeat (split; [destruct (_ a); [right; discriminate|left; reflexivity]|]). auto.
  - exists m', a', b'. split; [exact E|]. rewrite <- Ea. f_equal. unfold calls.
    clear. induction cs as [|c cs IH]; [reflexivity|]. cbn. now rewrite <- IH.
Qed.

(** The struct is copied and both copies are used, in any order.  A collection
    that was nil becomes two maps; one that was not stays one map, and whatever
    either copy adds appears in both. *)
Theorem C117_copied : forall spare cs (m : amem f64) a, mem_ok m a ->
  exists m' a' b' va vb vall, h_calls2 spare cs m a a = Ret (m', a', b') /\
    v_calls (calls true cs) (act_view m a) = Ret va /\
    v_calls (calls false cs) (act_view m a) = Ret vb /\
    v_calls (map snd cs) (act_view m a) = Ret vall /\
    let v := act_view m a in let v1 := act_view m' a' in let v2 := act_view m' b' in
    copied (create_orders v) (create_orders v1) (create_orders v2) (create_orders va) (create_orders vb) (create_orders vall) /\
    copied (update_orders v) (update_orders v1) (update_orders v2) (update_orders va) (update_orders vb) (update_orders vall) /\
    copied (cancel_orders v) (cancel_orders v1) (cancel_orders v2) (cancel_orders va) (cancel_orders vb) (cancel_orders vall) /\
    copied (update_positions v) (update_positions v1) (update_positions v2) (update_positions va) (update_positions vb) (update_positions vall) /\
    copied (close_positions v) (close_positions v1) (close_positions v2) (close_positions va) (close_positions vb) (close_positions vall) /\
    (s_len (ha_notes a) = s_cap (ha_notes a) -> annotations v1 = annotations va /\ annotations v2 = annotations vb).
Proof.
  intros spare cs m a (A1 & A2 & A3 & A4 & A5 & A6).
  assert (forall A (h : mheap A) r, ok_ref h r -> (r = None /\ mview h r = None) \/ (r <> None /\ exists f, mview h r = Some f)) as V.
  { intros A h [i|] O; [right|left; auto]. split; [discriminate|]. cbn in *. destruct (nth_error h i) eqn:E; [eauto|].
    apply nth_error_None in E. lia. }
  assert (forall A (h : mheap A) r v1 v2 v3, ok_ref h r -> v1 = mview h r -> v2 = mview h r -> v3 = mview h r ->
    track (match r with None => false | Some _ => true end) h r r v1 v2 v3) as T.
  { intros A h r v1 v2 v3 O -> -> ->. split; [assumption|]. split; [assumption|].
    destruct r; [split; [reflexivity|]; split; [discriminate|reflexivity]|]. split; [now left|]. auto. }
  destruct (tracks_calls spare
    (match ha_create a with None => false | Some _ => true end) (match ha_update a with None => false | Some _ => true end)
    (match ha_cancel a with None => false | Some _ => true end) (match ha_uppos a with None => false | Some _ => true end)
    (match ha_close a with None => false | Some _ => true end) (Nat.eqb (s_len (ha_notes a)) (s_cap (ha_notes a)))
    cs m a a (act_view m a) (act_view m a) (act_view m a))
    as (m' & a' & b' & va & vb & vall & E & Ea & Eb & Eall & (T1 & T2 & T3 & T4 & T5 & T6)).
  { repeat (split; [apply T; auto|]). intros K. apply Nat.eqb_eq in K. cbn. do 2 (split; [assumption|]).
    split; [right; split; exact K|]. auto. }
  exists m', a', b', va, vb, vall. repeat (split; [assumption|]).
  assert (forall A (h h' : mheap A) r r1 r2 g1 g2 g3, ok_ref h r ->
    track (match r with None => false | Some _ => true end) h' r1 r2 g1 g2 g3 ->
    copied (mview h r) (mview h' r1) (mview h' r2) g1 g2 g3) as C.
  { intros A h h' r r1 r2 g1 g2 g3 O (_ & _ & K). destruct (V _ h r O) as [[-> ->]|[Z (f & ->)]].
    - cbn. tauto.
    - destruct r; [|congruence]. cbn. destruct K as (<- & _ & ->). auto. }
  cbn [act_view create_orders update_orders cancel_orders update_positions close_positions annotations].
  repeat (split; [apply C; assumption|]). intros K. apply Nat.eqb_eq in K. destruct (T6 K) as (_ & _ & _ & W1 & W2). auto.
Qed.

(** Annotations with room in their array: what the second copy appends takes
    the place of what the first appended. *)
Theorem C117_annotations_overwritten : forall spare (m : amem f64) a l1 l2,
  valid (m_notes m) (ha_notes a) -> (s_len (ha_notes a) + length l1 <= s_cap (ha_notes a))%nat -> length l2 = length l1 ->
  exists m' a' b', h_calls2 spare [(true, AddNotes l1); (false, AddNotes l2)] m a a = Ret (m', a', b') /\
    annotations (act_view m' a') = annotations (act_view m a) ++ l2 /\
    annotations (act_view m' b') = annotations (act_view m a) ++ l2.
Proof.
  intros spare m a l1 l2 V L E. destruct m as [m1 m2 m3 m4 m5 m6], a as [a1 a2 a3 a4 a5 a6]. cbn [m_notes ha_notes] in *.
  cbn [h_calls2 h_call]. pose proof (append_both zero_note m6 a6 l1 l2 (spare (length m6))) as Q.
  destruct (append_slice zero_note (spare (length m6)) m6 a6 l1) as [h s] eqn:E1. cbn [bind fst h_call] in *.
  specialize (Q (spare (length h)) V L E). destruct (append_slice zero_note (spare (length h)) h a6 l2) as [h2 s2]. cbn [bind fst snd] in *.
  do 3 eexists. split; [reflexivity|]. exact Q.
Qed.

(** A copy of an Actions is not a snapshot. *)
Theorem C117_snapshot_refuted : exists spare (m : amem f64) a c m' a' b', mem_ok m a /\
  h_calls2 spare [(false, c)] m a a = Ret (m', a', b') /\
  map_get (cancel_orders (act_view m a)) "id0" = None /\
  map_get (cancel_orders (act_view m' a')) "id0" = Some (mkCancel "id0" "order").
Proof.
  exists (fun _ => O), (mkMem [] [] [fun _ => None] [] [] []), (mkHAct None None (Some O) None None nil_slice),
    (AddCancel (fun _ => "id0") [mkCancel "" "order"]).
  do 3 eexists. split; [|split; [reflexivity|split; reflexivity]].
  unfold mem_ok, valid. cbn. repeat split; lia.
Qed.

(** A nil collection copied, then used through both copies: two maps. *)
Example C117_example : forall spare,
  let c k o := (k, AddCancel (fun _ => "id") [mkCancel "" o]) in
  match h_calls2 spare [c true "one"; c false "two"] (mkMem [] [] [] [] [] ([] : heap (annotation f64)))
    (mkHAct None None None None None nil_slice) (mkHAct None None None None None nil_slice) with
  | Ret (m', a', b') => map_get (cancel_orders (act_view m' a')) "id" = Some (mkCancel "id" "one") /\
                        map_get (cancel_orders (act_view m' b')) "id" = Some (mkCancel "id" "two")
  | Panic _ => False
  end.
Proof. intros spare. split; reflexivity. Qed.
(** The same with a collection that is not nil: one map, the last call wins. *)
Example C117_example_shared : forall spare,
  let c k o := (k, AddCancel (fun _ => "id") [mkCancel "" o]) in
  match h_calls2 spare [c true "one"; c false "two"] (mkMem [] [] [fun _ => None] [] [] ([] : heap (annotation f64)))
    (mkHAct None None (Some O) None None nil_slice) (mkHAct None None (Some O) None None nil_slice) with
  | Ret (m', a', b') => map_get (cancel_orders (act_view m' a')) "id" = Some (mkCancel "id" "two") /\
                        map_get (cancel_orders (act_view m' b')) "id" = Some (mkCancel "id" "two")
  | Panic _ => False
  end.
Proof. intros spare. split; reflexivity. Qed.
(** Room for two annotations, each copy appends one. *)
Example C117_example_notes : forall spare,
  let note s := mkAnnotation s 0 0 (f64_of_dec false 1 0) "" "" "" : annotation f64 in
  match h_calls2 spare [(true, AddNotes [note "one"]); (false, AddNotes [note "two"])]
    (mkMem [] [] [] [] [] [[note "zero"; note ""; note ""]])
    (mkHAct None None None None None (mkSlice 0 0 1 3)) (mkHAct None None None None None (mkSlice 0 0 1 3)) with
  | Ret (m', a', b') => map an_id (annotations (act_view m' a')) = ["zero"; "two"] /\
                        map an_id (annotations (act_view m' b')) = ["zero"; "two"]
  | Panic _ => False
  end.
Proof. intros spare. split; reflexivity. Qed.

Print Assumptions C117_separate.
Print Assumptions C117_alone.
Print Assumptions C117_copied.
Print Assumptions C117_annotations_overwritten.
Print Assumptions C117_snapshot_refuted.
