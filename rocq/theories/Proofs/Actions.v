(** Proofs about strategy/actions.go (C64). *)
From Verif Require Import Go.Outcome Model.Strategy.
From Coq Require Import Lia.
Open Scope list_scope.
Local Notation length := List.length.

Section Add.
Context {A : Type} (gen : string -> A -> A) (get_id : A -> string).
Hypothesis gen_id : forall id a, get_id (gen id a) = id.

(** [ids n ..] are pairwise distinct for the next [k] draws. *)
Definition distinct_from (ids : nat -> string) (n k : nat) : Prop :=
  forall i j, (i < k)%nat -> (j < k)%nat -> ids (n + i)%nat = ids (n + j)%nat -> i = j.

Lemma add_loop_spec ids l : forall n m f, m = Some f -> exists f',
  add_loop gen get_id ids n m l = Ret (Some f') /\
  (forall k, (forall i, (i < length l)%nat -> k <> ids (n + i)%nat) -> f' k = f k) /\
  (distinct_from ids n (length l) ->
   forall i a, nth_error l i = Some a -> f' (ids (n + i)%nat) = Some (gen (ids (n + i)%nat) a)).
Proof.
  induction l as [|a l IH]; intros n m f ->.
  - exists f. split; [reflexivity|]. split; [reflexivity|]. intros _ [|i] b H; discriminate.
  - cbn [add_loop map_set bind]. rewrite gen_id.
    destruct (IH (S n) _ (fun k' => if String.eqb k' (ids n) then Some (gen (ids n) a) else f k') eq_refl) as (f' & E & K1 & K2). exists f'. split; [exact E|]. split.
    + intros k Hk. rewrite K1.
      * destruct (String.eqb_spec k (ids n)) as [->|]; [|reflexivity]. exfalso. apply (Hk 0%nat); [cbn; lia|]. now rewrite Nat.add_0_r.
      * intros i Hi. specialize (Hk (S i)). rewrite Nat.add_succ_r in Hk. apply Hk. cbn. lia.
    + intros D [|i] b H; cbn in H.
      * injection H as <-. rewrite Nat.add_0_r. rewrite K1.
        -- now rewrite String.eqb_refl.
        -- intros i Hi E'. specialize (D 0%nat (S i)). rewrite Nat.add_0_r, Nat.add_succ_r in D.
           specialize (D ltac:(cbn; lia) ltac:(cbn; lia) E'). discriminate.
      * rewrite Nat.add_succ_r. apply (K2 ltac:(intros p q Hp Hq E'; specialize (D (S p) (S q)); rewrite !Nat.add_succ_r in D;
          specialize (D ltac:(cbn; lia) ltac:(cbn; lia) E'); congruence) i b H).
Qed.
Lemma add_loop_init ids l n m : exists f',
  add_loop gen get_id ids n (map_init m) l = Ret (Some f') /\
  (forall k, (forall i, (i < length l)%nat -> k <> ids (n + i)%nat) -> f' k = map_get m k) /\
  (distinct_from ids n (length l) ->
   forall i a, nth_error l i = Some a -> f' (ids (n + i)%nat) = Some (gen (ids (n + i)%nat) a)).
Proof.
  destruct m as [f|]; cbn [map_init map_get].
  - now apply add_loop_spec.
  - destruct (add_loop_spec ids l n (Some (fun _ => None)) _ eq_refl) as (f' & H). exists f'. exact H.
Qed.
End Add.
