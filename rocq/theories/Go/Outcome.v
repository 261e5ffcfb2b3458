(** Outcomes of Go calls: a normal return or a run-time panic, and the errors
    the code builds with package ez.  (External: github.com/vanclief/ez; only
    the constructor shape is modelled: [ez.New op code msg nil] and
    [ez.Wrap op err].) *)
From Coq Require Export ZArith List String Ascii Bool Lia.
Export ListNotations.
Open Scope Z_scope.

(** The run-time panics that the modelled code can raise. *)
Inductive panic : Type :=
| PIndex        (* index out of range *)
| PSlice        (* slice bounds out of range *)
| PDivZero      (* integer divide by zero *)
| PNil.         (* nil pointer dereference *)

Inductive go (A : Type) : Type :=
| Ret (a : A)
| Panic (p : panic).
Arguments Ret {A} a.
Arguments Panic {A} p.

Definition bind {A B} (m : go A) (k : A -> go B) : go B :=
  match m with Ret a => k a | Panic p => Panic p end.

Notation "x <- m ;; k" := (bind m (fun x => k))
  (at level 61, m at next level, right associativity).
Notation "' p <- m ;; k" := (bind m (fun p => k))
  (at level 61, p pattern, m at next level, right associativity).

(** Error codes of package ez used in the repository. *)
Inductive code : Type := EINVALID | ECONFLICT | ENOTFOUND.

(** An [error] value.  [EExt] stands for errors produced by the Go standard
    library (strconv, os, time) and passed on through [ez.Wrap]. *)
Inductive err : Type :=
| ENew (op : string) (c : code) (msg : string)
| EWrap (op : string) (e : err)
| EExt (what : string).

(** Code of an error: [ez.Wrap] keeps the code of the wrapped error. *)
Fixpoint err_code (e : err) : option code :=
  match e with
  | ENew _ c _ => Some c
  | EWrap _ e => err_code e
  | EExt _ => None
  end.

Lemma bind_ret {A B} (a : A) (k : A -> go B) : bind (Ret a) k = k a.
Proof. reflexivity. Qed.
Lemma bind_panic {A B} p (k : A -> go B) : bind (Panic p) k = Panic p.
Proof. reflexivity. Qed.
Lemma bind_assoc {A B C} (m : go A) (f : A -> go B) (g : B -> go C) :
  bind (bind m f) g = bind m (fun a => bind (f a) g).
Proof. destruct m; reflexivity. Qed.
Lemma bind_Ret_inv {A B} (m : go A) (k : A -> go B) b :
  bind m k = Ret b -> exists a, m = Ret a /\ k a = Ret b.
Proof. destruct m as [a|p]; simpl; intro H; [exists a; auto | discriminate]. Qed.
