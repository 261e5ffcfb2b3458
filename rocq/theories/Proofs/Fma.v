(** One fused multiply-add. *)
From Coq Require Import Reals Lra.
From Flocq Require Import Core BinarySingleNaN.
From Verif Require Import Go.Float64 Go.FloatReal Model.Fused.
Open Scope R_scope.

(** *** One fused operation *)
Lemma fma_xr x y z : is_finite x = true -> is_finite y = true -> is_finite z = true ->
  is_nan (f64_fma x y z) = false /\ xr (f64_fma x y z) = sat (rnd (B2R x * B2R y + B2R z)).
Proof.
  intros Hx Hy Hz. pose proof (Bfma_correct 53 1024 prec53 emax1024 mode_NE x y z Hx Hy Hz) as C. cbv zeta in C.
  rewrite rnd_fexp in C. apply (op_xr _ _ (Rlt_bool (B2R x * B2R y + B2R z) 0)).
  change (Bfma mode_NE x y z) with (f64_fma x y z) in C.
  destruct (Rlt_bool (Rabs (rnd _)) _); [tauto|]. split; [exact C|].
  destruct (Rlt_bool_spec (B2R x * B2R y + B2R z) 0); lra.
Qed.
