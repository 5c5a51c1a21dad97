(** The digamma function, independently of how the code computes it. *)
Require Import Reals.
Require Import Verif.Mat.
Open Scope R_scope.

(** Gauss's limit formula: psi(x) = lim (ln n - sum of 1/(x+k) for k = 0 .. n). *)
Definition digamma_approx (x : R) (n : nat) : R := ln (INR n) - rsum (S n) (fun k => / (x + INR k)).
Definition is_digamma (psi : R -> R) : Prop :=
  forall x, 0 < x -> Un_cv (digamma_approx x) (psi x).
