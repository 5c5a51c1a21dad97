(** The logarithm of the gamma function and the bounds the E steps climb. *)
Require Import Reals ZArith List.
Require Import Verif.Base Verif.Scalar Verif.Mat Verif.BuilderModel Verif.EStepModel Verif.EStepSpec.
Local Open Scope R_scope.

(** Gauss's limit formula: ln Gamma(x) = lim (x ln n + ln n! - sum of ln (x + k) for k = 0 .. n). *)
Definition lgamma_approx (x : R) (n : nat) : R := x * ln (INR n) + ln (INR (fact n)) - rsum (S n) (fun k => ln (x + INR k)).
Definition is_lgamma (lg : R -> R) : Prop := forall x, 0 < x -> Un_cv (lgamma_approx x) (lg x).

Section Exact.
  Context {O : ops R}.
  (** The bound of the multinomial supervised model for a document of class [y]: that of LDA and [w] times the expected
      log probability of the class. *)
  Definition multinomial_bound (lg psi : R -> R) (X : list Z) (m : params R) (w : R) (y : nat) (gamma : list R) (phi : mat R) : R :=
    elbo lg psi X m gamma phi +
    w * rsum (ncols (p_beta m)) (fun n => IZR (nth n X 0%Z) * rsum (mrows (p_beta m)) (fun i => mget phi i n * ln (mget (p_eta m) i y))).

  (** The bound of sLDA for a document of class [y] with N words: that of LDA, the expected score of the class, and minus the logarithm
      of the expected normaliser (EStepSpec.v), for an exponential function [E]. *)
  Definition slda_document_bound (lg psi E : R -> R) (X : list Z) (m : params R) (y : nat) (gamma : list R) (phi : mat R) : R :=
    let N := fold_right Z.add 0%Z X in
    elbo lg psi X m gamma phi +
    rsum (ncols (p_beta m)) (fun n => IZR (nth n X 0%Z) * rsum (mrows (p_beta m)) (fun i => mget phi i n * (mget (p_eta m) i y / IZR N))) -
    ln (class_normaliser E X N (p_eta m) phi).

  (** Where the E steps start: alpha plus an equal share of the words for each topic, and uniform phi. *)
  Definition start_gamma (X : list Z) (m : params R) : list R :=
    vtab (mrows (p_beta m)) (fun i => vget (p_alpha m) i + IZR (fold_right Z.add 0%Z X) / INR (mrows (p_beta m))).
  Definition start_phi (m : params R) : mat R := mtab (mrows (p_beta m)) (ncols (p_beta m)) (fun _ _ => 1 / INR (mrows (p_beta m))).
End Exact.
