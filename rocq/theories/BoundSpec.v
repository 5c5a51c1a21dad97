(** The bounds that the M steps raise: sums over the documents of an epoch, each with the posterior its E step found. *)
Require Import Reals ZArith List.
Require Import Verif.Base Verif.Scalar Verif.Mat Verif.BuilderModel Verif.EStepModel Verif.EStepSpec Verif.LgammaSpec Verif.MStepModel Verif.MStepSpec.
Import ListNotations.
Local Open Scope R_scope.

Section Exact.
  Context {O : ops R}.
  Variables lg psi : R -> R.
  (** The evidence lower bound of LDA of the documents (EStepSpec.v). *)
  Definition corpus_bound (l : list (item R)) (m : params R) : R :=
    lsum (map (fun x => elbo lg psi (d_words (fst x)) m (v_gamma (snd x)) (v_phi (snd x))) l).
  (** The logarithm of the Dirichlet prior with parameter [mu] of eta's rows, without its constant. *)
  Definition eta_prior (mu : R) (m : params R) : R :=
    (mu - 1) * rsum (mrows (p_eta m)) (fun i => rsum (ncols (p_eta m)) (fun c => ln (mget (p_eta m) i c))).
  (** The bound of the multinomial model (LgammaSpec.v) and that prior. *)
  Definition multinomial_corpus_bound (mu : R) (l : list (item R)) (m : params R) : R :=
    lsum (map (fun x => multinomial_bound lg psi (d_words (fst x)) m 1 (Z.to_nat (class_of x)) (v_gamma (snd x)) (v_phi (snd x))) l) +
    eta_prior mu m.
  (** The same for the correspondence model: for a document of class y, word n has a share tau_n in the class.
      This is what its E step reports (C68), without its constants. *)
  Definition correspondence_bound (X : list Z) (m : params R) (y : nat) (gamma : list R) (phi : mat R) (tau : list R) : R :=
    elbo lg psi X m gamma phi +
    rsum (ncols (p_beta m)) (fun n => IZR (nth n X 0%Z) * (vget tau n *
      (rsum (mrows (p_beta m)) (fun i => mget phi i n * ln (mget (p_eta m) i y)) - ln (vget tau n)))).
  Definition correspondence_corpus_bound (mu : R) (l : list (item R)) (m : params R) : R :=
    lsum (map (fun x => correspondence_bound (d_words (fst x)) m (Z.to_nat (class_of x)) (v_gamma (snd x)) (v_phi (snd x)) (v_tau (snd x))) l) +
    eta_prior mu m.
  (** [e] is positive wherever a class has expected counts or the prior asks for it. *)
  Definition allows (K V C : nat) (mu : R) (a : item R -> nat -> nat -> R) (l : list (item R)) (e : mat R) : Prop :=
    forall i c, (i < K)%nat -> (c < C)%nat -> 0 < class_expected V a l i c + (mu - 1) -> 0 < mget e i c.
End Exact.
