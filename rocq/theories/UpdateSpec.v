(** Vocabulary for the updates of the supervised E steps. *)
Require Import Reals ZArith List Arith.
Require Import Verif.Base Verif.Scalar Verif.Mat Verif.BuilderModel Verif.EStepModel Verif.EStepSpec.
Import ListNotations.
Local Open Scope R_scope.

Section Exact.
  Context {O : ops R}.
  (** The part of a bound that depends on phi, when assigning word n to topic i is worth [t i n] besides
      the word's probability in the topic: E_q[t] + E_q[ln p(w | z, beta)] - E_q[ln q(z)]. *)
  Definition word_part (X : list Z) (beta : mat R) (t : nat -> nat -> R) (phi : mat R) : R :=
    rsum (ncols beta) (fun n => IZR (nth n X 0%Z) *
      rsum (mrows beta) (fun i => mget phi i n * (t i n + ln (mget beta i n) - ln (mget phi i n)))).

  (** The worth of topic [i]: E_q[ln theta_i] of the Dirichlet [gamma] (EStepSpec.v) and, for a document of class [y] ...
      ... multinomial: the weighted logarithm of the class's probability in the topic; *)
  Definition multinomial_worth (psi : R -> R) (m : params R) (gamma : list R) (w : R) (y : nat) (i n : nat) : R :=
    e_ln_theta psi m gamma i + w * ln (mget (p_eta m) i y).
  (** ... correspondence: the same for the words that the class is drawn from, with probability tau_n; *)
  Definition correspondence_worth (psi : R -> R) (m : params R) (gamma tau : list R) (y : nat) (i n : nat) : R :=
    e_ln_theta psi m gamma i + vget tau n * ln (mget (p_eta m) i y).
  (** ... fast: the derivative, by the topic's share z_i, of the log probability of class y under the logistic regression eta ... *)
  Definition shares (X : list Z) (phi : mat R) (i : nat) : R :=
    rsum (ncols phi) (fun n => IZR (nth n X 0%Z) / IZR (fold_right Z.add 0%Z X) * mget phi i n).
  Definition class_score (eta : mat R) (z : nat -> R) (c : nat) : R := rsum (mrows eta) (fun i => mget eta i c * z i).
  Definition class_probability (E : R -> R) (eta : mat R) (z : nat -> R) (c : nat) : R :=
    E (class_score eta z c) / rsum (ncols eta) (fun c => E (class_score eta z c)).
  Definition class_pull (E : R -> R) (eta : mat R) (z : nat -> R) (y i : nat) : R :=
    mget eta i y - rsum (ncols eta) (fun c => mget eta i c * class_probability E eta z c).
  (** ... divided by eta's largest entry if that is positive. *)
  Definition scale_of (eta : mat R) (s : R) : Prop :=
    (0 < s /\ (exists i c, (i < mrows eta)%nat /\ (c < ncols eta)%nat /\ mget eta i c = s) /\
       forall i c, (i < mrows eta)%nat -> (c < ncols eta)%nat -> mget eta i c <= s) \/
    (s = 1 /\ forall i c, (i < mrows eta)%nat -> (c < ncols eta)%nat -> mget eta i c <= 0).
  Definition fast_worth (E : R -> R) (psi : R -> R) (m : params R) (gamma : list R) (w s : R) (z : nat -> R) (y : nat) (i n : nat) : R :=
    e_ln_theta psi m gamma i + w * (class_pull E (p_eta m) z y i / s).

  (** The part of the correspondence bound that depends on tau. *)
  Definition tau_part (m : params R) (y : nat) (phi : mat R) (tau : list R) : R :=
    rsum (ncols (p_beta m)) (fun n => vget tau n * (rsum (mrows (p_beta m)) (fun i => mget phi i n * ln (mget (p_eta m) i y)) - ln (vget tau n))).
  Definition distribution (V : nat) (tau : list R) : Prop :=
    length tau = V /\ (forall n, (n < V)%nat -> 0 <= vget tau n) /\ rsum V (vget tau) = 1.
End Exact.

(** ** sLDA *)
Section Slda.
  Context {O : ops R}.
  (** The part of the bound of sLDA (Wang, Blei, Li 2009) that depends on phi, for a document of class [y]:
      that of LDA, the expected score of the class, and minus the logarithm of the expected normaliser (EStepSpec.v). *)
  Definition slda_bound (E psi : R -> R) (X : list Z) (m : params R) (gamma : list R) (y : nat) (phi : mat R) : R :=
    let N := fold_right Z.add 0%Z X in
    word_part X (p_beta m) (fun i _ => e_ln_theta psi m gamma i + mget (p_eta m) i y / IZR N) phi -
    ln (class_normaliser E X N (p_eta m) phi).
End Slda.
