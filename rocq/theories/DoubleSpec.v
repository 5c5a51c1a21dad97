(** Vocabulary of the properties in double precision. *)
Require Import Reals ZArith List Arith Permutation.
From Flocq Require Import Core.Core IEEE754.BinarySingleNaN.
Require Import Verif.Base Verif.Scalar Verif.Mat Verif.HostModel Verif.BuilderModel Verif.EStepModel.
Import ListNotations.
Open Scope R_scope.

(** [summed l s]: [s] is the floating-point sum of [l] in some order and some bracketing, possibly with accumulators that start at zero:
    what Eigen's .sum() computes, with or without vectorisation. *)
Inductive summed : list double -> double -> Prop :=
| summed_nil : summed [] (B754_zero false)
| summed_one x : summed [x] x
| summed_two l1 s1 l2 s2 l : summed l1 s1 -> summed l2 s2 -> Permutation l (l1 ++ l2) -> summed l (@Bplus 53 1024 eq_refl eq_refl mode_NE s1 s2).

(** A mathematical library that is right within a factor of two: std::log for arguments not below one, std::exp for arguments that do not
    overflow (x <= 700). *)
Definition rough_log (lg : double -> double) : Prop := forall x, is_finite x = true -> 1 <= B2R x ->
  is_finite (lg x) = true /\ ln (B2R x) / 2 <= B2R (lg x) <= 2 * ln (B2R x).
Definition rough_exp (ex : double -> double) : Prop := forall x, is_finite x = true -> 0 <= B2R x <= 700 ->
  is_finite (ex x) = true /\ exp (B2R x) / 2 <= B2R (ex x) <= 2 * exp (B2R x).
(** std::exp overflows: it is infinity from 900 on (from 710 on, in fact). *)
Definition overflows (ex : double -> double) : Prop := forall x, is_finite x = true -> 900 <= B2R x -> ex x = B754_infinity false.

(** ** The unsupervised E step *)
Section Posterior.
  Context {O : ops double}.

  (** Counts over the vocabulary, fewer than 2^31 words in the document, at most 2^30 topics and words in the vocabulary;
      alpha between [lowest] and 2^30; topics with entries between 0 and 1; and every word of the document has a topic
      that gives it at least 2^-250. *)
  Record double_input (lowest : R) (X : list Z) (m : params double) : Prop := {
    di_topics : (0 < Z.of_nat (mrows (p_beta m)) <= 2 ^ 30)%Z;
    di_vocabulary : (Z.of_nat (ncols (p_beta m)) <= 2 ^ 30)%Z;
    di_alpha_length : length (p_alpha m) = mrows (p_beta m);
    di_words : length X = ncols (p_beta m);
    di_alpha : forall i, (i < mrows (p_beta m))%nat -> is_finite (vget (p_alpha m) i) = true /\ lowest <= B2R (vget (p_alpha m) i) <= 2 ^ 30;
    di_beta : forall i n, (i < mrows (p_beta m))%nat -> (n < ncols (p_beta m))%nat ->
      is_finite (mget (p_beta m) i n) = true /\ 0 <= B2R (mget (p_beta m) i n) <= 1;
    di_counts : forall x, In x X -> (0 <= x)%Z;
    di_length : (fold_right Z.add 0 X < 2 ^ 31)%Z;
    di_supported : forall n, (n < ncols (p_beta m))%nat -> nth n X 0%Z <> 0%Z ->
      exists i, (i < mrows (p_beta m))%nat /\ / 2 ^ 250 <= B2R (mget (p_beta m) i n)
  }.

  (** A valid posterior up to rounding: only finite numbers; gamma not below alpha; probabilities between 0 and 1, summing to 1 up to K + 1
      units of 2^-50 for the words of the document, and positive where the topic gives the word at least 2^-250; gamma = alpha + the expected counts up to V + 1 such units; and gamma's mass is alpha's
      and the document's up to 2 (K + V + 2) of them. *)
  Record double_posterior (X : list Z) (m : params double) (gamma : list double) (phi : mat double) : Prop := {
    dp_rows : mrows phi = mrows (p_beta m);
    dp_cols : ncols phi = ncols (p_beta m);
    dp_length : length gamma = mrows (p_beta m);
    dp_gamma_finite : forall i, (i < mrows (p_beta m))%nat -> is_finite (vget gamma i) = true /\ B2R (vget (p_alpha m) i) <= B2R (vget gamma i);
    dp_phi_finite : forall i n, (i < mrows (p_beta m))%nat -> (n < ncols (p_beta m))%nat -> is_finite (mget phi i n) = true /\ 0 <= B2R (mget phi i n) <= 1;
    dp_sum : forall n, (n < ncols (p_beta m))%nat -> nth n X 0%Z <> 0%Z ->
      Rabs (rsum (mrows (p_beta m)) (fun i => B2R (mget phi i n)) - 1) <= (INR (mrows (p_beta m)) + 1) / 2 ^ 50;
    dp_positive : forall i n, (i < mrows (p_beta m))%nat -> (n < ncols (p_beta m))%nat -> / 2 ^ 250 <= B2R (mget (p_beta m) i n) -> 0 < B2R (mget phi i n);
    dp_gamma : forall i, (i < mrows (p_beta m))%nat ->
      let expected := B2R (vget (p_alpha m) i) + rsum (ncols (p_beta m)) (fun n => IZR (nth n X 0%Z) * B2R (mget phi i n)) in
      Rabs (B2R (vget gamma i) - expected) <= (INR (ncols (p_beta m)) + 1) / 2 ^ 50 * expected;
    dp_mass :
      let mass := rsum (mrows (p_beta m)) (fun i => B2R (vget (p_alpha m) i)) + IZR (fold_right Z.add 0%Z X) in
      Rabs (rsum (mrows (p_beta m)) (fun i => B2R (vget gamma i)) - mass) <= (INR (mrows (p_beta m)) + INR (ncols (p_beta m)) + 2) / 2 ^ 49 * mass
  }.
End Posterior.
