(** Vocabulary of the properties in double precision of the E steps with class probabilities. *)
Require Import Reals ZArith List Arith.
From Flocq Require Import Core.Core IEEE754.BinarySingleNaN.
Require Import Verif.Base Verif.Scalar Verif.Mat Verif.HostModel Verif.BuilderModel Verif.EStepModel Verif.DoubleSpec.
Import ListNotations.
Open Scope R_scope.

(** std::log within a factor of two below one too *)
Definition rough_log_below (lg : double -> double) : Prop := forall x, is_finite x = true -> 0 < B2R x < 1 ->
  is_finite (lg x) = true /\ 2 * ln (B2R x) <= B2R (lg x) <= ln (B2R x) / 2.

(** The values of std::log and std::exp at the ends of their ranges *)
Definition log_of_zero (lg : double -> double) : Prop := forall s, lg (B754_zero s) = B754_infinity true.
Definition exp_of_infinity (ex : double -> double) : Prop := ex (B754_infinity false) = B754_infinity false.

Section Classes.
  Context {O : ops double}.

  (** An input as C79 asks for, and a class y whose probability is between 2^-100 and 1 for every topic *)
  Record double_classes (lowest : R) (X : list Z) (y : nat) (m : params double) : Prop := {
    dc_input : double_input lowest X m;
    dc_topics : mrows (p_eta m) = mrows (p_beta m);
    dc_class : (y < ncols (p_eta m))%nat;
    dc_probability : forall i, (i < mrows (p_eta m))%nat -> is_finite (mget (p_eta m) i y) = true /\ / 2 ^ 100 <= B2R (mget (p_eta m) i y) <= 1
  }.
  (** For the multinomial E step: a weight that keeps the logarithms of these probabilities below 20, and a mass of alpha below 2^38 *)
  Record double_multinomial (weight : double) (X : list Z) (y : nat) (m : params double) : Prop := {
    dm_classes : double_classes (/ 100) X y m;
    dm_weight : is_finite weight = true /\ forall i, (i < mrows (p_eta m))%nat -> Rabs (B2R weight) * - ln (B2R (mget (p_eta m) i y)) <= 20;
    dm_mass : rsum (mrows (p_beta m)) (fun i => B2R (vget (p_alpha m) i)) <= 2 ^ 38
  }.
  (** The correspondence E step's shares of the words in the class: between 0 and 1, summing to 1 up to V + 1 units of 2^-50 *)
  Definition double_shares (V : nat) (tau : list double) : Prop :=
    length tau = V /\ (forall n, (n < V)%nat -> is_finite (vget tau n) = true /\ 0 <= B2R (vget tau n) <= 1) /\
    ((0 < V)%nat -> Rabs (rsum V (fun n => B2R (vget tau n)) - 1) <= (INR V + 1) / 2 ^ 50).
End Classes.
