(** Vocabulary of the supervised E steps' properties in double precision. *)
Require Import Reals ZArith List Arith.
From Flocq Require Import Core.Core IEEE754.BinarySingleNaN.
Require Import Verif.Base Verif.Scalar Verif.Mat Verif.HostModel Verif.BuilderModel Verif.EStepModel Verif.DoubleSpec.
Import ListNotations.
Open Scope R_scope.

Section Labelled.
  Context {O : ops double}.

  (** An input of the fast supervised E step, with class y and weight C: as C79 asks for, with alpha not below 1/250; finite coefficients, at most
      150 in absolute value; and a spread S of the coefficients, in multiples of the largest one if that is positive, which C does not blow up. *)
  Record double_labelled (C : double) (X : list Z) (y : nat) (m : params double) : Prop := {
    dl_input : double_input (/ 250) X m;
    dl_topics : mrows (p_eta m) = mrows (p_beta m);
    dl_class : (y < ncols (p_eta m))%nat;
    dl_classes : (Z.of_nat (ncols (p_eta m)) <= 2 ^ 30)%Z;
    dl_eta : forall i c, (i < mrows (p_eta m))%nat -> (c < ncols (p_eta m))%nat -> is_finite (mget (p_eta m) i c) = true /\ Rabs (B2R (mget (p_eta m) i c)) <= 150;
    dl_weight : is_finite C = true /\ Rabs (B2R C) <= 2 ^ 30;
    dl_spread : exists S, S <= 2 ^ 900 /\ Rabs (B2R C) * S <= 8 /\
      ((forall i c, (i < mrows (p_eta m))%nat -> (c < ncols (p_eta m))%nat -> B2R (mget (p_eta m) i c) <= 0 /\ Rabs (B2R (mget (p_eta m) i c)) <= S) \/
       (exists i0 c0, (i0 < mrows (p_eta m))%nat /\ (c0 < ncols (p_eta m))%nat /\ 0 < B2R (mget (p_eta m) i0 c0) /\
         forall i c, (i < mrows (p_eta m))%nat -> (c < ncols (p_eta m))%nat -> Rabs (B2R (mget (p_eta m) i c)) <= S * B2R (mget (p_eta m) i0 c0)))
  }.
End Labelled.
