(** Vocabulary of the inference property in double precision. *)
Require Import Reals ZArith List Arith.
From Flocq Require Import Core.Core IEEE754.BinarySingleNaN.
Require Import Verif.Base Verif.Scalar Verif.Mat Verif.HostModel Verif.BuilderModel Verif.EStepModel Verif.DoubleSpec.
Import ListNotations.
Open Scope R_scope.

Section Inference.
  Context {O : ops double}.

  (** The part of the document's words that topic i is expected to have generated, as a real number. *)
  Definition exact_share (X : list Z) (phi : mat double) (i : nat) : R :=
    rsum (ncols phi) (fun n => IZR (nth n X 0%Z) * B2R (mget phi i n)) / IZR (fold_right Z.add 0%Z X).
  (** The linear model's score for class c. *)
  Definition exact_score (X : list Z) (m : params double) (phi : mat double) (c : nat) : R :=
    rsum (mrows (p_beta m)) (fun i => B2R (mget (p_eta m) i c) * exact_share X phi i).

  (** K + V + 3 units of 2^-46, times the ratio of the mass of alpha and the document to that of the document. *)
  Definition score_unit (X : list Z) (m : params double) : R :=
    let words := IZR (fold_right Z.add 0%Z X) in
    (INR (mrows (p_beta m)) + INR (ncols (p_beta m)) + 3) / 2 ^ 46 * ((rsum (mrows (p_beta m)) (fun i => B2R (vget (p_alpha m) i)) + words) / words).

  (** An input as C79 asks for, with at least one word, not so few that the subtraction of alpha loses them; and a finite coefficient, at most H
      in absolute value, for every topic and class. *)
  Record double_query (H : R) (X : list Z) (m : params double) : Prop := {
    dq_input : double_input (/ 300) X m;
    dq_words : (0 < fold_right Z.add 0 X)%Z;
    dq_unit : score_unit X m <= / 2;
    dq_topics : mrows (p_eta m) = mrows (p_beta m);
    dq_classes : (0 < ncols (p_eta m))%nat;
    dq_eta : forall i c, (i < mrows (p_beta m))%nat -> (c < ncols (p_eta m))%nat -> is_finite (mget (p_eta m) i c) = true /\ Rabs (B2R (mget (p_eta m) i c)) <= H;
    dq_bound : H <= 2 ^ 900
  }.
End Inference.
