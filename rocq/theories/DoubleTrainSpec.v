(** Vocabulary of the training property in double precision. *)
Require Import Reals ZArith List Arith.
From Flocq Require Import Core.Core IEEE754.BinarySingleNaN.
Require Import Verif.Base Verif.Scalar Verif.Mat Verif.HostModel Verif.BuilderModel Verif.EStepModel Verif.MStepSpec Verif.DoubleSpec.
Import ListNotations.
Open Scope R_scope.

Section Training.
  Context {O : ops double}.

  (** At least one document and at most 2^30, each of them an input of the E step as C79 asks, and every topic gives at least 2^-250 to a word
      of the corpus. *)
  Record double_corpus (D : list (doc double)) (m : params double) : Prop := {
    dc_some : D <> [];
    dc_size : (Z.of_nat (length D) <= 2 ^ 30)%Z;
    dc_input : forall d, In d D -> double_input (/ 300) (d_words d) m;
    dc_alive : forall i, (i < mrows (p_beta m))%nat -> exists d n, In d D /\ (n < ncols (p_beta m))%nat /\ nth n (d_words d) 0%Z <> 0%Z /\
      / 2 ^ 250 <= B2R (mget (p_beta m) i n)
  }.

  (** Topics up to rounding: numbers between 0 and 1, which sum to 1 up to V + 1 units of 2^-50 in every topic. *)
  Definition double_topics (beta : mat double) : Prop := forall i, (i < mrows beta)%nat ->
    (forall n, (n < ncols beta)%nat -> is_finite (mget beta i n) = true /\ 0 <= B2R (mget beta i n) <= 1) /\
    Rabs (rsum (ncols beta) (fun n => B2R (mget beta i n)) - 1) <= (INR (ncols beta) + 1) / 2 ^ 50.

  (** The expected number of times topic i generates word n in the documents, as a real number. *)
  Definition exact_count (l : list (item double)) (i n : nat) : R :=
    lsum (map (fun x => IZR (nth n (d_words (fst x)) 0%Z) * B2R (mget (v_phi (snd x)) i n)) l).
End Training.
