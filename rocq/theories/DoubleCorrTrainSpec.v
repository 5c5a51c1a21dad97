(** Vocabulary of the training property with correspondence classes in double precision. *)
Require Import Reals ZArith List Arith.
From Flocq Require Import Core.Core IEEE754.BinarySingleNaN.
Require Import Verif.Base Verif.Scalar Verif.Mat Verif.HostModel Verif.BuilderModel Verif.EStepModel Verif.MStepSpec Verif.DoubleSpec Verif.DoubleTrainSpec Verif.DoubleClassSpec Verif.DoubleMultiTrainSpec.
Import ListNotations.
Open Scope R_scope.

Section Training.
  Context {O : ops double}.

  (** A corpus as C80 asks for, of at most 2^28 documents, whose documents with their classes are inputs of the correspondence E step as C84 asks for, with class probabilities of at least
      2^-30; every topic gives at least 2^-40 to a word of the corpus; at most 2^30 classes; a smoothing mu between 1 + 2^-30 and 2^30; and 2 (N + C (mu - 1)) is at most 2^30 (mu - 1), for N
      words in the corpus and C classes (with mu 2, 536 million words). *)
  Record double_corresponding (mu : double) (D : list (doc double)) (m : params double) : Prop := {
    dk_corpus : double_corpus D m;
    dk_size : (Z.of_nat (length D) <= 2 ^ 28)%Z;
    dk_documents : forall d, In d D -> exists y, d_class d = Some (Z.of_nat y) /\ double_classes (/ 140) (d_words d) y m /\
      forall i, (i < mrows (p_eta m))%nat -> / 2 ^ 30 <= B2R (mget (p_eta m) i y);
    dk_alive : forall i, (i < mrows (p_beta m))%nat -> exists d n, In d D /\ (n < ncols (p_beta m))%nat /\ nth n (d_words d) 0%Z <> 0%Z /\
      / 2 ^ 40 <= B2R (mget (p_beta m) i n);
    dk_classes : (Z.of_nat (ncols (p_eta m)) <= 2 ^ 30)%Z;
    dk_mu : is_finite mu = true /\ 1 + / 2 ^ 30 <= B2R mu <= 2 ^ 30;
    dk_words : 2 * (IZR (corpus_words D) + INR (ncols (p_eta m)) * (B2R mu - 1)) <= 2 ^ 30 * (B2R mu - 1)
  }.

  (** The number of times topic i generates word n, each document's words weighted by their shares tau in its class, as a real number; and the total of these weights in the
      documents of class c. *)
  Definition exact_share (l : list (item double)) (i n : nat) : R :=
    lsum (map (fun x => IZR (nth n (d_words (fst x)) 0%Z) * (B2R (mget (v_phi (snd x)) i n) * B2R (vget (v_tau (snd x)) n))) l).
  Definition exact_class_share (V : nat) (l : list (item double)) (i c : nat) : R :=
    lsum (map (fun x => if Z.eqb (class_of x) (Z.of_nat c)
      then rsum V (fun n => IZR (nth n (d_words (fst x)) 0%Z) * (B2R (mget (v_phi (snd x)) i n) * B2R (vget (v_tau (snd x)) n))) else 0) l).
End Training.
