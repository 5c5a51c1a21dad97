(** Vocabulary of the training property with multinomial classes in double precision. *)
Require Import Reals ZArith List Arith.
From Flocq Require Import Core.Core IEEE754.BinarySingleNaN.
Require Import Verif.Base Verif.Scalar Verif.Mat Verif.HostModel Verif.BuilderModel Verif.EStepModel Verif.MStepSpec Verif.DoubleSpec Verif.DoubleTrainSpec Verif.DoubleClassSpec.
Import ListNotations.
Open Scope R_scope.

(** All words of the documents. *)
Definition corpus_words {T} (D : list (doc T)) : Z := Zsum (map (fun d => Zsum (d_words d)) D).

Section Training.
  Context {O : ops double}.

  (** A corpus as C80 asks for, whose documents with their classes are inputs of the multinomial E step as C83 asks for; at most 2^30 classes; a smoothing mu between 1 + 2^-30 and
      2^30; and a weight such that weight * ln (2 (N + C (mu - 1)) / (mu - 1)) is at most 20, for N words in the corpus and C classes (with weight 1 and mu 2, 240 million words). *)
  Record double_labelled (mu weight : double) (D : list (doc double)) (m : params double) : Prop := {
    dl_corpus : double_corpus D m;
    dl_documents : forall d, In d D -> exists y, d_class d = Some (Z.of_nat y) /\ (y < length (d_priors d))%nat /\ double_multinomial weight (d_words d) y m;
    dl_classes : (Z.of_nat (ncols (p_eta m)) <= 2 ^ 30)%Z;
    dl_mu : is_finite mu = true /\ 1 + / 2 ^ 30 <= B2R mu <= 2 ^ 30;
    dl_weight : Rabs (B2R weight) * ln (2 * (IZR (corpus_words D) + INR (ncols (p_eta m)) * (B2R mu - 1)) / (B2R mu - 1)) <= 20
  }.

  (** The expected number of words that topic i generates in the documents of class c, as a real number. *)
  Definition exact_class_count (V : nat) (l : list (item double)) (i c : nat) : R :=
    lsum (map (fun x => if Z.eqb (class_of x) (Z.of_nat c) then rsum V (fun n => IZR (nth n (d_words (fst x)) 0%Z) * B2R (mget (v_phi (snd x)) i n)) else 0) l).
End Training.
