(** Property C74: training keeps the sizes of the model, and its prior. *)
Require Import Reals ZArith List Bool Arith Lia Permutation.
Require Import Verif.Base Verif.Scalar Verif.Mat Verif.UtilsModel Verif.BuilderModel Verif.EStepModel Verif.OptModel Verif.MStepModel Verif.MStepSpec
  Verif.LdaModel Verif.EStepTheorems Verif.InferTheorems Verif.TrainProofs Verif.TrainTheorems Verif.ShapeSpec Verif.ShapeProofs.
Import ListNotations.
Local Open Scope nat_scope.

(** C74.  Every scalar type and arithmetic, every M step of the library (a new object) with every E step, any number of workers, every schedule, every
    corpus with a document, any number of epochs: the model has as many topics, words and classes after fit as before, whether
    or not an epoch failed, and its prior is untouched. *)
Theorem C74_training_keeps_sizes {T} {O : ops T} dfuel K V C St (M : maximizer T St) new k W D n m ep st p :
  library_step St M new -> 0 < K -> D <> [] -> has_size K V C m ->
  fit_call dfuel M k W D n (Ok new) (m, ep) st p ->
  p_alpha (fst p) = p_alpha m /\ has_size K V C (fst p).
Proof. exact (fit_keeps_size dfuel K V C St M new k W D n m ep st p). Qed.
(** The demand for a document is needed: an epoch over no documents leaves a model without topics. *)
Theorem C74_empty_corpus {T} {O : ops T} dfuel k W n m ep s p :
  fit_call dfuel unsupervised_maximizer k W [] (S n) (Ok empty_mat) (m, ep) (Ok s) p ->
  mrows (p_beta (fst p)) = 0 /\ ncols (p_beta (fst p)) = 0.
Proof. exact (empty_fit dfuel k W n m ep s p). Qed.

(** Two documents, two topics, two words, two classes: three epochs with four workers. *)
Example C74_case lg cf : let O := Rops lg in
  has_size 2 2 2 ok_model /\
  exists s p, fit_call 7 unsupervised_maximizer (Classic cf) 4 two_docs 3 (Ok empty_mat) (ok_model, 0) s p /\ has_size 2 2 2 (fst p).
Proof.
  intros O. assert (H : has_size 2 2 2 ok_model) by (repeat split; repeat constructor). split; [exact H|].
  destruct (C19_returns 2 2 0 _ _ _ _ _ _ (Classic cf) 4 two_docs 3 (Ok empty_mat) (ok_model, 0) (step_unsupervised 2 2 0)) as (s & p & F); [lia|].
  exists s, p. split; [exact F|]. assert (Hn : two_docs <> []) by discriminate. assert (HK : 0 < 2) by lia.
  exact (proj2 (C74_training_keeps_sizes 7 2 2 2 _ _ _ _ _ _ _ _ _ _ _ lib_unsupervised HK Hn H F)).
Qed.

Print Assumptions C74_training_keeps_sizes.
Print Assumptions C74_empty_corpus.
