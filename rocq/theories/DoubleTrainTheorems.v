(** The property of training in double precision. *)
Require Import Reals ZArith List Arith Permutation.
From Flocq Require Import Core.Core IEEE754.BinarySingleNaN.
Require Import Verif.Base Verif.Scalar Verif.Mat Verif.HostModel Verif.BuilderModel Verif.EStepModel Verif.MStepModel Verif.MStepSpec Verif.PoolModel Verif.LdaModel Verif.TrainProofs Verif.TrainFit.
Require Import Verif.DoubleSpec Verif.DoubleTrainSpec Verif.DoubleTrain Verif.DoubleTrainRefute Verif.DoubleCases.
Import ListNotations.
Open Scope R_scope.

(** C80.  Two topics, each with a word of its own, the builder's prior, and a corpus that has only the first word: an input as C79 asks for, so
    every document gets its posterior.  With two iterations or more and a tolerance of at most 1/2, one epoch of training ends, and the second
    topic is not a number; a second epoch has undefined behaviour, whatever the number of workers and their schedule. *)
Theorem C80_refuted lg ex lga sum (iterations : nat) (tolerance weight : double) (W ep : nat) : let O := double_ops lg ex lga sum in
  rough_log lg -> rough_exp ex -> (forall l, summed l (sum l)) -> (2 <= iterations)%nat -> is_finite tolerance = true -> B2R tolerance <= / 2 -> (0 < W)%nat ->
  let half := div one (ofZ 2) : double in
  let m := mk_params [half; half] (mk_mat 2 [[one; zero]; [zero; one]]) (mk_mat 2 []) in
  let D := [mk_doc [1; 0]%Z None 1 []] in
  let run := fit_call 7 unsupervised_maximizer (Classic (mk_econf iterations tolerance weight)) W D in
  (forall d, In d D -> double_input (/ 300) (d_words d) m) /\
  (exists st p, run 1%nat (Ok empty_mat) (m, ep) st p) /\
  (forall st p, run 1%nat (Ok empty_mat) (m, ep) st p -> forall n, (n < 2)%nat -> mget (p_beta (fst p)) 1 n = B754_nan) /\
  (forall n st p, run (2 + n)%nat (Ok empty_mat) (m, ep) st p -> st = UB).
Proof.
  exact (fun Hlg Hex Hsum Hi Ft Bt HW => conj (only_input lg ex lga sum) (topic_lost lg ex lga sum Hlg Hex Hsum iterations tolerance weight Hi Ft Bt W ep HW)).
Qed.
Print Assumptions C80_refuted.
(** What holds: when every topic has a word of the corpus, any number of epochs, with any number of workers under any schedule, ends normally, in a
    model in which every number is finite and every topic a distribution up to rounding, and which can be trained further. *)
Theorem C80_partial lg ex lga sum (cf : econf double) (D : list (doc double)) (W n ep : nat) (m : params double) st p : let O := double_ops lg ex lga sum in
  rough_log lg -> rough_exp ex -> (forall l, summed l (sum l)) -> double_corpus D m ->
  fit_call 7 unsupervised_maximizer (Classic cf) W D n (Ok empty_mat) (m, ep) st p ->
  (exists s, st = Ok s) /\ snd p = (ep + n)%nat /\ p_alpha (fst p) = p_alpha m /\ p_eta (fst p) = p_eta m /\
  mrows (p_beta (fst p)) = mrows (p_beta m) /\ ncols (p_beta (fst p)) = ncols (p_beta m) /\
  double_corpus D (fst p) /\ ((0 < n)%nat -> double_topics (p_beta (fst p))).
Proof. exact (fun Hlg Hex Hsum DC => fit_double_empty lg ex lga sum Hlg Hex Hsum cf D W n m ep st p DC). Qed.
Print Assumptions C80_partial.
(** The epoch that follows them gives every word the share of its expected count in the topic, computed exactly from the posteriors of the
    documents, up to |D| + V + 1 units of 2^-49 of the share. *)
Theorem C80_accuracy_partial lg ex lga sum (cf : econf double) (D : list (doc double)) (W n ep : nat) (m : params double) st p st' p' : let O := double_ops lg ex lga sum in
  rough_log lg -> rough_exp ex -> (forall l, summed l (sum l)) -> double_corpus D m ->
  fit_call 7 unsupervised_maximizer (Classic cf) W D n (Ok empty_mat) (m, ep) st p ->
  partial_fit_call 7 unsupervised_maximizer (Classic cf) W D st p st' p' ->
  exists l, Permutation (map fst l) D /\ (forall x, In x l -> posterior 7 (Classic cf) (snd p) (fst x) (fst p) = Ok (snd x)) /\
    (forall x, In x l -> double_posterior (d_words (fst x)) (fst p) (v_gamma (snd x)) (v_phi (snd x))) /\
    forall i n, (i < mrows (p_beta m))%nat -> (n < ncols (p_beta m))%nat ->
      let exact := exact_count l i n / rsum (ncols (p_beta m)) (exact_count l i) in
      Rabs (B2R (mget (p_beta (fst p')) i n) - exact) <= (INR (length D) + INR (ncols (p_beta m)) + 1) / 2 ^ 49 * exact + / 2 ^ 1074.
Proof. exact (fun Hlg Hex Hsum DC => next_epoch_empty lg ex lga sum Hlg Hex Hsum cf D W n m ep st p st' p' DC). Qed.
Print Assumptions C80_accuracy_partial.
(** two topics over three words and two documents, of which the first has words of both topics; three epochs of any training end *)
Example C80_corpus lg ex lga sum (cf : econf double) (W : nat) : let O := double_ops lg ex lga sum in
  let half := div one (ofZ 2) : double in
  let m := mk_params [half; half] (mk_mat 2 [[half; zero]; [zero; half]; [half; half]]) (mk_mat 2 []) in
  let D := [mk_doc [3; 0; 1]%Z None 2 []; mk_doc [0; 2; 0]%Z None 1 []] in
  (0 < W)%nat -> double_corpus D m /\ exists st p, fit_call 7 unsupervised_maximizer (Classic cf) W D 3 (Ok empty_mat) (m, 0%nat) st p.
Proof.
  exact (fun HW => conj (ok_double_corpus lg ex lga sum) (@fit_returns double (double_ops lg ex lga sum) 7 2 3 0 _ _ _ _ _ _ (Classic cf) W _ 3%nat (@step_unsupervised double (double_ops lg ex lga sum) 2 3 0) HW _ _)).
Qed.
