(** The property of training with multinomial classes in double precision. *)
Require Import Reals ZArith List Arith Permutation.
From Flocq Require Import Core.Core IEEE754.BinarySingleNaN.
Require Import Verif.Base Verif.Scalar Verif.Mat Verif.HostModel Verif.BuilderModel Verif.EStepModel Verif.MStepModel Verif.MStepSpec Verif.PoolModel Verif.LdaModel Verif.TrainProofs Verif.TrainFit.
Require Import Verif.DoubleSpec Verif.DoubleTrainSpec Verif.DoubleClassSpec Verif.DoubleMultiTrainSpec Verif.DoubleMultiTrain Verif.DoubleMultiTrainRefute Verif.DoubleMultiTrainCases.
Import ListNotations.
Open Scope R_scope.

(** C85.  With two topics, two equally likely classes and a weight of 5000 or more, one epoch of training on a document with one word, four times, ends normally and
    leaves every topic without any probability, whatever the smoothing.  (The tolerance of the multinomial E step is its likelihood setting, at most 1.) *)
Theorem C85_refuted lg ex lga sum (weight tolerance likelihood mu : double) (iterations W ep : nat) (y : Z) : let O := double_ops lg ex lga sum in
  rough_log lg -> rough_log_below lg -> overflows ex -> (forall l, summed l (sum l)) -> is_finite weight = true -> 5000 <= B2R weight <= 2 ^ 30 ->
  (1 <= iterations)%nat -> is_finite likelihood = true -> B2R likelihood <= 1 -> (0 <= y < 2)%Z -> (0 < W)%nat ->
  let half := div one (ofZ 2) : double in
  let m := mk_params [half; half] (mk_mat 2 [[one; one]]) (mk_mat 2 [[half; half]; [half; half]]) in
  let D := [mk_doc [4%Z] (Some y) 1 [half; half]] in
  let run := fit_call 7 (multinomial_maximizer mu) (Multinomial (mk_econf iterations tolerance likelihood) mu weight) W D 1 (Ok new_stats) (m, ep) in
  double_corpus D m /\ (exists st p, run st p) /\
  forall st p, run st p -> (exists s, st = Ok s) /\ p_beta (fst p) = mk_mat 2 [[zero; zero]].
Proof.
  exact (fun Hlg Hlb Hex Hsum Fw Bw Hi Fl Bl Hy HW => conj (even_corpus lg ex lga sum y Hy)
    (topics_emptied lg ex lga sum Hlg Hlb Hex Hsum weight Fw Bw iterations tolerance likelihood mu mu y Hi Fl Bl Hy W ep HW)).
Qed.
Print Assumptions C85_refuted.
(** What holds: with a smoothing mu above 1 and a weight that suits the size of the corpus, any number of epochs, with any number of workers under any schedule, ends normally,
    in a model in which every number is finite and the topics, and the classes of every topic, are distributions up to rounding, and which can be trained further. *)
Theorem C85_partial lg ex lga sum (cf : econf double) (mu weight : double) (D : list (doc double)) (W n ep : nat) (m : params double) st p : let O := double_ops lg ex lga sum in
  rough_log lg -> rough_log_below lg -> rough_exp ex -> (forall l, summed l (sum l)) -> double_labelled mu weight D m ->
  fit_call 7 (multinomial_maximizer mu) (Multinomial cf mu weight) W D n (Ok new_stats) (m, ep) st p ->
  (exists s, st = Ok s) /\ snd p = (ep + n)%nat /\ p_alpha (fst p) = p_alpha m /\
  mrows (p_beta (fst p)) = mrows (p_beta m) /\ ncols (p_beta (fst p)) = ncols (p_beta m) /\ ncols (p_eta (fst p)) = ncols (p_eta m) /\
  double_labelled mu weight D (fst p) /\ ((0 < n)%nat -> double_topics (p_beta (fst p)) /\ double_topics (p_eta (fst p))).
Proof. exact (fun Hlg Hlb Hex Hsum DL => fit_multinomial_new lg ex lga sum Hlg Hlb Hex Hsum cf mu mu weight D W n m ep st p DL). Qed.
Print Assumptions C85_partial.
(** The epoch that follows them gives every word the share of its expected count in the topic, and every class the share of its expected count plus mu - 1, computed exactly from
    the posteriors of the documents, up to rounding. *)
Theorem C85_accuracy_partial lg ex lga sum (cf : econf double) (mu weight : double) (D : list (doc double)) (W n ep : nat) (m : params double) st p st' p' : let O := double_ops lg ex lga sum in
  rough_log lg -> rough_log_below lg -> rough_exp ex -> (forall l, summed l (sum l)) -> double_labelled mu weight D m ->
  fit_call 7 (multinomial_maximizer mu) (Multinomial cf mu weight) W D n (Ok new_stats) (m, ep) st p ->
  partial_fit_call 7 (multinomial_maximizer mu) (Multinomial cf mu weight) W D st p st' p' ->
  let K := mrows (p_beta m) in let V := ncols (p_beta m) in let C := ncols (p_eta m) in
  exists l, Permutation (map fst l) D /\ (forall x, In x l -> posterior 7 (Multinomial cf mu weight) (snd p) (fst x) (fst p) = Ok (snd x)) /\
    (forall x, In x l -> double_posterior (d_words (fst x)) (fst p) (v_gamma (snd x)) (v_phi (snd x))) /\
    (forall i n, (i < K)%nat -> (n < V)%nat ->
      let exact := exact_count l i n / rsum V (exact_count l i) in
      Rabs (B2R (mget (p_beta (fst p')) i n) - exact) <= (INR (length D) + INR V + 1) / 2 ^ 49 * exact + / 2 ^ 1074) /\
    (forall i c, (i < K)%nat -> (c < C)%nat ->
      let exact := (exact_class_count V l i c + (B2R mu - 1)) / rsum C (fun c => exact_class_count V l i c + (B2R mu - 1)) in
      Rabs (B2R (mget (p_eta (fst p')) i c) - exact) <= (INR (length D) + INR V + INR C + B2R mu / (B2R mu - 1) + 1) / 2 ^ 49 * exact + / 2 ^ 1074).
Proof. exact (fun Hlg Hlb Hex Hsum DL => next_multinomial lg ex lga sum Hlg Hlb Hex Hsum cf mu mu weight D W n m ep st p st' p' DL). Qed.
Print Assumptions C85_accuracy_partial.
(** two topics, two documents of different classes, mu = 2, weight 1; three epochs of any training end *)
Example C85_corpus lg ex lga sum (cf : econf double) (W : nat) : let O := double_ops lg ex lga sum in
  let half := div one (ofZ 2) : double in
  let two := ofZ 2 : double in
  let m := mk_params [half; half] (mk_mat 2 [[one; one]]) (mk_mat 2 [[half; half]; [half; half]]) in
  let D := [mk_doc [4%Z] (Some 0%Z) 1 [half; half]; mk_doc [4%Z] (Some 1%Z) 1 [half; half]] in
  (0 < W)%nat -> double_labelled two one D m /\
  exists st p, fit_call 7 (multinomial_maximizer two) (Multinomial cf two one) W D 3 (Ok new_stats) (m, 0%nat) st p.
Proof.
  exact (fun HW => conj (even_labelled lg ex lga sum)
    (@fit_returns double (double_ops lg ex lga sum) 7 2 1 2 _ _ _ _ _ _ (Multinomial cf _ _) W _ 3%nat (@step_multinomial double (double_ops lg ex lga sum) 2 1 2 _) HW _ _)).
Qed.
