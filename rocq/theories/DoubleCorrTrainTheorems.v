(** The property of training with correspondence classes in double precision. *)
Require Import Reals ZArith List Arith Permutation.
From Flocq Require Import Core.Core IEEE754.BinarySingleNaN.
Require Import Verif.Base Verif.Scalar Verif.Mat Verif.HostModel Verif.BuilderModel Verif.EStepModel Verif.MStepModel Verif.MStepSpec Verif.PoolModel Verif.LdaModel Verif.TrainProofs Verif.TrainFit.
Require Import Verif.DoubleSpec Verif.DoubleTrainSpec Verif.DoubleClassSpec Verif.DoubleMultiTrainSpec Verif.DoubleCorrTrainSpec Verif.DoubleCorrEpoch Verif.DoubleCorrTrainRefute Verif.DoubleCorrTrainCases.
Import ListNotations.
Open Scope R_scope.

(** C86.  Without smoothing (mu = 1), two documents, each with a word and a class of its own: one epoch ends normally, in a model in which each topic excludes a class; a second one never does.
    (The corpus and the model meet the requirements below, with mu = 2.) *)
Theorem C86_refuted lg ex lga sum (tolerance likelihood mu : double) (iterations W ep : nat) : let O := double_ops lg ex lga sum in
  rough_log lg -> rough_log_below lg -> log_of_zero lg -> rough_exp ex -> exp_of_infinity ex -> (forall l, summed l (sum l)) ->
  (1 <= iterations)%nat -> is_finite tolerance = true -> B2R tolerance <= / 2 -> (0 < W)%nat ->
  let half := div one (ofZ 2) : double in
  let apart := mk_mat 2 [[one; zero]; [zero; one]] : mat double in
  let m := mk_params [half; half] apart (mk_mat 2 [[half; half]; [half; half]]) in
  let D := [mk_doc [1; 0]%Z (Some 0%Z) 1 []; mk_doc [0; 1]%Z (Some 1%Z) 1 []] : list (doc double) in
  let run n := fit_call 7 (correspondence_maximizer one) (Correspondence (mk_econf iterations tolerance likelihood) mu) W D n (Ok new_stats) (m, ep) in
  double_corresponding (ofZ 2) D m /\ (exists st p, run 1%nat st p) /\
  (forall st p, run 1%nat st p -> (exists s, st = Ok s) /\ p = (mk_params [half; half] apart apart, S ep)) /\
  (forall n st p, run (2 + n)%nat st p -> forall s, st <> Ok s).
Proof.
  exact (fun Hlg Hlb Hl0 Hex Hei Hsum Hi Ft Bt HW => conj (open_corresponding lg ex lga sum)
    (class_lost lg ex lga sum Hlg Hlb Hl0 Hex Hei Hsum iterations tolerance likelihood mu Hi Ft Bt W ep HW)).
Qed.
Print Assumptions C86_refuted.
(** What holds: with a smoothing mu above 1 that suits the size of the corpus, any number of epochs, with any number of workers under any schedule, ends normally, in a model in which
    every number is finite and the topics, and the classes of every topic, are distributions up to rounding, and which can be trained further. *)
Theorem C86_partial lg ex lga sum (cf : econf double) (mu : double) (D : list (doc double)) (W n ep : nat) (m : params double) st p : let O := double_ops lg ex lga sum in
  rough_log lg -> rough_log_below lg -> rough_exp ex -> (forall l, summed l (sum l)) -> double_corresponding mu D m ->
  fit_call 7 (correspondence_maximizer mu) (Correspondence cf mu) W D n (Ok new_stats) (m, ep) st p ->
  (exists s, st = Ok s) /\ snd p = (ep + n)%nat /\ p_alpha (fst p) = p_alpha m /\
  mrows (p_beta (fst p)) = mrows (p_beta m) /\ ncols (p_beta (fst p)) = ncols (p_beta m) /\ ncols (p_eta (fst p)) = ncols (p_eta m) /\
  double_corresponding mu D (fst p) /\ ((0 < n)%nat -> double_topics (p_beta (fst p)) /\ double_topics (p_eta (fst p))).
Proof. exact (fun Hlg Hlb Hex Hsum DK => fit_correspondence_new lg ex lga sum Hlg Hlb Hex Hsum cf mu mu D W n m ep st p DK). Qed.
Print Assumptions C86_partial.
(** The epoch that follows them gives every word its share of the topic's expected counts, each weighted by the word's share in the class, and every class the share of its own plus mu - 1,
    computed exactly from the posteriors of the documents, up to rounding. *)
Theorem C86_accuracy_partial lg ex lga sum (cf : econf double) (mu : double) (D : list (doc double)) (W n ep : nat) (m : params double) st p st' p' : let O := double_ops lg ex lga sum in
  rough_log lg -> rough_log_below lg -> rough_exp ex -> (forall l, summed l (sum l)) -> double_corresponding mu D m ->
  fit_call 7 (correspondence_maximizer mu) (Correspondence cf mu) W D n (Ok new_stats) (m, ep) st p ->
  partial_fit_call 7 (correspondence_maximizer mu) (Correspondence cf mu) W D st p st' p' ->
  let K := mrows (p_beta m) in let V := ncols (p_beta m) in let C := ncols (p_eta m) in
  exists l, Permutation (map fst l) D /\ (forall x, In x l -> posterior 7 (Correspondence cf mu) (snd p) (fst x) (fst p) = Ok (snd x)) /\
    (forall x, In x l -> double_posterior (d_words (fst x)) (fst p) (v_gamma (snd x)) (v_phi (snd x)) /\ double_shares V (v_tau (snd x))) /\
    (forall i n, (i < K)%nat -> (n < V)%nat ->
      let exact := exact_share l i n / rsum V (exact_share l i) in
      Rabs (B2R (mget (p_beta (fst p')) i n) - exact) <= (INR (length D) + INR V + 1) / 2 ^ 49 * exact + / 2 ^ 220) /\
    (forall i c, (i < K)%nat -> (c < C)%nat ->
      let exact := (exact_class_share V l i c + (B2R mu - 1)) / rsum C (fun c => exact_class_share V l i c + (B2R mu - 1)) in
      Rabs (B2R (mget (p_eta (fst p')) i c) - exact) <= (INR (length D) + INR V + INR C + B2R mu / (B2R mu - 1) + 1) / 2 ^ 49 * exact + / 2 ^ 1074).
Proof. exact (fun Hlg Hlb Hex Hsum DK => next_correspondence lg ex lga sum Hlg Hlb Hex Hsum cf mu mu D W n m ep st p st' p' DK). Qed.
Print Assumptions C86_accuracy_partial.
(** two topics, two documents of different classes, mu = 2; three epochs of any training end *)
Example C86_corpus lg ex lga sum (cf : econf double) (W : nat) : let O := double_ops lg ex lga sum in
  let half := div one (ofZ 2) : double in
  let two := ofZ 2 : double in
  let m := mk_params [half; half] (mk_mat 2 [[one; zero]; [zero; one]]) (mk_mat 2 [[half; half]; [half; half]]) in
  let D := [mk_doc [1; 0]%Z (Some 0%Z) 1 []; mk_doc [0; 1]%Z (Some 1%Z) 1 []] : list (doc double) in
  (0 < W)%nat -> double_corresponding two D m /\
  exists st p, fit_call 7 (correspondence_maximizer two) (Correspondence cf two) W D 3 (Ok new_stats) (m, 0%nat) st p.
Proof.
  exact (fun HW => conj (open_corresponding lg ex lga sum)
    (@fit_returns double (double_ops lg ex lga sum) 7 2 2 2 _ _ _ _ _ _ (Correspondence cf _) W _ 3%nat (@step_correspondence double (double_ops lg ex lga sum) 2 2 2 _) HW _ _)).
Qed.
