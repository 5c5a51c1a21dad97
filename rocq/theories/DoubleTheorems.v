(** The property of the E step in double precision. *)
Require Import Reals ZArith List Arith.
From Flocq Require Import Core.Core IEEE754.BinarySingleNaN.
Require Import Verif.Base Verif.Scalar Verif.Mat Verif.HostModel Verif.BuilderModel Verif.EStepModel.
Require Import Verif.DoubleSpec Verif.DoubleProofs Verif.DoubleRefute Verif.DoubleCases.
Import ListNotations.
Open Scope R_scope.

(** C79.  With the prior that the builder gives to K topics, for K between 2200 and 40000, a document with one word, over a vocabulary of one
    word, loses it if the tolerance is at most 1/(4K): the probabilities of its topics are all zero and gamma is alpha. *)
Theorem C79_refuted lg ex lga sum (K iterations : nat) (tolerance : double) : let O := double_ops lg ex lga sum in
  rough_log lg -> overflows ex -> (forall l, summed l (sum l)) -> (2200 <= Z.of_nat K <= 40000)%Z ->
  (1 <= iterations)%nat -> is_finite tolerance = true -> B2R tolerance <= / (4 * INR K) ->
  let m := mk_params (repeat (div one (ofZ (Z.of_nat K))) K) (mtab K 1 (fun _ _ => one)) (mk_mat 0 []) in
  let none := mtab K 1 (fun _ _ => B754_zero false) in
  double_input (/ (2 * INR K)) [1%Z] m /\
  unsupervised_doc_e_step 7 (mk_econf iterations tolerance zero) false (mk_doc [1%Z] None 1 []) m = Ok (mk_vparams (p_alpha m) none [], None) /\
  ~ double_posterior [1%Z] m (p_alpha m) none.
Proof.
  exact (fun Hlg Hex Hsum HK Hi Ft Bt => conj (many_input lg ex lga sum K HK) (word_lost lg ex lga sum Hlg Hex Hsum K HK iterations tolerance Hi Ft Bt)).
Qed.
Print Assumptions C79_refuted.
(** What holds: for a prior of at least 1/300, any number of iterations and any tolerance, the E step ends normally with a valid posterior up to
    rounding, and with the likelihood if it is asked for. *)
Theorem C79_partial lg ex lga sum (cf : econf double) (emit : bool) (d : doc double) (m : params double) : let O := double_ops lg ex lga sum in
  rough_log lg -> rough_exp ex -> (forall l, summed l (sum l)) -> double_input (/ 300) (d_words d) m ->
  exists gamma phi ev, unsupervised_doc_e_step 7 cf emit d m = Ok (mk_vparams gamma phi [], ev) /\ double_posterior (d_words d) m gamma phi /\
    (emit = true -> exists v, ev = Some v).
Proof. exact (fun Hlg Hex Hsum DI => unsupervised_double lg ex lga sum Hlg Hex Hsum (d_words d) m DI cf emit d eq_refl). Qed.
Print Assumptions C79_partial.
(** the correctly rounded logarithm and exponential, and sums from the right, meet the requirements *)
Example C79_library : rough_log lib_log /\ rough_exp lib_exp /\ overflows lib_exp /\ (forall l, summed l (lib_sum l)).
Proof. exact (conj lib_log_rough (conj lib_exp_rough (conj lib_exp_overflows lib_sum_summed))). Qed.
(** two topics over three words, the builder's prior 1/2, and a document with two of the words *)
Example C79_input lg ex lga sum : let O := double_ops lg ex lga sum in
  let half := div one (ofZ 2) : double in
  double_input (/ 300) [3; 0; 1]%Z (mk_params [half; half] (mk_mat 2 [[half; zero]; [zero; half]; [half; half]]) (mk_mat 2 [])).
Proof. exact (ok_double_input lg ex lga sum). Qed.
