(** The properties of the E steps with class probabilities in double precision. *)
Require Import Reals ZArith List Arith.
From Flocq Require Import Core.Core IEEE754.BinarySingleNaN.
Require Import Verif.Base Verif.Scalar Verif.Mat Verif.HostModel Verif.BuilderModel Verif.EStepModel Verif.LdaModel.
Require Import Verif.DoubleSpec Verif.DoubleClassSpec Verif.DoubleCases Verif.DoubleMultinomial Verif.DoubleMultinomialRefute Verif.DoubleCorrespondence Verif.DoubleCorrespondenceRefute Verif.DoubleClassCases.
Import ListNotations.
Open Scope R_scope.

(** C83.  With two topics, two equally likely classes and a weight of 5000 or more, a document with one word, four times, loses it: the probabilities of
    its topics are zero and gamma is alpha.  (The tolerance of this E step is its likelihood setting, at most 1.) *)
Theorem C83_refuted lg ex lga sum (weight tolerance likelihood mu : double) (iterations epochs : nat) (y : Z) : let O := double_ops lg ex lga sum in
  rough_log lg -> rough_log_below lg -> overflows ex -> (forall l, summed l (sum l)) -> is_finite weight = true -> 5000 <= B2R weight <= 2 ^ 30 ->
  (1 <= iterations)%nat -> is_finite likelihood = true -> B2R likelihood <= 1 -> (0 <= y < 2)%Z ->
  let half := div one (ofZ 2) : double in
  let m := mk_params [half; half] (mk_mat 2 [[one; one]]) (mk_mat 2 [[half; half]; [half; half]]) in
  let none := mk_mat 2 [[zero; zero]] in
  double_classes (/ 100) [4%Z] (Z.to_nat y) m /\
  doc_e_step 7 (Multinomial (mk_econf iterations tolerance likelihood) mu weight) epochs false (mk_doc [4%Z] (Some y) 1 [half; half]) m = Ok (mk_vparams [half; half] none [], None) /\
  ~ double_posterior [4%Z] m [half; half] none.
Proof.
  exact (fun Hlg Hlb Hex Hsum Fw Bw Hi Fl Bl Hy => conj (even_classes lg ex lga sum (Z.to_nat y) (proj1 (Z2Nat.inj_lt y 2 (proj1 Hy) ltac:(discriminate)) (proj2 Hy)))
    (weight_loses lg ex lga sum Hlg Hlb Hex Hsum weight Fw Bw iterations tolerance likelihood mu y Hi Fl Bl Hy)).
Qed.
Print Assumptions C83_refuted.
(** What holds: with class probabilities of at least 2^-100 and a weight that keeps their logarithms below 20, the multinomial E step ends normally with a
    valid posterior up to rounding, and with the likelihood if it is asked for. *)
Theorem C83_partial lg ex lga sum (cf : econf double) (mu weight : double) (epochs : nat) (emit : bool) (d : doc double) (y : nat) (m : params double) : let O := double_ops lg ex lga sum in
  rough_log lg -> rough_log_below lg -> rough_exp ex -> (forall l, summed l (sum l)) -> d_class d = Some (Z.of_nat y) -> (y < length (d_priors d))%nat ->
  double_multinomial weight (d_words d) y m ->
  exists gamma phi ev, doc_e_step 7 (Multinomial cf mu weight) epochs emit d m = Ok (mk_vparams gamma phi [], ev) /\ double_posterior (d_words d) m gamma phi /\
    (emit = true -> exists v, ev = Some v).
Proof. exact (fun Hlg Hlb Hex Hsum Ey Hp DM => multinomial_double lg ex lga sum Hlg Hlb Hex Hsum weight (d_words d) y m DM cf mu emit d eq_refl Ey Hp). Qed.
Print Assumptions C83_partial.

(** C84.  When topic 1 excludes the class of the document, the correspondence E step is undefined: the probability of its topic is 0 and its logarithm minus
    infinity, their product is not a number, and fast_exp looks it up in its table. *)
Theorem C84_refuted lg ex lga sum (tolerance likelihood mu : double) (iterations epochs : nat) (emit : bool) : let O := double_ops lg ex lga sum in
  rough_log lg -> log_of_zero lg -> rough_exp ex -> exp_of_infinity ex -> (forall l, summed l (sum l)) -> (1 <= iterations)%nat -> is_finite tolerance = true -> B2R tolerance <= / 2 ->
  let half := div one (ofZ 2) : double in
  let m := mk_params [half; half] (mk_mat 2 [[one; zero]; [zero; one]]) (mk_mat 2 [[one; zero]; [zero; one]]) in
  double_input (/ 300) [1; 0]%Z m /\
  doc_e_step 7 (Correspondence (mk_econf iterations tolerance likelihood) mu) epochs emit (mk_doc [1; 0]%Z (Some 0%Z) 1 []) m = UB.
Proof.
  exact (fun Hlg Hl0 Hex Hei Hsum Hi Ft Bt => conj (split_input lg ex lga sum) (split_undefined lg ex lga sum Hlg Hl0 Hex Hei Hsum iterations tolerance likelihood mu emit Hi Ft Bt)).
Qed.
Print Assumptions C84_refuted.
(** What holds: with class probabilities of at least 2^-100 the correspondence E step ends normally with a valid posterior and valid shares of the words, up to
    rounding, and with the likelihood if it is asked for. *)
Theorem C84_partial lg ex lga sum (cf : econf double) (mu : double) (epochs : nat) (emit : bool) (d : doc double) (y : nat) (m : params double) : let O := double_ops lg ex lga sum in
  rough_log lg -> rough_log_below lg -> rough_exp ex -> (forall l, summed l (sum l)) -> d_class d = Some (Z.of_nat y) -> double_classes (/ 140) (d_words d) y m ->
  exists gamma phi tau ev, doc_e_step 7 (Correspondence cf mu) epochs emit d m = Ok (mk_vparams gamma phi tau, ev) /\ double_posterior (d_words d) m gamma phi /\
    double_shares (ncols (p_beta m)) tau /\ (emit = true -> exists v, ev = Some v).
Proof. exact (fun Hlg Hlb Hex Hsum Ey DC => correspondence_double lg ex lga sum Hlg Hlb Hex Hsum (d_words d) y m DC cf mu emit d eq_refl Ey). Qed.
Print Assumptions C84_partial.

(** the correctly rounded logarithm and exponential meet the requirements *)
Example C83_library : rough_log full_log /\ rough_log_below full_log /\ log_of_zero full_log /\ rough_exp full_exp /\ overflows full_exp /\ exp_of_infinity full_exp /\ (forall l, summed l (lib_sum l)).
Proof. exact (conj full_log_rough (conj full_log_below (conj full_log_zero (conj full_exp_rough (conj full_exp_overflows (conj full_exp_infinity lib_sum_summed)))))). Qed.
(** two topics, two equally likely classes, weight 1 *)
Example C83_input lg ex lga sum y : let O := double_ops lg ex lga sum in (y < 2)%nat ->
  let half := div one (ofZ 2) : double in
  let m := mk_params [half; half] (mk_mat 2 [[one; one]]) (mk_mat 2 [[half; half]; [half; half]]) in
  double_multinomial one [4%Z] y m /\ double_classes (/ 140) [4%Z] y m.
Proof. exact (fun Hy => conj (even_multinomial lg ex lga sum y Hy) (even_correspondence lg ex lga sum y Hy)). Qed.
