(** The property of the fast supervised E step in double precision. *)
Require Import Reals ZArith List Arith Lia.
From Flocq Require Import Core.Core IEEE754.BinarySingleNaN.
Require Import Verif.Base Verif.Scalar Verif.Mat Verif.HostModel Verif.BuilderModel Verif.EStepModel Verif.LdaModel.
Require Import Verif.DoubleSpec Verif.DoubleFastSpec Verif.DoubleFast Verif.DoubleFastRefute Verif.DoubleFastCases.
Import ListNotations.
Open Scope R_scope.

(** C82.  With a valid prior, valid topics and finite coefficients, 2000 for each topic's own class and 0 for the other, the E step of a document
    with one word is undefined, whatever the weight: the exponentials of the scores overflow, their shares are not numbers, and fast_exp looks one up in
    its table. *)
Theorem C82_refuted lg ex lga sum (iterations epochs : nat) (tolerance likelihood C : double) (exponential emit : bool) (y : Z) : let O := double_ops lg ex lga sum in
  rough_log lg -> overflows ex -> (forall l, summed l (sum l)) -> (1 <= iterations)%nat -> is_finite tolerance = true -> B2R tolerance <= / 2 -> (0 <= y < 2)%Z ->
  let half := div one (ofZ 2) : double in
  let m := mk_params [half; half] (mk_mat 2 [[one; zero]; [zero; one]]) (mk_mat 2 [[ofZ 2000; zero]; [zero; ofZ 2000]]) in
  double_input (/ 300) [1; 0]%Z m /\
  doc_e_step 7 (FastSupervised (mk_econf iterations tolerance likelihood) exponential C) epochs emit (mk_doc [1; 0]%Z (Some y) 1 []) m = UB.
Proof.
  exact (fun Hlg Hex Hsum Hi Ft Bt Hy => conj (steep_input lg ex lga sum)
    (steep_undefined lg ex lga sum Hlg Hex Hsum iterations tolerance likelihood _ emit y Hi Ft Bt Hy)).
Qed.
Print Assumptions C82_refuted.
(** What holds: when the coefficients are at most 150 in absolute value and the weight does not blow up their spread, the E step ends normally, for
    any number of iterations and any tolerance, with a valid posterior up to rounding, and with the likelihood if it is asked for and there is a word. *)
Theorem C82_partial lg ex lga sum (cf : econf double) (exponential emit : bool) (C : double) (epochs : nat) (d : doc double) (y : nat) (m : params double) : let O := double_ops lg ex lga sum in
  rough_log lg -> rough_exp ex -> (forall l, summed l (sum l)) -> d_class d = Some (Z.of_nat y) ->
  double_labelled (get_weight exponential C epochs) (d_words d) y m -> (emit = true -> (0 < fold_right Z.add 0 (d_words d))%Z) ->
  exists gamma phi ev, doc_e_step 7 (FastSupervised cf exponential C) epochs emit d m = Ok (mk_vparams gamma phi [], ev) /\
    double_posterior (d_words d) m gamma phi /\ (emit = true -> exists v, ev = Some v).
Proof. exact (fun Hlg Hex Hsum Ey DL He => fast_double lg ex lga sum Hlg Hex Hsum _ (d_words d) y m DL cf emit d eq_refl Ey He). Qed.
Print Assumptions C82_partial.
(** and the same of the E step for corpora with and without labels *)
Theorem C82_semi_supervised_partial lg ex lga sum (cf cf' : econf double) (exponential emit : bool) (C : double) (epochs : nat) (d : doc double) (y : Z) (m : params double) :
  let O := double_ops lg ex lga sum in
  rough_log lg -> rough_exp ex -> (forall l, summed l (sum l)) -> d_class d = Some y ->
  ((y < 0)%Z -> double_input (/ 300) (d_words d) m) ->
  ((0 <= y)%Z -> double_labelled (get_weight exponential C epochs) (d_words d) (Z.to_nat y) m /\ (emit = true -> (0 < fold_right Z.add 0 (d_words d))%Z)) ->
  exists gamma phi ev, doc_e_step 7 (SemiSupervised (FastSupervised cf exponential C) (Classic cf')) epochs emit d m = Ok (mk_vparams gamma phi [], ev) /\
    double_posterior (d_words d) m gamma phi /\ (emit = true -> exists v, ev = Some v).
Proof. exact (fun Hlg Hex Hsum => semi_double lg ex lga sum Hlg Hex Hsum cf exponential C cf' epochs emit d m y). Qed.
Print Assumptions C82_semi_supervised_partial.
(** two topics over three words, two classes, weight 1 *)
Example C82_labelled lg ex lga sum : let O := double_ops lg ex lga sum in
  let half := div one (ofZ 2) : double in
  let m := mk_params [half; half] (mk_mat 2 [[half; zero]; [zero; half]; [half; half]]) (mk_mat 2 [[one; zero]; [zero; one]]) in
  double_labelled (get_weight false one 3) [3; 0; 1]%Z 0 m /\ double_labelled (get_weight false one 3) [0; 2; 0]%Z 1 m.
Proof. split; apply (ok_labelled lg ex lga sum); try reflexivity; try lia; intros x Hx; cbn in Hx; lia. Qed.
