(** The property of inference in double precision. *)
Require Import Reals ZArith List Arith.
From Flocq Require Import Core.Core IEEE754.BinarySingleNaN.
Require Import Verif.Base Verif.Scalar Verif.Mat Verif.HostModel Verif.BuilderModel Verif.EStepModel Verif.LdaModel Verif.InferSpec Verif.InferProofs.
Require Import Verif.DoubleSpec Verif.DoubleInferSpec Verif.DoubleInfer Verif.DoubleInferCases.
Import ListNotations.
Open Scope R_scope.

(** C81.  A document without words gets a score that is not a number for every class, and class 0 as its prediction, whatever the model, the other
    documents, the number of workers and their schedule. *)
Theorem C81_refuted lg ex lga sum (cf : econf double) (epochs W : nat) (m : params double) (X : list (list Z)) r : let O := double_ops lg ex lga sum in
  rough_log lg -> rough_exp ex -> (forall l, summed l (sum l)) -> Forall (fun x => double_input (/ 300) x m) X -> X <> [] ->
  mrows (p_eta m) = mrows (p_beta m) -> (0 < ncols (p_eta m))%nat -> predict_call 7 (Classic cf) epochs W m X r ->
  exists s p, decision_call 7 (Classic cf) epochs W m X (Ok s) /\ r = Ok p /\
    forall d, (d < length X)%nat -> fold_right Z.add 0%Z (nth d X []) = 0%Z ->
      (forall c, (c < ncols (p_eta m))%nat -> mget s c d = B754_nan) /\ nth d p 0%nat = 0%nat.
Proof. exact (fun Hlg Hex Hsum => predict_empty lg ex lga sum Hlg Hex Hsum cf epochs W m X r). Qed.
Print Assumptions C81_refuted.
(** What holds: when every document has a word, the scores are finite and within score_unit times the largest coefficient of the linear model's
    exact score on the document's posterior; the predicted class is the first with the largest of the computed scores, and its exact score is
    within twice that error of the best. *)
Theorem C81_partial lg ex lga sum (H : R) (cf : econf double) (epochs W : nat) (m : params double) (X : list (list Z)) r : let O := double_ops lg ex lga sum in
  rough_log lg -> rough_exp ex -> (forall l, summed l (sum l)) -> Forall (fun x => double_query H x m) X -> X <> [] ->
  predict_call 7 (Classic cf) epochs W m X r ->
  exists g s p, transform_call 7 (Classic cf) epochs W m X (Ok g) /\ decision_call 7 (Classic cf) epochs W m X (Ok s) /\ r = Ok p /\ length p = length X /\
    forall d, (d < length X)%nat -> exists phi,
      posterior 7 (Classic cf) epochs (unlabelled (nth d X [])) m = Ok (mk_vparams (mcol g d) phi []) /\ double_posterior (nth d X []) m (mcol g d) phi /\
      let error := score_unit (nth d X []) m * H + / 2 ^ 1000 in let exact := exact_score (nth d X []) m phi in
      (forall c, (c < ncols (p_eta m))%nat -> is_finite (mget s c d) = true /\ Rabs (B2R (mget s c d) - exact c) <= error) /\
      first_best (ncols (p_eta m)) (fun c => B2R (mget s c d)) (nth d p 0%nat) /\
      (forall c, (c < ncols (p_eta m))%nat -> exact c <= exact (nth d p 0%nat) + 2 * error).
Proof. exact (fun Hlg Hex Hsum => predict_double lg ex lga sum Hlg Hex Hsum H cf epochs W m X r). Qed.
Print Assumptions C81_partial.
(** two topics over three words, two classes, two documents, and the same with an empty document; the calls return *)
Example C81_query lg ex lga sum (cf : econf double) (epochs W : nat) : let O := double_ops lg ex lga sum in (0 < W)%nat ->
  let half := div one (ofZ 2) : double in
  let m := mk_params [half; half] (mk_mat 2 [[half; zero]; [zero; half]; [half; half]]) (mk_mat 2 [[one; zero]; [zero; one]]) in
  Forall (fun x => double_query 1 x m) [[3; 0; 1]; [0; 2; 0]]%Z /\
  Forall (fun x => double_input (/ 300) x m) [[0; 2; 0]; [0; 0; 0]]%Z /\
  forall X, exists r, predict_call 7 (Classic cf) epochs W m X r.
Proof.
  intros O HW half m. split; [apply Forall_forall; exact (ok_classes_query lg ex lga sum)|]. split.
  - apply Forall_forall. intros x Hx. apply (ok_classes_input lg ex lga sum).
    + now destruct Hx as [<-|[<-|[]]].
    + intros y Hy. destruct Hx as [<-|[<-|[]]]; cbn in Hy; intuition (subst; discriminate).
    + destruct Hx as [<-|[<-|[]]]; reflexivity.
  - intros X. eexists. eexists. split; [apply transform_exists, HW|reflexivity].
Qed.
