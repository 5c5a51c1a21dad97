(** A corpus with classes that meets the requirements of training in double precision. *)
Require Import Reals ZArith List Bool Arith Lia Lra.
From Flocq Require Import Core.Core IEEE754.BinarySingleNaN.
Require Import Verif.Base Verif.Scalar Verif.Mat Verif.HostModel Verif.BuilderModel Verif.EStepModel.
Require Import Verif.DoubleSpec Verif.DoubleClassSpec Verif.DoubleTrainSpec Verif.DoubleMultiTrainSpec Verif.DoubleArith Verif.DoubleUtils Verif.DoubleProofs Verif.DoubleMultinomialRefute Verif.DoubleMultiTrainRefute Verif.DoubleClassCases.
Import ListNotations.
Open Scope R_scope.

Section Cases.
  Variables (lg ex lga : double -> double) (sum : list double -> double).
  Local Hint Extern 0 (ops _) => exact (DO lg ex lga sum) : typeclass_instances.
  Notation even := (even lg ex lga sum).
  Notation four_words := (four_words lg ex lga sum).

  (** two documents of different classes, mu = 2, weight 1 *)
  Lemma even_labelled : double_labelled (ofZ 2) one [four_words 0; four_words 1] even.
  Proof.
    destruct (int_d lg ex lga sum 2%Z ltac:(lia)) as [F2 V2]. destruct (one_d lg ex lga sum) as [F1 V1]. split.
    - destruct (even_corpus lg ex lga sum 0%Z ltac:(lia)) as [A1 A2 A3 A4]. split.
      + discriminate.
      + cbn. lia.
      + intros d [<-|[<-|[]]]; apply (A3 (four_words 0)); now left.
      + intros i Hi. destruct (A4 i Hi) as (d & n & [<-|[]] & R). exists (four_words 0), n. split; [now left|exact R].
    - intros d [<-|[<-|[]]]; [exists 0%nat|exists 1%nat]; (split; [reflexivity|]; split; [cbn; lia|]; apply even_multinomial; lia).
    - cbn. lia.
    - split; [exact F2|]. rewrite V2. assert (/ 2 ^ 30 <= 1) by (rewrite <- Rinv_1; apply Rinv_le_contravar; [lra|]; apply pow_R1_Rle; lra). pose proof (pow_R1_Rle 2 29 ltac:(lra)). change (2 ^ 30) with (2 * 2 ^ 29) at 2. lra.
    - rewrite V1, V2, Rabs_pos_eq by lra. change (IZR (corpus_words [four_words 0; four_words 1])) with 8. change (INR (ncols (p_eta even))) with 2.
      replace (2 * (8 + 2 * (2 - 1)) / (2 - 1)) with 20 by field. pose proof (exp_ineq1 19 ltac:(lra)). assert (ln 20 <= ln (exp 19)) by (apply DoubleUtils.ln_le; lra). rewrite ln_exp in H0. lra.
  Qed.
End Cases.
