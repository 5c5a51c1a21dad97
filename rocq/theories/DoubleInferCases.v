(** Documents to classify in double precision: two topics over three words, one coefficient for each topic and class. *)
Require Import Reals ZArith List Bool Arith Lia Lra.
From Flocq Require Import Core.Core IEEE754.BinarySingleNaN.
Require Import Verif.Base Verif.Scalar Verif.Mat Verif.HostModel Verif.BuilderModel Verif.EStepModel.
Require Import Verif.DoubleSpec Verif.DoubleInferSpec Verif.DoubleArith Verif.DoubleUtils Verif.DoubleProofs Verif.DoubleCases.
Import ListNotations.
Open Scope R_scope.

Section Query.
  Variables (lg ex lga : double -> double) (sum : list double -> double).
  Local Hint Extern 0 (ops _) => exact (DO lg ex lga sum) : typeclass_instances.
  Definition ok_eta : mat double := mk_mat 2 [[one; zero]; [zero; one]].
  Definition ok_classes : params double := mk_params (p_alpha (ok_double lg ex lga sum)) (p_beta (ok_double lg ex lga sum)) ok_eta.
  Lemma ok_classes_input X : length X = 3%nat -> (forall x, In x X -> (0 <= x)%Z) -> (fold_right Z.add 0 X < 2 ^ 31)%Z -> double_input (/ 300) X ok_classes.
  Proof.
    intros L P N. destruct (ok_double_input lg ex lga sum) as [A1 A2 A3 A4 A5 A6 A7 A8 A9]. split; [exact A1|exact A2|exact A3|exact L|exact A5|exact A6|exact P|exact N|].
    destruct (half_d lg ex lga sum) as [F V]. change (div one UtilsModel.two) with (ok_half lg ex lga sum) in F, V.
    assert (S : / 2 ^ 250 <= B2R (ok_half lg ex lga sum)) by (rewrite V; apply Rinv_le_contravar; [lra|]; change 250%nat with (S 249); rewrite <- tech_pow_Rmult; pose proof (pow_R1_Rle 2 249); lra).
    intros [|[|[|n]]] Hn _; cbn in Hn; try lia.
    - exists 0%nat. split; [cbn; lia|exact S].
    - exists 1%nat. split; [cbn; lia|exact S].
    - exists 0%nat. split; [cbn; lia|exact S].
  Qed.
  Lemma ok_classes_query x : In x [[3; 0; 1]; [0; 2; 0]]%Z -> double_query 1 x ok_classes.
  Proof.
    intros Hx. assert (Hn : double_input (/ 300) x ok_classes /\ (0 < fold_right Z.add 0 x)%Z /\ (fold_right Z.add 0 x <= 4)%Z).
    { destruct Hx as [<-|[<-|[]]]; (split; [apply ok_classes_input; [reflexivity| |cbn; lia]; intros y Hy; cbn in Hy; lia|cbn; lia]). }
    destruct Hn as (I & P & N). destruct (half_d lg ex lga sum) as [F V]. change (div one UtilsModel.two) with (ok_half lg ex lga sum) in F, V.
    split; [exact I|exact P| |reflexivity|cbn; lia| |].
    - unfold score_unit. cbv zeta. apply IZR_lt in P. set (w := IZR (fold_right Z.add 0%Z x)) in *.
      change (mrows (p_beta ok_classes)) with 2%nat. change (ncols (p_beta ok_classes)) with 3%nat.
      assert (AS : rsum 2 (fun i => B2R (vget (p_alpha ok_classes) i)) = / 2 + (/ 2 + 0)) by (rewrite <- V; reflexivity). rewrite AS.
      assert (W1 : 1 <= w) by (unfold w; apply IZR_le; apply lt_IZR in P; lia).
      assert (Q : (/ 2 + (/ 2 + 0) + w) / w <= 2) by (apply Rmult_le_reg_r with w; [lra|]; unfold Rdiv; rewrite Rmult_assoc, Rinv_l by lra; lra).
      replace (INR 2 + INR 3 + 3) with 8 by (cbn; lra). assert (T : 8 / 2 ^ 46 <= / 4) by lra. assert (0 < 8 / 2 ^ 46) by lra.
      assert (0 < (/ 2 + (/ 2 + 0) + w) / w) by (apply Rdiv_lt_0_compat; lra).
      apply Rle_trans with (/ 4 * 2); [|lra]. apply Rmult_le_compat; lra.
    - intros i c Hi Hc. cbn in Hi, Hc. destruct (one_d lg ex lga sum) as [F1 V1]. assert (A1 : is_finite (one : double) = true /\ Rabs (B2R (one : double)) <= 1) by (split; [exact F1|]; rewrite V1, Rabs_R1; lra).
      assert (A0 : is_finite (zero : double) = true /\ Rabs (B2R (zero : double)) <= 1) by (split; [reflexivity|]; change (B2R (zero : double)) with 0; rewrite Rabs_R0; lra).
      destruct i as [|[|i]], c as [|[|c]]; try lia; assumption.
    - apply pow_R1_Rle. lra.
  Qed.
End Query.
