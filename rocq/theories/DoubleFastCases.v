(** A labelled document in double precision: two topics over three words, two classes. *)
Require Import Reals ZArith List Bool Arith Lia Lra.
From Flocq Require Import Core.Core IEEE754.BinarySingleNaN.
Require Import Verif.Base Verif.Scalar Verif.Mat Verif.HostModel Verif.BuilderModel Verif.EStepModel Verif.LdaModel.
Require Import Verif.DoubleSpec Verif.DoubleFastSpec Verif.DoubleArith Verif.DoubleUtils Verif.DoubleProofs Verif.DoubleCases Verif.DoubleInferCases Verif.DoubleFast.
Import ListNotations.
Open Scope R_scope.

Section Labelled.
  Variables (lg ex lga : double -> double) (sum : list double -> double).
  Local Hint Extern 0 (ops _) => exact (DO lg ex lga sum) : typeclass_instances.
  Lemma ok_labelled X y : length X = 3%nat -> (forall x, In x X -> (0 <= x)%Z) -> (fold_right Z.add 0 X < 2 ^ 31)%Z -> (y < 2)%nat -> double_labelled one X y (ok_classes lg ex lga sum).
  Proof.
    intros L P N Hy. destruct (one_d lg ex lga sum) as [F1 V1]. destruct (half_d lg ex lga sum) as [F V]. change (div one UtilsModel.two) with (ok_half lg ex lga sum) in F, V.
    assert (E : forall i c, (i < 2)%nat -> (c < 2)%nat -> is_finite (mget (ok_eta lg ex lga sum) i c) = true /\ Rabs (B2R (mget (ok_eta lg ex lga sum) i c)) <= 1).
    { assert (A1 : is_finite (one : double) = true /\ Rabs (B2R (one : double)) <= 1) by (split; [exact F1|]; rewrite V1, Rabs_R1; lra).
      assert (A0 : is_finite (zero : double) = true /\ Rabs (B2R (zero : double)) <= 1) by (split; [reflexivity|]; change (B2R (zero : double)) with 0; rewrite Rabs_R0; lra).
      intros i c Hi Hc. destruct i as [|[|i]], c as [|[|c]]; try lia; assumption. }
    split.
    - destruct (ok_classes_input lg ex lga sum X L P N) as [A1 A2 A3 A4 A5 A6 A7 A8 A9]. split; [exact A1|exact A2|exact A3|exact A4| |exact A6|exact A7|exact A8|exact A9].
      intros i Hi. destruct (A5 i Hi) as [Fa Ba]. split; [exact Fa|]. assert (Ea : vget (p_alpha (ok_classes lg ex lga sum)) i = ok_half lg ex lga sum) by (cbn in Hi; destruct i as [|[|i]]; [reflexivity|reflexivity|lia]).
      rewrite Ea in *. rewrite V in *. split; [apply Rinv_le_contravar; lra|apply Ba].
    - reflexivity.
    - exact Hy.
    - cbn. lia.
    - intros i c Hi Hc. destruct (E i c Hi Hc) as [A B]. split; [exact A|]. eapply Rle_trans; [exact B|lra].
    - split; [exact F1|]. rewrite V1, Rabs_R1. apply pow_R1_Rle. lra.
    - exists 1. split; [apply pow_R1_Rle; lra|]. split; [rewrite V1, Rabs_R1; lra|]. right. exists 0%nat, 0%nat. split; [cbn; lia|]. split; [cbn; lia|].
      change (mget (p_eta (ok_classes lg ex lga sum)) 0 0) with (one : double). rewrite V1. split; [lra|]. intros i c Hi Hc. rewrite Rmult_1_r. apply (E i c Hi Hc).
  Qed.

  Hypothesis Hlg : rough_log lg.
  Hypothesis Hex : rough_exp ex.
  Hypothesis Hsum : forall l, summed l (sum l).
  (** the E step objects *)
  Lemma semi_double cf exponential C cf' epochs emit (d : doc double) m y : d_class d = Some y ->
    ((y < 0)%Z -> double_input (/ 300) (d_words d) m) ->
    ((0 <= y)%Z -> double_labelled (get_weight exponential C epochs) (d_words d) (Z.to_nat y) m /\ (emit = true -> (0 < fold_right Z.add 0 (d_words d))%Z)) ->
    exists gamma phi ev, doc_e_step 7 (SemiSupervised (FastSupervised cf exponential C) (Classic cf')) epochs emit d m = Ok (mk_vparams gamma phi [], ev) /\
      double_posterior (d_words d) m gamma phi /\ (emit = true -> exists v, ev = Some v).
  Proof.
    intros Ey U S. cbn [doc_e_step]. unfold semi_supervised_doc_e_step. rewrite Ey. destruct (y <? 0)%Z eqn:N.
    - apply Z.ltb_lt in N. exact (unsupervised_double lg ex lga sum Hlg Hex Hsum (d_words d) m (U N) cf' emit d eq_refl).
    - apply Z.ltb_ge in N. destruct (S N) as [DL He]. apply (fast_double lg ex lga sum Hlg Hex Hsum _ (d_words d) (Z.to_nat y) m DL cf emit d eq_refl); [rewrite Z2Nat.id by exact N; exact Ey|exact He].
  Qed.
End Labelled.
