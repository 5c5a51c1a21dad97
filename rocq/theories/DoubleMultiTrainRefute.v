(** A large weight: one epoch of training empties every topic. *)
Require Import Reals ZArith List Bool Arith Lia Lra Psatz Permutation.
From Flocq Require Import Core.Core IEEE754.BinarySingleNaN.
Require Import Verif.Base Verif.Scalar Verif.Mat Verif.HostModel Verif.UtilsModel Verif.BuilderModel Verif.EStepModel Verif.EStepAny Verif.OptModel Verif.MStepModel Verif.MStepSpec Verif.MStepAny Verif.MStepBatch Verif.PoolModel Verif.LdaModel Verif.TrainProofs Verif.TrainFit.
Require Import Verif.DoubleSpec Verif.DoubleClassSpec Verif.DoubleTrainSpec Verif.DoubleMultiTrainSpec Verif.DoubleArith Verif.DoubleUtils Verif.DoubleProofs Verif.DoubleRefute Verif.DoubleTrain Verif.DoubleTrainRefute Verif.DoubleMultinomial Verif.DoubleMultinomialRefute Verif.DoubleMultiTrain.
Import ListNotations.
Open Scope R_scope.

Section Refute.
  Variables (lg ex lga : double -> double) (sum : list double -> double).
  Local Hint Extern 0 (ops _) => exact (DO lg ex lga sum) : typeclass_instances.
  Hypothesis Hlg : rough_log lg.
  Hypothesis Hlb : rough_log_below lg.
  Hypothesis Hex : overflows ex.
  Hypothesis Hsum : forall l, summed l (sum l).
  Notation half := (div one (ofZ 2) : double).
  Notation even := (even lg ex lga sum).
  Notation four_words := (four_words lg ex lga sum).
  Notation lost := (lost lg ex lga sum).
  Variable weight : double.
  Hypothesis Fw : is_finite weight = true.
  Hypothesis Bw : 5000 <= B2R weight <= 2 ^ 30.
  Variables (iterations : nat) (tol likelihood mu mu' : double) (y : Z).
  Hypothesis Hi : (1 <= iterations)%nat.
  Hypothesis Fl : is_finite likelihood = true.
  Hypothesis Bl : B2R likelihood <= 1.
  Hypothesis Hy : (0 <= y < 2)%Z.
  Notation E_step := (Multinomial (mk_econf iterations tol likelihood) mu' weight).
  Notation found_lost := (mk_vparams [half; half] lost []).

  Lemma lost_posterior ep : posterior 7 E_step ep (four_words y) even = Ok found_lost.
  Proof.
    unfold posterior. cbn [doc_e_step]. rewrite !(weight_run lg ex lga sum Hlg Hlb Hex Hsum weight Fw Bw) by assumption. cbn [report].
    destruct (half_d' lg ex lga sum) as [Fh Vh]. destruct (sum_two lg ex lga sum Hsum half Fh ltac:(lra)) as [Fs Bs].
    unfold compute_supervised_multinomial_likelihood, compute_unsupervised_likelihood. cbv zeta.
    destruct (digamma_d lg ex lga sum Hlg (redux [half; half]) 2 Fs) as (u & Eu & _); [cbn [INR]; change (pow 40) with 1099511627776; lra|lia|]. rewrite Eu. cbn [bind].
    destruct (digamma_d lg ex lga sum Hlg half 2 Fh) as (t & Et & _); [cbn [INR]; change (pow 40) with 1099511627776; lra|lia|]. unfold psi_of, vmapM. cbn [map seqM]. rewrite Et. cbn [bind seqM map p_alpha even].
    reflexivity.
  Qed.
  Lemma zero_sum : is_finite (redux [zero : double]) = true /\ B2R (redux [zero : double]) = 0.
  Proof.
    assert (S : summed [zero : double] (redux [zero : double])) by exact (Hsum _). destruct (summed_in 0 _ _ S ltac:(lia)) as (G & _ & _ & Es); [cbn; lia|apply Forall_forall; intros x [<-|[]]; (split; [reflexivity|cbn; lra])|].
    split; [exact G|]. assert (Lv : lval [zero : double] = 0) by (unfold lval, lsum; cbn; lra). rewrite Lv, Rmult_0_r, Rminus_0_r in Es. apply Rabs_le_inv in Es. lra.
  Qed.
  Lemma lost_epoch W ep st p : partial_fit_call 7 (multinomial_maximizer mu) E_step W [four_words y] (Ok new_stats) (even, ep) st p ->
    (exists s, st = Ok s) /\ p_beta (fst p) = lost.
  Proof.
    intros H. destruct (partial_fit_run 7 (multinomial_maximizer mu) E_step (multinomial_same lg ex lga sum mu) W [four_words y] new_stats (even, ep) st p [(four_words y, found_lost)] H (Permutation_refl _)) as (l & P & Run).
    { constructor; [|constructor]. exact (lost_posterior ep). }
    apply Permutation_sym, Permutation_length_1_inv in P. subst l. cbn [fst snd] in Run.
    destruct (Run _ _ _ (multinomial_run lg ex lga sum mu 2 1 2 new_stats [(four_words y, found_lost)] even ltac:(lia) (or_introl eq_refl) eq_refl eq_refl
      ltac:(constructor; [repeat split|constructor]) ltac:(constructor; [exists y; split; [reflexivity|exact Hy]|constructor]) ltac:(discriminate))) as [-> ->].
    split; [eexists; reflexivity|]. cbn [fst p_beta].
    assert (T : totals 2 1 assigned [(four_words y, found_lost)] = lost).
    { unfold totals. cbn [fold_left]. unfold mtab, vtab, DoubleMultinomialRefute.lost. cbn [seq map]. reflexivity. }
    rewrite T. unfold normalize_rows. change (mrows lost) with 2%nat. change (ncols lost) with 1%nat. unfold mtab, vtab. cbn [seq map]. cbv zeta.
    change (mrow lost 0) with [zero : double]. change (mrow lost 1) with [zero : double].
    assert (Z : eqb (redux [zero : double]) zero = true) by (destruct zero_sum as [F V]; now apply (is_zero lg ex lga sum)).
    rewrite Z. reflexivity.
  Qed.
  Theorem topics_emptied W ep : (0 < W)%nat ->
    (exists st p, fit_call 7 (multinomial_maximizer mu) E_step W [four_words y] 1 (Ok new_stats) (even, ep) st p) /\
    (forall st p, fit_call 7 (multinomial_maximizer mu) E_step W [four_words y] 1 (Ok new_stats) (even, ep) st p -> (exists s, st = Ok s) /\ p_beta (fst p) = lost).
  Proof.
    intros HW. split.
    - exact (fit_returns 7 2 1 2 _ _ _ _ _ _ E_step W [four_words y] 1 (step_multinomial 2 1 2 mu) HW _ _).
    - intros st p F. inversion F; subst. match goal with H : fit_call _ _ _ _ _ 0 _ _ _ _ |- _ => inversion H; subst end.
      match goal with H : partial_fit_call _ _ _ _ _ _ _ _ _ |- _ => exact (lost_epoch _ _ _ _ H) end.
  Qed.
  Lemma even_corpus : double_corpus [four_words y] even.
  Proof.
    clear Hi Fl Bl Fw Bw Hlg Hlb Hex Hsum. pose proof (even_classes lg ex lga sum (Z.to_nat y) ltac:(lia)) as EC. destruct (one_d lg ex lga sum) as [F1 V1]. split.
    - discriminate.
    - cbn. lia.
    - intros d [<-|[]]. destruct (DoubleClassSpec.dc_input _ _ _ _ EC) as [A1 A2 A3 A4 A5 A6 A7 A8 A9]. split; try assumption. intros i H. destruct (A5 i H) as [F B]. split; [exact F|lra].
    - cbn [DoubleMultinomialRefute.even p_beta mrows ncols mcols length]. intros i H. exists (four_words y), 0%nat. split; [now left|]. split; [lia|]. split; [discriminate|].
      assert (E : mget (mk_mat 2 [[one : double; one]]) i 0 = one) by (destruct i as [|[|i]]; [reflexivity|reflexivity|lia]). rewrite E, V1.
      rewrite <- Rinv_1. apply Rinv_le_contravar; [lra|]. apply pow_R1_Rle. lra.
  Qed.
End Refute.
