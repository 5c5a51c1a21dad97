(** A mathematical library with the ends of its ranges, and labelled documents for the E steps with class probabilities. *)
Require Import Reals ZArith List Bool Arith Lia Lra Psatz Permutation.
From Flocq Require Import Core.Core IEEE754.BinarySingleNaN.
Require Import Verif.Base Verif.Scalar Verif.Mat Verif.HostModel Verif.BuilderModel Verif.EStepModel.
Require Import Verif.DoubleSpec Verif.DoubleClassSpec Verif.DoubleArith Verif.DoubleUtils Verif.DoubleProofs Verif.DoubleCases Verif.DoubleTrainRefute Verif.DoubleCorrespondence Verif.DoubleMultinomialRefute.
Import ListNotations.
Open Scope R_scope.

Definition full_log (x : double) : double := match x with B754_zero _ => B754_infinity true | _ => lib_log x end.
Definition full_exp (x : double) : double := match x with B754_infinity false => B754_infinity false | _ => lib_exp x end.
Lemma full_log_rough : rough_log full_log.
Proof. intros x Fx Bx. destruct x as [s| | |]; try discriminate Fx; [cbn in Bx; lra|]. now apply lib_log_rough. Qed.
Lemma full_log_zero : log_of_zero full_log.
Proof. intros s. reflexivity. Qed.
Lemma full_exp_rough : rough_exp full_exp.
Proof. intros x Fx Bx. destruct x as [s| | |]; try discriminate Fx; now apply lib_exp_rough. Qed.
Lemma full_exp_overflows : overflows full_exp.
Proof. intros x Fx Bx. destruct x as [s| | |]; try discriminate Fx; now apply lib_exp_overflows. Qed.
Lemma full_exp_infinity : exp_of_infinity full_exp.
Proof. reflexivity. Qed.
Lemma full_log_below : rough_log_below full_log.
Proof.
  intros x Fx Bx. replace (full_log x) with (nearest (ln (B2R x))) by (destruct x; try discriminate Fx; [cbn in Bx; lra|reflexivity]).
  set (v := - ln (B2R x)). destruct unit_facts as (PU & SU & PT & ST & _).
  assert (B1 : B2R x <= 1 - pow (-53)).
  { assert (G1 : generic_format radix2 fexp 1) by (change 1 with (pow 0); apply generic_format_bpow; unfold SpecFloat.fexp, SpecFloat.emin; lia).
    pose proof (@pred_ge_gt radix2 fexp fexp_valid (B2R x) 1 (generic_format_B2R 53 1024 x) G1 (proj2 Bx)) as P. change 1 with (pow 0) in P at 1. rewrite pred_bpow in P. exact P. }
  assert (V0 : pow (-53) <= v).
  { unfold v. pose proof (exp_ineq1_le (ln (B2R x))) as E. rewrite exp_ln in E by lra. lra. }
  assert (V1 : v <= pow 1022).
  { assert (A : pow (-1074) <= B2R x).
    { rewrite <- (Rabs_pos_eq (B2R x)) by lra. apply (abs_B2R_ge_emin 53 1024 x). destruct x; try discriminate Fx; [cbn in Bx; lra|reflexivity]. }
    unfold v. apply Rle_trans with (ln (pow (Z.of_nat 1074))).
    - rewrite <- ln_Rinv by lra. apply ln_le; [apply Rinv_0_lt_compat; lra|]. change (Z.of_nat 1074) with (- (-1074))%Z. rewrite bpow_opp. apply Rinv_le_contravar; [apply bpow_gt_0|exact A].
    - eapply Rle_trans; [apply ln_pow2|]. rewrite INR_IZR_INZ. apply Rle_trans with (pow 11); [|apply bpow_le; lia]. change (pow 11) with 2048. apply IZR_le. lia. }
  assert (P53 : pow (-60) <= pow (-53)) by (apply bpow_le; lia). assert (P60 := bpow_gt_0 radix2 (-60)).
  destruct (nearest_in (ln (B2R x))) as [F V]; [replace (ln (B2R x)) with (- v) by (unfold v; ring); rewrite Rabs_Ropp, Rabs_pos_eq by lra; exact V1|].
  split; [exact F|]. rewrite V. pose proof (rnd_error (ln (B2R x))) as E. replace (ln (B2R x)) with (- v) in * by (unfold v; ring). rewrite Rabs_Ropp, (Rabs_pos_eq v) in E by lra.
  apply Rabs_le_inv in E. assert (U * v <= / 8 * v) by (apply Rmult_le_compat_r; lra).
  assert (TT : T0 <= pow (-60) * / 8) by (change (/ 8) with (pow (-3)); rewrite <- bpow_plus; apply bpow_le; lia). lra.
Qed.

Section Inputs.
  Variables (lg ex lga : double -> double) (sum : list double -> double).
  Local Hint Extern 0 (ops _) => exact (DO lg ex lga sum) : typeclass_instances.
  Lemma even_multinomial y : (y < 2)%nat -> double_multinomial one [4%Z] y (even lg ex lga sum).
  Proof.
    destruct (half_d' lg ex lga sum) as [Fh Vh]. destruct (one_d lg ex lga sum) as [F1 V1]. intros Hy. split; [exact (even_classes lg ex lga sum y Hy)| |].
    - split; [exact F1|]. intros i Hi. cbn in Hi.
      assert (E : mget (p_eta (even lg ex lga sum)) i y = div one (ofZ 2)) by (destruct i as [|[|i]]; [| |lia]; (destruct y as [|[|y]]; [reflexivity|reflexivity|lia])). rewrite E, V1, Vh, Rabs_R1.
      rewrite ln_Rinv by lra. assert (Q : ln 2 <= ln (exp 1)). { apply ln_le; [lra|]. pose proof (exp_ineq1 1 R1_neq_R0). lra. } rewrite ln_exp in Q. lra.
    - change (mrows (p_beta (even lg ex lga sum))) with 2%nat. rewrite (rsum_ext 2 _ (fun _ => / 2)); [rewrite rsum_const; cbn [INR]; lra|]. intros i Hi.
      assert (E : vget (p_alpha (even lg ex lga sum)) i = div one (ofZ 2)) by (destruct i as [|[|i]]; [reflexivity|reflexivity|lia]). now rewrite E, Vh.
  Qed.
  Lemma even_correspondence y : (y < 2)%nat -> double_classes (/ 140) [4%Z] y (even lg ex lga sum).
  Proof.
    intros Hy. destruct (even_classes lg ex lga sum y Hy) as [[A1 A2 A3 A4 A5 A6 A7 A8 A9] B C D]. split; try assumption. split; try assumption.
    intros i Hi. destruct (A5 i Hi) as [F Q]. split; [exact F|lra].
  Qed.
End Inputs.
