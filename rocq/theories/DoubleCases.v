(** A mathematical library that meets the requirements of DoubleSpec: the correctly rounded logarithm and exponential; sums from the
    right; and an input. *)
Require Import Reals ZArith List Bool Arith Lia Lra Psatz Permutation.
From Flocq Require Import Core.Core IEEE754.BinarySingleNaN.
Require Import Verif.Base Verif.Scalar Verif.Mat Verif.HostModel Verif.BuilderModel Verif.EStepModel.
Require Import Verif.DoubleSpec Verif.DoubleTrainSpec Verif.DoubleArith Verif.DoubleUtils Verif.DoubleProofs.
Import ListNotations.
Open Scope R_scope.

(** The double nearest to a real number that is not too large *)
Definition nearest (r : R) : double :=
  binary_normalize 53 1024 eq_refl eq_refl mode_NE (Ztrunc (scaled_mantissa radix2 fexp (rnd r))) (cexp radix2 fexp (rnd r)) false.
Lemma nearest_in r : Rabs r <= pow 1022 -> is_finite (nearest r) = true /\ B2R (nearest r) = rnd r.
Proof.
  intros H. unfold nearest. assert (G : generic_format radix2 fexp (rnd r)) by (apply generic_format_round; [apply fexp_valid|apply valid_rnd_N]).
  pose proof (binary_normalize_correct 53 1024 eq_refl eq_refl mode_NE (Ztrunc (scaled_mantissa radix2 fexp (rnd r))) (cexp radix2 fexp (rnd r)) false) as C. cbv zeta in C.
  assert (E : F2R (Float radix2 (Ztrunc (scaled_mantissa radix2 fexp (rnd r))) (cexp radix2 fexp (rnd r))) = rnd r) by (symmetry; exact G).
  rewrite E in C.
  assert (L : Rabs (rnd r) <= pow 1022).
  { apply abs_round_le_generic; [apply fexp_valid|apply valid_rnd_N| |exact H]. apply generic_format_bpow. unfold SpecFloat.fexp, SpecFloat.emin. lia. }
  assert (RR : rnd (rnd r) = rnd r) by (apply round_generic; [apply valid_rnd_N|exact G]). rewrite RR in C.
  rewrite Rlt_bool_true in C by (eapply Rle_lt_trans; [exact L|apply bpow_lt; lia]). tauto.
Qed.
Lemma nearest_half v : pow (-60) <= v <= pow 1022 -> is_finite (nearest v) = true /\ v / 2 <= B2R (nearest v) <= 2 * v.
Proof.
  intros H. destruct unit_facts as (PU & SU & PT & ST & _). assert (0 < pow (-60)) by apply bpow_gt_0.
  assert (TT : T0 <= pow (-60) * / 8) by (change (/ 8) with (pow (-3)); rewrite <- bpow_plus; apply bpow_le; lia).
  destruct (nearest_in v) as [F V]; [rewrite Rabs_pos_eq; lra|]. split; [exact F|]. rewrite V. pose proof (rnd_error v) as E. rewrite (Rabs_pos_eq v) in E by lra.
  apply Rabs_le_inv in E. assert (U * v <= / 8 * v) by (apply Rmult_le_compat_r; lra). lra.
Qed.

Definition lib_log (x : double) : double := nearest (ln (B2R x)).
Definition lib_exp (x : double) : double := if Rle_dec (exp (B2R x)) (pow 1022) then nearest (exp (B2R x)) else B754_infinity false.
Definition lib_sum (l : list double) : double := fold_right dadd (B754_zero false) l.

Lemma lib_log_rough : rough_log lib_log.
Proof.
  intros x Fx Bx. unfold lib_log. destruct (Rle_lt_or_eq_dec 1 (B2R x) Bx) as [L|<-].
  - apply nearest_half. assert (S : 1 + pow (-52) <= B2R x).
    { assert (G1 : generic_format radix2 fexp 1) by (change 1 with (pow 0); apply generic_format_bpow; unfold SpecFloat.fexp, SpecFloat.emin; lia).
      pose proof (@succ_le_lt radix2 fexp fexp_valid 1 (B2R x) G1 (generic_format_B2R 53 1024 x) L) as S.
      rewrite succ_eq_pos in S by lra. replace (pow (-52)) with (ulp radix2 fexp 1); [exact S|]. change 1 with (pow 0). rewrite ulp_bpow. reflexivity. }
    assert (P52 : 0 < pow (-52) <= / 2) by (split; [apply bpow_gt_0|change (/ 2) with (pow (-1)); apply bpow_le; lia]).
    split.
    + assert (A : ln (/ B2R x) <= / B2R x - 1).
      { assert (0 < / B2R x) by (apply Rinv_0_lt_compat; lra). pose proof (exp_ineq1_le (ln (/ B2R x))) as E. rewrite exp_ln in E by assumption. lra. }
      rewrite ln_Rinv in A by lra.
      assert (B : / B2R x <= 1 - pow (-52) / 2).
      { apply Rle_trans with (/ (1 + pow (-52))); [apply Rinv_le_contravar; lra|]. apply Rmult_le_reg_l with (1 + pow (-52)); [lra|]. rewrite Rinv_r by lra. nra. }
      apply Rle_trans with (pow (-53)); [apply bpow_le; lia|]. replace (pow (-53)) with (pow (-52) / 2); [lra|].
      change (-52)%Z with (-53 + 1)%Z. rewrite bpow_plus. change (pow 1) with 2. lra.
    + apply Rle_trans with (ln (pow (Z.of_nat 1024))).
      * apply ln_le; [lra|]. pose proof (abs_B2R_lt_emax 53 1024 x) as A. rewrite Rabs_pos_eq in A by lra. left. exact A.
      * eapply Rle_trans; [apply ln_pow2|]. rewrite INR_IZR_INZ. change (IZR (Z.of_nat 1024)) with (pow 10). apply bpow_le. lia.
  - rewrite ln_1. destruct (nearest_in 0) as [F V]; [rewrite Rabs_R0; apply bpow_ge_0|]. split; [exact F|]. rewrite V, round_0 by apply valid_rnd_N. lra.
Qed.

Lemma exp_nat x n : exp (INR n * x) = exp x ^ n.
Proof. induction n as [|n IH]; [cbn; now rewrite Rmult_0_l, exp_0|]. rewrite S_INR, <- tech_pow_Rmult, <- IH, <- exp_plus. f_equal. ring. Qed.
Lemma exp_1_high : exp 1 <= 11 / 4.
Proof.
  replace 1 with (INR 50 * / 50) by (rewrite INR_IZR_INZ; cbn; lra). rewrite exp_nat.
  assert (E : exp (/ 50) <= 50 / 49).
  { pose proof (exp_ineq1_le (- / 50)) as A. assert (P : exp (/ 50) * exp (- / 50) = 1) by (rewrite <- exp_plus, Rplus_opp_r; apply exp_0).
    pose proof (exp_pos (/ 50)). nra. }
  apply Rle_trans with ((50 / 49) ^ 50); [apply pow_incr; split; [left; apply exp_pos|exact E]|]. lra.
Qed.
Lemma exp_1_low : 9 / 4 <= exp 1.
Proof.
  replace 1 with (/ 2 + / 2) by lra. rewrite exp_plus. pose proof (exp_ineq1_le (/ 2)). nra.
Qed.
Lemma exp_700 : exp 700 <= pow 1022.
Proof.
  replace 700 with (INR 7 * (INR 100 * 1)) by (rewrite !INR_IZR_INZ; cbn; lra). rewrite exp_nat, exp_nat.
  apply Rle_trans with (pow 146 ^ 7).
  - apply pow_incr. split; [apply pow_le; left; apply exp_pos|]. apply Rle_trans with ((11 / 4) ^ 100).
    + apply pow_incr. split; [left; apply exp_pos|apply exp_1_high].
    + change (pow 146) with (IZR (2 ^ 146)). unfold Rdiv. rewrite Rpow_mult_distr, pow_inv. apply Rle_div_l; [apply pow_lt; lra|].
      rewrite !pow_IZR, <- mult_IZR. apply IZR_le. vm_compute. discriminate.
  - right. change (pow 1022) with (pow (146 + (146 + (146 + (146 + (146 + (146 + 146))))))). rewrite !bpow_plus. ring.
Qed.
Lemma exp_900 : pow 1022 < exp 900.
Proof.
  replace 900 with (INR 9 * (INR 100 * 1)) by (rewrite !INR_IZR_INZ; cbn; lra). rewrite exp_nat, exp_nat.
  apply Rlt_le_trans with (pow 116 ^ 9).
  - apply Rlt_le_trans with (pow 1044); [apply bpow_lt; lia|]. right. change (pow 1044) with (pow (116 + (116 + (116 + (116 + (116 + (116 + (116 + (116 + 116))))))))). rewrite !bpow_plus. ring.
  - apply pow_incr. split; [apply bpow_ge_0|]. apply Rle_trans with ((9 / 4) ^ 100).
    + change (pow 116) with (IZR (2 ^ 116)). unfold Rdiv. rewrite Rpow_mult_distr, pow_inv. apply Rle_div_r; [apply pow_lt; lra|].
      rewrite !pow_IZR, <- mult_IZR. apply IZR_le. vm_compute. discriminate.
    + apply pow_incr. split; [lra|apply exp_1_low].
Qed.
Lemma lib_exp_rough : rough_exp lib_exp.
Proof.
  intros x _ B. unfold lib_exp. assert (H : exp (B2R x) <= pow 1022) by (eapply Rle_trans; [apply exp_le_mono, B|exact exp_700]).
  destruct (Rle_dec _ _) as [_|N]; [|contradiction]. apply nearest_half. split; [|exact H]. apply Rle_trans with 1; [change 1 with (pow 0); apply bpow_le; lia|].
  rewrite <- exp_0. apply exp_le_mono, B.
Qed.
Lemma lib_exp_overflows : overflows lib_exp.
Proof.
  intros x _ B. unfold lib_exp. destruct (Rle_dec _ _) as [H|_]; [|reflexivity]. pose proof exp_900. assert (exp 900 <= exp (B2R x)) by (apply exp_le_mono; exact B). lra.
Qed.
Lemma lib_sum_summed l : summed l (lib_sum l).
Proof.
  induction l as [|x l IH]; [constructor|]. cbn [lib_sum fold_right]. apply (summed_two [x] x l _ (x :: l)); [constructor|exact IH|apply Permutation_refl].
Qed.

(** Two topics over three words, the builder's prior, and a document with two of the words *)
Section Input.
  Variables (lg ex lga : double -> double) (sum : list double -> double).
  Local Hint Extern 0 (ops _) => exact (DO lg ex lga sum) : typeclass_instances.
  Definition ok_half : double := div one (ofZ 2).
  Definition ok_double : params double := mk_params [ok_half; ok_half] (mk_mat 2 [[ok_half; zero]; [zero; ok_half]; [ok_half; ok_half]]) (mk_mat 2 []).
  Lemma ok_double_input : double_input (/ 300) [3; 0; 1]%Z ok_double.
  Proof.
    destruct (half_d lg ex lga sum) as [F V]. change (div one UtilsModel.two) with ok_half in F, V.
    assert (Z : is_finite (zero : double) = true /\ 0 <= B2R (zero : double) <= 1) by (split; [reflexivity|]; change (B2R (zero : double)) with 0; lra).
    assert (H : is_finite ok_half = true /\ 0 <= B2R ok_half <= 1) by (split; [exact F|]; lra).
    split; cbn [ok_double p_beta p_alpha mrows ncols mcols length].
    - lia.
    - lia.
    - reflexivity.
    - reflexivity.
    - intros [|[|i]] Hi; try lia; cbn [vget nth]; (split; [exact F|]); lra.
    - intros [|[|i]] [|[|[|n]]] Hi Hn; try lia; unfold mget; cbn [mcols nth]; assumption.
    - intros x Hx. cbn in Hx. lia.
    - cbn. lia.
    - assert (S : / 2 ^ 250 <= B2R ok_half) by (rewrite V; apply Rinv_le_contravar; [lra|]; change 250%nat with (S 249); rewrite <- tech_pow_Rmult; pose proof (pow_R1_Rle 2 249); lra).
      intros [|[|[|n]]] Hn NZ; try lia; exists 0%nat; unfold mget; cbn [mcols nth]; (split; [lia|]); try exact S. cbn in NZ. lia.
  Qed.
  (** a corpus: the words of the first document are in both topics *)
  Definition ok_corpus : list (doc double) := [mk_doc [3; 0; 1]%Z None 2 []; mk_doc [0; 2; 0]%Z None 1 []].
  Lemma ok_double_corpus : double_corpus ok_corpus ok_double.
  Proof.
    destruct (half_d lg ex lga sum) as [F V]. change (div one UtilsModel.two) with ok_half in F, V. pose proof ok_double_input as DI.
    assert (S : / 2 ^ 250 <= B2R ok_half) by (rewrite V; apply Rinv_le_contravar; [lra|]; change 250%nat with (S 249); rewrite <- tech_pow_Rmult; pose proof (pow_R1_Rle 2 249); lra).
    split.
    - discriminate.
    - cbn. lia.
    - intros d [<-|[<-|[]]]; [exact DI|]. destruct DI as [A1 A2 A3 A4 A5 A6 A7 A8 A9]. split; [exact A1|exact A2|exact A3|reflexivity|exact A5|exact A6| | |].
      + intros x Hx. cbn in Hx. lia.
      + cbn. lia.
      + intros [|[|[|n]]] Hn NZ; cbn in Hn, NZ; try lia. exists 1%nat. unfold mget. cbn [mcols nth ok_double p_beta]. split; [cbn; lia|exact S].
    - intros i Hi. cbn in Hi. exists (mk_doc [3; 0; 1]%Z None 2 []). destruct i as [|[|i]]; [| |lia].
      + exists 0%nat. split; [left; reflexivity|]. split; [cbn; lia|]. split; [cbn; lia|exact S].
      + exists 2%nat. split; [left; reflexivity|]. split; [cbn; lia|]. split; [cbn; lia|exact S].
  Qed.
End Input.
