(** A large weight: the exponents of all topics underflow, and the document loses its words. *)
Require Import Reals ZArith List Bool Arith Lia Lra Psatz.
From Flocq Require Import Core.Core IEEE754.BinarySingleNaN.
Require Import Verif.Base Verif.Scalar Verif.Mat Verif.HostModel Verif.UtilsModel Verif.BuilderModel Verif.EStepModel Verif.EStepAny.
Require Import Verif.DoubleSpec Verif.DoubleClassSpec Verif.DoubleArith Verif.DoubleUtils Verif.DoubleProofs Verif.DoubleRefute Verif.DoubleTrainRefute Verif.DoubleMultinomial.
Import ListNotations.
Open Scope R_scope.

Section Refute.
  Variables (lg ex lga : double -> double) (sum : list double -> double).
  Local Hint Extern 0 (ops _) => exact (DO lg ex lga sum) : typeclass_instances.
  Hypothesis Hlg : rough_log lg.
  Hypothesis Hlb : rough_log_below lg.
  Hypothesis Hex : overflows ex.
  Hypothesis Hsum : forall l, summed l (sum l).
  Notation half := (div one (ofZ 2) : double).

  (** two topics over one word, two equally likely classes, and a document with the word four times *)
  Definition even : params double := mk_params [half; half] (mk_mat 2 [[one; one]]) (mk_mat 2 [[half; half]; [half; half]]).
  Definition four_words (y : Z) : doc double := mk_doc [4%Z] (Some y) 1 [half; half].
  Definition lost : mat double := mk_mat 2 [[zero; zero]].
  Lemma even_classes y : (y < 2)%nat -> double_classes (/ 100) [4%Z] y even.
  Proof.
    destruct (half_d' lg ex lga sum) as [Fh Vh]. destruct (one_d lg ex lga sum) as [F1 V1]. intros Hy. split; [split| | |].
    - cbn. lia.
    - cbn. lia.
    - reflexivity.
    - reflexivity.
    - cbn [even p_beta mrows]. intros i Hi. assert (E : vget (p_alpha even) i = half) by (destruct i as [|[|i]]; [reflexivity|reflexivity|lia]). rewrite E. split; [exact Fh|]. rewrite Vh. lra.
    - cbn [even p_beta mrows ncols mcols length]. intros i n Hi Hn.
      destruct i as [|[|i]]; [| |lia]; (destruct n as [|n]; [|lia]); cbn [mget mcols nth]; rewrite ?V1; split; try assumption; lra.
    - cbn. intros x [<-|[]]; lia.
    - cbn. lia.
    - cbn [even p_beta mrows ncols mcols length]. intros n Hn N. destruct n as [|n]; [|lia]. exists 0%nat. split; [lia|]. cbn [mget mcols nth]. rewrite V1.
      rewrite <- Rinv_1. apply Rinv_le_contravar; [lra|]. apply pow_R1_Rle. lra.
    - reflexivity.
    - exact Hy.
    - cbn [even p_eta mrows]. intros i Hi. assert (E : mget (p_eta even) i y = half) by (destruct i as [|[|i]]; [| |lia]; (destruct y as [|[|y]]; [reflexivity|reflexivity|lia])). cbn [even p_eta] in E. rewrite E. split; [exact Fh|]. rewrite Vh.
      split; [|lra]. apply Rinv_le_contravar; [lra|]. change 100%nat with (S 99). rewrite <- tech_pow_Rmult. pose proof (pow_R1_Rle 2 99). lra.
  Qed.

  Variable weight : double.
  Hypothesis Fw : is_finite weight = true.
  Hypothesis Bw : 5000 <= B2R weight <= 2 ^ 30.

  Lemma half_log : is_finite (slog half) = true /\ - 2 <= B2R (slog half) <= - (1 / 4).
  Proof.
    destruct (half_d' lg ex lga sum) as [Fh Vh]. change (slog half) with (lg half). destruct (Hlb half Fh ltac:(lra)) as [F B]. rewrite Vh in B. split; [exact F|].
    rewrite ln_Rinv in B by lra. pose proof ln_lt_2. assert (E : ln 2 < ln (exp 1)).
    { apply ln_increasing; [lra|]. pose proof (exp_ineq1 1 R1_neq_R0). lra. }
    rewrite ln_exp in E. lra.
  Qed.
  Lemma sum_two (a : double) : is_finite a = true -> / 2 <= B2R a <= 4 -> is_finite (redux [a; a]) = true /\ 9 / 10 * (2 * B2R a) <= B2R (redux [a; a]) <= 9.
  Proof.
    intros F B. destruct unit_facts as (PU & SU & _ & _ & _ & _ & E52). assert (S : summed [a; a] (redux [a; a])) by exact (Hsum [a; a]).
    destruct (summed_in 2 [a; a] _ S ltac:(lia)) as (Fs & _ & _ & Es); [cbn; lia| |].
    { change (pow 2) with 4. apply Forall_forall. intros x [<-|[<-|[]]]; (split; [exact F|lra]). }
    assert (Lv : lval [a; a] = 2 * B2R a) by (unfold lval, lsum; cbn [map fold_right]; lra). assert (Ll : INR (length [a; a]) = 2) by (cbn; lra).
    rewrite Lv, Ll, E52 in Es. split; [exact Fs|]. apply Rabs_le_inv in Es. assert (2 * (2 * U) * (2 * B2R a) <= / 10 * (2 * B2R a)) by (apply Rmult_le_compat_r; lra). lra.
  Qed.
  Lemma gone (a : double) (y : nat) : (y < 2)%nat -> is_finite a = true -> / 2 <= B2R a <= 4 ->
    (let* phi := compute_supervised_multinomial_phi 7 y (p_beta even) (p_eta even) [a; a] weight in Ok (compute_gamma [4%Z] (p_alpha even) phi, phi)) = Ok ([half; half], lost).
  Proof.
    intros Hy Fa Ba. destruct (half_d' lg ex lga sum) as [Fh Vh]. destruct (one_d lg ex lga sum) as [F1 V1].
    destruct (digamma_d lg ex lga sum Hlg a 2 Fa) as (t & Et & Ft & Bt); [cbn [INR]; change (pow 40) with 1099511627776; lra|lia|]. replace (INR (2 + 8)) with 10 in Bt by (cbn; lra).
    destruct (sum_two a Fa Ba) as [Fs Bs].
    destruct (digamma_d lg ex lga sum Hlg (redux [a; a]) 2 Fs) as (u & Eu & Fu & Bu); [cbn [INR]; change (pow 40) with 1099511627776; lra|lia|]. replace (INR (2 + 8)) with 10 in Bu by (cbn; lra).
    unfold compute_supervised_multinomial_phi, psi_of, vmapM at 1. cbn [map seqM]. rewrite Et. cbn [bind]. rewrite Eu. cbn [bind]. cbv zeta.
    destruct half_log as [Fl Bl]. change (mrows (p_beta even)) with 2%nat.
    assert (E : vtab 2 (fun i => weight * slog (mget (p_eta even) i y) + vget [t; t] i - (u + one))%S = [dsub (dadd (dmul weight (slog half)) t) (dadd u one); dsub (dadd (dmul weight (slog half)) t) (dadd u one)]).
    { destruct y as [|[|y]]; [reflexivity|reflexivity|lia]. }
    rewrite E.
    destruct (mul_in weight (slog half) Fw Fl (- pow 31) (-1200)) as (Fm & _ & Bm).
    { replace (- pow 31) with (IZR (-1) * pow 31) by lra. apply rep_scale; lia. }
    { apply (rep_Z (-1200)). lia. }
    { change (pow 31) with 2147483648. nra. }
    destruct (add_in (dmul weight (slog half)) t Fm Ft (- pow 32) (-1100)) as (Fb & _ & Bb).
    { replace (- pow 32) with (IZR (-1) * pow 32) by lra. apply rep_scale; lia. }
    { apply (rep_Z (-1100)). lia. }
    { change (pow 31) with 2147483648 in Bm. change (pow 32) with 4294967296. lra. }
    destruct (add_in u one Fu F1 (-9) 83 (rep_Z (-9) ltac:(lia)) (rep_Z 83 ltac:(lia))) as (Fc & _ & Bc); [rewrite V1; lra|].
    destruct (sub_in (dadd (dmul weight (slog half)) t) (dadd u one) Fb Fc (- pow 33) (-1000)) as (Fd & _ & Bd).
    { replace (- pow 33) with (IZR (-1) * pow 33) by lra. apply rep_scale; lia. }
    { apply (rep_Z (-1000)). lia. }
    { change (pow 33) with 8589934592. change (pow 32) with 4294967296 in Bb. lra. }
    unfold vmapM. cbn [map seqM]. rewrite (fast_exp_gone lg ex lga sum Hex) by (try assumption; lra). cbn [bind].
    assert (P : scale_normalize (p_beta even) [B754_zero false; B754_zero false] = lost).
    { unfold scale_normalize. change (mtab (mrows (p_beta even)) (ncols (p_beta even)) (fun i j => (mget (p_beta even) i j * vget [B754_zero false; B754_zero false] i)%S)) with lost.
      unfold normalize_cols. change (mrows lost) with 2%nat. change (ncols lost) with 1%nat. unfold mtab, vtab, lost. cbn [seq map]. cbv zeta.
      change (mcol (mk_mat 2 [[zero; zero]]) 0) with [zero : double; zero].
      assert (Z : eqb (redux [zero : double; zero]) zero = true).
      { assert (S : summed [zero : double; zero] (redux [zero : double; zero])) by exact (Hsum _). destruct (summed_in 0 _ _ S ltac:(lia)) as (G & _ & _ & Es); [cbn; lia|apply Forall_forall; intros x [<-|[<-|[]]]; (split; [reflexivity|cbn; lra])|].
        apply (is_zero lg ex lga sum _ G). assert (Lv : lval [zero : double; zero] = 0) by (unfold lval, lsum; cbn; lra). rewrite Lv, Rmult_0_r, Rminus_0_r in Es. apply Rabs_le_inv in Es. lra. }
      rewrite Z. reflexivity. }
    rewrite P. reflexivity.
  Qed.

  Lemma weight_run (iterations : nat) (tol likelihood mu : double) (emit : bool) (y : Z) : (1 <= iterations)%nat -> is_finite likelihood = true -> B2R likelihood <= 1 -> (0 <= y < 2)%Z ->
    multinomial_doc_e_step 7 (mk_econf iterations tol likelihood) mu weight emit (four_words y) even =
    let* ev := report emit (compute_supervised_multinomial_likelihood 7 [4%Z] (Z.to_nat y) (p_alpha even) (p_beta even) (p_eta even) lost [half; half] (vget [half; half] (Z.to_nat y)) mu (div one (ofZ 1))) in
    Ok (mk_vparams [half; half] lost [], ev).
  Proof.
    intros Hi Fl Bl Hy. destruct (half_d' lg ex lga sum) as [Fh Vh].
      unfold multinomial_doc_e_step. cbn [d_words d_class four_words]. change (int_sum [4]%Z) with (Ok (A := Z) 4%Z). cbn [bind].
      change (sizes_ok (four_words y) even) with true. replace (class_ok y even) with true.
      2:{ symmetry. unfold class_ok. cbn. apply andb_true_iff. split; [apply Z.leb_le|apply Z.ltb_lt]; lia. }
      replace (y <? Z.of_nat (length (d_priors (four_words y))))%Z with true by (symmetry; apply Z.ltb_lt; cbn; lia).
      cbn [negb andb]. cbv zeta. cbn [e_iterations e_compute_likelihood].
      destruct iterations as [|it]; [lia|]. cbn [em_loop fst snd].
      set (g := dadd half (ddiv (ofZ 4) (ofZ 2))). change (init_gamma (p_alpha even) 4 (mrows (p_beta even))) with [g; g]. change (mrows (p_beta even)) with 2%nat.
      destruct (int_d lg ex lga sum 4 ltac:(lia)) as [F4 V4]. destruct (int_d lg ex lga sum 2 ltac:(lia)) as [F2 V2].
      destruct (div_in (ofZ 4) (ofZ 2) F4 2 2 (rep_Z 2 ltac:(lia)) (rep_Z 2 ltac:(lia))) as (Fq & _ & Bq); [rewrite V2; lra|rewrite V2, V4; lra|].
      destruct (add_in half (ddiv (ofZ 4) (ofZ 2)) Fh Fq 2 3 (rep_Z 2 ltac:(lia)) (rep_Z 3 ltac:(lia))) as (Fg & _ & Bg); [lra|]. fold g in Fg, Bg. clearbody g.
      assert (C : converged (EStepModel.zeros 2) [g; g] likelihood = false).
      { unfold converged. cbn [length]. set (a := sabs (zero - g)%S). change (vtab 2 (fun i => sabs (vget (EStepModel.zeros 2) i - vget [g; g] i)%S)) with [a; a].
        assert (Ha : is_finite a = true /\ 2 <= B2R a <= 3).
        { unfold a. change (is_finite (Babs (dsub zero g)) = true /\ 2 <= B2R (Babs (dsub zero g)) <= 3). rewrite is_finite_Babs, B2R_Babs.
          destruct (sub_in zero g (zero_d lg ex lga sum) Fg (-3) (-2) (rep_Z (-3) ltac:(lia)) (rep_Z (-2) ltac:(lia))) as (F & _ & B).
          { change (B2R (zero : double)) with 0. lra. }
          split; [exact F|]. rewrite Rabs_left1; lra. }
        destruct Ha as [Fa Ba]. destruct (sum_two a Fa ltac:(lra)) as [Fs Bs].
        destruct (div_in (redux [a; a]) (ofZ 2) Fs (3 / 2) 5) as (Fd & _ & Bd).
        { replace (3 / 2) with (IZR 3 * pow (-1)) by (cbn; lra). apply rep_scale; lia. }
        { apply rep_Z. lia. }
        { rewrite V2. lra. }
        { rewrite V2. lra. }
        destruct (ltb (redux [a; a] / ofZ (Z.of_nat 2))%S likelihood) eqn:L; [|reflexivity]. apply (ltb_d lg ex lga sum) in L; [|exact Fd|exact Fl].
        change (B2R (ddiv (redux [a; a]) (ofZ 2)) < B2R likelihood) in L. lra. }
      rewrite C. rewrite (gone g (Z.to_nat y) ltac:(lia) Fg ltac:(lra)). cbn [bind].
      assert (L : forall limit old, em_loop limit likelihood fst (fun s => let* phi := compute_supervised_multinomial_phi 7 (Z.to_nat y) (p_beta even) (p_eta even) (fst s) weight in Ok (compute_gamma [4%Z] (p_alpha even) phi, phi)) old ([half; half], lost) = Ok ([half; half], lost)).
      { induction limit as [|l IH]; intros old; [reflexivity|]. cbn [em_loop fst]. destruct (converged old [half; half] likelihood); [reflexivity|].
        rewrite (gone half (Z.to_nat y) ltac:(lia) Fh ltac:(lra)). cbn [bind]. apply IH. }
      rewrite L. reflexivity.
  Qed.
  Theorem weight_loses (iterations : nat) (tol likelihood mu : double) (y : Z) : (1 <= iterations)%nat -> is_finite likelihood = true -> B2R likelihood <= 1 -> (0 <= y < 2)%Z ->
    multinomial_doc_e_step 7 (mk_econf iterations tol likelihood) mu weight false (four_words y) even = Ok (mk_vparams [half; half] lost [], None) /\
    ~ double_posterior [4%Z] even [half; half] lost.
  Proof.
    intros Hi Fl Bl Hy. destruct unit_facts as (PU & SU & _ & _ & E50 & _ & E52). split.
    - rewrite weight_run by assumption. reflexivity.
    - intros P. pose proof (dp_sum _ _ _ _ P 0%nat ltac:(cbn; lia) ltac:(cbn; discriminate)) as S. change (mrows (p_beta even)) with 2%nat in S.
      assert (R0 : rsum 2 (fun i => B2R (mget lost i 0)) = 0) by (apply rsum_zero; intros i Hi'; destruct i as [|[|i]]; [reflexivity|reflexivity|lia]).
      rewrite R0 in S. unfold Rdiv in S. rewrite E50 in S. apply Rabs_le_inv in S. cbn [INR] in S. lra.
  Qed.
End Refute.
