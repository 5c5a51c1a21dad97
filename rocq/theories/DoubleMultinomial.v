(** The multinomial E step in double precision. *)
Require Import Reals ZArith List Bool Arith Lia Lra Psatz Permutation.
From Flocq Require Import Core.Core IEEE754.BinarySingleNaN Relative.
Require Import Verif.Base Verif.Scalar Verif.Mat Verif.HostModel Verif.UtilsModel Verif.BuilderModel Verif.EStepModel Verif.EStepAny.
Require Import Verif.DoubleSpec Verif.DoubleClassSpec Verif.DoubleArith Verif.DoubleUtils Verif.DoubleProofs.
Import ListNotations.
Open Scope R_scope.

Section Double.
  Variables (lg ex lga : double -> double) (sum : list double -> double).
  Local Hint Extern 0 (ops _) => exact (DO lg ex lga sum) : typeclass_instances.
  Hypothesis Hlg : rough_log lg.
  Hypothesis Hlb : rough_log_below lg.
  Hypothesis Hex : rough_exp ex.
  Hypothesis Hsum : forall l, summed l (sum l).

  Lemma log_d (x : double) : is_finite x = true -> 0 < B2R x <= 1 -> is_finite (slog x) = true /\ 2 * ln (B2R x) <= B2R (slog x) <= 0.
  Proof.
    intros F B. change (slog x) with (lg x). destruct (Req_dec (B2R x) 1) as [E|N].
    - destruct (Hlg x F ltac:(lra)) as [Fl Bl]. rewrite E, ln_1 in *. split; [exact Fl|lra].
    - destruct (Hlb x F ltac:(lra)) as [Fl Bl]. split; [exact Fl|]. assert (ln (B2R x) < 0) by (rewrite <- ln_1; apply ln_increasing; lra). lra.
  Qed.
  Lemma input_weaken lowest X m : / 300 <= lowest -> double_input lowest X m -> double_input (/ 300) X m.
  Proof. intros H [A1 A2 A3 A4 A5 A6 A7 A8 A9]. split; try assumption. intros i Hi. destruct (A5 i Hi) as [F B]. split; [exact F|lra]. Qed.

  Section Step.
    Variables (weight : double) (X : list Z) (y : nat) (m : params double).
    Hypothesis DM : double_multinomial weight X y m.
    Notation K := (mrows (p_beta m)).
    Notation V := (ncols (p_beta m)).
    Notation alpha := (p_alpha m).
    Notation eta := (p_eta m).
    Lemma DI : double_input (/ 300) X m.
    Proof. apply (input_weaken (/ 100)); [apply Rinv_le_contravar; lra|]. apply (dc_input _ _ _ _ (dm_classes _ _ _ _ DM)). Qed.
    Notation sound := (sound lg ex lga sum X m).

    (** the logarithm of gamma's mass *)
    Lemma mass_psi s : sound s -> exists t, digamma 7 (redux (fst s)) = Ok t /\ is_finite t = true /\ - 108 <= B2R t <= 82.
    Proof.
      intros S. pose proof (mass lg ex lga sum X m DI s S) as Ms. destruct S as [_ _ SL SG _ _ _ _]. destruct s as [g ph]. cbn [fst snd] in *. clear ph.
      destruct unit_facts as (PU & SU & _ & _ & _ & E49 & E52). pose proof (di_topics _ _ _ DI) as HK. destruct (INR_small K ltac:(lia)) as [K0 K1]. destruct (INR_small V (di_vocabulary _ _ _ DI)) as [V0 V1].
      assert (Eg : g = vtab K (vget g)) by (rewrite <- SL; symmetry; apply vtab_eta).
      assert (Pg : forall i, (i < K)%nat -> / 100 <= B2R (vget g i)).
      { intros i Hi. destruct (SG i Hi) as [_ B]. destruct (di_alpha _ _ _ (dc_input _ _ _ _ (dm_classes _ _ _ _ DM)) i Hi) as [_ A]. lra. }
      assert (Sg : summed g (redux g)) by exact (Hsum g).
      destruct (summed_in 33 g (redux g) Sg ltac:(lia)) as (Fs & Bs & Ls & Es).
      { rewrite SL. lia. }
      { apply Forall_forall. intros x Hx. rewrite Eg in Hx. unfold vtab in Hx. apply in_map_iff in Hx. destruct Hx as (i & <- & Hi). apply in_seq in Hi. specialize (Pg i ltac:(lia)). destruct (SG i ltac:(lia)) as [F B]. split; [exact F|]. split; [lra|apply B]. }
      assert (Lv : lval g = rsum K (fun i => B2R (vget g i))) by (rewrite Eg at 1; unfold lval; rewrite vtab_map; reflexivity).
      rewrite Lv, SL, E52 in Es. unfold Rdiv in Ms. rewrite E49 in Ms. set (G := rsum K (fun i => B2R (vget g i))) in *.
      assert (G0 : 0 <= G) by (apply rsum_nonneg; intros i Hi; specialize (Pg i Hi); lra).
      destruct (count_total lg ex lga sum X m DI) as [N0 N1]. pose proof (dm_mass _ _ _ _ DM) as AM.
      assert (A0 : 0 <= rsum K (fun i => B2R (vget alpha i))) by (apply rsum_nonneg; intros i Hi; pose proof (di_alpha _ _ _ DI i Hi); lra).
      set (M := rsum K (fun i => B2R (vget alpha i)) + IZR (Zsum X)) in *.
      assert (M1 : 0 <= M <= 2 ^ 38 + 2 ^ 31) by (unfold M; lra).
      assert (C1 : (INR K + INR V + 2) * (16 * U) <= / 2) by (apply Rle_trans with (2147483650 * (16 * U)); [apply Rmult_le_compat_r; lra|lra]).
      assert (C2 : (INR K + INR V + 2) * (16 * U) * M <= / 2 * M) by (apply Rmult_le_compat_r; lra).
      assert (C3 : INR K * (2 * U) * G <= / 4 * G) by (apply Rmult_le_compat_r; [lra|]; apply Rle_trans with (1073741824 * (2 * U)); [apply Rmult_le_compat_r; lra|lra]).
      destruct (digamma_d lg ex lga sum Hlg (redux g) 100 Fs) as (t & E & F & B).
      - split.
        + replace (INR 100) with 100 by (rewrite INR_IZR_INZ; reflexivity). eapply Rle_trans; [apply (Pg 0%nat); lia|]. apply Ls. rewrite Eg at 2. unfold vtab. apply in_map_iff. exists 0%nat. split; [reflexivity|]. apply in_seq. lia.
        + change (pow 40) with 1099511627776. apply Rabs_le_inv in Ms, Es. lra.
      - lia.
      - exists t. split; [exact E|]. split; [exact F|]. replace (INR (100 + 8)) with 108 in B by (rewrite INR_IZR_INZ; reflexivity). exact B.
    Qed.

    Lemma class_range s : sound s -> exists e, compute_supervised_multinomial_phi 7 y (p_beta m) eta (fst s) weight = Ok (scale_normalize (p_beta m) e) /\
      forall i, (i < K)%nat -> is_finite (vget e i) = true /\ pow (- 377) <= B2R (vget e i) <= pow 377.
    Proof.
      intros S. destruct (mass_psi s S) as (t & Et & Ft & Bt). destruct (psi_d lg ex lga sum Hlg X m 100 s ltac:(lia)) as (psi & Ep & Lp & Bp); [|exact S|].
      { replace (INR 100) with 100 by (rewrite INR_IZR_INZ; reflexivity). intros i Hi. apply (di_alpha _ _ _ (dc_input _ _ _ _ (dm_classes _ _ _ _ DM)) i Hi). }
      unfold compute_supervised_multinomial_phi. rewrite Ep. cbn [bind]. rewrite Et. cbn [bind]. cbv zeta.
      destruct (one_d lg ex lga sum) as [F1 V1].
      destruct (add_in t one Ft F1 (-107) 83 (rep_Z (-107) ltac:(lia)) (rep_Z 83 ltac:(lia))) as (F2 & _ & B2); [rewrite V1; lra|].
      set (t2 := (t + one)%S) in *. change (dadd t one) with t2 in *. clearbody t2.
      destruct (vmapM_in fast_exp (vtab K (fun i => weight * slog (mget eta i y) + vget psi i - t2)%S) (fun _ e => is_finite e = true /\ pow (- 377) <= B2R e <= pow 377)) as (e & Ee & Le & Be).
      - rewrite vtab_length. intros i Hi. rewrite vget_tab by exact Hi.
        assert (Hi' : (i < mrows eta)%nat) by (rewrite (dc_topics _ _ _ _ (dm_classes _ _ _ _ DM)); exact Hi).
        destruct (dc_probability _ _ _ _ (dm_classes _ _ _ _ DM) i Hi') as [Fy By]. assert (P100 : 0 < / 2 ^ 100) by (apply Rinv_0_lt_compat, pow_lt; lra).
        destruct (log_d (mget eta i y) Fy ltac:(lra)) as [Fl Bl]. destruct (dm_weight _ _ _ _ DM) as [Fw Hw]. specialize (Hw i Hi').
        set (l := slog (mget eta i y)) in *. assert (A : Rabs (B2R weight * B2R l) <= 40).
        { rewrite Rabs_mult, (Rabs_left1 (B2R l)) by lra. apply Rle_trans with (Rabs (B2R weight) * (2 * - ln (B2R (mget eta i y)))); [apply Rmult_le_compat_l; [apply Rabs_pos|lra]|lra]. }
        destruct (mul_in weight l Fw Fl (-40) 40 (rep_Z (-40) ltac:(lia)) (rep_Z 40 ltac:(lia))) as (Fm & _ & Bm); [apply Rabs_le_inv in A; exact A|].
        destruct (Bp i Hi) as [Fp Bi]. replace (INR (100 + 8)) with 108 in Bi by (rewrite INR_IZR_INZ; reflexivity).
        destruct (add_in (dmul weight l) (vget psi i) Fm Fp (-148) 122 (rep_Z (-148) ltac:(lia)) (rep_Z 122 ltac:(lia))) as (Fa & _ & Ba); [lra|].
        destruct (sub_in (dadd (dmul weight l) (vget psi i)) t2 Fa F2 (-231) 229 (rep_Z (-231) ltac:(lia)) (rep_Z 229 ltac:(lia))) as (Fs & _ & Bs); [lra|].
        destruct (fast_exp_range lg ex lga sum Hex 47 (dsub (dadd (dmul weight l) (vget psi i)) t2) ltac:(lia) Fs) as (e & E & Fe & Be & _).
        { replace (INR 47) with 47 by (rewrite INR_IZR_INZ; reflexivity). lra. }
        exists e. split; [exact E|]. split; [exact Fe|exact Be].
      - rewrite Ee. cbn [bind]. exists e. split; [reflexivity|]. intros i Hi. rewrite vtab_length in Be. apply (Be i Hi).
    Qed.
    Lemma multinomial_step s : sound s -> exists s', (let* phi := compute_supervised_multinomial_phi 7 y (p_beta m) eta (fst s) weight in Ok (compute_gamma X alpha phi, phi)) = Ok s' /\ sound s'.
    Proof.
      intros S. destruct (class_range s S) as (e & E & Be). rewrite E. cbn [bind]. eexists. split; [reflexivity|].
      apply (weights_range lg ex lga sum Hsum X m DI e 377 377); [lia|lia|lia|exact Be].
    Qed.
    Theorem multinomial_double cf mu emit (d : doc double) : d_words d = X -> d_class d = Some (Z.of_nat y) -> (y < length (d_priors d))%nat ->
      exists gamma phi ev, multinomial_doc_e_step 7 cf mu weight emit d m = Ok (mk_vparams gamma phi [], ev) /\ double_posterior X m gamma phi /\ (emit = true -> exists v, ev = Some v).
    Proof.
      intros EX Ey Hp. unfold multinomial_doc_e_step. rewrite EX, Ey. destruct (count_total lg ex lga sum X m DI) as [N0 _]. assert (N1 : (Zsum X < 2 ^ 31)%Z) by apply (di_length _ _ _ DI). apply le_IZR in N0.
      assert (EN : int_sum X = Ok (Zsum X)).
      { unfold int_sum. cbv zeta. replace (_ && _)%bool with true; [reflexivity|]. symmetry. apply andb_true_iff. split; [apply Z.leb_le|apply Z.ltb_lt]; unfold Zsum in *; lia. }
      rewrite EN. cbn [bind]. replace (sizes_ok d m) with true.
      2:{ symmetry. unfold sizes_ok. rewrite EX, (di_alpha_length _ _ _ DI), (di_words _ _ _ DI), !Nat.eqb_refl. reflexivity. }
      replace (class_ok (Z.of_nat y) m) with true.
      2:{ symmetry. unfold class_ok. rewrite (dc_topics _ _ _ _ (dm_classes _ _ _ _ DM)), Nat.eqb_refl. pose proof (dc_class _ _ _ _ (dm_classes _ _ _ _ DM)). apply andb_true_iff. split; [apply andb_true_iff; split; [reflexivity|apply Z.leb_le; lia]|apply Z.ltb_lt; lia]. }
      replace (Z.of_nat y <? Z.of_nat (length (d_priors d)))%Z with true by (symmetry; apply Z.ltb_lt; lia).
      cbn [negb andb]. cbv zeta. rewrite Nat2Z.id.
      destruct (em_loop_inv sound fst (fun s => let* phi := compute_supervised_multinomial_phi 7 y (p_beta m) eta (fst s) weight in Ok (compute_gamma X alpha phi, phi)) (e_compute_likelihood cf) multinomial_step
        (e_iterations cf) (EStepModel.zeros K) _ (init_sound lg ex lga sum X m DI)) as ([g phi] & E & S).
      rewrite E. cbn [bind]. pose proof (result_double lg ex lga sum X m DI _ S) as R. cbn [fst snd] in R. unfold report. destruct emit.
      - unfold compute_supervised_multinomial_likelihood. destruct (likelihood_defined lg ex lga sum Hsum X m DI _ S) as (v & Ev). cbn [fst snd] in Ev. rewrite Ev. cbn [bind]. rewrite EN. cbn [bind].
        eexists g, phi, (Some _). split; [reflexivity|]. split; [exact R|]. eauto.
      - cbn [bind]. exists g, phi, None. split; [reflexivity|]. split; [exact R|]. discriminate.
    Qed.
  End Step.
End Double.
