(** A class that a topic excludes: 0 times minus infinity in the correspondence E step, and undefined behaviour. *)
Require Import Reals ZArith List Bool Arith Lia Lra Psatz.
From Flocq Require Import Core.Core IEEE754.BinarySingleNaN.
Require Import Verif.Base Verif.Scalar Verif.Mat Verif.HostModel Verif.UtilsModel Verif.BuilderModel Verif.EStepModel Verif.EStepAny.
Require Import Verif.DoubleSpec Verif.DoubleClassSpec Verif.DoubleArith Verif.DoubleUtils Verif.DoubleProofs Verif.DoubleTrainRefute.
Import ListNotations.
Open Scope R_scope.

Section Refute.
  Variables (lg ex lga : double -> double) (sum : list double -> double).
  Local Hint Extern 0 (ops _) => exact (DO lg ex lga sum) : typeclass_instances.
  Hypothesis Hlg : rough_log lg.
  Hypothesis Hl0 : log_of_zero lg.
  Hypothesis Hex : rough_exp ex.
  Hypothesis Hei : exp_of_infinity ex.
  Hypothesis Hsum : forall l, summed l (sum l).
  Notation half := (div one (ofZ 2) : double).
  Notation minus_inf := (B754_infinity true : double).

  (** two topics, one word and one class each *)
  Definition split_classes : params double := mk_params [half; half] (mk_mat 2 [[one; zero]; [zero; one]]) (mk_mat 2 [[one; zero]; [zero; one]]).
  Definition first_class : doc double := mk_doc [1; 0]%Z (Some 0%Z) 1 [].
  Lemma split_input : double_input (/ 300) [1; 0]%Z split_classes.
  Proof. destruct (apart_input lg ex lga sum) as [A1 A2 A3 A4 A5 A6 A7 A8 A9]. split; assumption. Qed.

  Lemma fast_exp_minus_inf : fast_exp minus_inf = Ok (B754_zero false).
  Proof.
    unfold fast_exp. change (ltb minus_inf zero) with true. cbn [bind]. unfold fast_exp_pos. change (- minus_inf)%S with (B754_infinity false : double).
    assert (L : ltb (ofZ 100) (B754_infinity false : double) = true).
    { destruct (int_d lg ex lga sum 100 ltac:(lia)) as [F _]. destruct (ofZ 100) as [b|b| |b mm ee H]; try discriminate F; reflexivity. }
    rewrite L. cbn [bind]. change (sexp (B754_infinity false)) with (ex (B754_infinity false)). rewrite Hei. reflexivity.
  Qed.
  Lemma zero_minus_inf (x : double) : is_finite x = true -> B2R x = 0 -> dmul x minus_inf = nan.
  Proof. intros F Z. destruct (finite_zero x F Z) as (b & ->). reflexivity. Qed.

  Lemma excluded g psi e : psi_of 7 g = Ok psi -> vmapM fast_exp psi = Ok e -> is_finite (vget e 1) = true -> is_finite (vget e 0) = true -> 0 <= B2R (vget e 0) <= pow 257 ->
    (let* phi := compute_supervised_correspondence_phi 7 0 (p_beta split_classes) (p_eta split_classes) g (vtab 2 (fun _ => one / ofZ 2)%S) in
     let* tau := compute_supervised_correspondence_tau 0 (p_eta split_classes) phi in Ok (compute_gamma [1; 0]%Z (p_alpha split_classes) phi, phi, tau)) = UB.
  Proof.
    intros Ep Ee F1 F0 B0. destruct (half_d' lg ex lga sum) as [Fh Vh]. destruct (one_d lg ex lga sum) as [Fo Vo].
    assert (Lo : is_finite (slog (one : double)) = true /\ B2R (slog (one : double)) = 0).
    { destruct (Hlg one Fo ltac:(rewrite Vo; lra)) as [F B]. rewrite Vo, ln_1 in B. split; [exact F|]. change (B2R (lg one) = 0). lra. }
    destruct Lo as [Fl Vl]. assert (Lz : slog (zero : double) = minus_inf) by exact (Hl0 false).
    unfold compute_supervised_correspondence_phi. rewrite Ep. cbn [bind]. rewrite Ee. cbn [bind].
    change (mrows (p_beta split_classes)) with 2%nat. change (ncols (p_beta split_classes)) with 2%nat.
    assert (Ef : exists f0 f0', mmapM fast_exp (mtab 2 2 (fun i j => slog (mget (p_eta split_classes) i 0) * vget (vtab 2 (fun _ => one / ofZ 2)%S) j)%S) =
      Ok (mk_mat 2 [[f0; B754_zero false]; [f0'; B754_zero false]]) /\ is_finite f0 = true /\ 0 <= B2R f0 <= pow 257).
    { set (l0 := dmul (slog (one : double)) half).
      assert (Hz : is_finite l0 = true /\ B2R l0 = 0).
      { destruct (mul_in (slog (one : double)) half Fl Fh 0 0 (rep_Z 0 ltac:(lia)) (rep_Z 0 ltac:(lia))) as (F & _ & B); [rewrite Vl; lra|]. split; [exact F|]. unfold l0. lra. }
      destruct Hz as [Fz Vz]. destruct (fast_exp_range lg ex lga sum Hex 32 l0 ltac:(lia) Fz ltac:(rewrite Vz; cbn [INR]; lra)) as (f0 & E0 & Ff & Bf & _).
      exists f0, f0. split; [|split; [exact Ff|]; change (8 * Z.of_nat 32 + 1)%Z with 257%Z in Bf; pose proof (bpow_ge_0 radix2 (- (257))); lra].
      assert (M : dmul minus_inf half = minus_inf). { destruct half as [b|b| |b mm ee H]; try discriminate Fh; [cbn in Vh; lra|]. destruct b; [|reflexivity]. exfalso. assert (B2R (B754_finite true mm ee H : double) < 0); [|lra]. cbn. apply F2R_lt_0. reflexivity. }
      assert (Ec : mtab 2 2 (fun i j => slog (mget (p_eta split_classes) i 0) * vget (vtab 2 (fun _ => one / ofZ 2)%S) j)%S = mk_mat 2 [[l0; minus_inf]; [l0; minus_inf]]).
      { rewrite <- M, <- Lz. reflexivity. }
      rewrite Ec. unfold mmapM, vmapM. cbn [mcols mrows map seqM]. rewrite E0. cbn [bind]. rewrite fast_exp_minus_inf. reflexivity. }
    destruct Ef as (f0 & f0' & -> & Ff & Bf). cbn [bind].
    set (raw := mtab 2 2 _). set (phi := normalize_cols raw).
    assert (R0 : mget raw 0 0 = dmul (dmul one (vget e 0)) f0) by reflexivity. assert (R1 : mget raw 1 0 = dmul (dmul zero (vget e 1)) (B754_zero false)) by reflexivity.
    destruct (mul_in one (vget e 0) Fo F0 0 (pow 257) (rep_Z 0 ltac:(lia)) (rep_pow 257 ltac:(lia))) as (Fa & _ & Ba); [rewrite Vo; lra|].
    assert (E8 : pow 514 = pow 257 * pow 257) by (rewrite <- bpow_plus; reflexivity).
    destruct (mul_in (dmul one (vget e 0)) f0 Fa Ff 0 (pow 514) (rep_Z 0 ltac:(lia)) (rep_pow 514 ltac:(lia))) as (Fb & _ & Bb).
    { split; [apply Rmult_le_pos; lra|]. rewrite E8. apply Rmult_le_compat; lra. }
    destruct (mul_in zero (vget e 1) (zero_d lg ex lga sum) F1 0 0 (rep_Z 0 ltac:(lia)) (rep_Z 0 ltac:(lia))) as (Fc & _ & Bc); [change (B2R (zero : double)) with 0; lra|].
    destruct (mul_in (dmul zero (vget e 1)) (B754_zero false) Fc eq_refl 0 0 (rep_Z 0 ltac:(lia)) (rep_Z 0 ltac:(lia))) as (Fd & _ & Bd); [change (B2R (B754_zero false : double)) with 0; lra|].
    rewrite <- R0 in Fb, Bb. rewrite <- R1 in Fd, Bd.
    assert (P : is_finite (mget phi 1 0) = true /\ B2R (mget phi 1 0) = 0).
    { unfold phi, normalize_cols. change (mrows raw) with 2%nat. change (ncols raw) with 2%nat. rewrite mget_tab by lia. cbv zeta. set (l := mcol raw 0). assert (El : l = [mget raw 0 0; mget raw 1 0]) by reflexivity.
      assert (S : summed l (redux l)) by exact (Hsum l). destruct (summed_in 514 l (redux l) S ltac:(lia)) as (Fs & Bs & _ & _); [rewrite El; cbn; lia| |].
      { rewrite El. pose proof (bpow_ge_0 radix2 514). apply Forall_forall. intros x [<-|[<-|[]]]; (split; [assumption|lra]). }
      destruct (eqb (redux l) zero) eqn:Z; [split; [exact Fd|lra]|].
      assert (NZ : B2R (redux l) <> 0). { intros Q. apply (is_zero lg ex lga sum _ Fs) in Q. congruence. }
      destruct (div_in (mget raw 1 0) (redux l) Fd 0 0 (rep_Z 0 ltac:(lia)) (rep_Z 0 ltac:(lia))) as (Fq & _ & Bq); [lra| |split; [exact Fq|]; change (B2R (ddiv (mget raw 1 0) (redux l)) = 0); lra].
      replace (B2R (mget raw 1 0)) with 0 by lra. unfold Rdiv. rewrite Rmult_0_l. lra. }
    destruct P as [Fp Vp]. unfold compute_supervised_correspondence_tau. change (mrows (p_eta split_classes)) with 2%nat.
    assert (N : vget (matT_vec phi (vtab 2 (fun i => slog (mget (p_eta split_classes) i 0)))) 0 = nan).
    { unfold matT_vec. assert (C : ncols phi = 2%nat) by reflexivity. rewrite C, vget_tab by lia. unfold dot. eapply summed_nan; [apply Hsum|]. assert (L : length (mcol phi 0) = 2%nat) by reflexivity. rewrite L.
      right. left. change (dmul (mget phi 1 0) (slog zero) = nan). rewrite Lz. now apply zero_minus_inf. }
    assert (Em : matT_vec phi (vtab 2 (fun i => slog (mget (p_eta split_classes) i 0))) = [vget (matT_vec phi (vtab 2 (fun i => slog (mget (p_eta split_classes) i 0)))) 0; vget (matT_vec phi (vtab 2 (fun i => slog (mget (p_eta split_classes) i 0)))) 1]) by reflexivity.
    rewrite Em, N. unfold vmapM. cbn [map seqM]. rewrite (fast_exp_nan lg ex lga sum). reflexivity.
  Qed.

  Theorem split_undefined (iterations : nat) (tol likelihood mu : double) (emit : bool) : (1 <= iterations)%nat -> is_finite tol = true -> B2R tol <= / 2 ->
    correspondence_doc_e_step 7 (mk_econf iterations tol likelihood) mu emit first_class split_classes = UB.
  Proof.
    intros Hi Ft Bt. unfold correspondence_doc_e_step. cbn [d_words d_class first_class]. change (int_sum [1; 0]%Z) with (Ok (A := Z) 1%Z). cbn [bind].
    change (sizes_ok first_class split_classes) with true. change (class_ok 0 split_classes) with true. cbn [negb andb]. cbv zeta. cbn [e_iterations e_tolerance].
    destruct iterations as [|it]; [lia|]. cbn [em_loop fst snd].
    change (init_gamma (p_alpha split_classes) 1 (mrows (p_beta split_classes))) with (g0 lg ex lga sum). change (mrows (p_beta split_classes)) with 2%nat. rewrite (first_test lg ex lga sum Hsum) by assumption.
    destruct (psi_d lg ex lga sum Hlg [1; 0]%Z split_classes 2 (init_gamma (p_alpha split_classes) (Zsum [1; 0]%Z) (mrows (p_beta split_classes)), init_phi (mrows (p_beta split_classes)) (length [1; 0]%Z))) as (psi & Ep & Lp & Bp).
    - lia.
    - destruct (half_d' lg ex lga sum) as [Fh Vh]. intros i Hi'. cbn [INR]. assert (E : vget (p_alpha split_classes) i = half) by (cbn in Hi'; destruct i as [|[|i]]; [reflexivity|reflexivity|lia]). rewrite E, Vh. lra.
    - apply init_sound. exact split_input.
    - cbn [fst] in Ep. change (init_gamma (p_alpha split_classes) (Zsum [1; 0]%Z) (mrows (p_beta split_classes))) with (g0 lg ex lga sum) in Ep. change (mrows (p_beta split_classes)) with 2%nat in Lp, Bp.
      destruct (vmapM_in fast_exp psi (fun _ e => is_finite e = true /\ 0 <= B2R e <= pow 257)) as (e & Ee & _ & Be).
      { rewrite Lp. intros i Hi'. destruct (Bp i Hi') as [F B]. replace (INR (2 + 8)) with 10 in B by (cbn; lra).
        destruct (fast_exp_range lg ex lga sum Hex 32 (vget psi i) ltac:(lia) F) as (t & Et & Ft' & Bt' & _). { replace (INR 32) with 32 by (rewrite INR_IZR_INZ; reflexivity). lra. }
        exists t. split; [exact Et|]. split; [exact Ft'|]. split; [|apply Bt']. pose proof (bpow_ge_0 radix2 (- (8 * Z.of_nat 32 + 1))). lra. }
      rewrite Lp in Be. change (length [1%Z; 0%Z]) with 2%nat. change (Z.of_nat 2) with 2%Z. change (Z.to_nat 0) with 0%nat.
      rewrite (excluded (g0 lg ex lga sum) psi e Ep Ee (proj1 (Be 1%nat ltac:(lia))) (proj1 (Be 0%nat ltac:(lia))) (proj2 (Be 0%nat ltac:(lia)))). reflexivity.
  Qed.
End Refute.
