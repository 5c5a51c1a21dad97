(** More than a couple of thousand topics with the builder's prior: exp overflows, and the posterior of a one-word document loses the word. *)
Require Import Reals ZArith List Bool Arith Lia Lra Psatz.
From Flocq Require Import Core.Core IEEE754.BinarySingleNaN.
Require Import Verif.Base Verif.Scalar Verif.Mat Verif.HostModel Verif.UtilsModel Verif.BuilderModel Verif.EStepModel Verif.EStepAny.
Require Import Verif.DoubleSpec Verif.DoubleArith Verif.DoubleUtils Verif.DoubleProofs.
Import ListNotations.
Open Scope R_scope.

Section Refute.
  Variables (lg ex lga : double -> double) (sum : list double -> double).
  Local Hint Extern 0 (ops _) => exact (DO lg ex lga sum) : typeclass_instances.
  Hypothesis Hlg : rough_log lg.
  Hypothesis Hex : overflows ex.
  Hypothesis Hsum : forall l, summed l (sum l).

  (** digamma near zero *)
  Lemma digamma_small (x : double) (c : nat) d : is_finite x = true -> / INR c <= B2R x <= / IZR d -> (2 <= Z.of_nat c <= 100000)%Z -> (2 <= d <= 100000)%Z ->
    exists t, digamma 7 x = Ok t /\ is_finite t = true /\ B2R t <= 82 - IZR d.
  Proof.
    intros Fx Bx Hc Hd. destruct (int_d lg ex lga sum 7 ltac:(lia)) as [F7 V7]. destruct (one_d lg ex lga sum) as [F1 V1].
    assert (C1 : 2 <= INR c) by (change 2 with (INR 2); apply le_INR; lia). assert (D1 : 2 <= IZR d) by (apply (IZR_le 2); lia).
    assert (Ic : 0 < / INR c) by (apply Rinv_0_lt_compat; lra).
    assert (Id : / IZR d <= / 2) by (apply Rinv_le_contravar; lra).
    unfold digamma. cbn [digamma_shift].
    replace (ltb x (ofZ 7)) with true by (symmetry; apply (ltb_d lg ex lga sum); [assumption..|rewrite V7; lra]).
    assert (Rc : rep (INR c)) by (rewrite INR_IZR_INZ; apply rep_Z; lia).
    destruct (div_in one x F1 (IZR d) (INR c) (rep_Z d ltac:(lia)) Rc) as (Fi & _ & Bi); [lra| |].
    { rewrite V1. split; [apply Rle_div_r; [lra|]; apply Rmult_le_reg_l with (/ IZR d); [apply Rinv_0_lt_compat; lra|]; rewrite <- Rmult_assoc, Rinv_l by lra; lra|].
      apply Rle_div_l; [lra|]. apply Rmult_le_reg_l with (/ INR c); [assumption|]. rewrite <- Rmult_assoc, Rinv_l by lra. lra. }
    assert (Rc' : rep (- INR c)) by (rewrite INR_IZR_INZ, <- opp_IZR; apply rep_Z; lia).
    assert (Rd' : rep (- IZR d)) by (rewrite <- opp_IZR; apply rep_Z; lia).
    destruct (sub_in zero (ddiv one x) (zero_d lg ex lga sum) Fi (- INR c) (- IZR d) Rc' Rd') as (Fr & _ & Br).
    { change (B2R (zero : double)) with 0. lra. }
    destruct (add_in x one Fx F1 1 2 (rep_Z 1 ltac:(lia)) (rep_Z 2 ltac:(lia))) as (Fy & _ & By); [rewrite V1; lra|].
    pose proof (shift_d lg ex lga sum 6 (x + one)%S (zero - one / x)%S c) as HH. specialize (HH Fy Fr). destruct HH as (y & r & E & Gy & Hy & Gr & Hr).
    - cbn [INR]. eapply Rle_trans; [|exact (proj1 By)]. lra.
    - split; [apply By|]. eapply Rle_trans; [apply By|]. change 2 with (pow 1). apply bpow_le. lia.
    - lia.
    - split; [apply Br|]. eapply Rle_trans; [apply Br|]. lra.
    - assert (Hr2 : B2R r <= - IZR d) by (eapply Rle_trans; [apply Hr|exact (proj2 Br)]).
      cbn [digamma_shift] in E. rewrite E. cbn [bind]. destruct (series_d lg ex lga sum Hlg y Gy Hy) as [Fs Bs].
      assert (Rl : rep (- INR (c + 8))) by (rewrite INR_IZR_INZ, <- opp_IZR; apply rep_Z; lia).
      assert (Rh : rep (82 - IZR d)) by (rewrite <- minus_IZR; apply rep_Z; lia).
      destruct (add_in r (digamma_series y) Gr Fs (- INR (c + 8)) (82 - IZR d) Rl Rh) as (Ft & _ & Bt).
      + replace (c + 8)%nat with (c + 6 + 2)%nat by lia. rewrite plus_INR. destruct Hr as [Hr _]. cbn [INR] in *. lra.
      + eexists. split; [reflexivity|]. split; [exact Ft|apply Bt].
  Qed.

  Lemma fast_exp_gone (t : double) : is_finite t = true -> B2R t <= - 900 -> fast_exp t = Ok (B754_zero false).
  Proof.
    intros Ft Bt. unfold fast_exp. replace (ltb t zero) with true.
    2:{ symmetry. apply (ltb_d lg ex lga sum); [assumption|reflexivity|]. change (B2R (zero : double)) with 0. lra. }
    unfold fast_exp_pos. destruct (int_d lg ex lga sum 100 ltac:(lia)) as [F1 V1].
    assert (Fo : is_finite (- t : double)%S = true) by (cbn [opp DO double_ops Fops]; now rewrite is_finite_Bopp).
    assert (Vo : B2R (- t : double)%S = - B2R t) by (cbn [opp DO double_ops Fops]; apply B2R_Bopp).
    replace (ltb (ofZ 100) (- t)%S) with true by (symmetry; apply (ltb_d lg ex lga sum); [assumption..|rewrite V1, Vo; lra]).
    cbn [bind]. assert (E : sexp (- t : double)%S = B754_infinity false) by (apply Hex; [exact Fo|rewrite Vo; lra]).
    rewrite E. reflexivity.
  Qed.

  Section Input.
    Variable K : nat.
    Hypothesis HK : (2200 <= Z.of_nat K <= 40000)%Z.
    (** the builder's prior, and the only possible topics over one word *)
    Notation a := (div one (ofZ (Z.of_nat K)) : double).
    Definition many : params double := mk_params (repeat a K) (mtab K 1 (fun _ _ => one)) (mk_mat 0 []).

    Lemma K_range : 2200 <= INR K <= 40000.
    Proof. rewrite INR_IZR_INZ. split; apply IZR_le; lia. Qed.
    Lemma a_range : is_finite a = true /\ / 2 <= INR K * B2R a <= 2 /\ 9 / 10 * / INR K <= B2R a <= 101 / 100 * / INR K.
    Proof.
      pose proof K_range as HR. destruct unit_facts as (PU & SU & PT & ST & _). destruct (one_d lg ex lga sum) as [F1 V1].
      destruct (int_d lg ex lga sum (Z.of_nat K) ltac:(lia)) as [FK VK]. rewrite <- INR_IZR_INZ in VK.
      assert (I0 : / 40000 <= / INR K <= 1). { split; [apply Rinv_le_contravar; lra|]. rewrite <- Rinv_1. apply Rinv_le_contravar; lra. }
      destruct (div_in one (ofZ (Z.of_nat K)) F1 0 1 (rep_Z 0 ltac:(lia)) (rep_Z 1 ltac:(lia))) as (F & V & _).
      { rewrite VK. lra. }
      { rewrite V1, VK. lra. }
      split; [exact F|]. rewrite V1, VK in V. pose proof (rnd_error (1 / INR K)) as E. rewrite <- V in E. rewrite (Rabs_pos_eq (1 / INR K)) in E by lra.
      change (B2R (ddiv one (ofZ (Z.of_nat K)))) with (B2R a) in E. set (q := B2R a) in *.
      assert (Q : 9 / 10 * / INR K <= q <= 101 / 100 * / INR K).
      { apply Rabs_le_inv in E. unfold Rdiv in E. rewrite Rmult_1_l in E. assert (U * / INR K <= / 1000 * / INR K) by (apply Rmult_le_compat_r; lra). lra. }
      split; [|exact Q]. split.
      - apply Rmult_le_reg_l with (/ INR K); [lra|]. rewrite <- Rmult_assoc, Rinv_l, Rmult_1_l by lra. lra.
      - apply Rmult_le_reg_l with (/ INR K); [lra|]. rewrite <- Rmult_assoc, Rinv_l, Rmult_1_l by lra. lra.
    Qed.
    Lemma alpha_at i : (i < K)%nat -> vget (p_alpha many) i = a.
    Proof. intros Hi. unfold vget, many. cbn [p_alpha]. rewrite (nth_indep _ zero a) by (now rewrite repeat_length). apply nth_repeat. Qed.
    Lemma beta_at i : (i < K)%nat -> mget (p_beta many) i 0 = one.
    Proof. intros Hi. unfold many. cbn [p_beta]. now rewrite mget_tab by lia. Qed.

    Lemma many_input : double_input (/ (2 * INR K)) [1%Z] many.
    Proof.
      pose proof K_range as HR. destruct a_range as (Fa & _ & Ba). destruct (one_d lg ex lga sum) as [F1 V1].
      assert (I0 : / 40000 <= / INR K <= / 2200) by (split; apply Rinv_le_contravar; lra).
      split.
      - cbn [many p_beta mtab mrows]. lia.
      - cbn. lia.
      - cbn [many p_beta mtab mrows p_alpha]. apply repeat_length.
      - reflexivity.
      - cbn [many p_beta mtab mrows]. intros i Hi. rewrite alpha_at by exact Hi. split; [exact Fa|]. rewrite Rinv_mult. lra.
      - cbn [many p_beta mtab mrows]. intros i n Hi Hn. assert (n = 0%nat) as -> by (unfold ncols in Hn; cbn in Hn; lia).
        change (mtab K 1 (fun _ _ => one)) with (p_beta many). rewrite beta_at by exact Hi. rewrite V1. split; [exact F1|lra].
      - intros x [<-|[]]. lia.
      - cbn. lia.
      - intros n Hn _. exists 0%nat. assert (n = 0%nat) as -> by (unfold ncols in Hn; cbn in Hn; lia).
        split; [cbn [many p_beta mtab mrows]; lia|]. rewrite beta_at by lia. rewrite V1. rewrite <- Rinv_1. apply Rinv_le_contravar; [lra|]. apply pow_R1_Rle. lra.
    Qed.

    (** After one update, from any gamma that is still small, phi is zero and gamma is alpha. *)
    Definition nothing : mat double := mtab K 1 (fun _ _ => B754_zero false).
    Lemma zero_mul : dmul one (B754_zero false) = B754_zero false.
    Proof. reflexivity. Qed.
    Lemma lost_update (g : list double) : length g = K ->
      (forall i, (i < K)%nat -> is_finite (vget g i) = true /\ / INR (2 * K) <= B2R (vget g i) <= / 1000) ->
      (let* phi := compute_unsupervised_phi 7 (p_beta many) g in Ok (compute_gamma [1%Z] (p_alpha many) phi, phi)) = Ok (p_alpha many, nothing).
    Proof.
      intros Lg Hg. pose proof K_range as HR. unfold compute_unsupervised_phi.
      destruct (vmapM_in (digamma 7) g (fun _ t => is_finite t = true /\ B2R t <= - 900)) as (psi & Epsi & Lpsi & Bpsi).
      { intros i Hi. rewrite Lg in Hi. destruct (Hg i Hi) as [F B]. destruct (digamma_small (vget g i) (2 * K) 1000 F B ltac:(lia) ltac:(lia)) as (t & E & Ft & Bt).
        exists t. split; [exact E|]. split; [exact Ft|]. lra. }
      unfold psi_of. rewrite Epsi. cbn [bind].
      destruct (vmapM_in fast_exp psi (fun _ t => t = B754_zero false)) as (e & Ee & Le & Be).
      { intros i Hi. rewrite Lpsi in Hi. destruct (Bpsi i Hi) as [F B]. exists (B754_zero false). split; [apply fast_exp_gone; assumption|reflexivity]. }
      rewrite Ee. cbn [bind]. rewrite Lpsi, Lg in Be. f_equal.
      assert (R : mtab (mrows (p_beta many)) (ncols (p_beta many)) (fun i j => (mget (p_beta many) i j * vget e i)%S) = nothing).
      { apply mtab_ext. cbn [many p_beta mtab mrows]. intros i j Hi Hj. change (mk_mat K (vtab 1 (fun j => vtab K (fun i => one)))) with (p_beta many).
        unfold ncols in Hj. cbn in Hj. assert (j = 0%nat) as -> by lia. rewrite beta_at, (Be i Hi) by exact Hi. exact zero_mul. }
      assert (P : scale_normalize (p_beta many) e = nothing).
      { unfold scale_normalize. rewrite R. unfold normalize_cols. unfold nothing at 1 2. cbn [mrows mtab]. change (ncols (mtab K 1 _)) with 1%nat. apply mtab_ext. intros i j Hi Hj.
        assert (j = 0%nat) as -> by lia. unfold nothing at 2 3. rewrite !mget_tab by lia.
        cbv zeta. unfold nothing. rewrite mcol_tab by lia.
        destruct (summed_in 0 (vtab K (fun _ => B754_zero false : double)) (sum (vtab K (fun _ => B754_zero false))) (Hsum _) ltac:(lia)) as (Fs & _ & _ & Es).
        { rewrite vtab_length. lia. }
        { apply Forall_forall. intros x Hx. unfold vtab in Hx. apply in_map_iff in Hx. destruct Hx as (? & <- & _). split; [reflexivity|]. cbn. lra. }
        assert (L : lval (vtab K (fun _ => B754_zero false : double)) = 0) by (unfold lval; rewrite vtab_map; apply rsum_zero; reflexivity).
        rewrite L, Rmult_0_r, Rminus_0_r in Es. assert (Z : B2R (sum (vtab K (fun _ => B754_zero false : double))) = 0) by (apply Rabs_le_inv in Es; lra).
        apply (is_zero lg ex lga sum _ Fs) in Z. change (sum (vtab K (fun _ => B754_zero false))) with (redux (vtab K (fun _ => B754_zero false : double))) in Z.
        rewrite Z. reflexivity. }
      rewrite P. f_equal. destruct (gamma_coefficient [1%Z] (p_alpha many) nothing) as [L C].
      assert (LA : length (p_alpha many) = K) by (cbn [many p_alpha]; apply repeat_length).
      apply nth_ext with (d := zero) (d' := zero); [exact L|]. rewrite L, LA. intros i Hi. rewrite LA in C. change (vget (compute_gamma [1%Z] (p_alpha many) nothing) i = vget (p_alpha many) i).
      rewrite (C i Hi). change (ncols nothing) with 1%nat. cbn [seq fold_left]. unfold acc_step. cbn [nth Z.eqb]. unfold nothing. rewrite mget_tab by lia.
      rewrite alpha_at by exact Hi. destruct a_range as (Fa & _ & Ba). assert (I0 : 0 < / INR K) by (apply Rinv_0_lt_compat; lra).
      change (ofZ 1 : double) with (one : double). change (dadd a (dmul one (B754_zero false)) = a). rewrite zero_mul. 
      destruct a as [s|s| |s mm ee H]; try discriminate Fa; [cbn in Ba; lra|reflexivity].
    Qed.

    Lemma fixed_loop up tol (s : list double * mat double) : up s = Ok s -> forall limit old, em_loop limit tol fst up old s = Ok s.
    Proof.
      intros H. induction limit as [|l IH]; intros old; [reflexivity|]. cbn [em_loop]. destruct (converged old (fst s) tol); [reflexivity|].
      rewrite H. cbn [bind]. apply IH.
    Qed.

    Theorem word_lost iterations (tol : double) : (1 <= iterations)%nat -> is_finite tol = true -> B2R tol <= / (4 * INR K) ->
      unsupervised_doc_e_step 7 (mk_econf iterations tol zero) false (mk_doc [1%Z] None 1 []) many = Ok (mk_vparams (p_alpha many) nothing [], None) /\
      ~ double_posterior [1%Z] many (p_alpha many) nothing.
    Proof.
      intros Hi Ft Bt. pose proof K_range as HR. destruct a_range as (Fa & Ka & Ba). destruct unit_facts as (PU & SU & PT & ST & E50 & _ & E52).
      assert (I0 : / 40000 <= / INR K <= / 2200) by (split; apply Rinv_le_contravar; lra).
      split.
      2:{ intros P. pose proof (dp_sum _ _ _ _ P 0%nat ltac:(unfold ncols; cbn; lia) ltac:(cbn; lia)) as S. cbn [many p_beta mtab mrows] in S.
          rewrite rsum_zero in S by (intros i H; unfold nothing; rewrite mget_tab by lia; reflexivity).
          rewrite Rminus_0_l, Rabs_Ropp, Rabs_R1 in S. unfold Rdiv in S. rewrite E50 in S. assert ((INR K + 1) * (8 * U) <= 40001 * (8 * U)) by (apply Rmult_le_compat_r; lra). lra. }
      assert (LA : length (p_alpha many) = K) by (cbn [many p_alpha]; apply repeat_length).
      assert (UA : (let* phi := compute_unsupervised_phi 7 (p_beta many) (p_alpha many) in Ok (compute_gamma [1%Z] (p_alpha many) phi, phi)) = Ok (p_alpha many, nothing)).
      { apply lost_update; [exact LA|]. intros i H. rewrite alpha_at by exact H. split; [exact Fa|]. rewrite mult_INR, Rinv_mult. cbn [INR]. lra. }
      (* the initial gamma *)
      set (g0 := init_gamma (p_alpha many) 1 K).
      assert (L0 : length g0 = K) by (unfold g0, init_gamma; rewrite map_length; exact LA).
      assert (G0 : forall i, (i < K)%nat -> vget g0 i = dadd a a).
      { intros i H. unfold vget, g0, init_gamma. rewrite (nth_indep _ zero (add zero (div (ofZ 1) (ofZ (Z.of_nat K))))) by (rewrite map_length, LA; exact H).
        rewrite (map_nth (fun x => add x (div (ofZ 1) (ofZ (Z.of_nat K)))) (p_alpha many) zero i). change (nth i (p_alpha many) zero) with (vget (p_alpha many) i). rewrite alpha_at by exact H. reflexivity. }
      destruct (add_in a a Fa Fa (B2R a) 1 (rep_val a Fa) (rep_Z 1 ltac:(lia))) as (Fg & Vg & Bg); [lra|].
      pose proof (rnd_add_error a a) as Eg. rewrite <- Vg in Eg. rewrite (Rabs_pos_eq (B2R a + B2R a)) in Eg by lra.
      set (g := B2R (dadd a a)) in *. assert (Bg2 : 9 / 10 * / INR K <= g <= / 1000).
      { split; [lra|]. apply Rabs_le_inv in Eg. assert (U * (B2R a + B2R a) <= / 1000000 * (B2R a + B2R a)) by (apply Rmult_le_compat_r; lra). lra. }
      assert (U0 : (let* phi := compute_unsupervised_phi 7 (p_beta many) g0 in Ok (compute_gamma [1%Z] (p_alpha many) phi, phi)) = Ok (p_alpha many, nothing)).
      { apply lost_update; [exact L0|]. intros i H. rewrite (G0 i H). split; [exact Fg|]. rewrite mult_INR, Rinv_mult. cbn [INR]. fold g. lra. }
      (* the first test does not stop *)
      assert (CV : converged (zeros K) g0 tol = false).
      { unfold converged. rewrite L0. set (l := vtab K (fun i => sabs (vget (zeros K) i - vget g0 i)%S)).
        assert (El : forall x, In x l -> is_finite x = true /\ B2R x = g).
        { intros x Hx. unfold l, vtab in Hx. apply in_map_iff in Hx. destruct Hx as (i & <- & H). apply in_seq in H. rewrite (G0 i) by lia. unfold zeros. rewrite vget_tab by lia.
          assert (Rg : rep (- g)). { destruct (rep_val (dadd a a) Fg) as [R1 R2]. split; [now apply generic_format_opp|]. rewrite Rabs_Ropp. exact R2. }
          destruct (sub_in zero (dadd a a) (zero_d lg ex lga sum) Fg (- g) (- g) Rg Rg) as (F & _ & B).
          { change (B2R (zero : double)) with 0. fold g. lra. }
          change (is_finite (Babs (dsub zero (dadd a a))) = true /\ B2R (Babs (dsub zero (dadd a a))) = g).
          rewrite is_finite_Babs, B2R_Babs. split; [exact F|]. rewrite Rabs_left1; lra. }
        destruct (summed_in 0 l (sum l) (Hsum _) ltac:(lia)) as (Fs & Bs & _ & Es).
        { unfold l. rewrite vtab_length. lia. }
        { apply Forall_forall. intros x Hx. destruct (El x Hx) as [F ->]. split; [exact F|]. cbn. lra. }
        assert (Ll : length l = K) by apply vtab_length. rewrite Ll in *.
        assert (Lv : lval l = INR K * g).
        { unfold lval. rewrite <- Ll. clear -El. induction l as [|x l IH]; [cbn; lra|]. cbn [map length]. rewrite S_INR. unfold lsum in *. cbn [fold_right].
          rewrite IH by (intros y Hy; apply El; now right). destruct (El x (or_introl eq_refl)) as [_ ->]. lra. }
        rewrite Lv, E52 in Es. assert (KG : 9 / 10 <= INR K * g). { apply Rmult_le_reg_l with (/ INR K); [lra|]. rewrite <- Rmult_assoc, Rinv_l, Rmult_1_l by lra. lra. }
        assert (S1 : 8 / 10 <= B2R (sum l)).
        { apply Rabs_le_inv in Es. assert (INR K * (2 * U) * (INR K * g) <= / 1000 * (INR K * g)).
          { apply Rmult_le_compat_r; [lra|]. apply Rle_trans with (40000 * (2 * U)); [apply Rmult_le_compat_r; lra|lra]. }
          lra. }
        destruct (int_d lg ex lga sum (Z.of_nat K) ltac:(lia)) as [FK VK]. rewrite <- INR_IZR_INZ in VK. change (pow 0) with 1 in Bs.
        destruct (div_in (sum l) (ofZ (Z.of_nat K)) Fs 0 1 (rep_Z 0 ltac:(lia)) (rep_Z 1 ltac:(lia))) as (Fd & Vd & _).
        { rewrite VK. lra. }
        { rewrite VK. split; [apply Rle_mult_inv_pos; lra|apply Rle_div_l; lra]. }
        pose proof (rnd_error (B2R (sum l) / INR K)) as Ed. rewrite VK in Vd. rewrite <- Vd in Ed.
        assert (Q : 8 / 10 * / INR K <= B2R (sum l) / INR K) by (unfold Rdiv; apply Rmult_le_compat_r; lra).
        assert (Q1 : B2R (sum l) / INR K <= 1) by (apply Rle_div_l; lra).
        rewrite (Rabs_pos_eq (B2R (sum l) / INR K)) in Ed by lra. rewrite Rinv_mult in Bt.
        assert (Q2 : U * (B2R (sum l) / INR K) <= / 1000000 * (B2R (sum l) / INR K)) by (apply Rmult_le_compat_r; lra).
        match goal with |- ?b = false => destruct b eqn:L; [|reflexivity] end. apply (ltb_d lg ex lga sum) in L; [|exact Fd|exact Ft].
        change (B2R (ddiv (sum l) (ofZ (Z.of_nat K))) < B2R tol) in L. apply Rabs_le_inv in Ed. lra. }
      unfold unsupervised_doc_e_step. cbn [d_words]. change (int_sum [1%Z]) with (Ok 1%Z). cbn [bind].
      assert (SO : sizes_ok (mk_doc [1%Z] None 1 []) many = true).
      { unfold sizes_ok. rewrite LA. cbn [many p_beta mtab mrows d_words]. rewrite Nat.eqb_refl. reflexivity. }
      rewrite SO. cbn [negb]. cbv zeta. change (mrows (p_beta many)) with K. cbn [e_iterations e_tolerance]. destruct iterations as [|it]; [lia|]. cbn [em_loop fst].
      fold g0. rewrite CV. rewrite U0. cbn [bind]. rewrite fixed_loop by exact UA. reflexivity.
    Qed.
  End Input.
End Refute.
