(** A word that occurs twice: the fixed-point iteration of the sLDA E step decreases the bound. *)
Require Import Reals ZArith List Arith Bool Lia Lra.
Require Import Verif.Base Verif.Scalar Verif.Mat Verif.RealLemmas Verif.UtilsModel Verif.UtilsSpec Verif.UtilsProofs Verif.DigammaProofs.
Require Import Verif.BuilderModel Verif.EStepModel Verif.EStepSpec Verif.EStepReal Verif.EStepOpt Verif.EStepZero Verif.EStepElbo Verif.EStepStop Verif.EStepSlda.
Require Import Verif.LgammaProofs Verif.UpdateSpec Verif.UpdateProofs Verif.UpdateSlda.
Import ListNotations.
Open Scope R_scope.

Lemma ln3_low : 109 / 100 <= ln 3.
Proof.
  pose proof (ln_lower (1 / 2) ltac:(lra)) as L. rewrite <- ln_quot in L by lra.
  replace ((1 + 1/2) / (1 - 1/2)) with 3 in L by lra. unfold lpoly in L. lra.
Qed.
Lemma ln3_high : ln 3 <= 112 / 100.
Proof.
  pose proof (ln_upper (1 / 2) ltac:(lra)) as L. rewrite <- ln_quot in L by lra.
  replace ((1 + 1/2) / (1 - 1/2)) with 3 in L by lra. unfold lpoly in L. lra.
Qed.
Lemma ln_11_8 : 3 / 10 <= ln (11 / 8).
Proof.
  pose proof (ln_lower (3 / 19) ltac:(lra)) as L. rewrite <- ln_quot in L by lra.
  replace ((1 + 3 / 19) / (1 - 3 / 19)) with (11 / 8) in L by lra. unfold lpoly in L. lra.
Qed.
Lemma ln7_high : ln 7 <= 196 / 100.
Proof.
  pose proof (ln_upper (3 / 11) ltac:(lra)) as L. rewrite <- ln_quot in L by lra.
  replace ((1 + 3 / 11) / (1 - 3 / 11)) with (7 / 4) in L by lra. unfold lpoly in L. rewrite ln_quot in L by lra.
  replace 4 with (2 * 2) in L by lra. rewrite ln_mult in L by lra. pose proof ln2_high. lra.
Qed.
Lemma ln8_low : 207 / 100 <= ln 8.
Proof. replace 8 with (2 * (2 * 2)) by lra. rewrite !ln_mult by lra. pose proof ln2_low. lra. Qed.

Section Twice.
  Variable lg : R -> R.
  Local Hint Extern 0 (ops _) => exact (Rops lg) : typeclass_instances.
  Notation fexp := (fexp lg).
  Notation dig := (dig lg).
  Definition rep_model : params R := mk_params [1; 1] (mk_mat 2 [[1; 1]]) (mk_mat 2 [[2; 0]]).
  Definition rep_phi : mat R := mk_mat 2 [[1/2; 1/2]].
  Definition rep_state : slda R := mk_slda rep_phi [2; 2] [(fexp 2 + 1) / 2] [dig 2; dig 2] None.

  Lemma rep_input : proper_input [2%Z] rep_model.
  Proof.
    constructor; cbn; try lia; auto.
    - intros [|[|i]] Hi; try lia; unfold vget; cbn; lra.
    - intros [|[|i]] [|[|n]] Hi Hn; try lia; unfold mget; cbn; lra.
  Qed.
  Lemma rep_class : class_in_range 0 rep_model.
  Proof. split; [reflexivity|cbn; lia]. Qed.
  Lemma rep_supported n : (n < 1)%nat -> nth n [2%Z] 0%Z <> 0%Z -> supported (p_beta rep_model) n.
  Proof. intros Hn _. exists 0%nat. destruct n; [|lia]. split; [cbn; lia|]. unfold mget, vget. cbn. lra. Qed.
  Lemma rep_eta i : mget (p_eta rep_model) i 0 * (2 / 2) = vget [2; 0] i.
  Proof. change (vget [2; 0] i * (2 / 2) = vget [2; 0] i). lra. Qed.
  Lemma rep_factor phi : mrows phi = 2%nat -> word_factor fexp [2%Z] 2 (p_eta rep_model) phi 0 0 = fexp 2 * mget phi 0 0 + mget phi 1 0.
  Proof.
    intros Hr. unfold word_factor. rewrite Hr, rsum2'. cbn [nth]. rewrite !rep_eta. unfold vget. cbn [nth]. rewrite fexp_0. ring.
  Qed.
  Lemma rep_h phi i : ncols phi = 1%nat -> (i < 2)%nat -> documented_h fexp [2%Z] 2 (p_eta rep_model) phi 0 i = fexp (vget [2; 0] i).
  Proof.
    intros Hc Hi. unfold documented_h. rewrite Hc. change (ncols (p_eta rep_model)) with 1%nat. rewrite rsum1. unfold rprod. cbn [vtab seq map fold_right Nat.eqb nth].
    rewrite rep_eta. ring.
  Qed.
  Lemma rep_normaliser phi : mrows phi = 2%nat -> ncols phi = 1%nat ->
    class_normaliser fexp [2%Z] 2 (p_eta rep_model) phi = fexp 2 * mget phi 0 0 + mget phi 1 0.
  Proof.
    intros Hr Hc. unfold class_normaliser. change (ncols (p_eta rep_model)) with 1%nat. rewrite Hc, rsum1. unfold rprod. cbn [vtab seq map fold_right].
    rewrite rep_factor by exact Hr. ring.
  Qed.
  Lemma rep_consistent : consistent fexp [2%Z] 2 rep_model rep_state.
  Proof.
    constructor; try reflexivity; change (mrows (p_beta rep_model)) with 2%nat; change (ncols (p_beta rep_model)) with 1%nat; change (ncols (p_eta rep_model)) with 1%nat.
    - intros [|n] Hn; [|lia]. rewrite rsum2'. split; [|unfold mget, vget; cbn; lra]. intros [|[|i]] Hi; try lia; unfold mget, vget; cbn; lra.
    - intros i Hi. rewrite rsum1. destruct i as [|[|i]]; [| |lia]; unfold mget, vget; cbn; lra.
    - intros [|c] Hc; [|lia]. unfold rprod. cbn [vtab seq map fold_right]. rewrite rep_factor by reflexivity. unfold mget, vget. cbn [rep_state s_products s_phi rep_phi mcols nth]. lra.
  Qed.
  Lemma rep_competitor : competitor [2%Z] (p_beta rep_model) rep_phi.
  Proof.
    intros [|n] Hn _; [|cbn in Hn; lia]. change (mrows (p_beta rep_model)) with 2%nat. rewrite rsum2'. split; [unfold mget, vget; cbn; lra|].
    intros [|[|i]] Hi; try lia; unfold mget, vget; cbn; lra.
  Qed.
  Lemma rep_psi : psi_of 7 (s_gamma rep_state) = Ok (s_psi rep_state).
  Proof. apply (psi_of_R lg 7 (le_n 7)). intros x [<-|[<-|[]]]; lra. Qed.
  Lemma exp2_bounds : 7 <= fexp 2 <= 8.
  Proof.
    pose proof (fexp_accurate lg 2) as A. unfold fexp_err in A. rewrite (Rabs_pos_eq 2), Rmax_right in A by lra. apply Rabs_le_inv in A.
    pose proof (fexp_pos lg 2). pose proof ln7_high. pose proof ln8_low.
    split; apply Rnot_lt_le; intros L; apply ln_increasing in L; lra.
  Qed.
  Lemma rep_eps psi i q : is_digamma psi -> (i < 2)%nat -> distribution 2 q ->
    let h := documented_h fexp [2%Z] 2 (p_eta rep_model) rep_phi 0 in
    Rmax 1 (Rabs (psi (vget [2; 2] i) + mget (p_eta rep_model) i 0 / 2 - h i / rsum 2 (fun k => h k * vget q k))) / 1023 + 3 / 10 ^ 9 <= 1 / 100.
  Proof.
    intros Hpsi Hi (Q1 & Q2 & Q3) h. assert (P2 : 0 <= psi 2 <= 7 / 10).
    { pose proof (psi_upper psi 2 Hpsi ltac:(lra)). pose proof (psi_lower psi 1 Hpsi ltac:(lra)) as L. rewrite ln_1 in L. replace (1 + 1) with 2 in L by lra. pose proof ln2_high. lra. }
    pose proof exp2_bounds as E2. assert (H0 : h 0%nat = fexp 2) by (unfold h; rewrite rep_h by (reflexivity || lia); reflexivity).
    assert (H1 : h 1%nat = 1) by (unfold h; rewrite rep_h by (reflexivity || lia); unfold vget; cbn [nth]; apply fexp_0).
    rewrite rsum2' in *. rewrite H0, H1. pose proof (Q2 0%nat ltac:(lia)) as A. pose proof (Q2 1%nat ltac:(lia)) as B.
    set (d := fexp 2 * vget q 0 + 1 * vget q 1). assert (1 <= d) by (unfold d; nra).
    assert (HI : 0 <= h i <= 8) by (destruct i as [|[|i]]; [rewrite H0; lra|rewrite H1; lra|lia]).
    assert (HD : 0 <= h i / d <= 8).
    { split; [apply Rmult_le_pos; [lra|left; apply Rinv_0_lt_compat; lra]|]. apply Rmult_le_reg_r with d; [lra|]. unfold Rdiv. rewrite Rmult_assoc, Rinv_l by lra. nra. }
    assert (HG : psi (vget [2; 2] i) = psi 2) by (destruct i as [|[|i]]; [reflexivity..|lia]). rewrite HG.
    assert (HM : 0 <= mget (p_eta rep_model) i 0 / 2 <= 1) by (destruct i as [|[|i]]; [| |lia]; unfold mget, vget; cbn; lra).
    set (mm := mget (p_eta rep_model) i 0 / 2) in *. set (hd := h i / d) in *.
    assert (Rmax 1 (Rabs (psi 2 + mm - hd)) <= 8) by (apply Rmax_lub; [lra|]; apply Rabs_le; lra). lra.
  Qed.

  Lemma rep_new psi new : is_digamma psi -> forall h, length h = 2%nat -> vget h 0 = fexp 2 -> vget h 1 = 1 ->
    fixed_points 1 2 (vget (ratio [2%Z] 2) 0) 0 (mcol (p_beta rep_model) 0) (p_eta rep_model) [dig 2; dig 2] h (mcol rep_phi 0) = Ok new ->
    0 < vget new 1 /\ 3 * vget new 1 <= vget new 0 /\ vget new 0 + vget new 1 = 1.
  Proof.
    intros Hpsi h Lh H0 H1 E. cbn [fixed_points] in E. unfold fixed_point in E. rewrite (vmapM_fexp lg) in E. cbn [bind] in E.
    destruct h as [|h0 [|h1 [|]]]; try discriminate Lh. unfold vget in H0, H1. cbn [nth] in H0, H1. subst h0 h1.
    cbv zeta in E. match type of E with Ok ?a = Ok new => assert (E' : a = new) by exact (f_equal (fun o => match o with Ok b => b | _ => [] end) E) end.
    rewrite <- E'. clear E E'. set (p := vzip _ _ _). pose proof exp2_bounds as E2.
    assert (Hd : 0 <= dig 2 + 1 / 10 ^ 9 /\ dig 2 <= 7 / 10 + 1 / 10 ^ 9).
    { pose proof (psi_upper psi 2 Hpsi ltac:(lra)). pose proof (psi_lower psi 1 Hpsi ltac:(lra)) as L. rewrite ln_1 in L. replace (1 + 1) with 2 in L by lra. pose proof ln2_high.
      pose proof (dig_accurate lg psi 2 Hpsi ltac:(lra)) as A. apply Rabs_le_inv in A. lra. }
    set (t := / (fexp 2 + 1)).
    assert (T : 1 / 9 <= t <= 1 / 8).
    { unfold t. split; [replace (1 / 9) with (/ 9) by lra|replace (1 / 8) with (/ 8) by lra]; apply Rinv_le_contravar; lra. }
    assert (TE : fexp 2 * t = 1 - t) by (unfold t; field; lra).
    assert (P0 : vget p 0 = fexp (dig 2 + 2 - fexp 2 * t)).
    { unfold p, vget, mget, dot, ratio, rsum. cbn. rewrite Rmult_1_l. f_equal. unfold t. field. lra. }
    assert (P1 : vget p 1 = fexp (dig 2 - t)).
    { unfold p, vget, mget, dot, ratio, rsum. cbn. rewrite Rmult_1_l. f_equal. unfold t. field. lra. }
    assert (Lp : length p = 2%nat) by reflexivity.
    rewrite !(vget_map lg (fun x => div x (redux p))) by (rewrite Lp; lia). rewrite (redux_R lg), Lp, rsum2'. rewrite P0, P1. rewrite TE.
    set (A := fexp (dig 2 + 2 - (1 - t))). set (B := fexp (dig 2 - t)).
    assert (PA : 0 < A) by apply fexp_pos. assert (PB : 0 < B) by apply fexp_pos. cbn [div Rops].
    assert (3 * B <= A).
    { pose proof (fexp_accurate lg (dig 2 + 2 - (1 - t))) as X1. pose proof (fexp_accurate lg (dig 2 - t)) as X2. fold A in X1. fold B in X2. unfold fexp_err in X1, X2.
      assert (Rmax 1 (Rabs (dig 2 + 2 - (1 - t))) <= 3) by (apply Rmax_lub; [lra|]; apply Rabs_le; lra).
      assert (Rmax 1 (Rabs (dig 2 - t)) <= 3) by (apply Rmax_lub; [lra|]; apply Rabs_le; lra).
      apply Rabs_le_inv in X1, X2. apply Rnot_lt_le. intros L. apply ln_increasing in L; [|exact PA]. rewrite ln_mult in L by lra. pose proof ln3_high. lra. }
    split; [now apply Rdiv_lt_0_compat; lra|]. split; [|field; lra].
    unfold Rdiv. rewrite <- Rmult_assoc. apply Rmult_le_compat_r; [left; apply Rinv_0_lt_compat; lra|exact H].
  Qed.

  Lemma rep_bound psi phi : mrows phi = 2%nat -> ncols phi = 1%nat ->
    slda_bound fexp psi [2%Z] rep_model [2; 2] 0 phi =
    2 * (mget phi 0 0 * (psi 2 - psi 4 + 1 - ln (mget phi 0 0)) + mget phi 1 0 * (psi 2 - psi 4 - ln (mget phi 1 0))) -
    ln (fexp 2 * mget phi 0 0 + mget phi 1 0).
  Proof.
    intros Hr Hc. unfold slda_bound, word_part. change (ncols (p_beta rep_model)) with 1%nat. change (mrows (p_beta rep_model)) with 2%nat.
    rewrite rsum1, rsum2'. change (fold_right Z.add 0%Z [2%Z]) with 2%Z. rewrite rep_normaliser by assumption. unfold e_ln_theta. change (mrows (p_beta rep_model)) with 2%nat. rewrite rsum2'.
    change (nth 0 [2%Z] 0%Z) with 2%Z.
    change (mget (p_eta rep_model) 0 0) with 2. change (mget (p_eta rep_model) 1 0) with 0. change (mget (p_beta rep_model) 0 0) with 1. change (mget (p_beta rep_model) 1 0) with 1.
    change (@vget R (Rops lg) [2; 2] 0) with 2. change (@vget R (Rops lg) [2; 2] 1) with 2. replace (2 + 2) with 4 by lra. rewrite ln_1. unfold Rminus at 9 10. field_simplify. reflexivity.
  Qed.

  Lemma rep_decreases psi : is_digamma psi ->
    exists s', slda_word 7 [2%Z] (ratio [2%Z] 2) 0 (p_beta rep_model) (p_eta rep_model) 1 rep_state 0 = Ok s' /\
      slda_bound fexp psi [2%Z] rep_model [2; 2] 0 (s_phi s') + 2 * (1 / 100) * INR 1 < slda_bound fexp psi [2%Z] rep_model [2; 2] 0 rep_phi.
  Proof.
    intros Hpsi. pose proof (slda_word_ok lg [2%Z] rep_model 0 rep_input rep_class rep_supported 7 (le_n 7) 1 rep_state 0 rep_consistent ltac:(cbn; lia)) as (s' & E & CO & _ & Hh).
    exists s'. split; [exact E|]. destruct (Hh ltac:(discriminate)) as (h & Eh & Vh).
    destruct (slda_word_parts 7 [2%Z] (ratio [2%Z] 2) 0 (p_beta rep_model) (p_eta rep_model) 1 rep_state s' 0 ltac:(discriminate) E) as (ee & new & h' & Dh & Ee & Ef & Es & Eh' & _).
    rewrite Eh in Eh'. injection Eh' as <-. change (Xget [2%Z] 0) with 2%Z in Ef. change (s_psi rep_state) with [dig 2; dig 2] in Ef. change (s_phi rep_state) with rep_phi in *.
    change 2%Z with (Zsum [2%Z]) in Ee at 2. rewrite (exp_eta_get lg [2%Z] rep_model 0 rep_input rep_class 0 ltac:(cbn; lia)) in Ee. injection Ee as <-.
    destruct (rep_new psi new Hpsi h) as (N1 & N2 & N3).
    - rewrite Dh. reflexivity.
    - rewrite Vh by (cbn; lia). rewrite rep_h by (reflexivity || lia). reflexivity.
    - rewrite Vh by (cbn; lia). rewrite rep_h by (reflexivity || lia). unfold vget. cbn [nth]. apply fexp_0.
    - exact Ef.
    - rewrite !rep_bound by (reflexivity || (rewrite Es; reflexivity)).
      assert (M0 : mget (s_phi s') 0 0 = vget new 0) by (rewrite Es; reflexivity). assert (M1 : mget (s_phi s') 1 0 = vget new 1) by (rewrite Es; reflexivity).
      rewrite M0, M1. change (mget rep_phi 0 0) with (1 / 2). change (mget rep_phi 1 0) with (1 / 2).
      set (a := vget new 0) in *. set (b := vget new 1) in *. assert (Pa : 0 < a) by lra.
      pose proof exp2_bounds as E2. set (e := fexp 2) in *.
      pose proof (ln_le_minus_1 (3 / 4 / a) ltac:(apply Rdiv_lt_0_compat; lra)) as La. rewrite ln_quot in La by lra. rewrite ln_quot in La by lra.
      pose proof (ln_le_minus_1 (1 / 4 / b) ltac:(apply Rdiv_lt_0_compat; lra)) as Lb. rewrite ln_quot in Lb by lra. rewrite ln_quot, ln_1 in Lb by lra.
      apply Rmult_le_compat_l with (r := a) in La; [|lra]. apply Rmult_le_compat_l with (r := b) in Lb; [|lra].
      replace (a * (3 / 4 / a - 1)) with (3 / 4 - a) in La by (field; lra). replace (b * (1 / 4 / b - 1)) with (1 / 4 - b) in Lb by (field; lra).
      assert (L4 : ln 4 = 2 * ln 2) by (replace 4 with (2 * 2) by lra; rewrite ln_mult by lra; ring). rewrite L4 in *.
      assert (LH : ln (1 / 2) = - ln 2) by (rewrite ln_quot, ln_1 by lra; ring). rewrite LH.
      replace (e * (1 / 2) + 1 / 2) with ((e + 1) / 2) by lra.
      assert (LQ : 3 / 10 <= ln (e * a + b) - ln ((e + 1) / 2)).
      { rewrite <- ln_quot by nra. eapply Rle_trans; [exact ln_11_8|]. assert (G : 11 / 8 <= (e * a + b) / ((e + 1) / 2)).
        { apply Rmult_le_reg_r with ((e + 1) / 2); [lra|]. unfold Rdiv at 3. rewrite Rmult_assoc, Rinv_l by lra. replace b with (1 - a) by lra. nra. }
        destruct G as [G| ->]; [|apply Rle_refl]. left. apply ln_increasing; [lra|exact G]. }
      pose proof ln2_high as U2. pose proof ln3_low as U3. pose proof ln2_low as U2'.
      replace b with (1 - a) in * by lra. cbn [INR]. set (d := psi 2 - psi 4). set (l2 := ln 2) in *. set (l3 := ln 3) in *.
      assert (3 / 4 <= a) by lra. assert (a * (l3 - 1) >= 3 / 4 * (9 / 100)) by nra. nra.
  Qed.
End Twice.
