(** The correspondence E step: the topics' entries for absent words do influence gamma. *)
Require Import Reals ZArith List Arith Bool Lia Lra.
Require Import Verif.Base Verif.Scalar Verif.Mat Verif.UtilsModel Verif.UtilsProofs Verif.DigammaProofs.
Require Import Verif.BuilderModel Verif.EStepModel Verif.EStepSpec Verif.EStepReal.
Import ListNotations.
Open Scope R_scope.

Section Corr.
  Variable lg : R -> R.
  Local Hint Extern 0 (ops _) => exact (Rops lg) : typeclass_instances.
  Variable dfuel : nat.
  Hypothesis Hfuel : (7 <= dfuel)%nat.
  Notation fexp := (fexp lg).
  Notation dig := (dig lg).

  (** values of the two updates *)
  Definition cweight (y : nat) (beta eta : mat R) (gamma tau : list R) (i n : nat) : R :=
    mget beta i n * fexp (dig (vget gamma i)) * fexp (ln (mget eta i y) * vget tau n).
  Lemma correspondence_phi_get y beta eta gamma tau : (forall x, In x gamma -> 0 < x) -> length gamma = mrows beta ->
    exists phi, compute_supervised_correspondence_phi dfuel y beta eta gamma tau = Ok phi /\
      mrows phi = mrows beta /\ ncols phi = ncols beta /\
      forall i n, (i < mrows beta)%nat -> (n < ncols beta)%nat ->
        mget phi i n = if Req_EM_T (rsum (mrows beta) (fun i => cweight y beta eta gamma tau i n)) 0 then cweight y beta eta gamma tau i n
          else cweight y beta eta gamma tau i n / rsum (mrows beta) (fun i => cweight y beta eta gamma tau i n).
  Proof.
    intros Hg Hl. unfold compute_supervised_correspondence_phi. rewrite (psi_of_R lg dfuel Hfuel) by assumption. cbn [bind].
    rewrite (vmapM_fexp lg). cbn [bind]. rewrite (mmapM_fexp_tab lg). cbn [bind].
    eexists. split; [reflexivity|]. split; [reflexivity|]. split; [unfold normalize_cols; now rewrite !ncols_tab|].
    intros i n Hi Hn.
    set (w := mtab (mrows beta) (ncols beta) _).
    assert (W : forall i, (i < mrows beta)%nat -> mget w i n = cweight y beta eta gamma tau i n).
    { intros j Hj. unfold w. rewrite !mget_tab by assumption. unfold cweight.
      rewrite (vget_map lg fexp) by (now rewrite map_length, Hl). rewrite (vget_map lg dig) by (now rewrite Hl).
      reflexivity. }
    assert (Ew : ncols w = ncols beta) by apply ncols_tab.
    rewrite (normalize_cols_R lg w i n); [|exact Hi|now rewrite Ew].
    change (mrows w) with (mrows beta). rewrite (rsum_ext _ (fun i => mget w i n) _ W). rewrite W by assumption. reflexivity.
  Qed.

  Lemma correspondence_tau_get y eta phi : mrows eta = mrows phi -> (0 < ncols phi)%nat ->
    let q n := fexp (rsum (mrows phi) (fun i => mget phi i n * ln (mget eta i y))) in
    exists tau, compute_supervised_correspondence_tau y eta phi = Ok tau /\
      forall n, (n < ncols phi)%nat -> vget tau n = q n / rsum (ncols phi) q.
  Proof.
    intros He Hc q. unfold compute_supervised_correspondence_tau. cbv zeta. rewrite (vmapM_fexp lg). cbn [bind].
    eexists. split; [reflexivity|].
    set (v := map fexp _).
    assert (L : length v = ncols phi) by (unfold v, matT_vec; now rewrite map_length, vtab_length).
    assert (Q : forall n, (n < ncols phi)%nat -> vget v n = q n).
    { intros n Hn. unfold v. rewrite (vget_map lg fexp) by (unfold v in L; rewrite map_length in L; lia).
      unfold matT_vec. rewrite vget_tab by assumption. unfold q. f_equal. unfold dot, mcol. rewrite vtab_length.
      apply rsum_ext. intros i Hi. rewrite vget_tab by assumption. rewrite vget_tab by lia. reflexivity. }
    assert (S : redux v = rsum (ncols phi) q).
    { change (redux v) with (lsum v). rewrite <- rsum_lsum, L. apply rsum_ext. exact Q. }
    assert (P : 0 < rsum (ncols phi) q) by (apply rsum_pos_all; [assumption|intros; apply fexp_pos]).
    unfold normalize_vec. cbv zeta. rewrite S. cbn [eqb Rops zero]. destruct (Req_EM_T _ 0) as [Z|Z]; [lra|].
    intros n Hn. rewrite (vget_map lg (fun x => div x (rsum (ncols phi) q))) by lia. rewrite Q by assumption. reflexivity.
  Qed.

  (** The example: word 0 occurs once, word 1 does not. *)
  Definition ex_E := fexp (-5).
  Definition ex_beta (c : R) : mat R := mk_mat 2 [[ex_E; 1]; [0; c]].
  Definition ex_eta : mat R := mk_mat 2 [[1; exp (-10)]; [0; 1 - exp (-10)]].
  Definition ex_model (c : R) : params R := mk_params [1; 1] (ex_beta c) ex_eta.
  Definition ex_doc : doc R := mk_doc [1%Z; 0%Z] (Some 0%Z) 1 [1; 0].
  Definition ex_conf : econf R := mk_econf 2 0 0.
  (** the weight that word 1 gets in tau *)
  Definition ex_q (c : R) := if Req_EM_T c 0 then 1 else fexp (-10).

  Lemma converged_0 old g : converged old g (0 : R) = false.
  Proof.
    unfold converged. cbn [ltb div Rops ofZ]. destruct (Rlt_dec _ 0) as [L|L]; [|reflexivity]. exfalso.
    apply (Rlt_not_le _ _ L). destruct (Nat.eq_dec (length g) 0) as [Z|Z].
    - rewrite Z. cbn. unfold Rdiv. rewrite Rmult_0_l. lra.
    - apply Rmult_le_pos.
      + change (0 <= rsum (length g) (fun i => Rabs (vget old i - vget g i))). apply rsum_nonneg. intros. apply Rabs_pos.
      + left. apply Rinv_0_lt_compat. apply IZR_lt. lia.
  Qed.

  Lemma gamma_2 phi (a : R) : ncols phi = 2%nat -> mget phi 0 0 = a ->
    compute_gamma [1%Z; 0%Z] [1; 1] phi = [1 + a; 1 + mget phi 1 0].
  Proof.
    intros Hc Ha. rewrite (compute_gamma_R lg), Hc. unfold rsum, vtab, lsum. cbn [length seq map fold_right nth vget].
    rewrite Ha. unfold vget. cbn [nth]. f_equal; [ring|]. f_equal. ring.
  Qed.

  Lemma rsum2 f : rsum 2 f = f 0%nat + f 1%nat.
  Proof. unfold rsum, vtab, lsum. cbn. ring. Qed.
  Lemma mget_2 r (a b : list R) i n : mget (mk_mat r [a; b]) i n = nth i (match n with O => a | 1%nat => b | _ => [] end) 0.
  Proof. unfold mget. cbn [mcols]. destruct n as [|[|[|n]]]; cbn; destruct i; reflexivity. Qed.

  Lemma ex_run (c : R) : c = 0 \/ c = 1 ->
    let r := fexp (-10 * (ex_E / (ex_E + ex_q c))) in
    exists g phi tau, correspondence_doc_e_step dfuel ex_conf 2 false ex_doc (ex_model c) = Ok (mk_vparams g phi tau, None) /\
      vget g 0 = 1 + ex_E / (ex_E + r).
  Proof.
    intros Hc r. pose proof (fexp_pos lg (-5)) as PE. fold ex_E in PE. pose proof (fexp_pos lg (dig (3/2))) as PD. set (D := fexp (dig (3/2))) in *.
    unfold correspondence_doc_e_step. cbn [d_words ex_doc d_class].
    replace (int_sum [1%Z; 0%Z]) with (Ok 1%Z) by reflexivity. cbn [bind].
    replace (sizes_ok _ _ && class_ok _ _)%bool with true by reflexivity. cbn [negb].
    cbn [p_alpha p_beta p_eta ex_model e_iterations e_tolerance ex_conf].
    replace (mrows (ex_beta c)) with 2%nat by reflexivity. cbn [length].
    assert (G0 : init_gamma [1; 1] 1 2 = [3/2; 3/2]).
    { unfold init_gamma. cbn [map]. cbn [add div ofZ Rops Z.of_nat Pos.of_succ_nat Pos.succ]. f_equal; [lra|f_equal; lra]. }
    rewrite G0.
    cbn [em_loop]. rewrite !converged_0. cbn [fst snd].
    set (t0 := vtab 2 (fun _ => div one (ofZ (Z.of_nat 2)))).
    assert (T0 : forall n, (n < 2)%nat -> vget t0 n = 1/2).
    { intros n Hn. unfold t0. rewrite vget_tab by assumption. cbn. lra. }
    assert (P0 : forall x, In x [3/2; 3/2] -> 0 < x) by (intros x [<-|[<-|[]]]; lra).
    assert (LE : forall i, (i < 2)%nat -> ln (mget ex_eta i 0) = match i with O => 0 | _ => -10 end).
    { intros [|[|i]] Hi; [| |lia]; unfold ex_eta, mget; cbn; [apply ln_1|apply ln_exp]. }
    destruct (correspondence_phi_get 0 (ex_beta c) ex_eta [3/2; 3/2] t0 P0 eq_refl) as (phi & Ep & Hr & Hn & Hp).
    change (mrows (ex_beta c)) with 2%nat in Hr, Hp. change (ncols (ex_beta c)) with 2%nat in Hn, Hp.
    change (Z.to_nat 0) with 0%nat. rewrite Ep. cbn [bind].
    assert (W : forall i n, (i < 2)%nat -> (n < 2)%nat -> cweight 0 (ex_beta c) ex_eta [3/2; 3/2] t0 i n =
      match n, i with O, _ => ex_E * D | _, O => 0 | _, _ => c * D * ex_E end).
    { intros i n Hi Hn'. unfold cweight. rewrite LE, T0 by assumption.
      replace (vget [3/2; 3/2] i) with (3/2) by (destruct i as [|[|i]]; [reflexivity..|lia]). fold D.
      unfold ex_beta. rewrite mget_2. destruct n as [|[|n]]; [| |lia]; destruct i as [|[|i]]; try lia; cbn [nth].
      - rewrite Rmult_0_l, fexp_0. ring.
      - replace (-10 * (1 / 2)) with (-5) by lra. fold ex_E. ring.
      - ring.
      - replace (-10 * (1 / 2)) with (-5) by lra. fold ex_E. ring. }
    assert (PED : 0 < ex_E * D) by now apply Rmult_lt_0_compat.
    assert (V0 : forall i, (i < 2)%nat -> mget phi i 0 = 1/2).
    { intros i Hi. rewrite Hp by lia. rewrite rsum2, !W by lia. destruct (Req_EM_T _ 0) as [Z|Z]; [lra|].
      destruct i as [|i]; field; lra. }
    assert (V1 : mget phi 0 1 = 0 /\ mget phi 1 1 = if Req_EM_T c 0 then 0 else 1).
    { rewrite !Hp by lia. rewrite rsum2, !W by lia. destruct Hc as [->| ->].
      - destruct (Req_EM_T (0 + 0 * D * ex_E) 0) as [Z|Z]; [|exfalso; apply Z; ring].
        destruct (Req_EM_T 0 0); [|lra]. split; ring.
      - destruct (Req_EM_T (0 + 1 * D * ex_E) 0) as [Z|Z]; [lra|].
        destruct (Req_EM_T 1 0); [lra|]. split; field; lra. }
    destruct (correspondence_tau_get 0 ex_eta phi) as (tau & Et & Ht); [now rewrite Hr|lia|].
    cbv zeta in Et. rewrite Et. cbn [bind].
    rewrite (gamma_2 phi (1/2)) by (auto using Nat.lt_0_2). rewrite V0 by lia.
    replace (1 + 1/2) with (3/2) by lra. rewrite !converged_0. cbn [fst snd].
    assert (Q : vget tau 0 = ex_E / (ex_E + ex_q c)).
    { rewrite Ht by lia. rewrite Hn, rsum2, Hr, !rsum2, !V0, !LE by lia.
      rewrite (proj1 V1), (proj2 V1). replace (1 / 2 * 0 + 1 / 2 * -10) with (-5) by lra. fold ex_E.
      unfold ex_q. destruct (Req_EM_T c 0).
      - replace (0 * 0 + 0 * -10) with 0 by ring. now rewrite fexp_0.
      - replace (0 * 0 + 1 * -10) with (-10) by ring. reflexivity. }
    destruct (correspondence_phi_get 0 (ex_beta c) ex_eta [3/2; 3/2] tau P0 eq_refl) as (phi' & Ep' & Hr' & Hn' & Hp').
    change (mrows (ex_beta c)) with 2%nat in Hr', Hp'. change (ncols (ex_beta c)) with 2%nat in Hn', Hp'.
    rewrite Ep'. cbn [bind].
    destruct (correspondence_tau_get 0 ex_eta phi') as (tau' & Et' & _); [now rewrite Hr'|lia|]. rewrite Et'. cbn [bind report].
    eexists. eexists. eexists. split; [reflexivity|].
    rewrite (gamma_2 phi' (mget phi' 0 0)) by auto. cbn [vget nth]. unfold vget. cbn [nth].
    f_equal. rewrite Hp' by lia. rewrite rsum2. unfold cweight. rewrite !LE by lia. rewrite Q.
    replace (vget [3/2; 3/2] 0) with (3/2) by reflexivity. change (@vget R (Rops lg) [3/2; 3/2] 1) with (3/2). fold D.
    unfold ex_beta. rewrite !mget_2. cbn [nth]. rewrite Rmult_0_l, fexp_0. fold r.
    assert (0 < r) by apply fexp_pos. assert (0 < D * r) by now apply Rmult_lt_0_compat.
    destruct (Req_EM_T (ex_E * D * 1 + 1 * D * r) 0) as [Z|Z]; [lra|]. field. lra.
  Qed.

  (** enough accuracy of the table *)
  Lemma fexp_low x b : ln (fexp x) <= b -> fexp x <= exp b.
  Proof.
    intros H. rewrite <- (exp_ln (fexp x)) by apply fexp_pos. destruct H as [H|H]; [left; now apply exp_increasing|rewrite H; lra].
  Qed.

  Lemma ex_differ : ex_E / (ex_E + fexp (-10 * (ex_E / (ex_E + ex_q 0)))) <> ex_E / (ex_E + fexp (-10 * (ex_E / (ex_E + ex_q 1)))).
  Proof.
    assert (Q0 : ex_q 0 = 1) by (unfold ex_q; destruct (Req_EM_T 0 0); [reflexivity|lra]).
    assert (Q1 : ex_q 1 = fexp (-10)) by (unfold ex_q; destruct (Req_EM_T 1 0); [lra|reflexivity]).
    rewrite Q0, Q1.
    pose proof (fexp_pos lg (-5)) as PE. fold ex_E in PE. pose proof (fexp_pos lg (-10)) as PF.
    (* E <= exp (-4.9), F <= exp (-4) E *)
    assert (A5 := fexp_accurate lg (-5)). assert (A10 := fexp_accurate lg (-10)). unfold fexp_err in A5, A10.
    rewrite (Rabs_left (-5)), Rmax_right in A5 by lra. rewrite (Rabs_left (-10)), Rmax_right in A10 by lra.
    apply Rabs_le_inv in A5, A10. fold ex_E in A5.
    assert (E1 : 0 < exp (-1) < 1/2).
    { split; [apply exp_pos|]. replace (-1) with (- (1)) by lra. rewrite exp_Ropp. pose proof (exp_ineq1 1 ltac:(lra)).
      apply Rmult_lt_reg_r with (exp 1); [lra|]. rewrite Rinv_l by lra. lra. }
    assert (E4 : exp (-4) < 1/16).
    { replace (-4) with (-1 + -1 + -1 + -1) by lra. rewrite !exp_plus. set (u := exp (-1)) in *.
      assert (u * u < 1/4) by nra. assert (0 < u * u) by nra. nra. }
    assert (HE : ex_E < 1/16).
    { eapply Rle_lt_trans; [apply (fexp_low (-5) (-4)); fold ex_E; lra|exact E4]. }
    assert (HF : fexp (-10) < ex_E / 16).
    { apply Rlt_le_trans with (exp (-4) * ex_E).
      - rewrite <- (exp_ln ex_E) by assumption. rewrite <- exp_plus.
        rewrite <- (exp_ln (fexp (-10))) by assumption. apply exp_increasing. lra.
      - unfold Rdiv. nra. }
    set (a := ex_E / (ex_E + 1)). set (b := ex_E / (ex_E + fexp (-10))).
    assert (Ha : 0 < a < 1/16).
    { unfold a. split; [apply Rdiv_lt_0_compat; lra|]. apply Rmult_lt_reg_r with (ex_E + 1); [lra|].
      unfold Rdiv at 1. rewrite Rmult_assoc, Rinv_l by lra. nra. }
    assert (Hb : 1/2 < b < 1).
    { unfold b. split; apply Rmult_lt_reg_r with (ex_E + fexp (-10)); try lra; unfold Rdiv; rewrite (Rmult_assoc ex_E), Rinv_l by lra; nra. }
    assert (Aa := fexp_accurate lg (-10 * a)). assert (Ab := fexp_accurate lg (-10 * b)). unfold fexp_err in Aa, Ab.
    rewrite (Rabs_left (-10 * a)) in Aa by lra. rewrite (Rabs_left (-10 * b)) in Ab by lra.
    assert (Rmax 1 (- (-10 * a)) <= 10) by (apply Rmax_lub; lra).
    assert (Rmax 1 (- (-10 * b)) <= 10) by (apply Rmax_lub; lra).
    apply Rabs_le_inv in Aa, Ab.
    assert (L : fexp (-10 * b) < fexp (-10 * a)).
    { apply ln_lt_inv; [apply fexp_pos|apply fexp_pos|]. lra. }
    intros Eq. assert (Pa := fexp_pos lg (-10 * a)). assert (Pb := fexp_pos lg (-10 * b)).
    assert (ex_E / (ex_E + fexp (-10 * a)) < ex_E / (ex_E + fexp (-10 * b))); [|lra].
    unfold Rdiv. apply Rmult_lt_compat_l; [assumption|]. apply Rinv_lt_contravar; [|lra].
    apply Rmult_lt_0_compat; lra.
  Qed.

  Lemma correspondence_absent_words :
    same_on_words (d_words ex_doc) (ex_model 0) (ex_model 1) /\
    omap (fun r => v_gamma (fst r)) (correspondence_doc_e_step dfuel ex_conf 2 false ex_doc (ex_model 0)) <>
    omap (fun r => v_gamma (fst r)) (correspondence_doc_e_step dfuel ex_conf 2 false ex_doc (ex_model 1)).
  Proof.
    split.
    - repeat split. intros i [|[|n]] H; cbn in H; try congruence.
      + unfold ex_model, ex_beta; cbn. reflexivity.
      + exfalso. apply H. destruct n; reflexivity.
    - destruct (ex_run 0 (or_introl eq_refl)) as (g & p & t & E & H).
      destruct (ex_run 1 (or_intror eq_refl)) as (g' & p' & t' & E' & H').
      rewrite E, E'. cbn. intros Eq. injection Eq as Eq. apply ex_differ. subst g'. rewrite H in H'. cbv zeta in H'. lra.
  Qed.
End Corr.
