(** The correspondence M step weighs the words of a topic by their share in the class; the bound does not, and its topics lower it. *)
Require Import Reals ZArith List Bool Arith Lia Lra.
Require Import Verif.Base Verif.Scalar Verif.Mat Verif.RealLemmas Verif.UtilsModel Verif.UtilsSpec Verif.UtilsProofs Verif.DigammaProofs.
Require Import Verif.BuilderModel Verif.EStepModel Verif.EStepSpec Verif.EStepReal Verif.EStepOpt Verif.EStepElbo Verif.EStepCorr Verif.LgammaSpec.
Require Import Verif.OptModel Verif.OptSpec Verif.OptProofs Verif.MStepModel Verif.MStepSpec Verif.MStepAny Verif.MStepBatch Verif.MStepReal Verif.BoundSpec Verif.BoundProofs.
Import ListNotations.
Open Scope R_scope.

(** Topic 0 says almost only word 0, topic 1 only word 1; the document has both once, and the class of topic 1. *)
Definition share_model : params R :=
  mk_params [1; 1] (mk_mat 2 [[99/100; 0]; [1/100; 1]]) (mk_mat 2 [[1/17; 16/17]; [16/17; 1/17]]).
Definition share_doc : doc R := mk_doc [1; 1]%Z (Some 0%Z) 1 [1/2; 1/2].

Lemma ln16 : ln 16 = 4 * ln 2.
Proof. replace 16 with (2 * (2 * (2 * 2))) by lra. rewrite !ln_mult by lra. ring. Qed.
Lemma ln17 : 0 < ln 17 < 35 / 10.
Proof.
  split; [rewrite <- ln_1; apply ln_increasing; lra|]. apply Rlt_trans with (ln 32); [apply ln_increasing; lra|].
  replace 32 with (2 * 16) by lra. rewrite ln_mult, ln16 by lra. pose proof ln2_high. lra.
Qed.
Lemma ln_above x : 0 < x -> 1 - / x <= ln x.
Proof. intros H. pose proof (ln_le_minus_1 (/ x) (Rinv_0_lt_compat x H)) as L. rewrite ln_Rinv in L by exact H. lra. Qed.
Lemma ln_strict x : 0 < x -> x <> 1 -> ln x < x - 1.
Proof.
  intros H N. pose proof (exp_ineq1 (ln x)) as E. rewrite exp_ln in E by exact H. assert (ln x <> 0); [|specialize (E H0); lra].
  intros Z. apply N. rewrite <- (exp_ln x H), Z. apply exp_0.
Qed.

Section Share.
  Variable lg : R -> R.
  Local Hint Extern 0 (ops _) => exact (Rops lg) : typeclass_instances.
  Notation fexp := (fexp lg).
  Notation dig := (dig lg).
  Notation m := share_model.
  Lemma share_input : proper_input (d_words share_doc) m.
  Proof.
    constructor; cbn; try lia; auto.
    - intros [|[|i]] Hi; try lia; unfold vget; cbn; lra.
    - intros [|[|i]] [|[|n]] Hi Hn; try lia; unfold mget; cbn; lra.
  Qed.
  Lemma share_class : class_in_range 0 m.
  Proof. split; [reflexivity|cbn; lia]. Qed.
  Lemma share_stochastic : stochastic 2 2 (p_beta m) /\ stochastic 2 2 (p_eta m).
  Proof.
    split; (split; [reflexivity|]; split; [reflexivity|]; intros i Hi; split; [|rewrite rsum2'; destruct i as [|[|i]]; [| |lia]; unfold mget, vget; cbn; lra]);
      intros n Hn; destruct i as [|[|i]], n as [|[|n]]; try lia; unfold mget, vget; cbn; lra.
  Qed.
  (** the exponential on [-7/2, 0] *)
  Lemma fexp_small a : - (35 / 10) <= a <= 0 -> Rabs (ln (fexp a) - a) <= 4 / 1000.
  Proof.
    intros Ha. eapply Rle_trans; [apply fexp_accurate|]. unfold fexp_err. assert (Rmax 1 (Rabs a) <= 35 / 10); [|lra].
    apply Rmax_lub; [lra|]. rewrite Rabs_left1; lra.
  Qed.
  Lemma ratio_between a b low high : - (35 / 10) <= a <= 0 -> - (35 / 10) <= b <= 0 -> 0 < low -> 0 < high ->
    ln low <= a - b - 8 / 1000 -> a - b + 8 / 1000 <= ln high -> low <= fexp a / fexp b <= high.
  Proof.
    intros Ha Hb Pl Ph L H. pose proof (fexp_small a Ha) as Ea. pose proof (fexp_small b Hb) as Eb. apply Rabs_le_inv in Ea, Eb.
    pose proof (fexp_pos lg a) as Pa. pose proof (fexp_pos lg b) as Pb. pose proof (Rdiv_lt_0_compat _ _ Pa Pb) as P.
    assert (E : ln (fexp a / fexp b) = ln (fexp a) - ln (fexp b)) by now apply ln_quot.
    split.
    - destruct (Rle_lt_dec low (fexp a / fexp b)) as [|C]; [assumption|]. apply ln_increasing in C; [lra|exact P].
    - destruct (Rle_lt_dec (fexp a / fexp b) high) as [|C]; [assumption|]. apply ln_increasing in C; [lra|exact Ph].
  Qed.

  (** What the E step finds: word 0 belongs to topic 0, word 1 with a small probability [p]; and its share in the class is larger. *)
  Lemma share_e_step tol cl mu : tol <= 1 -> exists gamma phi t0 t1 p,
    correspondence_doc_e_step 7 (mk_econf 1 tol cl) mu false share_doc m = Ok (mk_vparams gamma phi [t0; t1], None) /\
    length gamma = 2%nat /\ mrows phi = 2%nat /\ ncols phi = 2%nat /\
    mget phi 0 0 = 1 /\ mget phi 1 0 = 0 /\ mget phi 0 1 = p /\ mget phi 1 1 = 1 - p /\
    19 / 10000 <= p <= 3 / 1000 /\ 0 < t0 /\ 8 * t0 <= t1.
  Proof.
    intros Ht. pose proof ln17 as L17. pose proof ln16 as L16. pose proof ln2_low as L2. pose proof ln2_high as H2.
    assert (E1 : ln (1 / 17) = - ln 17) by (rewrite ln_quot, ln_1 by lra; ring). assert (E2 : ln (16 / 17) = ln 16 - ln 17) by (apply ln_quot; lra).
    assert (N17 : ln 16 < ln 17) by (apply ln_increasing; lra).
    set (g := init_gamma (p_alpha m) 2 2).
    assert (G : g = [2; 2]) by (unfold g, init_gamma; cbn; repeat f_equal; lra).
    destruct (correspondence_phi_get lg 7 (le_n 7) 0 (p_beta m) (p_eta m) g [1/2; 1/2]) as (phi & Ep & Rp & Cp & Vp); [rewrite G; intros x [<-|[<-|[]]]; lra|now rewrite G|].
    change (mrows (p_beta m)) with 2%nat in *. change (ncols (p_beta m)) with 2%nat in *.
    set (a0 := ln (1 / 17) * (1 / 2)). set (a1 := ln (16 / 17) * (1 / 2)).
    assert (R0 : 2 / 10 <= fexp a0 / fexp a1 <= 3 / 10).
    { apply ratio_between; try (unfold a0, a1; lra).
      - pose proof (ln_above (5 / 4) ltac:(lra)) as A. rewrite ln_quot in A by lra. replace (2 / 10) with (1 / 5) by lra. rewrite ln_quot, ln_1 by lra.
        replace 4 with (2 * 2) in A by lra. rewrite ln_mult in A by lra. unfold a0, a1. rewrite E1, E2. lra.
      - pose proof (ln_above (12 / 10) ltac:(lra)) as A. replace (12 / 10) with (3 / 10 * 4) in A by lra. rewrite ln_mult in A by lra.
        replace 4 with (2 * 2) in A by lra. rewrite ln_mult in A by lra. unfold a0, a1. rewrite E1, E2. lra. }
    set (k := fexp a0 / fexp a1) in *. set (p := (1 / 100 * k) / (1 / 100 * k + 1)).
    assert (Pp : 19 / 10000 <= p <= 3 / 1000).
    { assert (0 < 1 / 100 * k + 1) by lra. unfold p. split.
      - apply (Rmult_le_reg_r (1 / 100 * k + 1)); [assumption|]. replace ((1 / 100 * k) / (1 / 100 * k + 1) * (1 / 100 * k + 1)) with (1 / 100 * k) by (field; lra). lra.
      - apply (Rmult_le_reg_r (1 / 100 * k + 1)); [assumption|]. replace ((1 / 100 * k) / (1 / 100 * k + 1) * (1 / 100 * k + 1)) with (1 / 100 * k) by (field; lra). lra. }
    pose proof (fexp_pos lg (dig 2)) as PD. pose proof (fexp_pos lg a0) as P0. pose proof (fexp_pos lg a1) as P1.
    assert (W : forall i n, (i < 2)%nat -> (n < 2)%nat -> cweight lg 0 (p_beta m) (p_eta m) g [1/2; 1/2] i n = mget (p_beta m) i n * fexp (dig 2) * fexp (if Nat.eqb i 0 then a0 else a1)).
    { intros i n Hi Hn. unfold cweight. rewrite G. destruct i as [|[|i]], n as [|[|n]]; try lia; reflexivity. }
    assert (Q : mget phi 0 0 = 1 /\ mget phi 1 0 = 0 /\ mget phi 0 1 = p /\ mget phi 1 1 = 1 - p).
    { rewrite !Vp by lia. rewrite !rsum2', !W by lia. cbn [Nat.eqb].
      change (mget (p_beta m) 0 0) with (99/100). change (mget (p_beta m) 1 0) with 0. change (mget (p_beta m) 0 1) with (1/100). change (mget (p_beta m) 1 1) with 1.
      pose proof (Rmult_lt_0_compat _ _ PD P0) as Q0. pose proof (Rmult_lt_0_compat _ _ PD P1) as Q1.
      destruct (Req_EM_T (99 / 100 * fexp (dig 2) * fexp a0 + 0 * fexp (dig 2) * fexp a1) 0) as [Z|_]; [exfalso; lra|].
      destruct (Req_EM_T (1 / 100 * fexp (dig 2) * fexp a0 + 1 * fexp (dig 2) * fexp a1) 0) as [Z|_]; [exfalso; lra|].
      assert (S : 1 / 100 * fexp (dig 2) * fexp a0 + 1 * fexp (dig 2) * fexp a1 <> 0) by lra.
      assert (S' : 1 / 100 * fexp a0 + fexp a1 <> 0) by lra.
      unfold p, k. split; [field; lra|]. split; [field; lra|]. split; field; repeat split; lra. }
    destruct Q as (Q00 & Q10 & Q01 & Q11).
    destruct (correspondence_tau_get lg 7 (le_n 7) 0 (p_eta m) phi) as (tau & Et & Vt); [now rewrite Rp|rewrite Cp; lia|].
    destruct (correspondence_tau_good lg m 0 phi Cp) as (tau' & Et' & Lt). change (Z.to_nat 0) with 0%nat in Et'. rewrite Et in Et'. injection Et' as <-.
    cbv zeta in Vt. rewrite Cp, Rp in Vt.
    assert (T0 : rsum 2 (fun i => mget phi i 0 * ln (mget (p_eta m) i 0)) = ln (1 / 17)).
    { rewrite rsum2', Q00, Q10. change (mget (p_eta m) 0 0) with (1/17). ring. }
    assert (T1 : rsum 2 (fun i => mget phi i 1 * ln (mget (p_eta m) i 0)) = p * ln (1 / 17) + (1 - p) * ln (16 / 17)).
    { rewrite rsum2', Q01, Q11. reflexivity. }
    set (b0 := ln (1 / 17)) in *. set (b1 := p * b0 + (1 - p) * ln (16 / 17)) in *.
    assert (B : b1 - b0 = (1 - p) * ln 16) by (unfold b1; rewrite E1, E2; ring).
    assert (Br : - (35 / 10) <= b1 <= 0).
    { assert (0 <= (1 - p) * ln 16 <= ln 16); [|lra]. split; [apply Rmult_le_pos; lra|]. rewrite <- (Rmult_1_l (ln 16)) at 2. apply Rmult_le_compat_r; lra. }
    pose proof (fexp_small b0 ltac:(lra)) as F0. pose proof (fexp_small b1 Br) as F1. apply Rabs_le_inv in F0, F1.
    pose proof (fexp_pos lg b0) as PF0. pose proof (fexp_pos lg b1) as PF1.
    assert (R8 : 8 * fexp b0 <= fexp b1).
    { destruct (Rle_lt_dec (8 * fexp b0) (fexp b1)) as [|C]; [assumption|]. apply ln_increasing in C; [|exact PF1]. rewrite ln_mult in C by lra.
      replace 8 with (2 * (2 * 2)) in C by lra. rewrite !ln_mult in C by lra. assert (p * ln 16 <= 3 / 1000 * ln 16) by (apply Rmult_le_compat_r; lra). lra. }
    pose proof (Vt 0%nat ltac:(lia)) as V0. pose proof (Vt 1%nat ltac:(lia)) as V1. rewrite T0, rsum2', T0, T1 in V0. rewrite T1, rsum2', T0, T1 in V1.
    assert (PS : 0 < fexp b0 + fexp b1) by lra.
    exists (compute_gamma (d_words share_doc) (p_alpha m) phi), phi, (vget tau 0), (vget tau 1), p.
    assert (tau = [vget tau 0; vget tau 1]) as ET.
    { destruct Lt as [Lt _]. change (length tau = 2%nat) in Lt. destruct tau as [|u [|v [|w tau]]]; try discriminate Lt. reflexivity. }
    split; [|split; [|split; [exact Rp|split; [exact Cp|]]]].
    - unfold correspondence_doc_e_step. change (d_class share_doc) with (Some 0%Z). change (int_sum (d_words share_doc)) with (@Ok Z 2%Z). cbn [bind].
      change (sizes_ok share_doc m && class_ok 0 m) with true. cbn [negb]. cbv zeta. cbn [e_iterations e_tolerance em_loop fst snd].
      change (mrows (p_beta m)) with 2%nat. fold g. unfold converged.
      match goal with |- context [ltb ?a ?b] => assert (LT : ltb a b = false) end.
      { cbn [ltb Rops]. match goal with |- (if Rlt_dec ?a ?b then _ else _) = _ => destruct (Rlt_dec a b) as [L|]; [exfalso|reflexivity] end.
        rewrite G in L. revert L. unfold redux, vget, vtab. cbn. rewrite !(Rabs_left (0 - 2)) by lra. lra. }
      rewrite LT. change (Z.to_nat 0) with 0%nat. change (length (d_words share_doc)) with 2%nat.
      replace (vtab 2 (fun _ => div one (ofZ (Z.of_nat 2)))) with [1/2; 1/2] by (cbn; repeat f_equal; lra).
      rewrite Ep. cbn [bind]. rewrite Et. cbn [bind report]. rewrite <- ET. reflexivity.
    - rewrite (compute_gamma_R lg). now rewrite vtab_length.
    - split; [exact Q00|]. split; [exact Q10|]. split; [exact Q01|]. split; [exact Q11|]. split; [exact Pp|]. rewrite V0, V1.
      split; [now apply Rdiv_lt_0_compat|]. unfold Rdiv. rewrite <- Rmult_assoc. apply Rmult_le_compat_r; [left; now apply Rinv_0_lt_compat|exact R8].
  Qed.

  (** ln b + p ln (1 - b) increases up to 1 / (1 + p) *)
  Lemma row_grows p b u : 0 < p -> 0 < b < u -> u < 1 -> p * u < 1 - u -> ln b + p * ln (1 - b) < ln u + p * ln (1 - u).
  Proof.
    intros Pp Hb Hu Hd.
    assert (A : ln (b / u) < b / u - 1).
    { apply ln_strict; [apply Rdiv_lt_0_compat; lra|]. intros E. assert (b = b / u * u) by (field; lra). rewrite E in H. lra. }
    assert (B : ln ((1 - b) / (1 - u)) <= (1 - b) / (1 - u) - 1) by (apply ln_le_minus_1; apply Rdiv_lt_0_compat; lra).
    rewrite ln_quot in A, B by lra. apply (Rmult_le_compat_l p) in B; [|lra].
    assert (D : (b / u - 1) + p * ((1 - b) / (1 - u) - 1) <= 0).
    { replace ((b / u - 1) + p * ((1 - b) / (1 - u) - 1)) with ((u - b) * (p * / (1 - u) - / u)) by (field; lra).
      assert (p * / (1 - u) <= / u); [|pose proof (Rmult_le_pos (u - b) (/ u - p * / (1 - u))); lra].
      apply (Rmult_le_reg_r (u * (1 - u))); [apply Rmult_lt_0_compat; lra|].
      replace (p * / (1 - u) * (u * (1 - u))) with (p * u) by (field; lra). replace (/ u * (u * (1 - u))) with (1 - u) by (field; lra). lra. }
    rewrite Rmult_minus_distr_l in B. lra.
  Qed.

  Lemma share_lowers psi tol cl mu : tol <= 1 -> exists v m' s' e',
    correspondence_doc_e_step 7 (mk_econf 1 tol cl) mu false share_doc m = Ok (v, None) /\
    mrun (correspondence_maximizer mu) (epoch [(share_doc, v)]) m new_stats = Ok (m', s', e') /\
    correspondence_corpus_bound lg psi mu [(share_doc, v)] m' < correspondence_corpus_bound lg psi mu [(share_doc, v)] (mk_params (p_alpha m') (p_beta m) (p_eta m')).
  Proof.
    intros Ht. destruct (share_e_step tol cl mu Ht) as (gamma & phi & t0 & t1 & p & E & Lg & Rp & Cp & Q00 & Q10 & Q01 & Q11 & Pp & P0 & P1).
    set (v := mk_vparams gamma phi [t0; t1]) in *. set (x := (share_doc, v) : item R).
    assert (S1 : sized 2 2 x) by (split; [reflexivity|]; split; [exact Rp|]; split; [exact Cp|exact Lg]).
    assert (S2 : classified 2 x) by (exists 0%Z; split; [reflexivity|lia]).
    assert (S4 : nonneg_item 2 2 x).
    { split; [intros [|[|n]] Hn; try lia; cbn; split; (lia || lra)|]. change (v_phi (snd x)) with phi. intros [|[|i]] [|[|n]] Hi Hn; try lia; lra. }
    assert (HK : (0 < 2)%nat) by lia.
    assert (F1 : Forall (fun x => sized 2 2 x /\ classified 2 x /\ with_tau 2 x /\ nonneg_item 2 2 x) [x]) by (constructor; [split; [exact S1|split; [exact S2|split; [reflexivity|exact S4]]]|constructor]).
    assert (Ne : [x] <> []) by discriminate.
    destruct (correspondence_R lg 2 2 2 mu HK [] m m new_stats [] eq_refl eq_refl (or_introl eq_refl) (Forall_nil _) eq_refl [x] F1 Ne) as (m' & s' & e' & E' & SC & _).
    exists v, m', s', e'. split; [exact E|]. split; [exact E'|].
    destruct (batch_between 2 2 2 HK _ _ _ _ _ _ (step_correspondence 2 2 2 mu) [] m m new_stats [] (conj eq_refl eq_refl) (or_introl eq_refl) (Forall_nil _) eq_refl) as [_ X].
    destruct (X [x]) as [_ Y]; [revert F1; apply Forall_impl; tauto|exact Ne|]. destruct (Y m' s' e' E') as [EA T]. clear X Y.
    assert (A : forall i n, (i < 2)%nat -> (n < 2)%nat -> expected assigned_tau [x] i n = mget phi i n * vget [t0; t1] n /\ expected assigned [x] i n = mget phi i n).
    { intros i n Hi Hn. unfold expected, assigned, assigned_tau. cbn [map]. rewrite !lsum_cons. change (lsum []) with 0. change (v_phi (snd x)) with phi. change (v_tau (snd x)) with [t0; t1].
      assert (count x n = 1%Z) as -> by (destruct n as [|[|n]]; [reflexivity|reflexivity|lia]). cbn [mul ofZ Rops]. change (IZR 1) with 1. split; ring. }
    assert (A1 := fun i n Hi Hn => proj1 (A i n Hi Hn)). assert (A2 := fun i n Hi Hn => proj2 (A i n Hi Hn)).
    destruct (topics_R lg 2 2 assigned_tau [x] _ T) as (T1 & T2 & T3).
    { intros i Hi. rewrite rsum2', !A1 by lia. change (vget [t0; t1] 0) with t0. change (vget [t0; t1] 1) with t1. destruct i as [|[|i]]; [| |lia].
      - rewrite Q00, Q01. pose proof (Rmult_lt_0_compat p t1). lra.
      - rewrite Q10, Q11. pose proof (Rmult_lt_0_compat (1 - p) t1). lra. }
    destruct m' as [a' b' eta']. cbn [p_alpha p_beta p_eta] in *. destruct SC as (SR & SK & _).
    change (correspondence_corpus_bound lg psi mu [x : item R] (mk_params a' b' eta') < correspondence_corpus_bound lg psi mu [x : item R] (mk_params a' (mk_mat 2 [[99/100; 0]; [1/100; 1]]) eta')).
    assert (L2 : Forall (classified 2) [x]) by (constructor; [exact S2|constructor]).
    rewrite !(correspondence_split lg psi 2 2 2) by (assumption || reflexivity).
    rewrite (corpus_topics lg psi 2 2 [x] a' b' (mk_mat 2 [[99/100; 0]; [1/100; 1]]) eta' eta') by (assumption || reflexivity).
    enough (log_likelihood 2 2 (expected assigned [x]) b' < log_likelihood 2 2 (expected assigned [x]) (mk_mat 2 [[99/100; 0]; [1/100; 1]])) by lra.
    set (b0 := mget b' 0 0).
    assert (B00 : b0 = t0 / (t0 + p * t1)).
    { unfold b0. rewrite T3, rsum2', !A1 by lia. rewrite Q00, Q01. change (vget [t0; t1] 0) with t0. change (vget [t0; t1] 1) with t1. f_equal; ring. }
    assert (Z : 0 < t0 + p * t1) by (pose proof (Rmult_lt_0_compat p t1); lra).
    assert (B01 : mget b' 0 1 = 1 - b0).
    { rewrite B00, T3, rsum2', !A1 by lia. rewrite Q00, Q01. change (vget [t0; t1] 0) with t0. change (vget [t0; t1] 1) with t1. field. lra. }
    assert (B11 : mget b' 1 1 = 1).
    { rewrite T3, rsum2', !A1 by lia. rewrite Q10, Q11. change (vget [t0; t1] 0) with t0. change (vget [t0; t1] 1) with t1. field. split; lra. }
    unfold log_likelihood. rewrite !rsum2', !A2 by lia. rewrite Q00, Q10, Q01, Q11, B01, B11. fold b0.
    change (mget (mk_mat 2 [[99/100; 0]; [1/100; 1]]) 0 0) with (99/100). change (mget (mk_mat 2 [[99/100; 0]; [1/100; 1]]) 1 0) with 0.
    change (mget (mk_mat 2 [[99/100; 0]; [1/100; 1]]) 0 1) with (1/100). change (mget (mk_mat 2 [[99/100; 0]; [1/100; 1]]) 1 1) with 1.
    pose proof (row_grows p b0 (99 / 100)) as RG. replace (1 - 99 / 100) with (1 / 100) in RG by lra.
    assert (H : b0 < 99 / 100).
    { apply (Rmult_lt_reg_r (t0 + p * t1)); [exact Z|]. replace (b0 * (t0 + p * t1)) with t0 by (rewrite B00; field; lra).
      assert (19 / 10000 * t1 <= p * t1) by (apply Rmult_le_compat_r; lra). lra. }
    assert (H0 : 0 < b0) by (rewrite B00; apply Rdiv_lt_0_compat; lra). lra.
  Qed.
End Share.
