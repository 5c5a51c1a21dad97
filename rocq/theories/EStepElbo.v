(** The reported likelihood of the unsupervised E step and the evidence lower bound. *)
Require Import Reals ZArith List Arith Bool Lia Lra Psatz.
Require Import Verif.Base Verif.Scalar Verif.Mat Verif.UtilsModel Verif.UtilsSpec Verif.UtilsProofs Verif.DigammaProofs.
Require Import Verif.BuilderModel Verif.EStepModel Verif.EStepSpec Verif.EStepReal Verif.EStepOpt.
Import ListNotations.
Open Scope R_scope.

Lemma lsum_concat (l : list (list R)) : lsum (concat l) = lsum (map lsum l).
Proof. induction l as [|x l IH]; [reflexivity|]. cbn [concat map]. rewrite lsum_app, IH. reflexivity. Qed.

Lemma ln_quot x y : 0 < x -> 0 < y -> ln (x / y) = ln x - ln y.
Proof. intros Hx Hy. unfold Rdiv. rewrite ln_mult, ln_Rinv; [ring|assumption..|now apply Rinv_0_lt_compat]. Qed.

(** psi(x + 1) = psi(x) + 1/x *)
Lemma digamma_recurrence psi x : is_digamma psi -> 0 < x -> psi (x + 1) = psi x + / x.
Proof.
  intros Hp Hx. apply (UL_sequence (digamma_approx (x + 1))); [apply Hp; lra|].
  assert (E : forall n, digamma_approx (x + 1) n = (digamma_approx x n + / x) - / (x + 1 + INR n)).
  { intros n. unfold digamma_approx. rewrite (rsum_S_l n (fun k => / (x + INR k))), rsum_S. change (INR 0) with 0.
    rewrite (rsum_ext n (fun i => / (x + INR (S i))) (fun i => / (x + 1 + INR i))).
    - rewrite Rplus_0_r. ring.
    - intros i _. f_equal. rewrite (S_INR i). ring. }
  intros eps He. destruct (Hp x Hx (eps / 2) ltac:(lra)) as (N1 & H1).
  destruct (Rtrigo_def.archimed_cor1 (eps / 2) ltac:(lra)) as (N2 & H2 & H2p).
  exists (Nat.max N1 N2). intros n Hn. rewrite E. unfold R_dist in *.
  assert (A1 : (N1 <= n)%nat) by lia. specialize (H1 n A1).
  assert (A2 : INR N2 <= INR n) by (apply le_INR; lia).
  assert (P : 0 < x + 1 + INR n) by (pose proof (pos_INR n); lra).
  assert (B : / (x + 1 + INR n) < eps / 2).
  { apply Rle_lt_trans with (/ INR N2); [|assumption]. apply Rinv_le_contravar; [now apply lt_0_INR|lra]. }
  assert (0 < / (x + 1 + INR n)) by now apply Rinv_0_lt_compat.
  replace (_ - _) with ((digamma_approx x n - psi x) - / (x + 1 + INR n)) by ring.
  apply Rabs_def2 in H1. apply Rabs_def1; lra.
Qed.

Section Elbo.
  Variable lg : R -> R.
  Local Hint Extern 0 (ops _) => exact (Rops lg) : typeclass_instances.
  Variable dfuel : nat.
  Hypothesis Hfuel : (7 <= dfuel)%nat.
  Notation dig := (dig lg).

  Lemma redux_R v : redux v = rsum (length v) (vget v).
  Proof. change (redux v) with (lsum v). now rewrite <- rsum_lsum. Qed.
  Lemma redux_mall (a : mat R) : redux (mall a) = rsum (ncols a) (fun j => rsum (mrows a) (fun i => mget a i j)).
  Proof.
    change (redux (mall a)) with (lsum (mall a)). unfold mall. rewrite lsum_concat. unfold rsum at 1. f_equal.
    rewrite vtab_map. reflexivity.
  Qed.
  Lemma redux_mtab r c f : redux (mall (mtab r c f)) = rsum c (fun j => rsum r (fun i => f i j)).
  Proof.
    rewrite redux_mall, ncols_tab, mrows_tab. apply rsum_ext. intros j Hj. apply rsum_ext. intros i Hi. now rewrite mget_tab.
  Qed.
  Lemma dot_R a b : dot a b = rsum (length a) (fun i => vget a i * vget b i).
  Proof. reflexivity. Qed.
  Lemma redux_tab n f : redux (vtab n f) = rsum n f.
  Proof. reflexivity. Qed.
  Lemma matT_vec_get (a : mat R) v j : (j < ncols a)%nat -> vget (matT_vec a v) j = rsum (mrows a) (fun i => mget a i j * vget v i).
  Proof.
    intros Hj. unfold matT_vec. rewrite vget_tab by assumption. rewrite dot_R. unfold mcol. rewrite vtab_length.
    apply rsum_ext. intros i Hi. now rewrite vget_tab.
  Qed.

  Definition present (X : list Z) (n : nat) : R := if (Xget X n =? 0)%Z then 0 else 1.

  (** what compute_unsupervised_likelihood returns *)
  Lemma likelihood_R X alpha beta phi gamma : length alpha = mrows phi -> length gamma = mrows phi ->
    (0 < mrows phi)%nat -> (forall i, (i < mrows phi)%nat -> 0 < vget gamma i) ->
    let K := mrows phi in let V := ncols phi in
    let el i := dig (vget gamma i) - dig (rsum K (vget gamma)) in
    compute_unsupervised_likelihood dfuel X alpha beta phi gamma = Ok (
      rsum K (fun i => (vget alpha i - 1) * el i) + (lg (rsum K (vget alpha)) - rsum K (fun i => lg (vget alpha i)))
      + rsum V (fun n => rsum K (fun i => mget phi i n * present X n * el i))
      + rsum V (fun n => rsum K (fun i => mget phi i n * IZR (Xget X n) * ln (mget beta i n + / 10 ^ 44)))
      - rsum K (fun i => (vget gamma i - 1) * el i) - (lg (rsum K (vget gamma)) - rsum K (fun i => lg (vget gamma i)))
      - rsum V (fun n => rsum K (fun i => mget phi i n * present X n * ln (mget phi i n * present X n + / 10 ^ 44)))).
  Proof.
    intros Ha Hg HK Hp K V el. unfold compute_unsupervised_likelihood. cbv zeta.
    assert (Pg : 0 < rsum K (vget gamma)) by (apply rsum_pos_all; assumption).
    rewrite (redux_R gamma), Hg. fold K V. rewrite (digamma_R lg dfuel Hfuel) by assumption. cbn [bind].
    rewrite (psi_of_R lg dfuel Hfuel).
    2:{ intros x Hx. destruct (in_vget lg gamma x Hx) as (i & Hi & ->). apply Hp. now rewrite <- Hg. }
    cbn [bind]. unfold vmapM. rewrite !(seqM_ok (fun x : R => Ok (slgamma x)) slgamma) by auto. cbn [bind].
    assert (E1 : forall i, (i < K)%nat -> vget (map (fun x => sub x (dig (rsum K (vget gamma)))) (map dig gamma)) i = el i).
    { intros i Hi. rewrite (vget_map lg (fun x => sub x (dig (rsum K (vget gamma))))) by (now rewrite map_length, Hg).
      rewrite (vget_map lg dig) by (now rewrite Hg). reflexivity. }
    assert (TY : @tiny R (Rops lg) = / 10 ^ 44).
    { unfold tiny. cbn [div one ofZ Rops]. change (10 ^ 22)%Z with 10000000000000000000000%Z.
      replace (10 ^ 44)%R with (10000000000000000000000 * 10000000000000000000000)%R by ring. field. }
    rewrite TY.
    set (t1 := map _ (map dig gamma)) in *.
    set (phi2 := mtab K V _).
    assert (P2 : forall i n, (i < K)%nat -> (n < V)%nat -> mget phi2 i n = mget phi i n * present X n).
    { intros i n Hi Hn. unfold phi2. rewrite mget_tab by assumption. reflexivity. }
    f_equal. cbn [add sub opp mul zero one slgamma slog Rops ofZ].
    assert (D : forall a, length a = K -> dot (map (fun x => x - 1) a) t1 = rsum K (fun i => (vget a i - 1) * el i)).
    { intros a La. rewrite dot_R, map_length, La. apply rsum_ext. intros i Hi.
      rewrite E1 by assumption. rewrite (vget_map lg (fun x => x - 1)) by lia. reflexivity. }
    assert (LG : forall a, length a = K -> redux (map lg a) = rsum K (fun i => lg (vget a i))).
    { intros a La. rewrite redux_R, map_length, La. apply rsum_ext. intros i Hi. now rewrite (vget_map lg lg) by lia. }
    assert (T3 : redux (matT_vec phi2 t1) = rsum V (fun n => rsum K (fun i => mget phi i n * present X n * el i))).
    { rewrite redux_R. unfold matT_vec at 1. rewrite vtab_length. unfold phi2 at 1. rewrite ncols_tab. apply rsum_ext. intros n Hn.
      rewrite matT_vec_get by (unfold phi2; now rewrite ncols_tab). change (mrows phi2) with K.
      apply rsum_ext. intros i Hi. rewrite P2, E1 by assumption. reflexivity. }
    assert (T4 : redux (mall (mtab K V (fun i n => mget phi i n * IZR (Xget X n) * ln (mget beta i n + / 10 ^ 44)))) =
      rsum V (fun n => rsum K (fun i => mget phi i n * IZR (Xget X n) * ln (mget beta i n + / 10 ^ 44)))) by apply redux_mtab.
    assert (T7 : redux (mall (mtab K V (fun i n => mget phi2 i n * ln (mget phi2 i n + / 10 ^ 44)))) =
      rsum V (fun n => rsum K (fun i => mget phi i n * present X n * ln (mget phi i n * present X n + / 10 ^ 44)))).
    { rewrite redux_mtab. apply rsum_ext. intros n Hn. apply rsum_ext. intros i Hi. now rewrite P2. }
    rewrite (D alpha Ha), (D gamma Hg), (LG alpha Ha), (LG gamma Hg), (redux_R alpha), Ha, T3, T4, T7. fold K. ring.
  Qed.

  Lemma ln_shift x t : 0 < x -> 0 < t -> 0 <= ln (x + t) - ln x <= t / x.
  Proof.
    intros Hx Ht. split.
    - assert (ln x < ln (x + t)) by (apply ln_increasing; lra). lra.
    - replace (x + t) with (x * (1 + t / x)) by (field; lra).
      assert (0 < t / x) by now apply Rdiv_lt_0_compat.
      rewrite ln_mult by lra. pose proof (ln_le_minus_1 (1 + t / x) ltac:(lra)). lra.
  Qed.

  Lemma el_close psi m gamma i : is_digamma psi -> (0 < mrows (p_beta m))%nat ->
    (forall i, (i < mrows (p_beta m))%nat -> 0 < vget gamma i) -> (i < mrows (p_beta m))%nat ->
    Rabs (dig (vget gamma i) - dig (rsum (mrows (p_beta m)) (vget gamma)) - e_ln_theta psi m gamma i) <= 2 / 10 ^ 9.
  Proof.
    intros Hp HK Hg Hi. unfold e_ln_theta.
    assert (0 < rsum (mrows (p_beta m)) (vget gamma)) by (apply rsum_pos_all; assumption).
    pose proof (dig_accurate lg psi _ Hp (Hg i Hi)) as A. pose proof (dig_accurate lg psi _ Hp H) as B.
    apply Rabs_le_inv in A, B. apply Rabs_le. lra.
  Qed.

  (** Counts of at most one: the reported value is the bound up to rounding of the approximations. *)
  Lemma likelihood_elbo psi X m gamma phi b : is_digamma psi -> proper_input X m -> valid_posterior X m gamma phi ->
    (forall x, In x X -> (x <= 1)%Z) -> 0 < b ->
    (forall i n, (i < mrows (p_beta m))%nat -> (n < ncols (p_beta m))%nat -> nth n X 0%Z <> 0%Z -> b <= mget (p_beta m) i n) ->
    exists v, compute_unsupervised_likelihood dfuel X (p_alpha m) (p_beta m) phi gamma = Ok v /\
      let N := rsum (ncols (p_beta m)) (fun n => IZR (nth n X 0%Z)) in
      Rabs (v - elbo lg psi X m gamma phi) <=
        2 / 10 ^ 9 * (rsum (mrows (p_beta m)) (fun i => Rabs (vget (p_alpha m) i - 1)) +
                      rsum (mrows (p_beta m)) (fun i => Rabs (vget gamma i - 1)) + N) +
        / 10 ^ 44 * N * (/ b + INR (mrows (p_beta m))).
  Proof.
    intros Hpsi PI VP H1 Hb Hbeta. destruct VP as [Vr Vc Vl Vn Vs Vg _]. destruct PI as [HK Ha HX Hap Hbn Hc Hsum].
    set (K := mrows (p_beta m)) in *. set (V := ncols (p_beta m)) in *.
    assert (Hg : forall i, (i < K)%nat -> 0 < vget gamma i).
    { intros i Hi. rewrite Vg by assumption. pose proof (Hap i Hi).
      assert (0 <= rsum V (fun n => IZR (nth n X 0%Z) * mget phi i n)); [|lra].
      apply rsum_nonneg. intros n Hn. apply Rmult_le_pos; [|now apply Vn]. apply (IZR_le 0). now apply counts_nth. }
    eexists. split; [apply likelihood_R; rewrite Vr; assumption|]. cbv zeta. rewrite Vr, Vc.
    set (el := fun i => dig (vget gamma i) - dig (rsum K (vget gamma))).
    set (tl := e_ln_theta psi m gamma).
    assert (C : forall i, (i < K)%nat -> Rabs (el i - tl i) <= 2 / 10 ^ 9).
    { intros i Hi. apply (el_close psi m gamma i Hpsi HK Hg Hi). }
    assert (PX : forall n, present X n = IZR (nth n X 0%Z)).
    { intros n. unfold present, Xget. destruct (Z.eqb_spec (nth n X 0%Z) 0) as [->|NZ]; [reflexivity|].
      assert (n < length X)%nat by (destruct (lt_dec n (length X)) as [L|L]; [assumption|rewrite nth_overflow in NZ by lia; lia]).
      assert (nth n X 0 <= 1)%Z by (apply H1, nth_In; assumption). pose proof (counts_nth X n Hc).
      replace (nth n X 0%Z) with 1%Z by lia. reflexivity. }
    assert (PX2 : forall n, IZR (nth n X 0%Z) = 0 \/ IZR (nth n X 0%Z) = 1 /\ nth n X 0%Z <> 0%Z).
    { intros n. rewrite <- PX. unfold present, Xget. destruct (Z.eqb_spec (nth n X 0%Z) 0); auto. }
    unfold elbo, e_ln_dirichlet, phi_part. fold K V. fold tl.
    set (t := / 10 ^ 44) in *. assert (Ht : 0 < t) by (apply Rinv_0_lt_compat, pow_lt; lra).
    set (e := 2 / 10 ^ 9) in *. assert (He : 0 < e) by (unfold e; lra).
    (* the differences, term by term *)
    assert (DA : forall a, Rabs (rsum K (fun i => (vget a i - 1) * el i) - rsum K (fun i => (vget a i - 1) * tl i)) <=
                           e * rsum K (fun i => Rabs (vget a i - 1))).
    { intros a. rewrite <- rsum_minus. eapply Rle_trans; [apply rsum_abs|]. rewrite <- rsum_mult_l. apply rsum_le. intros i Hi.
      rewrite <- Rmult_minus_distr_l, Rabs_mult. rewrite (Rmult_comm e). apply Rmult_le_compat_l; [apply Rabs_pos|now apply C]. }
    set (N := rsum V (fun n => IZR (nth n X 0%Z))).
    assert (DP : Rabs (rsum V (fun n => rsum K (fun i => mget phi i n * present X n * el i))
        + rsum V (fun n => rsum K (fun i => mget phi i n * IZR (Xget X n) * ln (mget (p_beta m) i n + t)))
        - rsum V (fun n => rsum K (fun i => mget phi i n * present X n * ln (mget phi i n * present X n + t)))
        - rsum V (fun n => IZR (nth n X 0%Z) *
            rsum K (fun i => mget phi i n * (tl i + ln (mget (p_beta m) i n) - ln (mget phi i n))))) <=
        e * N + t * N * (/ b + INR K)).
    { rewrite <- rsum_plus, <- !rsum_minus. eapply Rle_trans; [apply rsum_abs|].
      replace (e * N + t * N * (/ b + INR K)) with (rsum V (fun n => IZR (nth n X 0%Z) * (e + t * (/ b + INR K)))).
      2:{ rewrite rsum_mult_r. fold N. ring. }
      apply rsum_le. intros n Hn. unfold Xget. rewrite PX.
      destruct (PX2 n) as [Z|[Z NZ]]; rewrite Z.
      - rewrite !Rmult_0_l, !(rsum_zero K) by (intros; ring). rewrite Rplus_0_l, !Rminus_0_r, Rabs_R0. lra.
      - rewrite <- rsum_mult_l, <- rsum_plus, <- !rsum_minus. eapply Rle_trans; [apply rsum_abs|].
        assert (S1 : rsum K (fun i => mget phi i n) = 1).
        { destruct (Vs n Hn) as [S|[_ U]]; [exact S|]. exfalso. apply U. exists 0%nat. split; [exact HK|].
          pose proof (Hbeta 0%nat n HK Hn NZ). lra. }
        apply Rle_trans with (rsum K (fun i => mget phi i n * (e + t / b) + t)).
        + apply rsum_le. intros i Hi. pose proof (Vn i n Hi Hn) as Pp.
          pose proof (Hbeta i n Hi Hn NZ) as Bb.
          replace (_ - _ - _) with (mget phi i n * (el i - tl i) + mget phi i n * (ln (mget (p_beta m) i n + t) - ln (mget (p_beta m) i n))
            - mget phi i n * (ln (mget phi i n * 1 + t) - ln (mget phi i n))) by ring.
          pose proof (C i Hi) as Ci. apply Rabs_le_inv in Ci.
          assert (Bp : 0 < mget (p_beta m) i n) by lra. pose proof (ln_shift _ t Bp Ht) as [L1 L2].
          assert (L3 : t / mget (p_beta m) i n <= t / b).
          { unfold Rdiv. apply Rmult_le_compat_l; [lra|]. apply Rinv_le_contravar; assumption. }
          assert (Q : 0 <= mget phi i n * (ln (mget phi i n * 1 + t) - ln (mget phi i n)) <= t).
          { rewrite Rmult_1_r. destruct Pp as [Pp|Pp].
            - pose proof (ln_shift _ t Pp Ht) as [M1 M2]. split; [apply Rmult_le_pos; lra|].
              apply Rmult_le_compat_l with (r := mget phi i n) in M2; [|lra].
              replace (mget phi i n * (t / mget phi i n)) with t in M2 by (field; lra). exact M2.
            - rewrite <- Pp. lra. }
          set (A1 := mget phi i n * (el i - tl i)) in *.
          assert (- (mget phi i n * e) <= A1 <= mget phi i n * e) by (unfold A1; nra).
          set (A2 := mget phi i n * (ln (mget (p_beta m) i n + t) - ln (mget (p_beta m) i n))).
          assert (0 <= A2 <= mget phi i n * (t / b)) by (unfold A2; nra).
          apply Rabs_le. lra.
        + rewrite rsum_plus, rsum_mult_r, S1, rsum_const. unfold Rdiv. lra. }
    pose proof (DA (p_alpha m)) as D1. pose proof (DA gamma) as D2.
    apply Rabs_le_inv in DP, D1, D2. unfold el in DP, D1, D2. cbv beta in DP, D1, D2. apply Rabs_le. lra.
  Qed.

  Lemma unsupervised_elbo psi X m b cf d : is_digamma psi -> d_words d = X -> proper_input X m ->
    (forall x, In x X -> (x <= 1)%Z) -> 0 < b ->
    (forall i n, (i < mrows (p_beta m))%nat -> (n < ncols (p_beta m))%nat -> nth n X 0%Z <> 0%Z -> b <= mget (p_beta m) i n) ->
    exists gamma phi v, unsupervised_doc_e_step dfuel cf true d m = Ok (mk_vparams gamma phi [], Some v) /\
      let N := rsum (ncols (p_beta m)) (fun n => IZR (nth n X 0%Z)) in
      Rabs (v - elbo lg psi X m gamma phi) <=
        2 / 10 ^ 9 * (rsum (mrows (p_beta m)) (fun i => Rabs (vget (p_alpha m) i - 1)) +
                      rsum (mrows (p_beta m)) (fun i => Rabs (vget gamma i - 1)) + N) +
        / 10 ^ 44 * N * (/ b + INR (mrows (p_beta m))).
  Proof.
    intros Hpsi E PI H1 Hb Hbeta.
    destruct (unsupervised_valid lg X m PI dfuel Hfuel cf true d E) as (gamma & phi & ev & Ee & VP & Hv).
    destruct (Hv eq_refl) as (v & ->). exists gamma, phi, v. split; [exact Ee|].
    destruct (likelihood_elbo psi X m gamma phi b Hpsi PI VP H1 Hb Hbeta) as (v' & Ev & Hb').
    replace v with v'; [exact Hb'|].
    unfold unsupervised_doc_e_step in Ee. rewrite E, (int_sum_ok lg X m PI) in Ee. cbn [bind] in Ee.
    rewrite (sizes_ok_true lg X m PI d E) in Ee. cbn [negb] in Ee.
    destruct (em_loop _ _ _ _ _ _) as [[g p]| |]; cbn [bind] in Ee; try discriminate. cbn [report] in Ee.
    destruct (compute_unsupervised_likelihood _ _ _ _ _ _) as [l| |] eqn:El; cbn [bind] in Ee; try discriminate.
    injection Ee as -> -> ->. rewrite El in Ev. now injection Ev.
  Qed.

  (** ** A word that occurs twice *)
  Lemma em_loop_fixed {A} (g : A -> list R) up tol s : up s = Ok s ->
    forall limit old, em_loop limit tol g up old s = Ok s.
  Proof.
    intros H. induction limit as [|l IH]; intros old; [reflexivity|]. cbn [em_loop]. destruct (converged old (g s) tol); [reflexivity|].
    rewrite H. cbn [bind]. apply IH.
  Qed.

  Definition twice_model : params R := mk_params [6; 6] (mk_mat 2 [[1; 1]]) (mk_mat 2 []).
  Definition twice_doc : doc R := mk_doc [2%Z] None 1 [].

  Lemma ln2_low : 69 / 100 < ln 2.
  Proof.
    pose proof (RealLemmas.ln_lower (1 / 3) ltac:(lra)) as L. replace (1 + 1/3) with (4/3) in L by lra.
    replace (1 - 1/3) with (2/3) in L by lra. rewrite <- ln_quot in L by lra.
    replace (4 / 3 / (2 / 3)) with 2 in L by lra. unfold RealLemmas.lpoly in L. lra.
  Qed.
  Lemma ln2_high : ln 2 < 70 / 100.
  Proof.
    pose proof (RealLemmas.ln_upper (1 / 3) ltac:(lra)) as L. replace (1 + 1/3) with (4/3) in L by lra.
    replace (1 - 1/3) with (2/3) in L by lra. rewrite <- ln_quot in L by lra.
    replace (4 / 3 / (2 / 3)) with 2 in L by lra. unfold RealLemmas.lpoly in L. lra.
  Qed.

  Lemma rsum1 f : rsum 1 f = f 0%nat.
  Proof. unfold rsum, vtab, lsum. cbn. ring. Qed.
  Lemma rsum2' f : rsum 2 f = f 0%nat + f 1%nat.
  Proof. unfold rsum, vtab, lsum. cbn. ring. Qed.

  Lemma twice_run psi cf : is_digamma psi ->
    exists gamma phi v, unsupervised_doc_e_step dfuel cf true twice_doc twice_model = Ok (mk_vparams gamma phi [], Some v) /\
      3 / 100 < v - elbo lg psi (d_words twice_doc) twice_model gamma phi.
  Proof.
    intros Hpsi. set (gamma := [7; 7]). set (phi := mk_mat 2 [[1/2; 1/2]]).
    unfold unsupervised_doc_e_step. cbn [d_words twice_doc].
    replace (int_sum [2%Z]) with (Ok 2%Z) by reflexivity. cbn [bind].
    replace (sizes_ok _ _) with true by reflexivity. cbn [negb].
    cbn [p_alpha p_beta twice_model]. cbn [mrows length].
    assert (G0 : init_gamma [6; 6] 2 2 = gamma).
    { unfold init_gamma, gamma. cbn [map]. cbn [add div ofZ Rops Z.of_nat Pos.of_succ_nat Pos.succ]. f_equal; [lra|f_equal; lra]. }
    assert (P0 : init_phi 2 1 = phi).
    { unfold init_phi, phi, mtab, vtab. cbn [seq map]. cbn [div one ofZ Rops Z.of_nat Pos.of_succ_nat Pos.succ]. reflexivity. }
    rewrite G0, P0.
    rewrite em_loop_fixed.
    2:{ cbn [fst snd]. unfold compute_unsupervised_phi. rewrite (psi_of_R lg dfuel Hfuel).
        2:{ intros x [<-|[<-|[]]]; lra. }
        cbn [bind]. rewrite (vmapM_fexp lg). cbn [bind].
        assert (EP : scale_normalize (mk_mat 2 [[1; 1]]) (map (fexp lg) (map dig gamma)) = phi).
        { unfold scale_normalize. cbn [mrows ncols mcols length].
          unfold gamma. cbn [map]. set (F := fexp lg (dig 7)). assert (0 < F) by apply fexp_pos.
          unfold normalize_cols. cbn [mrows mtab]. rewrite ncols_tab. unfold phi.
          change (mtab 2 1 ?f) with (mk_mat 2 [[f 0%nat 0%nat; f 1%nat 0%nat]]). cbv beta zeta.
          rewrite mcol_tab by lia. rewrite redux_tab, rsum2'. rewrite !mget_tab by lia.
          unfold mget, vget. cbn [nth mcols mul div eqb zero Rops].
          destruct (Req_EM_T (1 * F + 1 * F) 0) as [Z|Z]; [lra|]. f_equal. f_equal. f_equal; [field; lra|]. f_equal. field. lra. }
        rewrite EP. f_equal. f_equal. rewrite (compute_gamma_R lg). cbn [length].
        unfold gamma, phi. change (vtab 2 ?f) with [f 0%nat; f 1%nat]. cbv beta.
        unfold ncols. cbn [mcols length]. rewrite !rsum1. unfold vget, mget. cbn [nth mcols]. f_equal; [lra|f_equal; lra]. }
    cbn [bind report].
    assert (Lk := likelihood_R [2%Z] [6; 6] (mk_mat 2 [[1; 1]]) phi gamma eq_refl eq_refl).
    cbv zeta in Lk. change (mrows phi) with 2%nat in Lk. change (ncols phi) with 1%nat in Lk. rewrite Lk; clear Lk; [|lia|].
    2:{ intros [|[|i]] Hi; try lia; unfold gamma, vget; cbn; lra. }
    cbn [bind]. eexists. eexists. eexists. split; [reflexivity|].
    unfold elbo, e_ln_dirichlet, phi_part, e_ln_theta. change (mrows (p_beta twice_model)) with 2%nat.
    change (ncols (p_beta twice_model)) with 1%nat. change (p_alpha twice_model) with [6; 6].
    change (p_beta twice_model) with (mk_mat 2 [[1; 1]]).
    rewrite !rsum1, !rsum2'. unfold gamma, phi, vget, mget, present, Xget. cbn [nth mcols Z.eqb].
    replace (7 + 7) with 14 by lra.
    assert (H7 : psi 14 = psi 7 + (/7 + /8 + /9 + /10 + /11 + /12 + /13)).
    { replace 14 with (13 + 1) by lra. rewrite digamma_recurrence by (assumption || lra).
      replace 13 with (12 + 1) at 1 by lra. rewrite (digamma_recurrence psi 12) by (assumption || lra).
      replace 12 with (11 + 1) at 1 by lra. rewrite (digamma_recurrence psi 11) by (assumption || lra).
      replace 11 with (10 + 1) at 1 by lra. rewrite (digamma_recurrence psi 10) by (assumption || lra).
      replace 10 with (9 + 1) at 1 by lra. rewrite (digamma_recurrence psi 9) by (assumption || lra).
      replace 9 with (8 + 1) at 1 by lra. rewrite (digamma_recurrence psi 8) by (assumption || lra).
      replace 8 with (7 + 1) at 1 by lra. rewrite (digamma_recurrence psi 7) by (assumption || lra). ring. }
    rewrite H7.
    pose proof (dig_accurate lg psi 7 Hpsi ltac:(lra)) as A7. pose proof (dig_accurate lg psi 14 Hpsi ltac:(lra)) as A14.
    rewrite H7 in A14. apply Rabs_le_inv in A7, A14.
    pose proof ln2_low as L1. pose proof ln2_high as L2.
    set (t := / 10 ^ 44). assert (T : 0 < t < / 10 ^ 9) by (unfold t; split; [apply Rinv_0_lt_compat, pow_lt; lra|apply Rinv_lt_contravar; [apply Rmult_lt_0_compat; apply pow_lt; lra|apply Rlt_pow; [lra|lia]]]).
    pose proof (ln_shift 1 t ltac:(lra) ltac:(lra)) as B1. rewrite ln_1 in B1.
    pose proof (ln_shift (1/2) t ltac:(lra) ltac:(lra)) as B2.
    assert (LH : ln (1 / 2) = - ln 2) by (unfold Rdiv; rewrite Rmult_1_l, ln_Rinv; [reflexivity|lra]).
    replace (1 / 2 * 1 + t) with (1/2 + t) by ring. rewrite ln_1, LH in *.
    set (d7 := dig 7) in *. set (d14 := dig 14) in *. set (l1 := ln (1 + t)) in *. set (l2 := ln (1 / 2 + t)) in *.
    lra.
  Qed.
End Elbo.

Lemma twice_input (lg : R -> R) : let O := Rops lg in proper_input (d_words twice_doc) twice_model.
Proof.
  intros O. constructor; cbn; try lia; auto.
  - intros [|[|i]] Hi; try lia; unfold vget; cbn; lra.
  - intros [|[|i]] [|[|n]] Hi Hn; try lia; unfold mget; cbn; lra.
Qed.
Lemma twice_refutes : forall (lg psi : R -> R) (cf : econf R), let O := Rops lg in
  is_digamma psi ->
  exists (d : doc R) m gamma phi v, proper_input (d_words d) m /\
    unsupervised_doc_e_step 7 cf true d m = Ok (mk_vparams gamma phi [], Some v) /\
    3 / 100 < v - elbo lg psi (d_words d) m gamma phi.
Proof.
  intros lg psi cf O Hpsi. destruct (twice_run lg 7 (le_n 7) psi cf Hpsi) as (g & phi & v & E & H).
  exists twice_doc, twice_model, g, phi, v. split; [exact (twice_input lg)|split; assumption].
Qed.
