(** The phi update is optimal up to the error of the exponential. *)
Require Import Reals ZArith List Arith Bool Lia Lra.
Require Import Verif.Base Verif.Scalar Verif.Mat Verif.UtilsModel Verif.UtilsSpec Verif.UtilsProofs Verif.DigammaProofs.
Require Import Verif.BuilderModel Verif.EStepModel Verif.EStepSpec Verif.EStepReal.
Import ListNotations.
Open Scope R_scope.

Lemma ln_le_minus_1 x : 0 < x -> ln x <= x - 1.
Proof.
  intros H. destruct (Req_dec x 1) as [->|N]; [rewrite ln_1; lra|].
  left. rewrite <- (ln_exp (x - 1)). apply ln_increasing; [assumption|].
  pose proof (exp_ineq1 (x - 1) ltac:(lra)). lra.
Qed.

(** Gibbs' inequality with unnormalised weights. *)
Section Gibbs.
  Variables (K : nat) (w : nat -> R).
  Hypothesis w_pos : forall i, (i < K)%nat -> 0 <= w i.
  Hypothesis w_sum : 0 < rsum K w.
  Lemma gibbs q : rsum K q = 1 -> (forall i, (i < K)%nat -> 0 <= q i /\ (w i = 0 -> q i = 0)) ->
    rsum K (fun i => q i * (ln (w i) - ln (q i))) <= ln (rsum K w).
  Proof.
    intros Hs Hq. set (S := rsum K w) in *.
    assert (G : rsum K (fun i => q i * (ln (w i) - ln (q i)) - q i * ln S) <= rsum K (fun i => w i / S - q i)).
    { apply rsum_le. intros i Hi. destruct (Hq i Hi) as [Q Z]. pose proof (w_pos i Hi) as W.
      assert (0 <= w i / S) by (apply Rmult_le_pos; [assumption|left; now apply Rinv_0_lt_compat]).
      destruct (Req_dec (q i) 0) as [->|NQ]; [lra|].
      assert (NW : w i <> 0) by tauto. assert (0 < w i) by lra. assert (0 < q i) by lra.
      assert (0 < w i / S / q i) by (apply Rdiv_lt_0_compat; [apply Rdiv_lt_0_compat|]; assumption).
      pose proof (ln_le_minus_1 (w i / S / q i) ltac:(assumption)) as L.
      unfold Rdiv in L at 1 2. rewrite !ln_mult, !ln_Rinv in L; try assumption; try (apply Rinv_0_lt_compat; assumption);
        try (apply Rmult_lt_0_compat; [assumption|apply Rinv_0_lt_compat; assumption]).
      apply Rmult_le_compat_l with (r := q i) in L; [|lra].
      replace (q i * (w i / S / q i - 1)) with (w i / S - q i) in L by (field; lra). lra. }
    rewrite !rsum_minus, rsum_div, Hs in G. fold S in G. rewrite rsum_mult_r, Hs in G.
    replace (S / S) with 1 in G by (field; lra). lra.
  Qed.
  Lemma gibbs_eq : rsum K (fun i => w i / rsum K w * (ln (w i) - ln (w i / rsum K w))) = ln (rsum K w).
  Proof.
    set (S := rsum K w) in *. rewrite (rsum_ext K _ (fun i => w i / S * ln S)).
    - rewrite rsum_mult_r, rsum_div. fold S. replace (S / S) with 1 by (field; lra). ring.
    - intros i Hi. destruct (w_pos i Hi) as [P|P].
      + unfold Rdiv at 2. rewrite ln_mult, ln_Rinv; try assumption; try (apply Rinv_0_lt_compat; assumption). ring.
      + rewrite <- P. unfold Rdiv. ring.
  Qed.
End Gibbs.

(** Weights known up to [eps] in the logarithm: the normalised approximate weights are
    within [2 eps] of the best. *)
Lemma gibbs_approx K (w v : nat -> R) eps q :
  (forall i, (i < K)%nat -> 0 <= v i /\ (w i = 0 <-> v i = 0) /\ (v i <> 0 -> Rabs (ln (v i) - ln (w i)) <= eps)) ->
  rsum K q = 1 -> (forall i, (i < K)%nat -> 0 <= q i /\ (w i = 0 -> q i = 0)) ->
  rsum K (fun i => q i * (ln (w i) - ln (q i))) <=
  rsum K (fun i => v i / rsum K v * (ln (w i) - ln (v i / rsum K v))) + 2 * eps.
Proof.
  intros Hv Hs Hq.
  assert (P : 0 < rsum K v).
  { destruct (Rle_lt_or_eq_dec 0 (rsum K v)) as [L|E]; [apply rsum_nonneg; intros; now apply Hv|assumption|].
    exfalso. assert (rsum K q = 0); [|lra]. apply rsum_zero. intros i Hi. apply Hq; [assumption|].
    apply Hv; [assumption|]. apply (rsum_zero_inv K v); [intros; now apply Hv|now symmetry|assumption]. }
  assert (V : forall i, (i < K)%nat -> 0 <= v i) by (intros i Hi; now apply Hv).
  pose proof (gibbs K v V P q Hs) as G1. pose proof (gibbs_eq K v V P) as G2.
  assert (H1 : rsum K (fun i => q i * (ln (w i) - ln (q i))) <= rsum K (fun i => q i * (ln (v i) - ln (q i)) + q i * eps)).
  { apply rsum_le. intros i Hi. destruct (Hq i Hi) as [Q Z]. destruct (Hv i Hi) as (_ & ZZ & A).
    destruct (Req_dec (q i) 0) as [->|N]; [lra|].
    assert (Nv : v i <> 0) by tauto. specialize (A Nv). apply Rabs_le_inv in A. nra. }
  rewrite rsum_plus, rsum_mult_r, Hs in H1.
  assert (H2 : rsum K (fun i => v i / rsum K v * (ln (v i) - ln (v i / rsum K v)) - v i / rsum K v * eps) <=
    rsum K (fun i => v i / rsum K v * (ln (w i) - ln (v i / rsum K v)))).
  { apply rsum_le. intros i Hi. destruct (Hv i Hi) as (Vi & ZZ & A).
    destruct (Req_dec (v i) 0) as [->|N]; [unfold Rdiv; lra|].
    specialize (A N). apply Rabs_le_inv in A.
    assert (0 <= v i / rsum K v) by (apply Rmult_le_pos; [assumption|left; now apply Rinv_0_lt_compat]). nra. }
  rewrite rsum_minus, rsum_mult_r, rsum_div in H2. replace (rsum K v / rsum K v) with 1 in H2 by (field; lra).
  assert (G3 : rsum K (fun i => q i * (ln (v i) - ln (q i))) <= ln (rsum K v)).
  { apply G1. intros i Hi. destruct (Hq i Hi) as [Q Z]. split; [assumption|]. intros E. apply Z. now apply Hv. }
  lra.
Qed.

Section Opt.
  Variable lg : R -> R.
  Local Hint Extern 0 (ops _) => exact (Rops lg) : typeclass_instances.
  Variable dfuel : nat.
  Hypothesis Hfuel : (7 <= dfuel)%nat.
  Notation fexp := (fexp lg).
  Notation dig := (dig lg).

  Lemma fexp_dig_accurate psi x : is_digamma psi -> 0 < x ->
    Rabs (ln (fexp (dig x)) - psi x) <= Rmax 1 (Rabs (psi x)) / 1023 + 3 / 10 ^ 9.
  Proof.
    intros Hp Hx. pose proof (fexp_accurate lg (dig x)) as A. pose proof (dig_accurate lg psi x Hp Hx) as B.
    unfold fexp_err in A.
    assert (C : Rmax 1 (Rabs (dig x)) <= Rmax 1 (Rabs (psi x)) + 1 / 10 ^ 9).
    { apply Rmax_lub.
      - pose proof (Rmax_l 1 (Rabs (psi x))). lra.
      - pose proof (Rmax_r 1 (Rabs (psi x))). pose proof (Rabs_triang_inv (dig x) (psi x)). lra. }
    apply Rabs_le_inv in A, B. apply Rabs_le. lra.
  Qed.

  Lemma phi_optimal psi X m gamma eps : is_digamma psi ->
    length gamma = mrows (p_beta m) -> (forall i, (i < mrows (p_beta m))%nat -> 0 < vget gamma i) ->
    (forall i n, (i < mrows (p_beta m))%nat -> (n < ncols (p_beta m))%nat -> 0 <= mget (p_beta m) i n) ->
    (forall x, In x X -> (0 <= x)%Z) -> length X = ncols (p_beta m) ->
    (forall i, (i < mrows (p_beta m))%nat -> Rmax 1 (Rabs (psi (vget gamma i))) / 1023 + 3 / 10 ^ 9 <= eps) ->
    exists phi, compute_unsupervised_phi dfuel (p_beta m) gamma = Ok phi /\
      forall q, competitor X (p_beta m) q ->
        phi_part psi X m gamma q <= phi_part psi X m gamma phi + 2 * eps * IZR (fold_right Z.add 0%Z X).
  Proof.
    intros Hpsi Hl Hg Hb HX HXl He.
    assert (Hin : forall x, In x gamma -> 0 < x).
    { intros x Hx. destruct (in_vget lg gamma x Hx) as (i & Hi & ->). apply Hg. now rewrite <- Hl. }
    exists (scale_normalize (p_beta m) (map fexp (map dig gamma))). split.
    { unfold compute_unsupervised_phi. rewrite (psi_of_R lg dfuel Hfuel) by assumption. cbn [bind].
      now rewrite (vmapM_fexp lg). }
    intros q Hq. unfold phi_part. change (fold_right Z.add 0%Z X) with (Zsum X). rewrite Zsum_rsum, HXl.
    rewrite <- rsum_mult_l, <- rsum_plus. apply rsum_le. intros n Hn.
    destruct (Z.eq_dec (nth n X 0%Z) 0) as [->|NX]; [lra|].
    assert (0 < IZR (nth n X 0%Z)) by (apply IZR_lt; pose proof (counts_nth X n HX); lia).
    set (c := psi (rsum (mrows (p_beta m)) (vget gamma))).
    set (K := mrows (p_beta m)) in *.
    set (w := fun i => mget (p_beta m) i n * exp (psi (vget gamma i) - c)).
    set (v := fun i => mget (p_beta m) i n * (exp (- c) * fexp (dig (vget gamma i)))).
    destruct (Hq n Hn NX) as [Qs Qi]. fold K in Qs, Qi.
    assert (L : forall i, (i < K)%nat -> mget (p_beta m) i n <> 0 -> ln (w i) = e_ln_theta psi m gamma i + ln (mget (p_beta m) i n)).
    { intros i Hi N. unfold w, e_ln_theta. fold K. fold c.
      rewrite ln_mult, ln_exp; [ring| |apply exp_pos]. pose proof (Hb i n Hi Hn). lra. }
    assert (P : forall i, (i < K)%nat -> mget (scale_normalize (p_beta m) (map fexp (map dig gamma))) i n = v i / rsum K v).
    { intros i Hi. unfold scale_normalize.
      set (W := mtab _ _ _). assert (EW : forall i, (i < K)%nat -> mget W i n = mget (p_beta m) i n * fexp (dig (vget gamma i))).
      { intros j Hj. unfold W. rewrite mget_tab by assumption. rewrite (vget_map lg fexp) by (now rewrite map_length, Hl).
        rewrite (vget_map lg dig) by (now rewrite Hl). reflexivity. }
      rewrite (normalize_cols_R lg) by (try exact Hi; unfold W; now rewrite ncols_tab).
      change (mrows W) with K. rewrite (rsum_ext K _ _ EW), EW by assumption.
      assert (EV : rsum K v = exp (- c) * rsum K (fun i => mget (p_beta m) i n * fexp (dig (vget gamma i)))).
      { rewrite <- rsum_mult_l. apply rsum_ext. intros j _. unfold v. ring. }
      rewrite EV. unfold v. pose proof (exp_pos (- c)).
      destruct (Req_EM_T _ 0) as [Z|Z].
      - (* no competitor: the column is unsupported *)
        exfalso. assert (rsum K (fun i => mget q i n) = 0); [|lra]. apply rsum_zero. intros j Hj. apply Qi; [assumption|].
        pose proof (rsum_zero_inv K (fun i => mget (p_beta m) i n * fexp (dig (vget gamma i)))) as ZI.
        assert (Zj : mget (p_beta m) j n * fexp (dig (vget gamma j)) = 0).
        { apply ZI; [|exact Z|exact Hj]. intros k Hk. apply Rmult_le_pos; [now apply Hb|]. left. apply fexp_pos. }
        apply Rmult_integral in Zj. pose proof (fexp_pos lg (dig (vget gamma j))). lra.
      - field. split; [exact Z|lra]. }
    assert (G : rsum K (fun i => mget q i n * (ln (w i) - ln (mget q i n))) <=
                rsum K (fun i => v i / rsum K v * (ln (w i) - ln (v i / rsum K v))) + 2 * eps).
    { apply (gibbs_approx K w v eps (fun i => mget q i n)).
      - intros i Hi. pose proof (Hb i n Hi Hn) as B. pose proof (fexp_pos lg (dig (vget gamma i))) as F.
        pose proof (exp_pos (- c)) as F2. pose proof (exp_pos (psi (vget gamma i) - c)) as F3.
        assert (F4 : 0 < exp (- c) * fexp (dig (vget gamma i))) by now apply Rmult_lt_0_compat.
        split; [unfold v; apply Rmult_le_pos; lra|]. split.
        + unfold w, v. split; intros E; apply Rmult_integral in E as [E|E]; try lra; rewrite E; ring.
        + intros NV. assert (NB : mget (p_beta m) i n <> 0) by (intros Z; apply NV; unfold v; rewrite Z; ring).
          rewrite L by assumption. unfold v, e_ln_theta. fold K. fold c.
          rewrite !ln_mult, ln_exp by (lra || assumption).
          replace (_ - _) with (ln (fexp (dig (vget gamma i))) - psi (vget gamma i)) by ring.
          eapply Rle_trans; [apply fexp_dig_accurate; [assumption|now apply Hg]|now apply He].
      - exact Qs.
      - intros i Hi. destruct (Qi i Hi) as [Q1 Q2]. split; [assumption|]. intros E. apply Q2.
        unfold w in E. apply Rmult_integral in E as [E|E]; [assumption|].
        pose proof (exp_pos (psi (vget gamma i) - c)). lra. }
    rewrite (rsum_ext K (fun i => mget q i n * (e_ln_theta psi m gamma i + ln (mget (p_beta m) i n) - ln (mget q i n)))
                        (fun i => mget q i n * (ln (w i) - ln (mget q i n)))).
    2:{ intros i Hi. destruct (Req_dec (mget (p_beta m) i n) 0) as [Z|Z].
        - destruct (Qi i Hi) as [_ Q2]. rewrite (Q2 Z). ring.
        - now rewrite L. }
    rewrite (rsum_ext K (fun i => mget _ i n * (e_ln_theta psi m gamma i + ln (mget (p_beta m) i n) - ln (mget (scale_normalize _ _) i n)))
                        (fun i => v i / rsum K v * (ln (w i) - ln (v i / rsum K v)))).
    2:{ intros i Hi. rewrite P by assumption. destruct (Req_dec (mget (p_beta m) i n) 0) as [Z|Z].
        - replace (v i) with 0 by (unfold v; rewrite Z; ring). unfold Rdiv. ring.
        - now rewrite L. }
    apply Rmult_le_compat_l with (r := IZR (nth n X 0%Z)) in G; [|lra]. lra.
  Qed.
End Opt.
