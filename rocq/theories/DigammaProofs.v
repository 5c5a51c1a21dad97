(** Lemmas about digamma (utils.hpp 390-404) in exact arithmetic. *)
Require Import Reals ZArith List Bool Lia Lra Psatz.
From Coquelicot Require Import Coquelicot.
Require Import Verif.Base Verif.Scalar Verif.Mat Verif.RealLemmas Verif.UtilsModel Verif.UtilsSpec.
Import ListNotations.
Open Scope R_scope.

(** ** One step of the recurrence *)
Definition rat (t : R) : R := (1 / 24) / t ^ 2 - (7 / 960) / t ^ 4 + (31 / 8064) / t ^ 6 - (127 / 30720) / t ^ 8.
Definition ser (x : R) : R := ln (x - 1 / 2) + rat (x - 1 / 2).
Definition delta (w : R) : R := ser (w + 1) - ser w - / w.
Definition qpoly (u : R) : R :=
  29 / 384 + (423 / 35840) * u + (1423 / 2580480) * u ^ 2 + (61 / 1474560) * u ^ 3 - (157 / 11796480) * u ^ 4
  + (683 / 330301440) * u ^ 5 - (47 / 264241152) * u ^ 6 + (1 / 150994944) * u ^ 7.

Lemma rat_step w : 7 <= w ->
  w * (rat (w + 1 / 2) - rat (w - 1 / 2)) + / (12 * w ^ 2) + / (80 * w ^ 4) + / (448 * w ^ 6) + / (2304 * w ^ 8)
  = / w ^ 10 * (qpoly (/ w ^ 2) / (1 - / w ^ 2 / 4) ^ 8).
Proof.
  intros H. unfold rat, qpoly. field.
  assert (0 < w) by lra. repeat split; try lra; nra.
Qed.

Lemma qpoly_bound u : 0 <= u <= 1 / 49 -> 0 <= qpoly u / (1 - u / 4) ^ 8 <= 99 / 1000.
Proof.
  intros U. unfold qpoly.
  assert (0 <= u ^ 2 <= u) by (cbn; nra). assert (0 <= u ^ 3 <= u) by (cbn in *; nra).
  assert (0 <= u ^ 4 <= u) by (cbn in *; nra). assert (0 <= u ^ 5 <= u) by (cbn in *; nra).
  assert (0 <= u ^ 6 <= u) by (cbn in *; nra). assert (0 <= u ^ 7 <= u) by (cbn in *; nra).
  assert (A : 95 / 100 <= (1 - u / 4) ^ 8).
  { apply Rle_trans with ((1 - 1 / 196) ^ 8); [lra|]. apply pow_incr. lra. }
  split.
  - apply Rmult_le_pos; [lra|]. left. apply Rinv_0_lt_compat. lra.
  - apply Rmult_le_reg_r with ((1 - u / 4) ^ 8); [lra|]. unfold Rdiv at 1. rewrite Rmult_assoc, Rinv_l by lra. lra.
Qed.

Lemma delta_bound w : 7 <= w -> Rabs (delta w) <= / (10 * 7 ^ 9) * / (w * w).
Proof.
  intros H. assert (W : 0 < w) by lra. set (v := / (2 * w)).
  assert (V : 0 <= v <= 1 / 2).
  { unfold v. split; [left; apply Rinv_0_lt_compat; lra|]. replace (1 / 2) with (/ 2) by lra. apply Rinv_le_contravar; lra. }
  pose proof (ln_lower v V) as L1. pose proof (ln_upper v V) as L2.
  assert (EL : ln (1 + v) - ln (1 - v) = ln (w + 1 / 2) - ln (w - 1 / 2)).
  { replace (1 + v) with ((w + 1 / 2) * / w) by (unfold v; field; lra).
    replace (1 - v) with ((w - 1 / 2) * / w) by (unfold v; field; lra).
    assert (0 < / w) by (now apply Rinv_0_lt_compat).
    rewrite !ln_mult by lra. ring. }
  rewrite EL in L1, L2.
  assert (EP : w * lpoly v = 1 + (/ (12 * w ^ 2) + / (80 * w ^ 4) + / (448 * w ^ 6) + / (2304 * w ^ 8))).
  { unfold lpoly, v. field. lra. }
  assert (ET : w * v ^ 11 = / w ^ 10 * / 2048). { unfold v. field. lra. }
  pose proof (rat_step w H) as ER.
  assert (ED : w * delta w = w * (ln (w + 1 / 2) - ln (w - 1 / 2)) - 1 + w * (rat (w + 1 / 2) - rat (w - 1 / 2))).
  { unfold delta, ser. replace (w + 1 - 1 / 2) with (w + 1 / 2) by lra. field. lra. }
  set (u := / w ^ 2) in *. set (q := qpoly u / (1 - u / 4) ^ 8) in *.
  assert (U : 0 <= u <= 1 / 49).
  { unfold u. split; [left; apply Rinv_0_lt_compat; nra|]. replace (1 / 49) with (/ 49) by lra. apply Rinv_le_contravar; nra. }
  assert (Q : 0 <= q <= 99 / 1000). { exact (qpoly_bound u U). }
  assert (P10 : 0 < / w ^ 10) by (apply Rinv_0_lt_compat, pow_lt; lra).
  assert (M1 : w * lpoly v <= w * (ln (w + 1 / 2) - ln (w - 1 / 2))) by (apply Rmult_le_compat_l; lra).
  assert (M2 : w * (ln (w + 1 / 2) - ln (w - 1 / 2)) <= w * (lpoly v + v ^ 11)) by (apply Rmult_le_compat_l; lra).
  assert (B1 : 0 <= w * delta w) by nra.
  assert (B2 : w * delta w <= / w ^ 10 * / 10) by nra.
  assert (D0 : 0 <= delta w) by nra.
  rewrite Rabs_pos_eq by assumption.
  apply Rmult_le_reg_l with w; [assumption|]. eapply Rle_trans; [exact B2|].
  replace (w * (/ (10 * 7 ^ 9) * / (w * w))) with (/ (7 ^ 9 * w) * / 10) by (field; lra).
  apply Rmult_le_compat_r; [lra|]. apply Rinv_le_contravar; [nra|].
  replace (w ^ 10) with (w ^ 9 * w) by ring. apply Rmult_le_compat_r; [lra|]. apply pow_incr. lra.
Qed.

(** ** From one step to the limit *)
(** the value after shifting the argument by n *)
Definition shifted (x : R) (n : nat) : R := ser (x + INR n) - rsum n (fun k => / (x + INR k)).

Lemma shifted_S x n : shifted x (S n) - shifted x n = delta (x + INR n).
Proof. unfold shifted, delta. rewrite rsum_S, S_INR. replace (x + (INR n + 1)) with (x + INR n + 1) by ring. ring. Qed.

Lemma shifted_close x n : 7 <= x -> Rabs (shifted x n - shifted x 0) <= / (10 * 7 ^ 9) * (/ (x - 1) - / (x - 1 + INR n)).
Proof.
  intros H. induction n as [|n IH].
  - cbn [INR]. rewrite Rplus_0_r. unfold Rminus. rewrite !Rplus_opp_r, Rabs_R0. lra.
  - pose proof (pos_INR n) as N.
    replace (shifted x (S n) - shifted x 0) with (delta (x + INR n) + (shifted x n - shifted x 0)).
    2:{ rewrite <- (shifted_S x n). ring. }
    eapply Rle_trans; [apply Rabs_triang|].
    assert (D := delta_bound (x + INR n) ltac:(lra)). set (C := / (10 * 7 ^ 9)) in *.
    assert (PC : 0 < C) by (unfold C; apply Rinv_0_lt_compat; lra).
    assert (T : / ((x + INR n) * (x + INR n)) <= / (x - 1 + INR n) - / (x - 1 + INR (S n))).
    { rewrite S_INR. set (y := x - 1 + INR n). replace (x + INR n) with (y + 1) by (unfold y; ring).
      replace (x - 1 + (INR n + 1)) with (y + 1) by (unfold y; ring).
      assert (Y : 6 <= y) by (unfold y; lra).
      replace (/ y - / (y + 1)) with (/ (y * (y + 1))) by (field; lra).
      apply Rinv_le_contravar; nra. }
    assert (C * / ((x + INR n) * (x + INR n)) <= C * (/ (x - 1 + INR n) - / (x - 1 + INR (S n)))).
    { apply Rmult_le_compat_l; lra. }
    lra.
Qed.

Lemma rat_small t : 1 <= t -> Rabs (rat t) <= / t.
Proof.
  intros H. unfold rat. set (r := / t).
  assert (Rr : 0 < r <= 1). { unfold r. split; [apply Rinv_0_lt_compat; lra|]. rewrite <- Rinv_1. apply Rinv_le_contravar; lra. }
  replace (1 / 24 / t ^ 2 - 7 / 960 / t ^ 4 + 31 / 8064 / t ^ 6 - 127 / 30720 / t ^ 8)
    with (1 / 24 * r ^ 2 - 7 / 960 * r ^ 4 + 31 / 8064 * r ^ 6 - 127 / 30720 * r ^ 8) by (unfold r; field; lra).
  assert (0 <= r ^ 2 <= r) by (cbn; nra).
  assert (0 <= r ^ 4 <= r) by (replace (r ^ 4) with (r ^ 2 * r ^ 2) by ring; nra).
  assert (0 <= r ^ 6 <= r) by (replace (r ^ 6) with (r ^ 4 * r ^ 2) by ring; nra).
  assert (0 <= r ^ 8 <= r) by (replace (r ^ 8) with (r ^ 4 * r ^ 4) by ring; nra).
  apply Rabs_le. lra.
Qed.

Lemma approx_shifted x n : 0 < x -> (1 <= n)%nat -> Rabs (digamma_approx x n - shifted x (S n)) <= (x + 2) / INR n.
Proof.
  intros Hx Hn. unfold digamma_approx, shifted, ser. apply le_INR in Hn. change (INR 1) with 1 in Hn.
  rewrite S_INR. set (m := INR n) in *. set (s := rsum (S n) _).
  replace (ln m - s - (ln (x + (m + 1) - 1 / 2) + rat (x + (m + 1) - 1 / 2) - s))
    with (- (ln (x + (m + 1) - 1 / 2) - ln m) - rat (x + (m + 1) - 1 / 2)) by ring.
  set (t := x + (m + 1) - 1 / 2).
  assert (T : 1 <= t) by (unfold t; lra).
  assert (L0 : 0 <= ln t - ln m). { assert (ln m <= ln t); [|lra]. apply Rcomplements.ln_le; unfold t; lra. }
  assert (L1 : ln t - ln m <= (x + 1) / m).
  { replace (ln t - ln m) with (ln (t / m)).
    2:{ unfold Rdiv. rewrite ln_mult, ln_Rinv; try lra. apply Rinv_0_lt_compat. lra. }
    assert (0 < t / m) by (apply Rdiv_lt_0_compat; lra).
    pose proof (exp_ineq1_le (ln (t / m))) as Q. rewrite exp_ln in Q by assumption.
    assert (t / m - 1 <= (x + 1) / m); [|lra].
    replace (t / m - 1) with ((t - m) / m) by (field; lra). apply Rmult_le_compat_r; [|unfold t; lra].
    left. apply Rinv_0_lt_compat. lra. }
  pose proof (rat_small t T) as RS. apply Rabs_le_inv in RS.
  assert (/ t <= / m) by (apply Rinv_le_contravar; unfold t; lra).
  replace ((x + 2) / m) with ((x + 1) / m + / m) by (field; lra).
  apply Rabs_le. lra.
Qed.

Lemma approx_cv_shifted x l : 0 < x -> Un_cv (digamma_approx x) l <-> Un_cv (fun n => shifted x (S n)) l.
Proof.
  intros Hx. rewrite <- !is_lim_seq_Reals.
  assert (Z : is_lim_seq (fun n => (x + 2) / INR n) 0).
  { replace (Finite 0) with (Rbar_mult (x + 2) 0) by (cbn; f_equal; ring).
    apply is_lim_seq_mult'; [apply is_lim_seq_const|].
    replace (Finite 0) with (Rbar_inv p_infty) by reflexivity.
    apply is_lim_seq_inv; [apply is_lim_seq_INR|discriminate]. }
  assert (D : is_lim_seq (fun n => digamma_approx x n - shifted x (S n)) 0).
  { apply is_lim_seq_abs_0. apply is_lim_seq_le_le_loc with (u := fun _ => 0) (w := fun n => (x + 2) / INR n).
    - exists 1%nat. intros n Hn. split; [apply Rabs_pos|now apply approx_shifted].
    - apply is_lim_seq_const.
    - exact Z. }
  split; intros H.
  - apply is_lim_seq_ext with (fun n => digamma_approx x n - (digamma_approx x n - shifted x (S n))); [intros; ring|].
    replace l with (l - 0) by ring. now apply is_lim_seq_minus'.
  - apply is_lim_seq_ext with (fun n => (digamma_approx x n - shifted x (S n)) + shifted x (S n)); [intros; ring|].
    replace l with (0 + l) by ring. now apply is_lim_seq_plus'.
Qed.

Lemma shifted_shift x m n : shifted x (m + n) = shifted (x + INR m) n - rsum m (fun k => / (x + INR k)).
Proof.
  unfold shifted. rewrite plus_INR. replace (x + (INR m + INR n)) with (x + INR m + INR n) by ring.
  assert (E : rsum (m + n) (fun k => / (x + INR k)) = rsum m (fun k => / (x + INR k)) + rsum n (fun k => / (x + INR m + INR k))).
  { induction n as [|n IH]; [rewrite Nat.add_0_r, rsum_0; ring|]. rewrite Nat.add_succ_r, !rsum_S, IH, plus_INR.
    replace (x + (INR m + INR n)) with (x + INR m + INR n) by ring. ring. }
  rewrite E. ring.
Qed.

(** Whatever the limit, it is within 10^-9 of the value after shifting to at least 7. *)
Lemma limit_close x m l : 0 < x -> 7 <= x + INR m -> Un_cv (digamma_approx x) l ->
  Rabs (l - shifted x m) <= 1 / 10 ^ 9.
Proof.
  intros Hx Hm Hl. apply (proj1 (approx_cv_shifted x l Hx)) in Hl. rewrite <- is_lim_seq_Reals in Hl.
  assert (B : forall n, (m <= S n)%nat -> Rabs (shifted x (S n) - shifted x m) <= 1 / 10 ^ 9).
  { intros n Hn. replace (S n) with (m + (S n - m))%nat by lia. set (k := (S n - m)%nat).
    replace (shifted x m) with (shifted x (m + 0)) by (f_equal; lia). rewrite !shifted_shift.
    set (y := x + INR m) in *.
    replace (shifted y k - _ - (shifted y 0 - _)) with (shifted y k - shifted y 0) by ring.
    eapply Rle_trans; [now apply shifted_close|].
    pose proof (pos_INR k). assert (0 < / (y - 1 + INR k)) by (apply Rinv_0_lt_compat; lra).
    assert (/ (y - 1) <= / 6) by (apply Rinv_le_contravar; lra).
    assert (P : 0 < / (10 * 7 ^ 9)) by (apply Rinv_0_lt_compat; lra).
    assert (/ (10 * 7 ^ 9) * (/ (y - 1) - / (y - 1 + INR k)) <= / (10 * 7 ^ 9) * / 6) by (apply Rmult_le_compat_l; lra).
    lra. }
  assert (L : is_lim_seq (fun n => Rabs (shifted x (S n) - shifted x m)) (Rabs (l - shifted x m))).
  { apply (is_lim_seq_abs _ (l - shifted x m)). apply is_lim_seq_minus'; [exact Hl|apply is_lim_seq_const]. }
  apply (is_lim_seq_le_loc (fun n => Rabs (shifted x (S n) - shifted x m)) (fun _ => 1 / 10 ^ 9)
           (Rabs (l - shifted x m)) (1 / 10 ^ 9)); [|exact L|apply is_lim_seq_const].
  exists m. intros n Hn. apply B. lia.
Qed.

(** The digamma function exists. *)
Lemma shifted_cauchy x m : 7 <= x + INR m ->
  forall p q, (m <= p <= q)%nat -> Rabs (shifted x q - shifted x p) <= / (x + INR p - 1).
Proof.
  intros Hm p q [Hp Hq]. replace q with (p + (q - p))%nat by lia. set (k := (q - p)%nat).
  replace (shifted x p) with (shifted x (p + 0)) by (f_equal; lia). rewrite !shifted_shift.
  set (y := x + INR p) in *. apply le_INR in Hp.
  replace (shifted y k - _ - (shifted y 0 - _)) with (shifted y k - shifted y 0) by ring.
  assert (Y : 7 <= y) by (unfold y; lra).
  eapply Rle_trans; [now apply shifted_close|].
  pose proof (pos_INR k). assert (0 < / (y - 1 + INR k)) by (apply Rinv_0_lt_compat; lra).
  assert (0 < / (y - 1)) by (apply Rinv_0_lt_compat; lra).
  assert (P : 0 < / (10 * 7 ^ 9) < 1). { split; [apply Rinv_0_lt_compat; lra|]. rewrite <- Rinv_1. apply Rinv_lt_contravar; lra. }
  assert (/ (y - 1 + INR k) <= / (y - 1)) by (apply Rinv_le_contravar; lra).
  nra.
Qed.
Lemma digamma_limit_exists x : 0 < x -> { l | Un_cv (digamma_approx x) l }.
Proof.
  intros Hx. destruct (Rcomplete.R_complete (fun n => shifted x (S n))) as [l Hl].
  - intros eps He. destruct (archimed (/ eps)) as [A _].
    assert (Ie : 0 < / eps) by now apply Rinv_0_lt_compat.
    set (N := Z.to_nat (up (/ eps))). exists (N + 8)%nat.
    assert (BN : / eps < INR N). { unfold N. rewrite INR_IZR_INZ, Z2Nat.id; [lra|]. apply le_IZR. lra. }
    assert (G : forall p q, (N + 8 <= p)%nat -> (p <= q)%nat -> R_dist (shifted x (S q)) (shifted x (S p)) < eps).
    { intros p q Hp Hq. unfold R_dist. eapply Rle_lt_trans.
      - apply (shifted_cauchy x 7); [|lia]. replace (INR 7) with 7 by (rewrite INR_IZR_INZ; reflexivity). lra.
      - apply le_INR in Hp. rewrite plus_INR in Hp. replace (INR 8) with 8 in Hp by (rewrite INR_IZR_INZ; reflexivity).
        rewrite S_INR. rewrite <- (Rinv_inv eps). apply Rinv_lt_contravar; [|lra].
        apply Rmult_lt_0_compat; lra. }
    intros n m Hn Hm. destruct (le_ge_dec n m) as [L|L].
    + rewrite R_dist_sym. apply G; lia.
    + apply G; lia.
  - exists l. apply approx_cv_shifted; assumption.
Qed.
Lemma digamma_exists : exists psi, is_digamma psi.
Proof.
  exists (fun x => match Rlt_dec 0 x with left H => proj1_sig (digamma_limit_exists x H) | right _ => 0 end).
  intros x Hx. destruct (Rlt_dec 0 x) as [H|H]; [|contradiction]. exact (proj2_sig (digamma_limit_exists x H)).
Qed.

(** ** The code *)
Section Exact.
  Variable lg : R -> R.
  Local Instance RO : ops R := Rops lg.

  Lemma digamma_series_ser x : 1 / 2 < x -> digamma_series x = ser x.
  Proof.
    intros H. unfold digamma_series, ser, rat, two. cbn. field. lra.
  Qed.

  Lemma digamma_shift_ok fuel : forall x r, 0 < x -> 7 <= x + INR fuel ->
    exists m, (m <= fuel)%nat /\ 7 <= x + INR m /\ (forall k, (k < m)%nat -> x + INR k < 7) /\
      digamma_shift fuel x r = Ok (x + INR m, r - rsum m (fun k => / (x + INR k))).
  Proof.
    induction fuel as [|f IH]; intros x r Hx H; cbn [digamma_shift].
    - cbn [INR] in H. destruct (ltb x (ofZ 7)) eqn:E.
      + exfalso. cbn in E. destruct (Rlt_dec x 7); [lra|discriminate].
      + exists 0%nat. cbn [INR]. split; [lia|]. split; [lra|]. split; [intros k Hk; lia|].
        f_equal. f_equal; [ring|]. rewrite rsum_0. ring.
    - destruct (ltb x (ofZ 7)) eqn:E.
      + assert (E' : x < 7). { cbn in E. destruct (Rlt_dec x 7); [assumption|discriminate]. }
        destruct (IH (x + 1) (r - 1 / x)) as (m & Hm & H7 & Hlow & Em); [lra|rewrite S_INR in H; lra|].
        exists (S m). split; [lia|]. rewrite S_INR. split; [lra|]. split.
        * intros k Hk. destruct k as [|k]; [cbn; lra|]. rewrite S_INR. specialize (Hlow k ltac:(lia)). lra.
        * change (x + one)%S with (x + 1). change (r - one / x)%S with (r - 1 / x). rewrite Em. f_equal. f_equal; [ring|].
          rewrite rsum_S_l. change (INR 0) with 0. rewrite Rplus_0_r.
          rewrite (rsum_ext m (fun k => / (x + INR (S k))) (fun k => / (x + 1 + INR k))).
          -- field. lra.
          -- intros k _. rewrite S_INR. f_equal. ring.
      + assert (E' : 7 <= x). { cbn in E. destruct (Rlt_dec x 7); [discriminate|lra]. }
        exists 0%nat. cbn [INR]. split; [lia|]. split; [lra|]. split; [intros k Hk; lia|].
        f_equal. f_equal; [ring|]. rewrite rsum_0. ring.
  Qed.

  (** digamma as a total function of the positive reals *)
  Definition dig (x : R) : R := match digamma 7 x with Ok v => v | _ => 0 end.

  Lemma digamma_steps fuel x : 0 < x -> (7 <= fuel)%nat ->
    exists m, (m <= 7)%nat /\ 7 <= x + INR m /\ digamma fuel x = Ok (shifted x m).
  Proof.
    intros Hx Hf. assert (H7 : INR 7 = 7) by (rewrite INR_IZR_INZ; reflexivity).
    assert (Hf' : 7 <= INR fuel). { rewrite <- H7. now apply le_INR. }
    destruct (digamma_shift_ok fuel x 0 Hx) as (m & Hm & M7 & Hlow & E); [lra|].
    assert (Lm : (m <= 7)%nat).
    { destruct (le_gt_dec m 7) as [L|L]; [assumption|]. specialize (Hlow 7%nat L). lra. }
    exists m. split; [assumption|]. split; [assumption|].
    unfold digamma. change (zero : R) with 0. rewrite E. cbn [bind]. f_equal.
    rewrite digamma_series_ser by lra. unfold shifted. cbn. ring.
  Qed.
  Lemma digamma_fuel fuel x : 0 < x -> (7 <= fuel)%nat -> digamma fuel x = Ok (dig x).
  Proof.
    intros Hx Hf. destruct (digamma_steps fuel x Hx Hf) as (m & Hm & M7 & E).
    destruct (digamma_steps 7 x Hx (le_n 7)) as (m' & Hm' & M7' & E'). unfold dig. rewrite E', E. f_equal.
    unfold digamma in E, E'. change (zero : R) with 0 in *.
    destruct (digamma_shift_ok fuel x 0 Hx) as (k & _ & K7 & Klow & EK).
    { apply le_INR in Hf. replace (INR 7) with 7 in Hf by (rewrite INR_IZR_INZ; reflexivity). lra. }
    destruct (digamma_shift_ok 7 x 0 Hx) as (k' & _ & K7' & Klow' & EK').
    { replace (INR 7) with 7 by (rewrite INR_IZR_INZ; reflexivity). lra. }
    assert (k = k').
    { destruct (lt_eq_lt_dec k k') as [[L|L]|L]; [specialize (Klow' k L); lra|assumption|specialize (Klow k' L); lra]. }
    subst k'. rewrite EK in E. rewrite EK' in E'. rewrite E in E'. now injection E'.
  Qed.
  Lemma dig_accurate psi x : is_digamma psi -> 0 < x -> Rabs (dig x - psi x) <= 1 / 10 ^ 9.
  Proof.
    intros H Hx. destruct (digamma_steps 7 x Hx (le_n 7)) as (m & Hm & M7 & E). unfold dig. rewrite E.
    rewrite Rabs_minus_sym. apply limit_close; [assumption|assumption|now apply H].
  Qed.
End Exact.
