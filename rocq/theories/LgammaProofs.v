(** The digamma and log-gamma functions; the logarithm of the normaliser of the Dirichlet distribution is convex. *)
Require Import Reals ZArith List Arith Bool Lia Lra.
Require Import Verif.Base Verif.Scalar Verif.Mat Verif.RealLemmas Verif.UtilsModel Verif.UtilsSpec Verif.UtilsProofs Verif.DigammaProofs.
Require Import Verif.BuilderModel Verif.EStepModel Verif.EStepSpec Verif.EStepOpt Verif.EStepElbo Verif.LgammaSpec.
Import ListNotations.
Open Scope R_scope.

(** ** ln (x - 1) <= psi x <= ln x *)
Lemma ln_step_le t : 0 < t -> ln (t + 1) - ln t <= / t.
Proof.
  intros H. rewrite <- ln_quot by lra. pose proof (ln_le_minus_1 ((t + 1) / t) ltac:(apply Rdiv_lt_0_compat; lra)).
  replace ((t + 1) / t - 1) with (/ t) in H0 by (field; lra). exact H0.
Qed.
Lemma ln_step_ge t : 0 < t -> / (t + 1) <= ln (t + 1) - ln t.
Proof.
  intros H. pose proof (ln_le_minus_1 (t / (t + 1)) ltac:(apply Rdiv_lt_0_compat; lra)). rewrite ln_quot in H0 by lra.
  replace (t / (t + 1) - 1) with (- / (t + 1)) in H0 by (field; lra). lra.
Qed.
Lemma limit_le (u : nat -> R) l b : Un_cv u l -> (forall n, (1 <= n)%nat -> u n <= b) -> l <= b.
Proof.
  intros C H. apply Rnot_lt_le. intros L. destruct (C (l - b)) as (n & Hn); [lra|]. specialize (Hn (S n) ltac:(lia)). specialize (H (S n) ltac:(lia)).
  unfold R_dist in Hn. rewrite Rabs_left1 in Hn; lra.
Qed.
Lemma limit_ge (u : nat -> R) l b c : 0 < c -> Un_cv u l -> (forall n, (1 <= n)%nat -> b - c / INR n <= u n) -> b <= l.
Proof.
  intros Pc C H. apply Rnot_lt_le. intros L. set (e := (b - l) / 2). destruct (C e) as (n & Hn); [unfold e; lra|].
  destruct (archimed_cor1 (e / c)) as (k & Hk & Pk); [apply Rdiv_lt_0_compat; unfold e; lra|].
  specialize (Hn (n + k)%nat ltac:(lia)). specialize (H (n + k)%nat ltac:(lia)). unfold R_dist in Hn. apply Rabs_def2 in Hn.
  assert (0 < INR k) by (apply lt_0_INR; lia). assert (INR k <= INR (n + k)) by (apply le_INR; lia).
  assert (c / INR (n + k) < e).
  { apply Rle_lt_trans with (c / INR k).
    - apply Rmult_le_compat_l; [lra|]. apply Rinv_le_contravar; lra.
    - apply Rmult_lt_compat_l with (r := c) in Hk; [|lra]. replace (c * (e / c)) with e in Hk by (field; lra). exact Hk. }
  unfold e in *. lra.
Qed.
Lemma psi_upper psi x : is_digamma psi -> 0 < x -> psi x <= ln x.
Proof.
  intros P H. apply (limit_le _ _ _ (P x H)). intros n Hn. unfold digamma_approx.
  assert (S : forall k, ln (x + INR k) - ln x <= rsum k (fun k => / (x + INR k))).
  { induction k as [|k IH]; [rewrite rsum_0; cbn [INR]; rewrite Rplus_0_r; lra|]. rewrite rsum_S, S_INR. pose proof (pos_INR k).
    pose proof (ln_step_le (x + INR k) ltac:(lra)). rewrite <- Rplus_assoc. lra. }
  specialize (S (Datatypes.S n)). rewrite S_INR in S. assert (1 <= INR n) by (apply (le_INR 1); exact Hn).
  assert (ln (INR n) <= ln (x + (INR n + 1))) by (left; apply ln_increasing; lra). lra.
Qed.
Lemma psi_lower psi x : is_digamma psi -> 0 < x -> ln x <= psi (x + 1).
Proof.
  intros P H. apply (limit_ge _ _ _ (x + 1) ltac:(lra) (P (x + 1) ltac:(lra))). intros n Hn. unfold digamma_approx.
  assert (S : forall k, rsum k (fun k => / (x + 1 + INR k)) <= ln (x + INR k) - ln x).
  { induction k as [|k IH]; [rewrite rsum_0; cbn [INR]; rewrite Rplus_0_r; lra|]. rewrite rsum_S, S_INR. pose proof (pos_INR k).
    pose proof (ln_step_ge (x + INR k) ltac:(lra)). replace (x + INR k + 1) with (x + 1 + INR k) in * by ring. replace (x + (INR k + 1)) with (x + 1 + INR k) by ring. lra. }
  specialize (S (Datatypes.S n)). rewrite S_INR in S. assert (1 <= INR n) by (apply (le_INR 1); exact Hn).
  pose proof (ln_le_minus_1 ((x + (INR n + 1)) / INR n) ltac:(apply Rdiv_lt_0_compat; lra)) as L. rewrite ln_quot in L by lra.
  replace ((x + (INR n + 1)) / INR n - 1) with ((x + 1) / INR n) in L by (field; lra). lra.
Qed.


(** ** Limits *)
Lemma cv_le (u v : nat -> R) a b : Un_cv u a -> Un_cv v b -> (forall n, (1 <= n)%nat -> u n <= v n) -> a <= b.
Proof.
  intros U W H. apply Rnot_lt_le. intros L. set (e := (a - b) / 2). destruct (U e) as (n1 & H1); [unfold e; lra|]. destruct (W e) as (n2 & H2); [unfold e; lra|].
  specialize (H1 (S (n1 + n2)) ltac:(lia)). specialize (H2 (S (n1 + n2)) ltac:(lia)). specialize (H (S (n1 + n2)) ltac:(lia)).
  unfold R_dist in *. apply Rabs_def2 in H1, H2. unfold e in *. lra.
Qed.
Lemma cv_ext (u v : nat -> R) a : Un_cv u a -> (forall n, (1 <= n)%nat -> u n = v n) -> Un_cv v a.
Proof. intros U H e He. destruct (U e He) as (n & Hn). exists (S n). intros k Hk. rewrite <- H by lia. apply Hn. lia. Qed.
Lemma cv_inv_lin a b : 0 < a -> Un_cv (fun n => b / (a + INR n)) 0.
Proof.
  intros Pa e He. destruct (archimed_cor1 (e / (Rabs b + 1))) as (k & Hk & Pk); [apply Rdiv_lt_0_compat; pose proof (Rabs_pos b); lra|].
  exists k. intros n Hn. unfold R_dist. rewrite Rminus_0_r. unfold Rdiv. rewrite Rabs_mult. pose proof (Rabs_pos b). pose proof (le_INR _ _ Hn). assert (0 < INR k) by (apply lt_0_INR; lia).
  rewrite (Rabs_pos_eq (/ (a + INR n))) by (left; apply Rinv_0_lt_compat; lra).
  apply Rle_lt_trans with (Rabs b * / INR k); [apply Rmult_le_compat_l; [lra|]; apply Rinv_le_contravar; lra|].
  apply Rle_lt_trans with ((Rabs b + 1) * / INR k); [apply Rmult_le_compat_r; [left; apply Rinv_0_lt_compat; lra|lra]|].
  apply Rmult_lt_compat_l with (r := Rabs b + 1) in Hk; [|lra]. replace ((Rabs b + 1) * (e / (Rabs b + 1))) with e in Hk by (field; lra). exact Hk.
Qed.
Lemma ln_sub_le x y : 0 < x -> 0 < y -> ln y - ln x <= (y - x) / x.
Proof.
  intros Hx Hy. rewrite <- ln_quot by lra. pose proof (ln_le_minus_1 (y / x) ltac:(apply Rdiv_lt_0_compat; lra)). replace ((y - x) / x) with (y / x - 1) by (field; lra). lra.
Qed.

(** ** The recurrences *)
Lemma lgamma_rec lg x : is_lgamma lg -> 0 < x -> lg (x + 1) = lg x + ln x.
Proof.
  intros H Hx. apply (UL_sequence (lgamma_approx (x + 1))); [apply H; lra|].
  assert (Z : Un_cv (fun n => ln (INR n) - ln (x + 1 + INR n)) 0).
  { intros e He. destruct (cv_inv_lin 1 (2 * (x + 1)) ltac:(lra) e He) as (n0 & H0). exists (S n0). intros n Hn. specialize (H0 n ltac:(lia)).
    assert (P : 1 <= INR n) by (apply (le_INR 1); lia). unfold R_dist in *. rewrite Rminus_0_r in *. eapply Rle_lt_trans; [|exact H0].
    assert (L : ln (INR n) <= ln (x + 1 + INR n)) by (left; apply ln_increasing; lra). rewrite Rabs_left1 by lra.
    rewrite Rabs_pos_eq by (apply Rmult_le_pos; [lra|left; apply Rinv_0_lt_compat; lra]).
    pose proof (ln_sub_le (INR n) (x + 1 + INR n) ltac:(lra) ltac:(lra)) as B. eapply Rle_trans; [|eapply Rle_trans; [exact B|]]; [lra|].
    replace (x + 1 + INR n - INR n) with (x + 1) by ring. unfold Rdiv. apply Rmult_le_reg_r with (INR n * (1 + INR n)); [nra|].
    replace ((x + 1) * / INR n * (INR n * (1 + INR n))) with ((x + 1) * (1 + INR n)) by (field; lra).
    replace (2 * (x + 1) * / (1 + INR n) * (INR n * (1 + INR n))) with (2 * (x + 1) * INR n) by (field; lra). nra. }
  replace (lg x + ln x) with (lg x + ln x + 0) by ring.
  apply (cv_ext (fun n => lgamma_approx x n + ln x + (ln (INR n) - ln (x + 1 + INR n)))).
  - apply CV_plus; [|exact Z]. apply CV_plus; [now apply H|]. intros e He. exists 0%nat. intros n _. unfold R_dist. rewrite Rminus_diag_eq, Rabs_R0 by reflexivity. exact He.
  - intros n _. unfold lgamma_approx. rewrite rsum_S_l, (rsum_S n (fun k => ln (x + 1 + INR k))). change (INR 0) with 0. rewrite Rplus_0_r.
    rewrite (rsum_ext n (fun i => ln (x + INR (S i))) (fun k => ln (x + 1 + INR k))); [ring|]. intros i _. f_equal. rewrite S_INR. ring.
Qed.
Lemma digamma_rec psi x : is_digamma psi -> 0 < x -> psi (x + 1) = psi x + / x.
Proof.
  intros H Hx. apply (UL_sequence (digamma_approx (x + 1))); [apply H; lra|].
  replace (psi x + / x) with (psi x + / x - 0) by ring.
  apply (cv_ext (fun n => digamma_approx x n + / x - 1 / (x + 1 + INR n))).
  - apply CV_minus; [|apply cv_inv_lin; lra]. apply CV_plus; [now apply H|]. intros e He. exists 0%nat. intros n _. unfold R_dist. rewrite Rminus_diag_eq, Rabs_R0 by reflexivity. exact He.
  - intros n _. unfold digamma_approx. rewrite rsum_S_l, (rsum_S n (fun k => / (x + 1 + INR k))). change (INR 0) with 0. rewrite Rplus_0_r.
    rewrite (rsum_ext n (fun i => / (x + INR (S i))) (fun k => / (x + 1 + INR k))); [unfold Rdiv; ring|]. intros i _. f_equal. rewrite S_INR. ring.
Qed.
(** digamma is the slope of lgamma, which is convex *)
Lemma lgamma_convex lg psi x y : is_lgamma lg -> is_digamma psi -> 0 < x -> 0 < y -> (y - x) * psi x <= lg y - lg x.
Proof.
  intros L P Hx Hy. apply (cv_le (fun n => (y - x) * digamma_approx x n) (fun n => lgamma_approx y n - lgamma_approx x n)).
  - apply CV_mult; [|now apply P]. intros e He. exists 0%nat. intros n _. unfold R_dist. rewrite Rminus_diag_eq, Rabs_R0 by reflexivity. exact He.
  - apply CV_minus; now apply L.
  - intros n _. unfold lgamma_approx, digamma_approx.
    assert (B : rsum (S n) (fun k => ln (y + INR k)) - rsum (S n) (fun k => ln (x + INR k)) <= (y - x) * rsum (S n) (fun k => / (x + INR k))).
    { rewrite <- rsum_minus, <- rsum_mult_l. apply rsum_le. intros k _. pose proof (pos_INR k). pose proof (ln_sub_le (x + INR k) (y + INR k) ltac:(lra) ltac:(lra)) as B.
      replace (y + INR k - (x + INR k)) with (y - x) in B by ring. exact B. }
    lra.
Qed.
Lemma digamma_increasing psi x y : is_digamma psi -> 0 < x -> x <= y -> psi x <= psi y.
Proof.
  intros P Hx Hy. apply (cv_le (digamma_approx x) (digamma_approx y)); [apply P; lra|apply P; lra|]. intros n _. unfold digamma_approx.
  assert (rsum (S n) (fun k => / (y + INR k)) <= rsum (S n) (fun k => / (x + INR k))); [|lra].
  apply rsum_le. intros k _. pose proof (pos_INR k). apply Rinv_le_contravar; lra.
Qed.
(** ** The function exists *)
Lemma lgamma_step x n : 0 < x -> (1 <= n)%nat ->
  0 <= lgamma_approx x (S n) - lgamma_approx x n <= x * (x + 1) * (/ INR n - / INR (S n)).
Proof.
  intros Hx Hn. assert (P : 1 <= INR n) by (apply (le_INR 1); lia).
  replace (lgamma_approx x (S n) - lgamma_approx x n) with (x * (ln (INR (S n)) - ln (INR n)) - (ln (x + INR (S n)) - ln (INR (S n)))).
  2: { unfold lgamma_approx. rewrite (rsum_S (S n)). change (fact (S n)) with (S n * fact n)%nat. rewrite mult_INR, ln_mult; [ring|apply lt_0_INR; lia|apply lt_0_INR, lt_O_fact]. }
  rewrite S_INR. set (a := INR n) in *. pose proof (ln_step_le a ltac:(lra)). pose proof (ln_step_ge a ltac:(lra)).
  pose proof (ln_sub_le (a + 1) (x + (a + 1)) ltac:(lra) ltac:(lra)) as B. pose proof (ln_sub_le (x + (a + 1)) (a + 1) ltac:(lra) ltac:(lra)) as B2.
  replace (x + (a + 1) - (a + 1)) with x in B by ring. replace (a + 1 - (x + (a + 1))) with (- x) in B2 by ring.
  set (l1 := ln (a + 1)) in *. set (l0 := ln a) in *. set (l2 := ln (x + (a + 1))) in *. split.
  - assert (x * / (a + 1) <= x * (l1 - l0)) by (apply Rmult_le_compat_l; lra). unfold Rdiv in B. lra.
  - assert (x * (l1 - l0) <= x * / a) by (apply Rmult_le_compat_l; lra).
    assert (E : x * / a - x / (x + (a + 1)) <= x * (x + 1) * (/ a - / (a + 1))).
    { apply Rminus_le. replace (x * / a - x / (x + (a + 1)) - x * (x + 1) * (/ a - / (a + 1))) with (- (x * (x + 1) * x) * / (a * (a + 1) * (x + (a + 1)))) by (field; lra).
      assert (0 < / (a * (a + 1) * (x + (a + 1)))) by (apply Rinv_0_lt_compat; apply Rmult_lt_0_compat; [nra|lra]). assert (0 < x * (x + 1) * x) by (apply Rmult_lt_0_compat; nra). nra. }
    unfold Rdiv in *. lra.
Qed.
Lemma lgamma_limit x : 0 < x -> { l | Un_cv (lgamma_approx x) l }.
Proof.
  intros Hx. destruct (growing_cv (fun n => lgamma_approx x (S n))) as (l & Hl).
  - intros n. pose proof (lgamma_step x (S n) Hx ltac:(lia)). lra.
  - exists (lgamma_approx x 1 + x * (x + 1)). intros y (n & ->).
    assert (B : lgamma_approx x (S n) <= lgamma_approx x 1 + x * (x + 1) * (1 - / INR (S n))).
    { induction n as [|n IH]; [cbn [INR]; rewrite Rinv_1; lra|]. pose proof (lgamma_step x (S n) Hx ltac:(lia)). lra. }
    assert (0 < / INR (S n)) by (apply Rinv_0_lt_compat, lt_0_INR; lia). assert (0 < x * (x + 1)) by nra. nra.
  - exists l. intros e He. destruct (Hl e He) as (n & Hn). exists (S n). intros [|k] Hk; [lia|]. apply Hn. lia.
Qed.
Lemma lgamma_exists : exists lg, is_lgamma lg.
Proof.
  exists (fun x => match Rlt_dec 0 x with left H => proj1_sig (lgamma_limit x H) | right _ => 0 end). intros x Hx.
  destruct (Rlt_dec 0 x) as [H|N]; [|lra]. exact (proj2_sig (lgamma_limit x H)).
Qed.

(** ** The logarithm of the Dirichlet distribution's normaliser *)
Section Dirichlet.
  Variables (lg psi : R -> R).
  Hypothesis HL : is_lgamma lg.
  Hypothesis HP : is_digamma psi.
  Variable K : nat.
  Hypothesis HK : (0 < K)%nat.
  Definition log_beta (g : nat -> R) : R := rsum K (fun i => lg (g i)) - lg (rsum K g).
  Definition slope (g : nat -> R) (i : nat) : R := psi (g i) - psi (rsum K g).
  Definition bump (i : nat) (g : nat -> R) (j : nat) : R := if Nat.eqb j i then g j + 1 else g j.
  Definition positive (g : nat -> R) : Prop := forall i, (i < K)%nat -> 0 < g i.
  (** how far the tangent at [a] lies below [log_beta] at [b] *)
  Definition gap (a b : nat -> R) : R := log_beta b - log_beta a - rsum K (fun i => (b i - a i) * slope a i).

  Lemma bump_sum i (f h : nat -> R) : (i < K)%nat -> rsum K (fun j => if Nat.eqb j i then h j else f j) = rsum K f + (h i - f i).
  Proof.
    intros Hi. rewrite (rsum_ext K _ (fun j => f j + (if Nat.eqb j i then h j - f j else 0))) by (intros j _; destruct (Nat.eqb j i); ring).
    rewrite rsum_plus. f_equal. rewrite (rsum_single K i (fun j => if Nat.eqb j i then h j - f j else 0)); [now rewrite Nat.eqb_refl|exact Hi|].
    intros j _ N. apply Nat.eqb_neq in N. now rewrite N.
  Qed.
  Lemma bump_total i g : (i < K)%nat -> rsum K (bump i g) = rsum K g + 1.
  Proof. intros Hi. unfold bump. rewrite (bump_sum i g (fun j => g j + 1)) by exact Hi. ring. Qed.
  Lemma bump_positive i g : positive g -> positive (bump i g).
  Proof. intros H j Hj. specialize (H j Hj). unfold bump. destruct (Nat.eqb j i); lra. Qed.
  Lemma total_positive g : positive g -> 0 < rsum K g.
  Proof. intros H. now apply rsum_pos_all. Qed.
  Lemma bump_log_beta i g : positive g -> (i < K)%nat -> log_beta (bump i g) = log_beta g + ln (g i) - ln (rsum K g).
  Proof.
    intros H Hi. unfold log_beta. rewrite bump_total by exact Hi. rewrite (lgamma_rec lg) by (auto using total_positive).
    rewrite (rsum_ext K (fun j => lg (bump i g j)) (fun j => if Nat.eqb j i then lg (g j) + ln (g j) else lg (g j))).
    - rewrite (bump_sum i (fun j => lg (g j)) (fun j => lg (g j) + ln (g j))) by exact Hi. ring.
    - intros j Hj. unfold bump. destruct (Nat.eqb j i); [|reflexivity]. apply lgamma_rec; auto.
  Qed.
  Lemma bump_slope i g j : positive g -> (i < K)%nat -> (j < K)%nat ->
    slope (bump i g) j = slope g j + (if Nat.eqb j i then / g j else 0) - / rsum K g.
  Proof.
    intros H Hi Hj. unfold slope. rewrite bump_total by exact Hi. rewrite (digamma_rec psi (rsum K g)) by (auto using total_positive).
    unfold bump. destruct (Nat.eqb j i); [rewrite digamma_rec by auto|]; ring.
  Qed.

  (** adding one to a topic drawn from the mean: the gap can only shrink on average *)
  Lemma gap_step a b : positive a -> positive b ->
    rsum K (fun i => a i / rsum K a * gap (bump i a) (bump i b)) <= gap a b.
  Proof.
    intros Ha Hb. pose proof (total_positive a Ha) as Sa. pose proof (total_positive b Hb) as Sb. set (A := rsum K a) in *. set (B := rsum K b) in *.
    assert (P1 : rsum K (fun i => a i / A) = 1) by (rewrite rsum_div; fold A; field; lra).
    assert (G : forall i, (i < K)%nat -> gap (bump i a) (bump i b) =
      gap a b + (ln (b i) - ln B - (ln (a i) - ln A)) - (b i - a i) / a i + (B - A) / A).
    { intros i Hi. unfold gap. rewrite !bump_log_beta by assumption. fold A B.
      rewrite (rsum_ext K (fun j => (bump i b j - bump i a j) * slope (bump i a) j)
                 (fun j => (b j - a j) * slope a j + (if Nat.eqb j i then (b j - a j) / a j else 0) - (b j - a j) * / A)).
      - rewrite rsum_minus, rsum_plus, rsum_mult_r, rsum_minus. fold A B.
        rewrite (rsum_single K i (fun j => if Nat.eqb j i then (b j - a j) / a j else 0)); [rewrite Nat.eqb_refl; unfold Rdiv; ring|exact Hi|].
        intros j _ N. apply Nat.eqb_neq in N. now rewrite N.
      - intros j Hj. rewrite bump_slope by assumption. fold A. unfold bump. destruct (Nat.eqb j i); unfold Rdiv; ring. }
    rewrite (rsum_ext K _ (fun i => gap a b * (a i / A) + a i / A * (ln (b i / B) - ln (a i / A)) + (- (b i - a i) / A) + (B - A) / A * (a i / A))).
    2: { intros i Hi. rewrite (G i Hi). specialize (Ha i Hi). specialize (Hb i Hi). rewrite !ln_quot by assumption. field. lra. }
    rewrite !rsum_plus, !rsum_mult_l, P1. rewrite rsum_div, rsum_opp, rsum_minus. fold A B.
    assert (KL : rsum K (fun i => a i / A * (ln (b i / B) - ln (a i / A))) <= 0).
    { apply Rle_trans with (rsum K (fun i => b i / B - a i / A)).
      - apply rsum_le. intros i Hi. specialize (Ha i Hi). specialize (Hb i Hi).
        assert (0 < a i / A) by (apply Rdiv_lt_0_compat; lra). assert (0 < b i / B) by (apply Rdiv_lt_0_compat; lra).
        pose proof (ln_sub_le (a i / A) (b i / B) ltac:(assumption) ltac:(assumption)) as L.
        apply Rmult_le_compat_l with (r := a i / A) in L; [|lra]. replace (a i / A * ((b i / B - a i / A) / (a i / A))) with (b i / B - a i / A) in L by (field; lra). exact L.
      - rewrite rsum_minus, P1, rsum_div. fold B. right. field. lra. }
    unfold Rdiv in *. lra.
  Qed.
  Lemma gap_bound n : forall a b, positive a -> positive b ->
    - ((rsum K b - rsum K a) * (psi (rsum K b + INR n) - psi (rsum K a + INR n))) <= gap a b.
  Proof.
    induction n as [|n IH]; intros a b Ha Hb; pose proof (total_positive a Ha) as Sa; pose proof (total_positive b Hb) as Sb.
    - cbn [INR]. rewrite !Rplus_0_r. unfold gap, log_beta.
      pose proof (lgamma_convex lg psi (rsum K b) (rsum K a) HL HP Sb Sa) as C.
      assert (T : rsum K (fun i => (b i - a i) * psi (a i)) <= rsum K (fun i => lg (b i)) - rsum K (fun i => lg (a i))).
      { rewrite <- rsum_minus. apply rsum_le. intros i Hi. apply lgamma_convex; auto. }
      rewrite (rsum_ext K (fun i => (b i - a i) * slope a i) (fun i => (b i - a i) * psi (a i) - (b i - a i) * psi (rsum K a))) by (intros i _; unfold slope; ring).
      rewrite rsum_minus, rsum_mult_r, rsum_minus. lra.
    - eapply Rle_trans; [|apply (gap_step a b Ha Hb)].
      apply Rle_trans with (rsum K (fun i => a i / rsum K a * - ((rsum K b - rsum K a) * (psi (rsum K b + INR (S n)) - psi (rsum K a + INR (S n)))))).
      + rewrite rsum_mult_r, rsum_div. right. field. lra.
      + apply rsum_le. intros i Hi. apply Rmult_le_compat_l; [apply Rmult_le_pos; [left; now apply Ha|left; now apply Rinv_0_lt_compat]|].
        specialize (IH (bump i a) (bump i b) (bump_positive i a Ha) (bump_positive i b Hb)). rewrite !bump_total in IH by exact Hi.
        rewrite !S_INR. replace (rsum K b + 1 - (rsum K a + 1)) with (rsum K b - rsum K a) in IH by ring.
        replace (rsum K b + 1 + INR n) with (rsum K b + (INR n + 1)) in IH by ring. replace (rsum K a + 1 + INR n) with (rsum K a + (INR n + 1)) in IH by ring. exact IH.
  Qed.
  Lemma psi_diff x y n : 0 < x -> 0 < y -> psi (y + INR n) - psi (x + INR n) <= (Rabs (y - x) + 1) / (x + INR n).
  Proof.
    intros Hx Hy. pose proof (pos_INR n). pose proof (psi_upper psi (y + INR n) HP ltac:(lra)) as U. pose proof (psi_lower psi (x + INR n) HP ltac:(lra)) as L.
    rewrite digamma_rec in L by (assumption || lra). pose proof (ln_sub_le (x + INR n) (y + INR n) ltac:(lra) ltac:(lra)) as B.
    replace (y + INR n - (x + INR n)) with (y - x) in B by ring. assert (I : 0 < / (x + INR n)) by (apply Rinv_0_lt_compat; lra).
    pose proof (Rle_abs (y - x)). assert ((y - x) * / (x + INR n) <= Rabs (y - x) * / (x + INR n)) by (apply Rmult_le_compat_r; lra). unfold Rdiv in *. lra.
  Qed.
  Lemma psi_flat x y : 0 < x -> 0 < y -> Un_cv (fun n => psi (y + INR n) - psi (x + INR n)) 0.
  Proof.
    intros Hx Hy e He. set (z := Rmin x y). assert (Hz : 0 < z) by (now apply Rmin_glb_lt). assert (z <= x) by apply Rmin_l. assert (z <= y) by apply Rmin_r.
    destruct (cv_inv_lin z (Rabs (y - x) + 1) Hz e He) as (n0 & HN0). exists n0. intros n Hn. specialize (HN0 n Hn). unfold R_dist in *. rewrite Rminus_0_r in *.
    pose proof (pos_INR n). assert (I : 0 < / (z + INR n)) by (apply Rinv_0_lt_compat; lra). pose proof (Rabs_pos (y - x)).
    rewrite Rabs_pos_eq in HN0 by (apply Rmult_le_pos; lra).
    pose proof (psi_diff x y n Hx Hy) as D1. pose proof (psi_diff y x n Hy Hx) as D2. rewrite (Rabs_minus_sym x y) in D2.
    assert (/ (x + INR n) <= / (z + INR n)) by (apply Rinv_le_contravar; lra). assert (/ (y + INR n) <= / (z + INR n)) by (apply Rinv_le_contravar; lra).
    assert ((Rabs (y - x) + 1) * / (x + INR n) <= (Rabs (y - x) + 1) * / (z + INR n)) by (apply Rmult_le_compat_l; lra).
    assert ((Rabs (y - x) + 1) * / (y + INR n) <= (Rabs (y - x) + 1) * / (z + INR n)) by (apply Rmult_le_compat_l; lra).
    unfold Rdiv in *. apply Rabs_def1; lra.
  Qed.
  (** the tangents lie below: [log_beta] is convex *)
  Lemma gap_nonneg a b : positive a -> positive b -> 0 <= gap a b.
  Proof.
    intros Ha Hb. pose proof (psi_flat (rsum K a) (rsum K b) (total_positive a Ha) (total_positive b Hb)) as F.
    apply (cv_le (fun n => - ((rsum K b - rsum K a) * (psi (rsum K b + INR n) - psi (rsum K a + INR n)))) (fun _ => gap a b)).
    - replace 0 with (- ((rsum K b - rsum K a) * 0)) by ring. apply CV_opp. apply CV_mult; [|exact F].
      intros e He. exists 0%nat. intros n _. unfold R_dist. rewrite Rminus_diag_eq, Rabs_R0 by reflexivity. exact He.
    - intros e He. exists 0%nat. intros n _. unfold R_dist. rewrite Rminus_diag_eq, Rabs_R0 by reflexivity. exact He.
    - intros n _. now apply gap_bound.
  Qed.
End Dirichlet.
