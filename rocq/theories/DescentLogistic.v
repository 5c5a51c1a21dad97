(** The curvature of the logistic regression's objective. *)
Require Import ZArith List Arith Reals Lia Lra FunctionalExtensionality.
From Coquelicot Require Import Coquelicot.
Require Import Verif.Base Verif.Scalar Verif.Mat Verif.OptModel Verif.OptSpec Verif.OptReal Verif.OptProofs Verif.DescentSpec Verif.DescentProofs.
Import ListNotations.
Local Open Scope R_scope.

Lemma schwarz n (a b : nat -> R) : rsum n (fun i => a i * b i) * rsum n (fun i => a i * b i) <= rsum n (fun i => a i * a i) * rsum n (fun i => b i * b i).
Proof.
  induction n as [|n IH]; [rewrite !rsum_0; lra|]. rewrite !rsum_S. set (A := rsum n (fun i => a i * b i)) in *. set (X := rsum n (fun i => a i * a i)) in *. set (Y := rsum n (fun i => b i * b i)) in *.
  assert (HX : 0 <= X) by (apply rsum_nonneg; intros; nra). assert (HY : 0 <= Y) by (apply rsum_nonneg; intros; nra).
  assert (H : 2 * A * (a n * b n) <= X * (b n * b n) + (a n * a n) * Y); [|nra].
  apply Rsqr_incr_0_var; [|nra]. unfold Rsqr. set (p := a n) in *. set (q := b n) in *.
  assert (H1 : 4 * (A * A) * (p * p * (q * q)) <= 4 * (X * Y) * (p * p * (q * q))) by (apply Rmult_le_compat_r; [apply Rmult_le_pos; nra|lra]).
  pose proof (Rle_0_sqr (X * (q * q) - p * p * Y)) as H2. unfold Rsqr in H2.
  replace (2 * A * (p * q) * (2 * A * (p * q))) with (4 * (A * A) * (p * p * (q * q))) by ring.
  replace ((X * (q * q) + p * p * Y) * (X * (q * q) + p * p * Y)) with ((X * (q * q) - p * p * Y) * (X * (q * q) - p * p * Y) + 4 * (X * Y) * (p * p * (q * q))) by ring. lra.
Qed.

(** Weighted means of [s], where the weights are tilted towards larger [s]. *)
Definition tilted (n : nat) (u s : nat -> R) (t : R) : R := rsum n (fun c => exp (u c + t * s c) * s c) / rsum n (fun c => exp (u c + t * s c)).
Lemma tilt_derive n u s t : (0 < n)%nat ->
  is_derive (tilted n u s) t
    (rsum n (fun c => exp (u c + t * s c) * (s c * s c)) / rsum n (fun c => exp (u c + t * s c))
     - tilted n u s t * tilted n u s t).
Proof.
  intros Hn. set (E := fun t => rsum n (fun c => exp (u c + t * s c))). set (A := fun t => rsum n (fun c => exp (u c + t * s c) * s c)).
  assert (EP : 0 < E t) by (apply rsum_pos_all; [exact Hn|intros; apply exp_pos]).
  assert (DE : is_derive E t (A t)).
  { unfold E, A. apply is_derive_rsum. intros c Hc. auto_derive; [exact I|ring]. }
  assert (DA : is_derive A t (rsum n (fun c => exp (u c + t * s c) * (s c * s c)))).
  { unfold A. apply is_derive_rsum. intros c Hc. auto_derive; [exact I|ring]. }
  pose proof (is_derive_div A E t _ _ DA DE ltac:(lra)) as H. unfold tilted. fold (E t) (A t).
  replace (rsum n (fun c => exp (u c + t * s c) * (s c * s c)) / E t - A t / E t * (A t / E t))
    with ((rsum n (fun c => exp (u c + t * s c) * (s c * s c)) * E t - A t * A t) / (E t) ^ 2) by (field; lra). exact H.
Qed.
Lemma tilt_bound n u s : (0 < n)%nat -> tilted n u s 1 - tilted n u s 0 <= rsum n (fun c => s c * s c).
Proof.
  intros Hn. set (D := fun t => rsum n (fun c => exp (u c + t * s c) * (s c * s c)) / rsum n (fun c => exp (u c + t * s c)) - tilted n u s t * tilted n u s t).
  destruct (MVT_gen (tilted n u s) 0 1 D) as (t & _ & E).
  - intros t _. now apply tilt_derive.
  - intros t _. apply continuity_pt_filterlim. apply (ex_derive_continuous (tilted n u s)). eexists. now apply tilt_derive.
  - rewrite E. unfold D. set (e := fun c => exp (u c + t * s c)). set (Q := rsum n (fun c => s c * s c)).
    assert (EP : 0 < rsum n e) by (apply rsum_pos_all; [exact Hn|intros; apply exp_pos]).
    assert (H : rsum n (fun c => e c * (s c * s c)) <= rsum n e * Q).
    { rewrite <- rsum_mult_r. apply rsum_le. intros c Hc. apply Rmult_le_compat_l; [left; apply exp_pos|].
      apply (rsum_le_term n (fun c => s c * s c)); [intros; nra|exact Hc]. }
    assert (rsum n (fun c => e c * (s c * s c)) / rsum n e <= Q).
    { apply Rmult_le_reg_r with (rsum n e); [exact EP|]. unfold Rdiv. rewrite Rmult_assoc, Rinv_l by lra. lra. }
    unfold e in *. nra.
Qed.

Section Logistic.
  Variables K C : nat.
  Variable x : nat -> nat -> R.
  Variable y : list Z.
  Variable w : Z -> R.
  Variable L : R.
  Hypothesis Hy : forall d, (d < length y)%nat -> (Z.to_nat (nth d y 0%Z) < C)%nat.
  Hypothesis Hw : forall l, In l y -> 0 <= w l.

  Lemma grad_inner e dir : inner K C (mlr_grad K C x y w L e) dir =
     rsum (length y) (fun d => w (nth d y 0%Z) * (tilted C (score K e (x d)) (score K dir (x d)) 0 - score K dir (x d) (Z.to_nat (nth d y 0%Z)))) + L * inner K C e dir.
  Proof.
 unfold mlr_grad. rewrite inner_plus_l, inner_rsum_l. f_equal.
    - apply rsum_ext. intros d Hd. set (w0 := w _). set (l := Z.to_nat _). set (Z0 := rsum C (fun c => exp _)).
      transitivity (inner K C (fun i c => w0 * (x d i * (exp (score K e (x d) c) / Z0 - (if Nat.eqb c l then 1 else 0)))) dir); [apply inner_ext; intros; ring|].
      rewrite inner_scal_l, (inner_outer K C (x d) (fun c => exp (score K e (x d) c) / Z0 - (if Nat.eqb c l then 1 else 0))). f_equal.
      transitivity (rsum C (fun c => exp (score K e (x d) c) * score K dir (x d) c) / Z0 - rsum C (fun c => (if Nat.eqb c l then 1 else 0) * score K dir (x d) c)).
      { rewrite <- rsum_div, <- rsum_minus. apply rsum_ext. intros c Hc. unfold Rdiv. ring. }
      rewrite (rsum_indicator C l (score K dir (x d))) by (apply Hy; assumption). f_equal. unfold tilted, Z0, Rdiv.
      apply f_equal2; [|apply f_equal]; apply rsum_ext; intros c Hc; rewrite Rmult_0_l, Rplus_0_r; reflexivity.
    - transitivity (inner K C (fun i c => L * e i c) dir); [apply inner_ext; intros; ring|]. apply inner_scal_l.
  Qed.
  Lemma scores_bound d dir : rsum C (fun c => score K dir (x d) c * score K dir (x d) c) <= rsum K (fun i => x d i * x d i) * inner K C dir dir.
  Proof.
    rewrite inner_swap, <- rsum_mult_l. apply rsum_le. intros c Hc. unfold score. pose proof (schwarz K (fun i => dir i c) (fun i => x d i)) as H. cbn beta in H. lra.
  Qed.
  Lemma logistic_curvature : curvature K C (mlr_grad K C x y w L) (L + rsum (length y) (fun d => w (nth d y 0%Z) * rsum K (fun i => x d i * x d i))).
  Proof.
    intros e dir. rewrite !grad_inner.
    assert (E : inner K C (along e 1 dir) dir = inner K C e dir + inner K C dir dir).
    { transitivity (inner K C (fun i c => e i c + dir i c) dir); [apply inner_ext; intros; unfold along; ring|apply inner_plus_l]. }
    rewrite E. rewrite Rmult_plus_distr_r. 
    assert (H : rsum (length y) (fun d => w (nth d y 0%Z) * (tilted C (score K (along e 1 dir) (x d)) (score K dir (x d)) 0 - score K dir (x d) (Z.to_nat (nth d y 0%Z))))
      - rsum (length y) (fun d => w (nth d y 0%Z) * (tilted C (score K e (x d)) (score K dir (x d)) 0 - score K dir (x d) (Z.to_nat (nth d y 0%Z))))
      <= rsum (length y) (fun d => w (nth d y 0%Z) * rsum K (fun i => x d i * x d i)) * inner K C dir dir); [|lra].
    rewrite <- rsum_minus, <- rsum_mult_r. apply rsum_le. intros d Hd.
    assert (ET : tilted C (score K (along e 1 dir) (x d)) (score K dir (x d)) 0 = tilted C (score K e (x d)) (score K dir (x d)) 1).
    { unfold tilted, Rdiv. apply f_equal2; [|apply f_equal]; apply rsum_ext; intros c Hc; rewrite score_along; [apply f_equal2; [|reflexivity]|]; apply f_equal; ring. }
    rewrite ET. pose proof (tilt_bound C (score K e (x d)) (score K dir (x d)) ltac:(specialize (Hy d Hd); lia)) as H1. pose proof (scores_bound d dir) as H2.
    pose proof (Hw (nth d y 0%Z) ltac:(now apply nth_In)) as H3. rewrite Rmult_assoc. rewrite <- Rmult_minus_distr_l. apply Rmult_le_compat_l; [exact H3|]. lra.
  Qed.
End Logistic.

Section Mlr.
  Variable lg : R -> R.
  #[local] Hint Extern 0 (ops R) => exact (Rops lg) : typeclass_instances.
  Lemma mlr_computes_with K C X y L : mrows X = K -> (length y <= ncols X)%nat -> y <> [] ->
    (forall l, In l y -> (0 <= l < Z.of_nat C)%Z /\ (l < 2 ^ 31 - 1)%Z) ->
    exists p G, mlr X y L = Ok p /\ computes_with K C p (mlr_objective K C (fun d i => mget X i d) y L) G /\
      curvature K C G (L + rsum (length y) (fun d => balanced y (nth d y 0%Z) * rsum K (fun i => mget X i d * mget X i d))).
  Proof.
    intros HX HD Hn Hy. destruct (class_weights_R lg y Hn) as (Cy & E & HL & HW); [intros l H; specialize (Hy l H); lia|].
    unfold mlr. rewrite E. cbn [bind]. eexists _, (mlr_grad K C (fun d i => mget X i d) y (fun l => vget Cy (Z.to_nat l)) L). split; [reflexivity|].
    assert (Hy' : forall l, In l y -> (0 <= l < Z.of_nat C)%Z /\ (l < Z.of_nat (length Cy))%Z).
    { intros l H. specialize (Hy l H). split; [apply Hy|]. rewrite HL. pose proof (largest_ge y l H). lia. }
    assert (Hlab : forall d, (d < length y)%nat -> (Z.to_nat (nth d y 0%Z) < C)%nat).
    { intros d Hd. specialize (Hy (nth d y 0%Z) (nth_In y 0%Z Hd)). lia. }
    assert (EQ : forall e, mlr_raw K C (fun d i => mget X i d) y (fun l => vget Cy (Z.to_nat l)) L e = mlr_objective K C (fun d i => mget X i d) y L e).
    { intros e. now apply raw_objective. }
    split.
    - intros e. cbn [value gradient]. rewrite (mlr_value_R lg K C X y Cy L HX HD Hy'), EQ. split; [reflexivity|].
      split; [apply (mlr_gradient_R lg K C X y Cy L HX HD Hy')|]. apply (gradient_at_ext K C _ _ e _ EQ). now apply mlr_raw_gradient.
    - replace (rsum (length y) (fun d => balanced y (nth d y 0%Z) * rsum K (fun i => mget X i d * mget X i d)))
        with (rsum (length y) (fun d => vget Cy (Z.to_nat (nth d y 0%Z)) * rsum K (fun i => mget X i d * mget X i d))).
      + apply (logistic_curvature K C (fun d i => mget X i d) y (fun l => vget Cy (Z.to_nat l)) L Hlab). intros l H. rewrite HW by exact H. left. now apply balanced_pos.
      + apply rsum_ext. intros d Hd. rewrite HW by (now apply nth_In). reflexivity.
  Qed.
End Mlr.
