(** Lemmas about real functions used by several files. *)
Require Import Reals ZArith Lia Lra Psatz.
From Coquelicot Require Import Coquelicot.
Open Scope R_scope.

(** ** A function with non-negative derivative increases *)
Lemma derive_nonneg_le (f df : R -> R) a b : a <= b ->
  (forall x, a <= x <= b -> is_derive f x (df x)) -> (forall x, a <= x <= b -> 0 <= df x) -> f a <= f b.
Proof.
  intros Hab Hd Hp. destruct (MVT_gen f a b df) as (c & Hc & E).
  - intros x Hx. rewrite Rmin_left, Rmax_right in Hx by assumption. apply Hd. lra.
  - intros x Hx. rewrite Rmin_left, Rmax_right in Hx by assumption.
    apply derivable_continuous_pt. exists (df x). apply is_derive_Reals. apply Hd. lra.
  - rewrite Rmin_left, Rmax_right in Hc by assumption. specialize (Hp c Hc). nra.
Qed.

(** ** The logarithm by its series in v = 1/(2w) *)
Definition lpoly (v : R) : R := 2 * (v + v ^ 3 / 3 + v ^ 5 / 5 + v ^ 7 / 7 + v ^ 9 / 9).

Lemma ln_lower v : 0 <= v <= 1 / 2 -> lpoly v <= ln (1 + v) - ln (1 - v).
Proof.
  intros H. set (f := fun v => ln (1 + v) - ln (1 - v) - lpoly v).
  assert (Z : f 0 = 0). { unfold f, lpoly. rewrite Rplus_0_r, Rminus_0_r, ln_1. field. }
  assert (f 0 <= f v); [|unfold f in *; lra].
  apply (derive_nonneg_le f (fun x => 2 * x ^ 10 / (1 - x * x))); [lra| |].
  - intros x Hx. unfold f, lpoly. auto_derive.
    + split; [lra|]. split; [lra|exact I].
    + field. split; [nra|]. split; lra.
  - intros x Hx. apply Rmult_le_pos; [|left; apply Rinv_0_lt_compat; nra].
    assert (0 <= x ^ 10) by (apply pow_le; lra). lra.
Qed.
Lemma ln_upper v : 0 <= v <= 1 / 2 -> ln (1 + v) - ln (1 - v) <= lpoly v + v ^ 11.
Proof.
  intros H. set (f := fun v => lpoly v + v ^ 11 - (ln (1 + v) - ln (1 - v))).
  assert (Z : f 0 = 0). { unfold f, lpoly. rewrite Rplus_0_r, Rminus_0_r, ln_1. field. }
  assert (f 0 <= f v); [|unfold f in *; lra].
  apply (derive_nonneg_le f (fun x => x ^ 10 * (11 - 2 / (1 - x * x)))); [lra| |].
  - intros x Hx. unfold f, lpoly. auto_derive.
    + split; [lra|]. split; [lra|exact I].
    + field. split; [nra|]. split; lra.
  - intros x Hx. apply Rmult_le_pos; [apply pow_le; lra|].
    assert (2 / (1 - x * x) <= 11); [|lra]. apply Rmult_le_reg_r with (1 - x * x); [nra|].
    unfold Rdiv. rewrite Rmult_assoc, Rinv_l by nra. nra.
Qed.

