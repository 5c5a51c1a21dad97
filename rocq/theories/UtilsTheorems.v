(** Property theorems C24-C28: the numeric helpers. *)
Require Import Reals ZArith List Lra Lia.
From Flocq Require Import Core.Core IEEE754.BinarySingleNaN.
Require Import Verif.Base Verif.Scalar Verif.Mat Verif.ExpTable Verif.UtilsModel Verif.UtilsSpec.
Require Import Verif.UtilsProofs Verif.UtilsFloat Verif.DigammaProofs.
Import ListNotations.
Open Scope R_scope.

(** ** C24: the table-based exponential is accurate *)
Theorem C24_fast_exp_accurate : forall (lg : R -> R) (x : R),
  exists v, @fast_exp R (Rops lg) x = Ok v /\ 0 < v /\
    Rabs (ln v - x) <= Rmax 1 (Rabs x) / 1023 + 1 / 10 ^ 9 /\
    (100 < Rabs x -> v = exp x).
Proof.
  exact (fun lg x => ex_intro _ (fexp lg x)
    (conj (fast_exp_value lg x) (conj (fexp_pos lg x) (conj (fexp_accurate lg x) (fexp_exact lg x))))).
Qed.

(** ** C25: the table lookup is in bounds and the halving loop ends, for float and double *)
Theorem C25_lookup_in_bounds_double :
  forall (lg ex lga : binary_float 53 1024 -> binary_float 53 1024) sum (x : binary_float 53 1024),
  is_nan x = false -> exists v, @fast_exp _ (Fops 53 1024 lg ex lga sum) x = Ok v.
Proof. exact (fast_exp_F 53 1024 ltac:(lia)). Qed.
Theorem C25_lookup_in_bounds_float :
  forall (lg ex lga : binary_float 24 128 -> binary_float 24 128) sum (x : binary_float 24 128),
  is_nan x = false -> exists v, @fast_exp _ (Fops 24 128 lg ex lga sum) x = Ok v.
Proof. exact (fast_exp_F 24 128 ltac:(lia)). Qed.
(** The hypothesis cannot be dropped: a NaN is converted to an index, which is undefined. *)
Theorem C25_nan_undefined :
  forall (lg ex lga : binary_float 53 1024 -> binary_float 53 1024) sum,
  @fast_exp _ (Fops 53 1024 lg ex lga sum) B754_nan = UB.
Proof. exact (fast_exp_nan_F 53 1024). Qed.
Example C25_minus_infinity : is_nan (B754_infinity true : binary_float 53 1024) = false.
Proof. reflexivity. Qed.

(** ** C26: monotone as long as the table is used ... *)
Theorem C26_monotone_partial : forall (lg : R -> R) (x y a b : R),
  x <= y -> -100 <= x -> y <= 100 ->
  @fast_exp R (Rops lg) x = Ok a -> @fast_exp R (Rops lg) y = Ok b -> a <= b.
Proof.
  exact fast_exp_mono_ok.
Qed.
(** ... but not across 100, where the code switches to std::exp. *)
Theorem C26_refuted : forall (lg : R -> R),
  exists x y a b, x < y /\ @fast_exp R (Rops lg) x = Ok a /\ @fast_exp R (Rops lg) y = Ok b /\ b < a.
Proof.
  exact fast_exp_not_mono_ok.
Qed.

(** ** C27: digamma ends within seven steps and is accurate *)
Theorem C27_digamma_accurate : forall (lg : R -> R) (psi : R -> R) (x : R),
  is_digamma psi -> 0 < x ->
  exists v, @digamma R (Rops lg) 7 x = Ok v /\ Rabs (v - psi x) <= 1 / 10 ^ 9.
Proof.
  exact (fun lg psi x H Hx => ex_intro _ (dig lg x)
    (conj (digamma_fuel lg 7 x Hx (le_n 7)) (dig_accurate lg psi x H Hx))).
Qed.
(** The hypothesis is met: the digamma function exists. *)
Theorem C27_digamma_exists : exists psi, is_digamma psi.
Proof. exact digamma_exists. Qed.
(** Allowing more than seven steps changes nothing. *)
Theorem C27_steps : forall (lg : R -> R) (x : R) (fuel : nat),
  0 < x -> (7 <= fuel)%nat -> @digamma R (Rops lg) fuel x = @digamma R (Rops lg) 7 x.
Proof.
  exact (fun lg x fuel Hx Hf => eq_trans (digamma_fuel lg fuel x Hx Hf) (eq_sym (digamma_fuel lg 7 x Hx (le_n 7)))).
Qed.

(** ** C28: normalisation *)
Theorem C28_normalize_rows : forall (lg : R -> R) (m : mat R),
  let m' := @normalize_rows R (Rops lg) m in
  let get := @mget R (Rops lg) in
  mrows m' = mrows m /\ ncols m' = ncols m /\
  forall i, (i < mrows m)%nat ->
    (rsum (ncols m) (get m i) = 0 -> forall j, (j < ncols m)%nat -> get m' i j = get m i j) /\
    (rsum (ncols m) (get m i) <> 0 -> rsum (ncols m) (get m' i) = 1) /\
    (forall j k, (j < ncols m)%nat -> (k < ncols m)%nat -> get m' i j * get m i k = get m' i k * get m i j).
Proof.
  exact (fun lg m => conj (proj1 (normalize_rows_dims lg m)) (conj (proj2 (normalize_rows_dims lg m))
    (fun i Hi => conj (normalize_rows_zero lg m i Hi) (conj (normalize_rows_sum lg m i Hi)
       (fun j k => normalize_rows_ratio lg m i j k Hi))))).
Qed.
Theorem C28_normalize_cols : forall (lg : R -> R) (m : mat R),
  let m' := @normalize_cols R (Rops lg) m in
  let get := @mget R (Rops lg) in
  mrows m' = mrows m /\ ncols m' = ncols m /\
  forall j, (j < ncols m)%nat ->
    (rsum (mrows m) (fun i => get m i j) = 0 -> forall i, (i < mrows m)%nat -> get m' i j = get m i j) /\
    (rsum (mrows m) (fun i => get m i j) <> 0 -> rsum (mrows m) (fun i => get m' i j) = 1) /\
    (forall i k, (i < mrows m)%nat -> (k < mrows m)%nat -> get m' i j * get m k j = get m' k j * get m i j).
Proof.
  exact (fun lg m => conj (proj1 (normalize_cols_dims lg m)) (conj (proj2 (normalize_cols_dims lg m))
    (fun j Hj => conj (normalize_cols_zero lg m j Hj) (conj (normalize_cols_sum lg m j Hj)
       (fun i k => normalize_cols_ratio lg m j i k Hj))))).
Qed.
(** A 2 x 2 matrix with one zero row: the other row is scaled to sum one. *)
Example C28_example (lg : R -> R) :
  let m := mk_mat 2 [[1; 0]; [3; 0]] in
  rsum 2 (@mget R (Rops lg) m 0) = 4 /\ rsum 2 (@mget R (Rops lg) m 1) = 0.
Proof. cbn. lra. Qed.

Print Assumptions C24_fast_exp_accurate.
Print Assumptions C25_lookup_in_bounds_double.
Print Assumptions C25_lookup_in_bounds_float.
Print Assumptions C25_nan_undefined.
Print Assumptions C26_monotone_partial.
Print Assumptions C26_refuted.
Print Assumptions C27_digamma_accurate.
Print Assumptions C27_digamma_exists.
Print Assumptions C27_steps.
Print Assumptions C28_normalize_rows.
Print Assumptions C28_normalize_cols.
