(** Property theorem C70: the matrix helpers. *)
Require Import Reals ZArith List Arith Lia Lra.
From Flocq Require Import Core.Core IEEE754.BinarySingleNaN.
Require Import Verif.Base Verif.Scalar Verif.Mat Verif.UtilsModel Verif.UtilsProofs Verif.HelperModel Verif.HelperProofs.
Import ListNotations.
Local Open Scope nat_scope.

(** ** C70: in any arithmetic, rows (columns) with weight zero have no influence, whatever is in them (infinities, NaNs) ... *)
Theorem C70_rows_skipped : forall (T : Type) (O : ops T) (m m' : mat T) (y r : list T), mrows m = mrows m' ->
  (forall i j, i < mrows m -> eqb (vget y i) zero = false -> j < length r -> mget m i j = mget m' i j) ->
  sum_rows_scaled m y r = sum_rows_scaled m' y r.
Proof. exact (fun T O => @rows_scaled_skip T O). Qed.
Theorem C70_cols_skipped : forall (T : Type) (O : ops T) (m m' : mat T) (y r : list T), ncols m = ncols m' ->
  (forall i j, j < ncols m -> eqb (vget y j) zero = false -> i < length r -> mget m i j = mget m' i j) ->
  sum_cols_scaled m y r = sum_cols_scaled m' y r.
Proof. exact (fun T O => @cols_scaled_skip T O). Qed.
Theorem C70_counts_skipped : forall (T : Type) (O : ops T) (m m' : mat T) (y : list Z) (r : list T), ncols m = ncols m' ->
  (forall i j, j < ncols m -> nth j y 0%Z <> 0%Z -> i < length r -> mget m i j = mget m' i j) ->
  sum_cols_scaled_int m y r = sum_cols_scaled_int m' y r.
Proof. exact (fun T O => @cols_scaled_int_skip T O). Qed.
(** ... and in exact arithmetic the weighted sums are added to what was there. *)
Theorem C70_sums : forall (lg : R -> R) (m : mat R) (y r : list R) (c : list Z) (k : nat), let O := Rops lg in k < length r ->
  vget (sum_rows_scaled m y r) k = (vget r k + rsum (mrows m) (fun i => vget y i * mget m i k))%R /\
  vget (sum_cols_scaled m y r) k = (vget r k + rsum (ncols m) (fun j => vget y j * mget m k j))%R /\
  vget (sum_cols_scaled_int m c r) k = (vget r k + rsum (ncols m) (fun j => IZR (nth j c 0%Z) * mget m k j))%R.
Proof.
  exact (fun lg m y r c k Hk =>
    conj (eq_trans (f_equal (fun l => @vget R (Rops lg) l k) (sum_rows_scaled_R lg m y r)) (vget_tab _ _ _ Hk))
   (conj (eq_trans (f_equal (fun l => @vget R (Rops lg) l k) (sum_cols_scaled_R lg m y r)) (vget_tab _ _ _ Hk))
         (eq_trans (f_equal (fun l => @vget R (Rops lg) l k) (sum_cols_scaled_int_R lg m c r)) (vget_tab _ _ _ Hk)))).
Qed.

(** ** Dividing by a matrix is exact where the matrix is not zero and zero elsewhere; in floating point it makes no NaN of a finite number. *)
Theorem C70_divide : forall (lg : R -> R) (y x : R), let O := Rops lg in
  (x <> 0%R -> (scalar_divide y x * x = y)%R) /\ (x = 0%R -> scalar_divide y x = 0%R).
Proof. exact (fun lg => scalar_divide_R lg). Qed.
Theorem C70_divide_float : forall (prec emax : Z) (Hprec : Prec_gt_0 prec) (Hemax : Prec_lt_emax prec emax)
  (flg fex flga : binary_float prec emax -> binary_float prec emax) (fsum : list (binary_float prec emax) -> binary_float prec emax)
  (y x : binary_float prec emax), is_finite y = true -> is_nan x = false ->
  is_nan (@scalar_divide _ (Fops prec emax flg fex flga fsum) y x) = false.
Proof. exact (fun prec emax Hp He flg fex flga fsum => @scalar_divide_not_nan prec emax Hp He flg fex flga fsum). Qed.

(** ** The product is that of the elements that are not zero, in any arithmetic; in exact arithmetic it is not zero. *)
Theorem C70_product : forall (T : Type) (O : ops T) (m : mat T),
  product_of_nonzeros m = fold_left mul (filter (fun x => negb (eqb x zero)) (concat (mcols m))) one.
Proof. exact (fun T O => @product_filter T O). Qed.
Theorem C70_product_nonzero : forall (lg : R -> R) (m : mat R), let O := Rops lg in product_of_nonzeros m <> 0%R.
Proof. exact (fun lg => product_nonzero lg). Qed.

(** ** Reshaping: column after column; there and back changes nothing; a vector that is too short is undefined behaviour. *)
Theorem C70_reshape_vector : forall (T : Type) (O : ops T) (src : mat T) (dst : list T),
  (mrows src * ncols src <= length dst -> exists v, reshape_to_vector src dst = Ok v /\ length v = length dst /\
     (forall i j, i < mrows src -> j < ncols src -> vget v (j * mrows src + i) = mget src i j) /\
     (forall k, mrows src * ncols src <= k -> vget v k = vget dst k)) /\
  (length dst < mrows src * ncols src -> reshape_to_vector src dst = UB).
Proof. exact (fun T O => @reshape_vector T O). Qed.
Theorem C70_reshape_matrix : forall (T : Type) (O : ops T) (src : list T) (dst : mat T),
  (mrows dst * ncols dst <= length src ->
     reshape_to_matrix src dst = Ok (mtab (mrows dst) (ncols dst) (fun i j => vget src (j * mrows dst + i)))) /\
  (length src < mrows dst * ncols dst -> reshape_to_matrix src dst = UB).
Proof. exact (fun T O src dst => conj (@reshape_matrix T O src dst) (reshape_matrix_ub src dst)). Qed.
Theorem C70_reshape_round : forall (T : Type) (O : ops T) (m dst : mat T) (v0 v : list T), mrows dst = mrows m -> ncols dst = ncols m ->
  length v0 = mrows m * ncols m -> reshape_to_vector m v0 = Ok v ->
  exists m', reshape_to_matrix v dst = Ok m' /\ mrows m' = mrows m /\ ncols m' = ncols m /\
    forall i j, i < mrows m -> j < ncols m -> mget m' i j = mget m i j.
Proof. exact (fun T O => @reshape_round T O). Qed.

(** The skipped row may hold a NaN. *)
Example C70_nan : forall flg fex flga fsum, let F := binary_float 53 1024 in
  forall (Hp : Prec_gt_0 53) (He : Prec_lt_emax 53 1024), let O := Fops 53 1024 flg fex flga fsum in
  sum_rows_scaled (mk_mat 2 [[one; B754_nan]]) [one; zero] [zero] = sum_rows_scaled (mk_mat 2 [[one; zero]]) [one; zero] [zero].
Proof.
  intros. apply C70_rows_skipped; [reflexivity|]. intros [|[|i]] j Hi Hz Hj; cbn in Hi, Hj; try lia; [destruct j; [reflexivity|lia]|].
  discriminate Hz.
Qed.
Example C70_reshape_case : forall (lg : R -> R), let O := Rops lg in
  @reshape_to_vector R O (mk_mat 2 [[1; 2]; [3; 4]; [5; 6]]%R) [0; 0; 0; 0; 0; 0; 9]%R = Ok [1; 2; 3; 4; 5; 6; 9]%R.
Proof. reflexivity. Qed.

Print Assumptions C70_rows_skipped.
Print Assumptions C70_cols_skipped.
Print Assumptions C70_counts_skipped.
Print Assumptions C70_sums.
Print Assumptions C70_divide.
Print Assumptions C70_divide_float.
Print Assumptions C70_product.
Print Assumptions C70_product_nonzero.
Print Assumptions C70_reshape_vector.
Print Assumptions C70_reshape_matrix.
Print Assumptions C70_reshape_round.
