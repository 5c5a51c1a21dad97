(** Model of include/ldaplusplus/utils.hpp (namespace math_utils).

    Arithmetic is that of the scalar type [T].  Simplification: where the source mixes a
    [Scalar] that is float with double constants (digamma, the exp table), the model does
    the arithmetic in [T] throughout. *)
Require Import ZArith List Bool.
Require Import Verif.Base Verif.Scalar Verif.Mat Verif.ExpTable.
Import ListNotations.

Section Utils.
  Context {T : Type} {O : ops T}.
  Open Scope sc_scope.

  (** x >= y, false when either is NaN *)
  Definition geb (x y : T) : bool := (y <? x) || (x =? y).
  Definition two : T := ofZ 2.

  (** utils.hpp 15-358: the i-th entry of the table; [None] outside it *)
  Definition lut (i : Z) : option T :=
    if ((0 <=? i) && (i <? 1024))%Z
    then Some (ofZ (nth (Z.to_nat i) exp_lut 0%Z) / ofZ (10 ^ 18)%Z)
    else None.

  (** utils.hpp 368-371: while (x >= 1) { x = x/2; cnt++; }, with fuel *)
  Fixpoint halve (fuel : nat) (x : T) (cnt : nat) : outcome (T * nat) :=
    if geb x one then
      match fuel with
      | 0 => Throw ENotFinished
      | S f => halve f (x / two) (S cnt)
      end
    else Ok (x, cnt).

  (** utils.hpp 375-377: while (cnt-- > 0) x *= x *)
  Definition square_times (cnt : nat) (x : T) : T := Nat.iter cnt (fun y => y * y) x.

  (** utils.hpp 364-380: the part of fast_exp for x not below zero.  Reading outside the table,
      or converting a NaN to int, is undefined. *)
  Definition fast_exp_pos (x : T) : outcome T :=
    if ofZ 100 <? x then Ok (sexp x)
    else
      let* (y, cnt) := halve 8 x 0 in
      match trunc (y * ofZ 1024) with
      | None => UB
      | Some i => match lut i with
                  | None => UB
                  | Some e => Ok (square_times cnt e)
                  end
      end.
  (** utils.hpp 360-381 (fast_exp): the recursive call of line 363 is on -x, which is not
      below zero, so the recursion is one level deep *)
  Definition fast_exp (x : T) : outcome T :=
    if x <? zero then let* e := fast_exp_pos (- x) in Ok (one / e) else fast_exp_pos x.

  (** utils.hpp 394-396: for (; x < 7; ++x) result -= 1/x; with fuel *)
  Fixpoint digamma_shift (fuel : nat) (x result : T) : outcome (T * T) :=
    if x <? ofZ 7 then
      match fuel with
      | 0 => Throw ENotFinished
      | S f => digamma_shift f (x + one) (result - one / x)
      end
    else Ok (x, result).
  (** utils.hpp 397-401: the series, on the shifted argument *)
  Definition digamma_series (x0 : T) : T :=
    let x := x0 - one / two in
    let xx := one / x in
    let xx2 := xx * xx in
    let xx4 := xx2 * xx2 in
    slog x + (one / ofZ 24) * xx2 - (ofZ 7 / ofZ 960) * xx4
      + (ofZ 31 / ofZ 8064) * xx4 * xx2 - (ofZ 127 / ofZ 30720) * xx4 * xx4.
  (** utils.hpp 390-404 (digamma) *)
  Definition digamma (fuel : nat) (x : T) : outcome T :=
    let* (y, r) := digamma_shift fuel x zero in
    Ok (r + digamma_series y).

  (** utils.hpp 448-460 (CwiseScalarDivideByMatrix) *)
  Definition scalar_divide (y x : T) : T := if x =? zero then zero else y / x.

  (** utils.hpp 503-512 (normalize_rows) *)
  Definition normalize_rows (m : mat T) : mat T :=
    mtab (mrows m) (ncols m) (fun i j =>
      let s := redux (mrow m i) in
      if s =? zero then mget m i j else mget m i j / s).
  (** utils.hpp 519-528 (normalize_cols) *)
  Definition normalize_cols (m : mat T) : mat T :=
    mtab (mrows m) (ncols m) (fun i j =>
      let s := redux (mcol m j) in
      if s =? zero then mget m i j else mget m i j / s).
  (** the same, called with a vector (one column) *)
  Definition normalize_vec (v : list T) : list T :=
    let s := redux v in
    if s =? zero then v else map (fun x => x / s) v.

  (** utils.hpp 534-548 (product_of_nonzeros) *)
  Definition product_of_nonzeros (m : mat T) : T :=
    fold_left (fun p col => fold_left (fun p x => if x =? zero then p else p * x) col p) (mcols m) one.

  (** utils.hpp 571-584 (sum_cols_scaled), [y] a vector of scalars *)
  Definition sum_cols_scaled (m : mat T) (y : list T) (result : list T) : list T :=
    fold_left (fun r j => if vget y j =? zero then r
                          else vtab (length r) (fun i => vget r i + vget y j * mget m i j))
              (seq 0 (ncols m)) result.
  (** the same, [y] a vector of ints, as compute_gamma calls it *)
  Definition sum_cols_scaled_int (m : mat T) (y : list Z) (result : list T) : list T :=
    fold_left (fun r j => if (nth j y 0 =? 0)%Z then r
                          else vtab (length r) (fun i => vget r i + ofZ (nth j y 0%Z) * mget m i j))
              (seq 0 (ncols m)) result.
  (** utils.hpp 553-566 (sum_rows_scaled) *)
  Definition sum_rows_scaled (m : mat T) (y : list T) (result : list T) : list T :=
    fold_left (fun r i => if vget y i =? zero then r
                          else vtab (length r) (fun j => vget r j + vget y i * mget m i j))
              (seq 0 (mrows m)) result.

  (** Eigen coefficient-wise and product expressions used throughout *)
  (** v.unaryExpr(f) *)
  Definition vmapM (f : T -> outcome T) (v : list T) : outcome (list T) := seqM (map f v).
  (** m.unaryExpr(f) *)
  Definition mmapM (f : T -> outcome T) (m : mat T) : outcome (mat T) :=
    let* cs := seqM (map (vmapM f) (mcols m)) in Ok (mk_mat (mrows m) cs).
  (** a.transpose() * b *)
  Definition dot (a b : list T) : T := redux (vtab (length a) (fun i => vget a i * vget b i)).
  (** m * v *)
  Definition mat_vec (m : mat T) (v : list T) : list T := vtab (mrows m) (fun i => dot (mrow m i) v).
  (** m.transpose() * v *)
  Definition matT_vec (m : mat T) (v : list T) : list T := vtab (ncols m) (fun j => dot (mcol m j) v).
  (** all coefficients, column by column (the storage order) *)
  Definition mall (m : mat T) : list T := concat (vtab (ncols m) (mcol m)).
  (** maxCoeff(): the first largest coefficient and its index; [None] (undefined) when empty *)
  Fixpoint max_from (best : T) (bi i : nat) (v : list T) : T * nat :=
    match v with
    | [] => (best, bi)
    | x :: r => if best <? x then max_from x i (S i) r else max_from best bi (S i) r
    end.
  Definition max_coeff (v : list T) : option (T * nat) :=
    match v with
    | [] => None
    | x :: r => Some (max_from x 0 1 r)
    end.
End Utils.
