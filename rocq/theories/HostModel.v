(** Numbers as the bytes of a little-endian host, as NumpyFormat.hpp reads and writes them, and the matrices of the applications
    (Eigen::MatrixXi, MatrixXd; SupervisedModelParameters<double>) as arrays of such bytes. *)
Require Import ZArith NArith List Bool Arith Ascii.
From Flocq Require Import Core.Core IEEE754.BinarySingleNaN IEEE754.Binary IEEE754.Bits.
Require Import Verif.Base Verif.Scalar Verif.Mat Verif.NumpyModel Verif.BuilderModel.
Import ListNotations.
Local Open Scope nat_scope.

(** The memory image of an unsigned number, least significant byte first (x86). *)
Fixpoint le_bytes (n : nat) (z : Z) : list byte :=
  match n with
  | 0 => []
  | S n => ascii_of_N (Z.to_N (z mod 256)) :: le_bytes n (z / 256)
  end.
Fixpoint le_value (l : list byte) : Z :=
  match l with
  | [] => 0%Z
  | c :: l => (Z.of_N (N_of_ascii c) + 256 * le_value l)%Z
  end.

(** int: four bytes, two's complement *)
Definition int_bytes (z : Z) : elem := le_bytes 4 (z mod 2 ^ 32)%Z.
Definition int_of (e : elem) : Z := wrap32 (le_value e).

(** double: the 64 bits of IEEE 754 binary64.  Simplified: one NaN (the sign and payload of a NaN, which the numeric code
    does not look at, are not kept). *)
Notation double := (BinarySingleNaN.binary_float 53 1024).
Definition double_bytes (x : double) : elem := le_bytes 8 (bits_of_b64 (BSN2B 53 1024 default_nan_pl64 x)).
Definition double_of (e : elem) : double := B2BSN 53 1024 (b64_of_bits (le_value e)).
(** The arithmetic of double, for any logarithm, exponential, lgamma and order of summation (Scalar.v) *)
Definition double_ops (lg ex lga : double -> double) (sum : list double -> double) : ops double :=
  @Fops 53 1024 eq_refl eq_refl lg ex lga sum.

Section Arrays.
  Context {T : Type} {O : ops T}.
  Variable to_bytes : T -> elem.
  Variable of_bytes : elem -> T.

  (** Eigen's storage of a column-major matrix and of a column vector *)
  Definition emat_of (m : mat T) : emat :=
    mk_emat (mrows m) (ncols m) false (concat (vtab (ncols m) (fun i => map to_bytes (mcol m i)))).
  Definition ecol_of (v : list T) : emat := mk_emat (length v) 1 false (map to_bytes v).
  Definition mat_of (x : emat) : mat T := mtab (em_rows x) (em_cols x) (fun j i => of_bytes (em_get x j i)).
  Definition col_of (x : emat) : list T := vtab (em_rows x) (fun j => of_bytes (em_get x j 0)).

  (** lda_io.cpp 50-71 and 73-91: the three arrays of a model *)
  Definition file_of (m : params T) : model_file := mk_model (ecol_of (p_alpha m)) (emat_of (p_beta m)) (emat_of (p_eta m)).
  Definition params_of (f : model_file) : params T := mk_params (col_of (mf_alpha f)) (mat_of (mf_beta f)) (mat_of (mf_eta f)).
End Arrays.

(** The columns of an Eigen::MatrixXi: the documents (Document.cpp 79-84) *)
Definition columns (x : emat) : list (list Z) := vtab (em_cols x) (fun i => vtab (em_rows x) (fun j => int_of (em_get x j i))).
(** The Eigen::MatrixXi read as labels becomes an Eigen::VectorXi (slda.cpp 175-192, LDA.hpp): undefined (an assertion) unless it has one column. *)
Definition labels (y : emat) : outcome (list Z) :=
  if Nat.eqb (em_cols y) 1 then Ok (vtab (em_rows y) (fun j => int_of (em_get y j 0))) else UB.
