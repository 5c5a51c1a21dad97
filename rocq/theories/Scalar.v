(** The scalar type of the templated numeric code as a record of operations, its
    instances (real numbers; IEEE-754 binary formats), and Eigen vectors and
    matrices over it. *)
Require Import Reals ZArith List.
From Flocq Require Import Core.Core IEEE754.BinarySingleNaN.
Import ListNotations.

(** Everything the code asks of [Scalar] (float or double).  [redux] is Eigen's
    .sum(), whose association order is unspecified; [slgamma] is std::lgamma;
    [trunc] is static_cast<int> ([None]: undefined, NaN or out of range). *)
Class ops (T : Type) := {
  zero : T; one : T;
  add : T -> T -> T; sub : T -> T -> T; mul : T -> T -> T; div : T -> T -> T;
  opp : T -> T; sabs : T -> T;
  ltb : T -> T -> bool; eqb : T -> T -> bool;
  slog : T -> T; sexp : T -> T; slgamma : T -> T;
  ofZ : Z -> T; trunc : T -> option Z;
  redux : list T -> T
}.

Declare Scope sc_scope.
Delimit Scope sc_scope with S.
Infix "+" := add : sc_scope.
Infix "-" := sub : sc_scope.
Infix "*" := mul : sc_scope.
Infix "/" := div : sc_scope.
Notation "- x" := (opp x) : sc_scope.
Infix "<?" := ltb : sc_scope.
Infix "=?" := eqb : sc_scope.

(** Exact arithmetic.  [lg] stands for the logarithm of the gamma function. *)
Definition Rtrunc (x : R) : Z :=
  if Rle_dec 0 x then (up x - 1)%Z else (- (up (- x) - 1))%Z.
Definition Rint (x : R) : option Z :=
  let z := Rtrunc x in if ((- 2 ^ 31 <=? z) && (z <? 2 ^ 31))%Z%bool then Some z else None.
Definition Rops (lg : R -> R) : ops R := {|
  zero := 0%R; one := 1%R; add := Rplus; sub := Rminus; mul := Rmult; div := Rdiv;
  opp := Ropp; sabs := Rabs;
  ltb := fun x y => if Rlt_dec x y then true else false;
  eqb := fun x y => if Req_EM_T x y then true else false;
  slog := ln; sexp := exp; slgamma := lg;
  ofZ := IZR; trunc := Rint;
  redux := fold_right Rplus 0%R
|}.

(** IEEE arithmetic with [prec] bits and exponents below [emax] (binary32: 24, 128;
    binary64: 53, 1024), round to nearest even, for any logarithm, exponential,
    lgamma and order of summation.  The floating-point operations are Flocq's, which
    are proved to be the correctly rounded ones. *)
Section Float.
  Variables prec emax : Z.
  Context {Hprec : Prec_gt_0 prec} {Hemax : Prec_lt_emax prec emax}.
  Notation F := (binary_float prec emax).
  Definition Ftrunc (x : F) : option Z :=
    match x with
    | B754_zero _ => Some 0%Z
    | B754_finite _ _ _ _ =>
        let z := Btrunc x in
        if ((- 2 ^ 31 <=? z) && (z <? 2 ^ 31))%Z%bool then Some z else None
    | _ => None
    end.
  Definition Fops (lg ex lga : F -> F) (sum : list F -> F) : ops F := {|
    zero := B754_zero false;
    one := binary_normalize prec emax Hprec Hemax mode_NE 1 0 false;
    add := Bplus mode_NE; sub := Bminus mode_NE; mul := Bmult mode_NE; div := Bdiv mode_NE;
    opp := Bopp; sabs := Babs; ltb := Bltb; eqb := Beqb;
    slog := lg; sexp := ex; slgamma := lga;
    ofZ := fun z => binary_normalize prec emax Hprec Hemax mode_NE z 0 false;
    trunc := Ftrunc;
    redux := sum
  |}.
End Float.
