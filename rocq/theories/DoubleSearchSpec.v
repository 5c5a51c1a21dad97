(** Vocabulary of the property of the line search and the gradient descent in double precision. *)
Require Import Reals ZArith List Arith.
From Flocq Require Import Core.Core IEEE754.BinarySingleNaN.
Require Import Verif.Base Verif.Scalar Verif.Mat Verif.HostModel Verif.BuilderModel Verif.EStepModel Verif.OptModel Verif.MStepModel Verif.MStepSpec Verif.DoubleSpec.
Import ListNotations.
Open Scope R_scope.

(** The columns of the matrix have as many entries as it has rows. *)
Definition proper (x : mat double) : Prop := Forall (fun c => length c = mrows x) (mcols x).
Definition entry (x : mat double) (z : double) : Prop := exists c, In c (mcols x) /\ In z c.
(** A matrix without the number -0 (the fits of the library start at zeros, at random numbers or at the result of the last fit). *)
Definition no_minus_zero (x : mat double) : Prop := ~ entry x (B754_zero true).
Definition same_size (x y : mat double) : Prop := mrows x = mrows y /\ ncols x = ncols y.
(** An objective and a gradient defined for every matrix of the size of x. *)
Definition total (p : problem double) (x : mat double) : Prop :=
  forall y, same_size y x -> (exists v, value p y = Ok v) /\ exists g, gradient p y = Ok g /\ same_size g x.
(** The objective is infinite or NaN where a coefficient is NaN. *)
Definition passes_nan (p : problem double) : Prop := forall y v, proper y -> value p y = Ok v -> entry y B754_nan -> is_finite v = false.

(** No number of the list that is finite is below a finite number just before it. *)
Fixpoint never_falls (l : list double) : Prop := match l with
  | a :: (b :: _) as r => (is_finite a = true -> is_finite b = true -> B2R a <= B2R b) /\ never_falls r
  | _ => True end.

(** Coefficients for K topics and C classes, without -0, with any other numbers: infinities and NaN too. *)
Definition coefficients (K C : nat) (eta : mat double) : Prop := proper eta /\ no_minus_zero eta /\ mrows eta = K /\ ncols eta = C.
(** The calls of several epochs: the documents of each with what the E step gave for them. *)
Definition epochs (ls : list (list (item double))) : list (mcall double) := concat (map epoch ls).

(** What the values reported by a fit say of its result eta', if the objective was v0 at the start: they never fall; and the last one is minus the objective at eta', which is
    not above v0, or it is the same as the one before. *)
Definition closes (p : problem double) (v0 : double) (eta' : mat double) (reports : list double) : Prop := never_falls reports /\ exists v rest, reports = rest ++ [Bopp v] /\
  ((value p eta' = Ok v /\ (is_finite v0 = true -> is_finite v = true -> B2R v <= B2R v0)) \/ exists rest', rest = rest' ++ [Bopp v]).
