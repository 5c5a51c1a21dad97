(** Vocabulary: a lda train that continues from a model file. *)
Require Import Reals ZArith List Arith String.
From Flocq Require Import Core.Core IEEE754.BinarySingleNaN.
Require Import Verif.Base Verif.Scalar Verif.Mat Verif.HostModel Verif.BuilderModel Verif.EStepModel Verif.AppsModel Verif.FreshSpec.
Import ListNotations.
Local Notation length := List.length.

(** The options of lda train --continue [from]: the others can be read, and snapshots, if any, are counted by an int. *)
Record more_options (args : string -> value) (stol : string -> outcome Z) (stof : string -> outcome double) (from path : string) (iterations workers : nat) : Prop := {
  mo_model : args "MODEL"%string = VString path;
  mo_continue : args "--continue"%string = VString from;
  mo_seed : exists seed, long_arg args stol "--random_state" = Ok seed;
  mo_iterations : exists n, long_arg args stol "--iterations" = Ok n /\ iterations = size n;
  mo_workers : exists n, long_arg args stol "--workers" = Ok n /\ workers = size n;
  mo_e_step : exists ei et l, long_arg args stol "--e_step_iterations" = Ok ei /\ float_arg args stof "--e_step_tolerance" = Ok et /\
    float_arg args stof "--compute_likelihood" = Ok l;
  mo_quiet : exists q, args "--quiet"%string = VBool q;
  mo_snapshots : exists n, long_arg args stol "--snapshot_every" = Ok n /\ ((n <= 0)%Z \/ (n < 2 ^ 31)%Z /\ (Z.of_nat iterations < 2 ^ 31)%Z)
}.

(** The documents [X] and perhaps more, all of them with words of [X] only, and no more than 2^30. *)
Definition extends (X : list (list Z)) (V : nat) (X' : list (list Z)) : Prop :=
  incl X X' /\ Forall (known_document X V) X' /\ (Z.of_nat (length X') <= 2 ^ 30)%Z.
