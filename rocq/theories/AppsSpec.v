(** Vocabulary of the theorems about the applications. *)
Require Import ZArith List Bool Arith Reals String.
Require Import Verif.Base Verif.Scalar Verif.NumpyModel Verif.NumpySpec Verif.BuilderModel Verif.AppsModel.
Import ListNotations.
Local Open Scope nat_scope.

(** [ms]: the model after each epoch.  [files]: the files written, in order, each with the model it holds.  They are those of the
    epochs N, 2N, ...: the j-th (counted from 0) holds the model after epoch N(j+1), and its name is the path followed by
    an underscore and that number in decimal (possibly with leading zeros). *)
Definition snapshots_of {T} (path : list byte) (N : nat) (ms : list (params T)) (files : list (list byte * params T)) : Prop :=
  List.length files = List.length ms / N /\
  forall j name m, nth_error files j = Some (name, m) ->
    let e := N * S j in
    nth_error ms (e - 1) = Some m /\
    exists d, is_numeral d (Z.of_nat e) /\ name = path ++ text "_"%string ++ d.

(** The finite negative likelihoods among the events of an epoch; the others are not meant to be counted (a NaN says that the likelihood
    was not computed). *)
Fixpoint reported (es : list (notice R)) : list R :=
  match es with
  | [] => []
  | Expectation (Some x) :: es => if Rlt_dec x 0 then x :: reported es else reported es
  | _ :: es => reported es
  end.
Definition mean (l : list R) : R := (fold_right Rplus 0 l / INR (List.length l))%R.
(** The values printed as "Per document likelihood". *)
Fixpoint printed (ls : list line) : list Z :=
  match ls with
  | [] => []
  | LLikelihood z :: ls => z :: printed ls
  | _ :: ls => printed ls
  end.
(** Events of one epoch before its end. *)
Definition not_end {T} (e : notice T) : Prop := match e with EpochEnd _ => False | _ => True end.

(** k, 2k, ... up to n *)
Definition multiples (k n : nat) : list Z := map (fun j => Z.of_nat (k * S j)) (seq 0 (n / k)).
