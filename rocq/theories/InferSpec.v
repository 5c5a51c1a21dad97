(** Vocabulary of the inference properties. *)
Require Import Reals ZArith List Bool Arith.
Require Import Verif.Base Verif.Scalar Verif.Mat Verif.UtilsModel Verif.BuilderModel Verif.LdaModel.
Import ListNotations.

(** [p] is the first of the [C] classes with the largest score. *)
Definition first_best (C : nat) (score : nat -> R) (p : nat) : Prop :=
  (p < C)%nat /\ (forall c, (c < C)%nat -> score c <= score p)%R /\ (forall c, (c < p)%nat -> score c < score p)%R.

Section Infer.
  Context {O : ops R}.
  Open Scope R_scope.
  (** Share of topic [i] in document [d], of which [g] holds the gammas: gamma - alpha, normalised. *)
  Definition share (m : params R) (g : mat R) (i d : nat) : R :=
    (mget g i d - vget (p_alpha m) i) / rsum (mrows g) (fun j => mget g j d - vget (p_alpha m) j).
  (** Score of class [c]: row [c] of eta^T times the shares. *)
  Definition score (m : params R) (g : mat R) (c d : nat) : R :=
    rsum (mrows g) (fun i => mget (p_eta m) i c * share m g i d).
End Infer.

(** The E steps that look at the label. *)
Definition reads_label {T} (k : e_step T) : bool := match k with Classic _ => false | _ => true end.
