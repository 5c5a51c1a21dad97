(** Vocabulary of the training properties. *)
Require Import Reals List Arith.
Require Import Verif.Base Verif.Scalar Verif.Mat Verif.BuilderModel Verif.EStepModel Verif.MStepSpec Verif.LdaModel.
Import ListNotations.

(** The results the E step [k] can give for the documents [D] in a model with K topics and V words satisfy what the M step
    asks of them. *)
Definition delivers {O : ops R} (K V : nat) (k : e_step R) (Q : item R -> Prop) (D : list (doc R)) : Prop :=
  forall epochs m d v, In d D -> mrows (p_beta m) = K -> ncols (p_beta m) = V -> posterior 7 k epochs d m = Ok v -> Q (d, v).
