(** Vocabulary for the property about the thread that calls fit. *)
Require Import List Permutation.
Require Import Verif.Base Verif.Scalar Verif.Mat Verif.EStepModel Verif.OptModel Verif.MStepModel Verif.PoolModel Verif.LdaModel.

Section Owner.
  Context {T : Type} {O : ops T}.
  Variable dfuel : nat.
  Context {St : Type}.
  Variable M : maximizer T St.
  Variable k : e_step T.

  (** fit with [n] epochs (LDA.cpp 64-81) called by the thread that built the object ([own] = true) or by another one: the M step
      object and the model, with the epochs counted, before and after. *)
  Inductive fit_from (own : bool) (W : nat) (docs : list (doc T)) : nat -> outcome St -> @shared T -> outcome St -> @shared T -> Prop :=
  | from_done st p : fit_from own W docs 0 st p st p
  | from_epoch n st p docs' (s : state (outcome (vparams T)) (@shared T) (outcome St) (option T) T) st' p' :
      Permutation docs docs' ->
      reachable (train_estep dfuel k docs') (train_feed M docs') train_e_end (train_m_end M) Fit own (length docs') W st p s ->
      main s = MDone ->
      fit_from own W docs n (priv s) (param s) st' p' ->
      fit_from own W docs (S n) st p st' p'.
End Owner.
