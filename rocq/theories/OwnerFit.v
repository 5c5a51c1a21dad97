(** Lemmas about the thread that calls fit. *)
Require Import List Permutation.
Require Import Verif.Base Verif.Scalar Verif.Mat Verif.EStepModel Verif.OptModel Verif.MStepModel Verif.PoolModel Verif.PoolSpec Verif.LdaModel
  Verif.AppsModel Verif.OwnerSpec Verif.OwnerProofs.
Import ListNotations.

Section Owner.
  Context {T : Type} {O : ops T}.
  Variable dfuel : nat.
  Context {St : Type}.
  Variable M : maximizer T St.
  Variable k : e_step T.

  Lemma from_any own own' W docs n st p st' p' : fit_from dfuel M k own W docs n st p st' p' -> fit_from dfuel M k own' W docs n st p st' p'.
  Proof.
    induction 1 as [|n st p docs' s st' p' Hp Hr Hd _ IH]; [constructor|].
    destruct (done_any own' Hr Hd) as (t & Rt & Dt & A & B & _). apply from_epoch with docs' t; try assumption. now rewrite A, B.
  Qed.
  Lemma fit_is_from own W docs n st p st' p' : fit_call dfuel M k W docs n st p st' p' <-> fit_from dfuel M k own W docs n st p st' p'.
  Proof.
    split.
    - induction 1 as [|n st p st1 p1 st2 p2 (docs' & o & s & Hp & Hr & Hd & -> & ->) _ IH]; [constructor|].
      destruct (done_any own Hr Hd) as (t & Rt & Dt & A & B & _). apply from_epoch with docs' t; try assumption. now rewrite A, B.
    - induction 1 as [|n st p docs' s st' p' Hp Hr Hd _ IH]; [constructor|].
      econstructor; [|exact IH]. exists docs', own, s. auto.
  Qed.
  (** What the owner's fit does is heard by its listeners. *)
  Lemma from_heard W docs n st p st' p' : fit_from dfuel M k true W docs n st p st' p' ->
    exists tr ms, fit_heard dfuel M k W docs st p tr ms st' p' /\ length ms = n.
  Proof.
    induction 1 as [|n st p docs' s st' p' Hp Hr Hd _ (tr & ms & H & L)]; [exists [], []; split; [constructor|reflexivity]|].
    exists (notices (log s) ++ tr), (fst (param s) :: ms). split; [now apply heard_epoch with docs'|cbn; now rewrite L].
  Qed.
End Owner.
