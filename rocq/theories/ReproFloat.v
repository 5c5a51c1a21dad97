(** Two schedules of one epoch with two workers in single precision. *)
Require Import ZArith List Bool Arith Lia.
From Flocq Require Import Core IEEE754.BinarySingleNaN.
Require Import Verif.Base Verif.Scalar Verif.Mat Verif.UtilsModel Verif.BuilderModel Verif.EStepModel Verif.OptModel Verif.MStepModel Verif.PoolModel Verif.PoolSpec Verif.PoolProofs Verif.PoolDone
  Verif.LdaModel Verif.ReproModel.
Import ListNotations.
Local Open Scope nat_scope.

Definition F32 := binary_float 24 128.
#[global] Instance single_prec : FLX.Prec_gt_0 24 := eq_refl.
#[global] Instance single_emax : Prec_lt_emax 24 128 := eq_refl.
(** Sums from left to right. *)
Definition left_sum (l : list F32) : F32 := fold_left (Bplus mode_NE) l (B754_zero false).

Section Two.
  Variables lg ex lga : F32 -> F32.
  Local Hint Extern 0 (ops _) => exact (Fops 24 128 lg ex lga left_sum) : typeclass_instances.
  (** One topic, two words. *)
  Definition three_docs : list (doc F32) := map (fun w => unlabelled w) [[16777216; 1]; [1; 0]; [1; 0]]%Z.
  Definition one_topic : params F32 := mk_params [one] (mk_mat 1 [[one]; [one]]) empty_mat.
  Definition no_iterations : econf F32 := mk_econf 0 zero zero.

  Definition after (ls : list (label (option F32))) : state (outcome (vparams F32)) shared (outcome (mat F32)) (option F32) F32 :=
    play (train_estep 7 (Classic no_iterations) three_docs) (train_feed unsupervised_maximizer three_docs) train_e_end (train_m_end unsupervised_maximizer) Fit true 3 ls
      (initial 2 (Ok empty_mat) (one_topic, 0)).
  Definition turns (w : nat) : list (label (option F32)) := concat (repeat [LMain; LWorker w None] 40).
  Definition schedule (a b : nat) : list (label (option F32)) :=
    repeat LMain 8 ++ repeat (LWorker 0 None) 4 ++ turns a ++ turns b ++ repeat LMain 20.
  Lemma after_ordered a b : main (after (schedule a b)) = MDone ->
    partial_fit_ordered 7 unsupervised_maximizer (Classic no_iterations) 2 three_docs (Ok empty_mat) (one_topic, 0)
      (priv (after (schedule a b))) (param (after (schedule a b))).
  Proof.
    intros H. exists true, (after (schedule a b)). split; [|split; [exact H|split; reflexivity]]. apply play_reach, reach_init.
  Qed.
  Lemma two_results : exists st p st' p',
    partial_fit_ordered 7 unsupervised_maximizer (Classic no_iterations) 2 three_docs (Ok empty_mat) (one_topic, 0) st p /\
    partial_fit_ordered 7 unsupervised_maximizer (Classic no_iterations) 2 three_docs (Ok empty_mat) (one_topic, 0) st' p' /\
    (exists s s', st = Ok s /\ st' = Ok s') /\
    eqb (mget (p_beta (fst p)) 0 0) one = true /\ ltb (mget (p_beta (fst p')) 0 0) one = true.
  Proof.
    exists (priv (after (schedule 0 1))), (param (after (schedule 0 1))), (priv (after (schedule 1 0))), (param (after (schedule 1 0))).
    split; [apply after_ordered; vm_compute; reflexivity|]. split; [apply after_ordered; vm_compute; reflexivity|].
    split; [|split; vm_compute; reflexivity].
    assert (A : forall r : outcome (mat F32), match r with Ok _ => true | _ => false end = true -> exists s, r = Ok s) by (intros [s| |]; [eauto|discriminate..]).
    destruct (A (priv (after (schedule 0 1)))) as (s & E); [vm_compute; reflexivity|].
    destruct (A (priv (after (schedule 1 0)))) as (s' & E'); [vm_compute; reflexivity|]. exists s, s'. split; assumption.
  Qed.
End Two.
