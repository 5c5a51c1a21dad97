(** A corpus with classes that meets the requirements of correspondence training in double precision. *)
Require Import Reals ZArith List Bool Arith Lia Lra.
From Flocq Require Import Core.Core IEEE754.BinarySingleNaN.
Require Import Verif.Base Verif.Scalar Verif.Mat Verif.HostModel Verif.BuilderModel Verif.EStepModel.
Require Import Verif.DoubleSpec Verif.DoubleClassSpec Verif.DoubleTrainSpec Verif.DoubleMultiTrainSpec Verif.DoubleCorrTrainSpec Verif.DoubleArith Verif.DoubleUtils Verif.DoubleProofs Verif.DoubleTrainRefute Verif.DoubleCorrespondence Verif.DoubleCorrespondenceRefute Verif.DoubleCorrTrainRefute.
Import ListNotations.
Open Scope R_scope.

Section Cases.
  Variables (lg ex lga : double -> double) (sum : list double -> double).
  Local Hint Extern 0 (ops _) => exact (DO lg ex lga sum) : typeclass_instances.
  Notation open_classes := (open_classes lg ex lga sum).

  (** two documents of different classes, mu = 2 *)
  Lemma open_corresponding : double_corresponding (ofZ 2) both open_classes.
  Proof.
    destruct (int_d lg ex lga sum 2%Z ltac:(lia)) as [F2 V2]. destruct (one_d lg ex lga sum) as [F1 V1]. destruct (half_d' lg ex lga sum) as [Fh Vh].
    assert (Le : forall k, / 2 ^ k <= 1) by (intros k; rewrite <- Rinv_1; apply Rinv_le_contravar; [lra|]; apply pow_R1_Rle; lra).
    assert (DC : forall d, In d both -> exists y, d_class d = Some (Z.of_nat y) /\ (y < 2)%nat /\ double_classes (/ 140) (d_words d) y open_classes).
    { intros d [<-|[<-|[]]]; [exists 0%nat|exists 1%nat]; (split; [reflexivity|]; split; [lia|]; apply open_double; [auto|lia]). }
    split.
    - split.
      + discriminate.
      + cbn. lia.
      + intros d Hd. destruct (DC d Hd) as (y & _ & _ & X). exact (DI' lg ex lga sum (d_words d) y open_classes X).
      + cbn [p_beta DoubleCorrTrainRefute.open_classes mrows ncols mcols length]. intros i Hi.
        destruct i as [|[|i]]; [exists first_class, 0%nat|exists second_class, 1%nat|lia]; (split; [cbn; tauto|]; split; [lia|]; split; [discriminate|]; cbn [mget mcols nth]; rewrite V1; apply Le).
    - cbn. lia.
    - intros d Hd. destruct (DC d Hd) as (y & E & Hy & X). exists y. split; [exact E|]. split; [exact X|]. cbn [p_eta DoubleCorrTrainRefute.open_classes mrows]. intros i Hi.
      assert (Eh : mget (mk_mat 2 [[div one (ofZ 2); div one (ofZ 2)]; [div one (ofZ 2); div one (ofZ 2)]]) i y = (div one (ofZ 2) : double)) by (destruct i as [|[|i]]; [| |lia]; (destruct y as [|[|y]]; [reflexivity|reflexivity|lia])).
      rewrite Eh, Vh. apply Rinv_le_contravar; [lra|]. change (2 ^ 30) with (2 * 2 ^ 29). pose proof (pow_R1_Rle 2 29 ltac:(lra)). lra.
    - cbn [p_beta DoubleCorrTrainRefute.open_classes mrows ncols mcols length]. intros i Hi.
      destruct i as [|[|i]]; [exists first_class, 0%nat|exists second_class, 1%nat|lia]; (split; [cbn; tauto|]; split; [lia|]; split; [discriminate|]; cbn [mget mcols nth]; rewrite V1; apply Le).
    - cbn. lia.
    - split; [exact F2|]. rewrite V2. pose proof (Le 30%nat). pose proof (pow_R1_Rle 2 29 ltac:(lra)). change (2 ^ 30) with (2 * 2 ^ 29) at 2. lra.
    - rewrite V2. change (IZR (corpus_words both)) with 2. change (INR (ncols (p_eta open_classes))) with 2. pose proof (pow_R1_Rle 2 25 ltac:(lra)). replace (2 ^ 30) with (32 * 2 ^ 25) by ring. lra.
  Qed.
End Cases.
