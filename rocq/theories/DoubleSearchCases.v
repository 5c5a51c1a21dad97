(** Concrete epochs for the property of the line search in double precision. *)
Require Import Reals ZArith List Bool Arith Lia Lra Permutation.
From Flocq Require Import Core.Core IEEE754.BinarySingleNaN.
Require Import Verif.Base Verif.Scalar Verif.Mat Verif.HostModel Verif.UtilsModel Verif.BuilderModel Verif.EStepModel Verif.OptModel Verif.MStepModel Verif.MStepSpec Verif.MStepAny Verif.MStepBatch.
Require Import Verif.DoubleSpec Verif.DoubleSearchSpec Verif.DoubleArith Verif.DoubleUtils Verif.DoubleProofs Verif.DoubleCorrTrainRefute Verif.DoubleSearch Verif.DoubleSearchProofs Verif.DoubleSearchTrain Verif.DoubleSearchRefute.
Import ListNotations.
Open Scope R_scope.

Section Cases.
  Variables (lg ex lga : double -> double) (sum : list double -> double).
  Local Hint Extern 0 (ops _) => exact (DO lg ex lga sum) : typeclass_instances.
  Hypothesis Hsum : forall l, summed l (sum l).
  Hypothesis Hlg : rough_log lg.
  Hypothesis Hex : forall b, ex (B754_zero b) = one.
  Ltac norm := change (@add double (DO lg ex lga sum)) with dadd in *; change (@sub double (DO lg ex lga sum)) with dsub in *;
    change (@mul double (DO lg ex lga sum)) with dmul in *; change (@div double (DO lg ex lga sum)) with ddiv in *; change (@zero double (DO lg ex lga sum)) with (B754_zero false : double) in *.

  (** a document without words and its posterior *)
  Definition empty_item (c : Z) : item double := (mk_doc [0%Z] (Some c) 1 [], mk_vparams [one] (mk_mat 1 [[one]]) []).
  Definition empty_epoch : list (item double) := [empty_item 0; empty_item 1].

  Lemma weights_of_both : exists w0 w1 : double, class_weights both = Ok [w0; w1] /\ is_finite w0 = true /\ is_finite w1 = true /\ B2R w0 = 1 /\ B2R w1 = 1.
  Proof.
    destruct (one_d lg ex lga sum) as [Fo Vo]. destruct (int_d lg ex lga sum 2 ltac:(lia)) as [F2 V2].
    assert (C0 : is_finite (dadd (B754_zero false) one) = true /\ B2R (dadd (B754_zero false) one) = 1). { destruct (zero_add_val (B754_zero false) one) as [A B]; [now exists false|exact Fo|]. split; [exact A|lra]. }
    destruct C0 as [Fc Vc].
    assert (W : is_finite (ddiv (ofZ 2) (dmul (dadd (B754_zero false) one) (ofZ 2))) = true /\ B2R (ddiv (ofZ 2) (dmul (dadd (B754_zero false) one) (ofZ 2))) = 1).
    { destruct (exact_mul _ (ofZ 2) 2 Fc F2) as [A B]; [rewrite Vc, V2; lra|apply (rep_Z 2); lia|].
      destruct (div_in (ofZ 2) (dmul (dadd (B754_zero false) one) (ofZ 2)) F2 1 1 (rep_Z 1 ltac:(lia)) (rep_Z 1 ltac:(lia))) as (D & _ & E); [rewrite B; lra|rewrite B, V2; lra|]. split; [exact D|lra]. }
    destruct W as [Fw Vw]. exists (ddiv (ofZ 2) (dmul (dadd (B754_zero false) one) (ofZ 2))), (ddiv (ofZ 2) (dmul (dadd (B754_zero false) one) (ofZ 2))).
    split; [|auto]. reflexivity.
  Qed.

  Lemma no_mixture c : mixture 1 [one] (empty_item c) = [B754_zero false].
  Proof.
    destruct (one_d lg ex lga sum) as [Fo Vo].
    assert (E : excess 1 [one] (empty_item c) = [dsub one one]) by reflexivity.
    assert (Z : dsub one one = B754_zero false) by (vm_compute; reflexivity). unfold mixture. cbv zeta. rewrite E, Z.
    destruct (zero_summed _ _ (Hsum [B754_zero false])) as (b & S); [intros x [<-|[]]; now exists false|].
    change (redux [B754_zero false : double]) with (sum [B754_zero false]). rewrite S. destruct b; reflexivity.
  Qed.

  Lemma worse_epoch : exists (x0 L : double), coefficients 1 2 (mk_mat 1 [[x0]; [x0]]) /\ is_finite x0 = true /\ is_finite L = true /\ B2R L = 1024 /\
    forall fuel limit tolerance, (1 <= limit)%nat -> (1076 <= fuel)%nat -> is_finite tolerance = true -> 0 <= B2R tolerance ->
    let m := mk_params [one] (mk_mat 1 [[one]]) (mk_mat 1 [[x0]; [x0]]) in
    exists p eta' v v', mlr (mk_mat 1 (map (mixture 1 [one]) empty_epoch)) (map class_of empty_epoch) L = Ok p /\
      weights (mrun (fast_maximizer fuel limit tolerance L) (epoch empty_epoch) m new_fast) = Ok (eta', [Bopp v; Bopp v]) /\
      value p (p_eta m) = Ok v /\ value p eta' = Ok v' /\ is_finite v = true /\ is_finite v' = true /\ B2R v < B2R v'.
  Proof.
    destruct (pow_double (-36) ltac:(lia)) as (x0 & Fx & Vx). destruct (pow_double 10 ltac:(lia)) as (L & FL & VL). destruct weights_of_both as (w0 & w1 & EW & F0 & F1 & V0 & V1).
    exists x0, L. split; [|split; [exact Fx|split; [exact FL|split; [rewrite VL; cbn; lra|]]]].
    { split; [repeat constructor|]. split; [|split; reflexivity]. intros (c & Hc & Hz). assert (X : c = [x0]) by (destruct Hc as [<-|[<-|[]]]; reflexivity). subst c. destruct Hz as [Hz|[]]. subst x0. cbn [B2R] in Vx. pose proof (bpow_gt_0 radix2 (-36)). lra. }
    intros fuel limit tolerance Hl Hf Ft Pt m.
    destruct (worse_eta lg ex lga sum Hsum Hlg Hex w0 w1 L F0 F1 V0 V1 FL VL x0 Fx Vx fuel limit tolerance Hl Hf Ft Pt) as (eta' & reports & v & v' & E & Ev & Ev' & Fv & Fv' & Lt & ->).
    assert (EM : mlr (mk_mat 1 (map (mixture 1 [one]) empty_epoch)) (map class_of empty_epoch) L = Ok (mk_problem (mlr_value no_words both [w0; w1] L) (mlr_gradient no_words both [w0; w1] L))).
    { unfold empty_epoch. cbn [map]. rewrite !no_mixture. unfold mlr. change [class_of (empty_item 0); class_of (empty_item 1)] with both. rewrite EW. reflexivity. }
    eexists _, eta', v, v'. split; [exact EM|]. split; [|split; [exact Ev|split; [exact Ev'|auto]]].
    rewrite (fast_weights 1 1 fuel limit tolerance L (Nat.lt_0_succ 0) [] m m new_fast []); [|reflexivity|now left|constructor|reflexivity| |discriminate].
    - unfold trained. change (p_alpha m) with ([one] : list double). rewrite EM. cbn [bind]. exact E.
    - apply Forall_forall. intros x [<-|[<-|[]]]; (split; [repeat split|intros X; discriminate X]).
  Qed.

  (** documents with infinities and NaN, from coefficients with infinities and NaN *)
  Definition wild (c : Z) (a b : double) : item double := (mk_doc [3%Z] (Some c) 1 [], mk_vparams [a] (mk_mat 1 [[b]]) []).
  Definition wild_epochs : list (list (item double)) := [[wild 0 B754_nan one; wild 1 (B754_infinity true) B754_nan]; [wild 1 one (B754_infinity false)]].
  Definition wild_eta : mat double := mk_mat 1 [[B754_infinity false]; [B754_nan]].
  Lemma wild_good : coefficients 1 2 wild_eta /\ Forall (fun l => l <> [] /\ Forall (fun x => sized 1 1 x /\ short x /\ classified 2 x) l) wild_epochs /\
    Forall (fun l => Exists (fun x => labelled x = true) l /\ Forall (fun x => sized 1 1 x /\ exists c, d_class (fst x) = Some c /\ (c < Z.of_nat 2)%Z) l) wild_epochs.
  Proof.
    split; [|split].
    - split; [repeat constructor|]. split; [|split; reflexivity]. intros (c & [<-|[<-|[]]] & [H|[]]); discriminate H.
    - apply Forall_forall. intros l [<-|[<-|[]]]; (split; [discriminate|]); apply Forall_forall; intros x Hx;
        repeat (destruct Hx as [<-|Hx]; [split; [repeat split|]; split; [reflexivity|eexists; split; [reflexivity|lia]]|]); destruct Hx.
    - apply Forall_forall. intros l [<-|[<-|[]]]; (split; [now left|]); apply Forall_forall; intros x Hx;
        repeat (destruct Hx as [<-|Hx]; [split; [repeat split|]; eexists; split; [reflexivity|lia]|]); destruct Hx.
  Qed.
  Lemma wild_run limit tolerance L : (limit <= 2000)%nat ->
    exists m' s e, mrun (fast_maximizer 2000 limit tolerance L) (epochs wild_epochs) (mk_params [one] (mk_mat 1 [[one]]) wild_eta) new_fast = Ok (m', s, e).
  Proof.
    intros Hl. destruct wild_good as (G1 & G2 & _).
    destruct (fast_ends lg ex lga sum Hsum 1 1 2 2000 limit tolerance L ltac:(lia) ltac:(lia) ltac:(lia) Hl wild_epochs (mk_params [one] (mk_mat 1 [[one]]) wild_eta)) as (m' & s & e & E & _).
    - revert G2. apply Forall_impl. intros l [A B]. split; [exact A|]. revert B. apply Forall_impl. tauto.
    - reflexivity.
    - exact G1.
    - now exists m', s, e.
  Qed.
End Cases.
