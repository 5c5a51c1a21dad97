(** Lemmas about the score the root directory's application prints. *)
Require Import Reals ZArith List Bool Arith Lia Lra.
From Flocq Require Import Core.Core IEEE754.BinarySingleNaN.
Require Import Verif.Base Verif.Scalar Verif.Mat Verif.HostModel Verif.UtilsModel Verif.DoubleSpec Verif.DoubleArith Verif.RootModel Verif.RootSpec.
Import ListNotations.
Local Open Scope nat_scope.

Lemma iter_r {A} n (f : A -> A) x : Nat.iter n f (f x) = f (Nat.iter n f x).
Proof. induction n as [|n IH]; [reflexivity|]. change (f (Nat.iter n f (f x)) = f (f (Nat.iter n f x))). now rewrite IH. Qed.

Section Any.
  Context {T : Type} {O : ops T}.
  Variable q : T.

  Definition visit (y p : list Z) (acc : outcome T) (i : nat) : outcome T :=
    let* a := acc in
    match nth_error y i with
    | Some c => Ok (if (nth i p 0%Z =? c)%Z then add a q else a)
    | None => UB
    end.
  Lemma visit_ub y p l : fold_left (visit y p) l UB = UB.
  Proof. induction l as [|i l IH]; [reflexivity|exact IH]. Qed.
  Lemma visit_tail c y z p l acc : fold_left (visit (c :: y) (z :: p)) (map S l) acc = fold_left (visit y p) l acc.
  Proof. revert acc. induction l as [|i l IH]; intros acc; [reflexivity|]. cbn [map fold_left]. rewrite IH. reflexivity. Qed.
  Lemma visit_all p : forall y a, fold_left (visit y (map Z.of_nat p)) (seq 0 (length p)) (Ok a) =
    if length p <=? length y then Ok (Nat.iter (right y p) (fun a => add a q) a) else UB.
  Proof.
    induction p as [|z p IH]; intros y a; [now destruct y|]. cbn [length seq map fold_left]. destruct y as [|c y].
    - cbn. apply visit_ub.
    - rewrite <- seq_shift, visit_tail. cbn [visit bind nth_error nth]. rewrite IH. cbn [length right].
      change (S (length p) <=? S (length y)) with (length p <=? length y). destruct (length p <=? length y); [|reflexivity].
      rewrite Z.eqb_sym. destruct (c =? Z.of_nat z)%Z; cbn [Nat.add]; [|reflexivity]. apply f_equal. exact (iter_r _ _ _).
  Qed.
End Any.
Lemma score_is {T} {O : ops T} y p : accuracy_score y (map Z.of_nat p) =
  if length p <=? length y then Ok (Nat.iter (right y p) (fun a => add a (div one (ofZ (Z.of_nat (length p))))) zero) else UB.
Proof. unfold accuracy_score. rewrite map_length. exact (visit_all _ p y zero). Qed.
Lemma right_le y : forall p, right y p <= length p.
Proof. induction y as [|c y IH]; intros [|z p]; cbn; try lia. specialize (IH p). destruct (_ =? _)%Z; lia. Qed.

Local Open Scope R_scope.
Lemma iter_R lg (q : R) n : Nat.iter n (fun a => @add R (Rops lg) a q) 0 = INR n * q.
Proof. induction n as [|n IH]; [cbn; lra|]. rewrite S_INR. change (Nat.iter n (fun a => @add R (Rops lg) a q) 0 + q = (INR n + 1) * q). rewrite IH. lra. Qed.

Section Double.
  Variables (lg ex lga : double -> double) (sum : list double -> double).
  Local Instance DO : ops double := double_ops lg ex lga sum.
  Lemma ratio_d n : (1 <= n)%nat -> (Z.of_nat n < 2 ^ 31)%Z ->
    let q := div one (ofZ (Z.of_nat n)) in is_finite q = true /\ 0 <= B2R q <= 1 /\ Rabs (B2R q - / INR n) <= pow (-52).
  Proof.
    intros N1 N2 q. destruct (ofZ_in (Z.of_nat n) ltac:(lia)) as [F V]. destruct (ofZ_in 1 ltac:(lia)) as [F1 V1].
    rewrite <- INR_IZR_INZ in V. assert (P : 1 <= INR n) by (change 1 with (INR 1); now apply le_INR).
    assert (I : 0 <= / INR n <= 1). { split; [left; apply Rinv_0_lt_compat; lra|]. rewrite <- Rinv_1. apply Rinv_le_contravar; lra. }
    destruct (div_in _ (binary_normalize 53 1024 eq_refl eq_refl mode_NE (Z.of_nat n) 0 false) F1 0 1 (rep_Z 0 ltac:(lia)) (rep_Z 1 ltac:(lia))) as (G & E & B).
    - cbv zeta in V. rewrite V. lra.
    - cbv zeta in V, V1. rewrite V, V1. unfold Rdiv. lra.
    - split; [exact G|]. split; [exact B|]. change (B2R q) with (B2R (ddiv (binary_normalize 53 1024 eq_refl eq_refl mode_NE 1 0 false) (binary_normalize 53 1024 eq_refl eq_refl mode_NE (Z.of_nat n) 0 false))).
      rewrite E. cbv zeta in V, V1. rewrite V, V1. unfold Rdiv. rewrite Rmult_1_l. eapply Rle_trans; [apply rnd_error|]. rewrite Rabs_pos_eq by lra.
      assert (pow (-1075) <= pow (-53)) by (apply bpow_le; lia). replace (pow (-52)) with (pow (-53) * 1 + pow (-53)).
      + apply Rplus_le_compat; [apply Rmult_le_compat_l; [apply bpow_ge_0|lra]|assumption].
      + change (-52)%Z with (1 + -53)%Z. rewrite bpow_plus. change (pow 1) with 2. lra.
  Qed.
  Lemma iter_d n k : (1 <= n)%nat -> (Z.of_nat n < 2 ^ 31)%Z -> (k <= n)%nat ->
    let s := Nat.iter k (fun a => add a (div one (ofZ (Z.of_nat n)))) zero in
    is_finite s = true /\ 0 <= B2R s <= 2 /\ Rabs (B2R s - INR k / INR n) <= INR k * pow (-50).
  Proof.
    intros N1 N2. destruct (ratio_d n N1 N2) as (FQ & BQ & EQ). set (q := div one (ofZ (Z.of_nat n))) in *. clearbody q.
    assert (P : 1 <= INR n) by (change 1 with (INR 1); now apply le_INR).
    induction k as [|k IH]; intros HK s.
    - split; [reflexivity|]. cbn. split; [lra|]. unfold Rdiv. rewrite !Rmult_0_l, Rminus_0_r, Rabs_R0. lra.
    - destruct (IH ltac:(lia)) as (F & B & E). clear IH. change s with (dadd (Nat.iter k (fun a => add a q) zero) q). clear s.
      set (a := Nat.iter k (fun a => add a q) zero) in *. clearbody a.
      destruct (add_in a q F FQ 0 3 (rep_Z 0 ltac:(lia)) (rep_Z 3 ltac:(lia)) ltac:(lra)) as (G & V & B'). split; [exact G|].
      pose proof (rnd_add_error a q) as R0. rewrite <- V in R0. rewrite (Rabs_pos_eq (B2R a + B2R q)) in R0 by lra.
      assert (R1 : Rabs (B2R (dadd a q) - (B2R a + B2R q)) <= pow (-51)).
      { eapply Rle_trans; [exact R0|]. replace (pow (-51)) with (pow (-53) * 4); [apply Rmult_le_compat_l; [apply bpow_ge_0|lra]|]. change (-51)%Z with (-53 + 2)%Z. rewrite bpow_plus. reflexivity. }
      assert (PP : pow (-50) = 2 * pow (-51) /\ pow (-51) = 2 * pow (-52) /\ 0 <= pow (-52)).
      { split; [change (-50)%Z with (1 + -51)%Z; rewrite bpow_plus; reflexivity|]. split; [change (-51)%Z with (1 + -52)%Z; rewrite bpow_plus; reflexivity|apply bpow_ge_0]. }
      assert (E' : Rabs (B2R (dadd a q) - INR (S k) / INR n) <= INR (S k) * pow (-50)).
      { rewrite S_INR. replace (B2R (dadd a q) - (INR k + 1) / INR n) with ((B2R (dadd a q) - (B2R a + B2R q)) + (B2R a - INR k / INR n) + (B2R q - / INR n)) by (field; lra).
        eapply Rle_trans; [apply Rabs_triang|]. eapply Rle_trans; [apply Rplus_le_compat_r, Rabs_triang|]. lra. }
      split; [|exact E']. split; [apply B'|].
      assert (K1 : INR (S k) / INR n <= 1).
      { apply Rmult_le_reg_r with (INR n); [lra|]. unfold Rdiv. rewrite Rmult_assoc, Rinv_l by lra. rewrite Rmult_1_r, Rmult_1_l. apply le_INR, HK. }
      assert (K2 : INR (S k) * pow (-50) <= 1).
      { apply Rle_trans with (pow 31 * pow (-50)); [apply Rmult_le_compat_r; [apply bpow_ge_0|]|].
        - rewrite INR_IZR_INZ, <- IZR_Zpower by lia. apply IZR_le. change (radix2 ^ 31)%Z with (2 ^ 31)%Z. lia.
        - rewrite <- bpow_plus. replace 1 with (pow 0) by reflexivity. apply bpow_le. lia. }
      apply Rabs_le_inv in E'. lra.
  Qed.
  Lemma score_d y p : (1 <= length p)%nat -> (Z.of_nat (length p) < 2 ^ 31)%Z -> (length p <= length y)%nat ->
    exists a : double, accuracy_score y (map Z.of_nat p) = Ok a /\ is_finite a = true /\
      Rabs (B2R a - INR (right y p) / INR (length p)) <= INR (length p) * pow (-50) /\ (right y p = 0%nat -> a = zero).
  Proof.
    intros H1 H2 H3. rewrite score_is. apply Nat.leb_le in H3. rewrite H3. eexists. split; [reflexivity|].
    destruct (iter_d (length p) (right y p) H1 H2 (right_le y p)) as (F & _ & E). split; [exact F|]. split.
    - eapply Rle_trans; [exact E|]. apply Rmult_le_compat_r; [apply bpow_ge_0|]. apply le_INR, right_le.
    - intros ->. reflexivity.
  Qed.
End Double.
