(** 0 / n is zero for every int n but 0, in exact and in floating-point arithmetic. *)
Require Import Reals ZArith Lia Lra.
From Flocq Require Import Core.Core IEEE754.BinarySingleNaN.
Require Import Verif.Scalar Verif.EStepAny.
Open Scope R_scope.

Lemma zero_ratio_R lg : @zero_ratio R (Rops lg).
Proof.
  intros n Hn _. cbn. destruct (Req_EM_T _ 0) as [E|E]; [reflexivity|]. exfalso. apply E.
  unfold Rdiv. ring.
Qed.

Section Format.
  Variables prec emax : Z.
  Context {Hprec : Prec_gt_0 prec} {Hemax : Prec_lt_emax prec emax}.
  Hypothesis big_emax : (32 < emax)%Z.
  Notation F := (binary_float prec emax).
  Notation fexp := (SpecFloat.fexp prec emax).
  Variables (lg ex lga : F -> F) (sum : list F -> F).
  Local Instance FO : ops F := Fops prec emax lg ex lga sum.
  Instance fexp_valid : Valid_exp fexp := FLT_exp_valid (SpecFloat.emin prec emax) prec.

  Lemma format_bpow k : (0 <= k <= 31)%Z -> generic_format radix2 fexp (bpow radix2 k).
  Proof.
    intros Hk. apply generic_format_bpow. unfold SpecFloat.fexp, SpecFloat.emin.
    pose proof (prec_gt_0 prec). pose proof (prec_lt_emax prec emax). lia.
  Qed.
  Lemma round_int z : (1 <= z <= 2 ^ 31)%Z ->
    1 <= round radix2 fexp (round_mode mode_NE) (IZR z) <= bpow radix2 31.
  Proof.
    intros H. split.
    - apply round_ge_generic; [apply fexp_valid|apply valid_rnd_N| |apply IZR_le; lia].
      change 1 with (bpow radix2 0). apply format_bpow. lia.
    - apply round_le_generic; [apply fexp_valid|apply valid_rnd_N|apply format_bpow; lia|].
      change (bpow radix2 31) with (IZR (2 ^ 31)). apply IZR_le. lia.
  Qed.
  Lemma ofZ_nonzero z : (z <> 0 -> - 2 ^ 31 <= z < 2 ^ 31)%Z -> z <> 0%Z ->
    is_finite (ofZ z : F) = true /\ B2R (ofZ z : F) <> 0.
  Proof.
    intros H Hz. specialize (H Hz). cbn [ofZ FO Fops].
    pose proof (binary_normalize_correct prec emax Hprec Hemax mode_NE z 0 false) as C. cbv zeta in C.
    assert (E : F2R (Float radix2 z 0) = IZR z) by (unfold F2R; cbn; ring). rewrite E in C.
    assert (B : 1 <= Rabs (round radix2 fexp (round_mode mode_NE) (IZR z)) <= bpow radix2 31).
    { destruct (Z_lt_le_dec z 0) as [L|L].
      - replace z with (- - z)%Z by lia. rewrite opp_IZR. cbn [round_mode]. rewrite round_NE_opp, Rabs_Ropp.
        pose proof (round_int (- z) ltac:(lia)) as R. cbn [round_mode] in R. rewrite Rabs_pos_eq by lra. exact R.
      - pose proof (round_int z ltac:(lia)) as R. rewrite Rabs_pos_eq by lra. exact R. }
    rewrite Rlt_bool_true in C.
    - destruct C as (C1 & C2 & _). split; [exact C2|]. rewrite C1. intros Z. rewrite Z, Rabs_R0 in B. lra.
    - eapply Rle_lt_trans; [apply B|]. apply bpow_lt. lia.
  Qed.

  Lemma zero_ratio_F : zero_ratio.
  Proof.
    intros n Hn Hb. destruct (ofZ_nonzero n (fun _ => Hb) Hn) as [Fn Nn].
    pose proof (binary_normalize_correct prec emax Hprec Hemax mode_NE 0 0 false) as C0. cbv zeta in C0.
    assert (E : F2R (Float radix2 0 0) = 0) by (unfold F2R; cbn; ring). rewrite E, round_0 in C0 by apply valid_rnd_N.
    rewrite Rabs_R0, Rlt_bool_true in C0 by apply bpow_gt_0. destruct C0 as (E0 & F0 & _).
    pose proof (Bdiv_correct prec emax Hprec Hemax mode_NE (ofZ 0) (ofZ n) Nn) as C.
    change (B2R (ofZ 0 : F) = 0) in E0. change (is_finite (ofZ 0 : F) = true) in F0.
    rewrite E0 in C. replace (0 / B2R (ofZ n : F)) with 0 in C by (unfold Rdiv; ring).
    rewrite round_0, Rabs_R0, Rlt_bool_true in C by (apply valid_rnd_N || apply bpow_gt_0).
    destruct C as (C1 & C2 & _). rewrite F0 in C2. cbn [eqb div FO Fops].
    rewrite Beqb_correct; [|exact C2|reflexivity]. rewrite C1. cbn. apply Req_bool_true. reflexivity.
  Qed.
End Format.
