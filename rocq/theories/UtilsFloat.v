(** fast_exp in floating-point arithmetic: the table lookup is in bounds. *)
Require Import Reals ZArith List Bool Lia Lra Psatz.
From Flocq Require Import Core.Core IEEE754.BinarySingleNaN.
Require Import Verif.Base Verif.Scalar Verif.Mat Verif.ExpTable Verif.UtilsModel.
Import ListNotations.
Open Scope R_scope.

Section Format.
  Variables prec emax : Z.
  Context {Hprec : Prec_gt_0 prec} {Hemax : Prec_lt_emax prec emax}.
  Hypothesis big_prec : (12 <= prec)%Z.
  Notation F := (binary_float prec emax).
  Notation fexp := (SpecFloat.fexp prec emax).
  Notation emin := (SpecFloat.emin prec emax).
  Variables (lg ex lga : F -> F) (sum : list F -> F).
  Local Instance FO : ops F := Fops prec emax lg ex lga sum.

  Lemma big_emax : (12 < emax)%Z.
  Proof. assert (H := prec_lt_emax prec emax). lia. Qed.
  Lemma low_emin : (emin <= -12)%Z.
  Proof. unfold SpecFloat.emin. pose proof big_emax. lia. Qed.

  Instance fexp_valid : Valid_exp fexp := FLT_exp_valid emin prec.

  Lemma format_int z : (Z.abs z <= 2 ^ 11)%Z -> generic_format radix2 fexp (IZR z).
  Proof.
    intros H. apply (generic_format_FLT radix2 emin prec). exists (Float radix2 z 0).
    - unfold F2R. cbn. ring.
    - cbn. apply Z.le_lt_trans with (2 ^ 11)%Z; [assumption|]. apply Z.pow_lt_mono_r; lia.
    - cbn. pose proof low_emin. lia.
  Qed.
  Lemma round_int z : (Z.abs z <= 2 ^ 11)%Z -> round radix2 fexp (round_mode mode_NE) (IZR z) = IZR z.
  Proof. intros H. apply round_generic; [apply valid_rnd_N|now apply format_int]. Qed.
  Lemma bpow_emax_large : 4096 <= bpow radix2 emax.
  Proof. change 4096 with (bpow radix2 12). apply bpow_le. pose proof big_emax. lia. Qed.

  Lemma ofZ_exact z : (Z.abs z <= 2 ^ 11)%Z ->
    B2R (ofZ z : F) = IZR z /\ is_finite (ofZ z : F) = true.
  Proof.
    intros H. cbn.
    pose proof (binary_normalize_correct prec emax Hprec Hemax mode_NE z 0 false) as C. cbv zeta in C.
    assert (E : F2R (Float radix2 z 0) = IZR z) by (unfold F2R; cbn; ring). rewrite E in C.
    rewrite round_int in C by assumption.
    rewrite Rlt_bool_true in C; [tauto|]. eapply Rlt_le_trans; [|apply bpow_emax_large].
    rewrite <- abs_IZR. apply IZR_lt. lia.
  Qed.
  Lemma one_exact : B2R (one : F) = 1 /\ is_finite (one : F) = true.
  Proof. exact (ofZ_exact 1 ltac:(lia)). Qed.

  Lemma geb_F (x y : F) : is_finite x = true -> is_finite y = true ->
    (geb x y = true <-> B2R y <= B2R x).
  Proof.
    intros Hx Hy. unfold geb. cbn [ltb eqb FO Fops].
    rewrite Bltb_correct, Beqb_correct by assumption.
    destruct (Rlt_bool_spec (B2R y) (B2R x)), (Req_bool_spec (B2R x) (B2R y)); cbn; split; intros; try lra;
      try reflexivity; discriminate.
  Qed.
  Lemma geb_F_false (x y : F) : is_finite x = true -> is_finite y = true -> geb x y = false -> B2R x < B2R y.
  Proof.
    intros Hx Hy H. destruct (Rlt_dec (B2R x) (B2R y)) as [L|L]; [assumption|].
    assert (geb x y = true) by (apply geb_F; try assumption; lra). congruence.
  Qed.

  Lemma half_step (x : F) k : is_finite x = true -> (-1 <= k <= 10)%Z -> 0 <= B2R x <= bpow radix2 (k + 1) ->
    is_finite (x / two)%S = true /\ 0 <= B2R (x / two)%S <= bpow radix2 k.
  Proof.
    intros Hx Hk Hb. destruct (ofZ_exact 2 ltac:(lia)) as [E2 F2].
    assert (N2 : B2R (ofZ 2 : F) <> 0) by (rewrite E2; lra).
    pose proof (Bdiv_correct prec emax Hprec Hemax mode_NE x (ofZ 2) N2) as C. rewrite E2 in C.
    assert (B : 0 <= B2R x / 2 <= bpow radix2 k).
    { rewrite bpow_plus in Hb. change (bpow radix2 1) with 2 in Hb. lra. }
    assert (R1 : 0 <= round radix2 fexp (round_mode mode_NE) (B2R x / 2)).
    { apply round_ge_generic; [apply fexp_valid|apply valid_rnd_N|apply generic_format_0|lra]. }
    assert (R2 : round radix2 fexp (round_mode mode_NE) (B2R x / 2) <= bpow radix2 k).
    { apply round_le_generic; [apply fexp_valid|apply valid_rnd_N| |lra].
      apply generic_format_bpow. unfold SpecFloat.fexp. pose proof low_emin. lia. }
    rewrite Rlt_bool_true in C.
    - destruct C as (C1 & C2 & _). change (x / two)%S with (Bdiv mode_NE x (ofZ 2 : F)).
      rewrite C1, C2. tauto.
    - rewrite Rabs_pos_eq by assumption. eapply Rle_lt_trans; [exact R2|].
      eapply Rlt_le_trans; [|apply bpow_emax_large]. apply Rle_lt_trans with (bpow radix2 10).
      + apply bpow_le. lia.
      + cbn. lra.
  Qed.

  Lemma halve_F fuel : forall (x : F) cnt, is_finite x = true -> (fuel <= 8)%nat ->
    0 <= B2R x <= bpow radix2 (Z.of_nat fuel - 1) ->
    exists y c, halve fuel x cnt = Ok (y, c) /\ is_finite y = true /\ 0 <= B2R y < 1.
  Proof.
    destruct one_exact as [E1 F1].
    induction fuel as [|f IH]; intros x cnt Hx Hf Hb; cbn [halve].
    - destruct (geb x one) eqn:E.
      + apply geb_F in E; [|assumption..]. rewrite E1 in E. cbn in Hb. lra.
      + apply geb_F_false in E; [|assumption..]. rewrite E1 in E. exists x, cnt. split; [reflexivity|]. split; [assumption|lra].
    - destruct (geb x one) eqn:E.
      + destruct (half_step x (Z.of_nat f - 1) Hx ltac:(lia)) as [Hy Hyb].
        { replace (Z.of_nat f - 1 + 1)%Z with (Z.of_nat (S f) - 1)%Z by lia. assumption. }
        apply IH; [exact Hy|lia|exact Hyb].
      + apply geb_F_false in E; [|assumption..]. rewrite E1 in E. exists x, cnt. split; [reflexivity|]. split; [assumption|lra].
  Qed.

  Lemma scaled_index (y : F) : is_finite y = true -> 0 <= B2R y < 1 ->
    exists i, trunc (y * ofZ 1024)%S = Some i /\ (0 <= i < 1024)%Z.
  Proof.
    intros Hy Hb. destruct (ofZ_exact 1024 ltac:(lia)) as [E F1].
    pose proof (Bmult_correct prec emax Hprec Hemax mode_NE y (ofZ 1024)) as C. rewrite E in C.
    assert (G : generic_format radix2 fexp (B2R y * 1024)).
    { pose proof (generic_format_B2R prec emax y) as G.
      apply (FLT_format_generic radix2 emin prec) in G. destruct G as [[m e] G1 G2 G3]. cbn in G2, G3.
      apply (generic_format_FLT radix2 emin prec). exists (Float radix2 m (e + 10)).
      - rewrite G1. unfold F2R. cbn [Fnum Fexp]. rewrite bpow_plus. change (bpow radix2 10) with 1024. ring.
      - exact G2.
      - cbn. lia. }
    rewrite (round_generic radix2 fexp _ _ G) in C.
    rewrite Rlt_bool_true in C.
    2:{ rewrite Rabs_pos_eq by lra. pose proof bpow_emax_large. lra. }
    destruct C as (C1 & C2 & _). rewrite Hy, F1 in C2. cbn [andb] in C2.
    change (Bmult mode_NE y (ofZ 1024 : F)) with (y * ofZ 1024)%S in *. set (p := (y * ofZ 1024)%S) in *.
    assert (T : IZR (Btrunc p) = IZR (Ztrunc (B2R p))).
    { rewrite Btrunc_correct by assumption. apply round_FIX_IZR. }
    apply eq_IZR in T. rewrite C1 in T. rewrite Ztrunc_floor in T by lra.
    assert (B : (0 <= Btrunc p < 1024)%Z).
    { rewrite T. split; [apply Zfloor_lub; cbn; lra|]. apply lt_IZR. eapply Rle_lt_trans; [apply Zfloor_lb|lra]. }
    clearbody p. clear C1 T. destruct p as [s|s| |s m e He]; try discriminate C2.
    - exists 0%Z. split; [reflexivity|lia].
    - exists (Btrunc (B754_finite s m e He)). split; [|exact B]. cbn [trunc FO Fops Ftrunc].
      replace ((- 2 ^ 31 <=? _)%Z && _)%bool with true; [reflexivity|].
      symmetry. apply andb_true_iff. split; [apply Z.leb_le|apply Z.ltb_lt]; lia.
  Qed.

  Lemma fast_exp_pos_F (x : F) : is_nan x = false -> (is_finite x = true -> 0 <= B2R x) ->
    (is_finite x = false -> x = B754_infinity false) -> exists v, fast_exp_pos x = Ok v.
  Proof.
    intros Hn Hpos Hinf. unfold fast_exp_pos. destruct (ofZ_exact 100 ltac:(lia)) as [E1 F1].
    destruct (is_finite x) eqn:Hx.
    - destruct (ltb (ofZ 100) x) eqn:L; [eauto|].
      cbn [ltb FO Fops] in L. rewrite Bltb_correct, E1 in L by assumption.
      destruct (Rlt_bool_spec 100 (B2R x)) as [Q|Q]; [discriminate L|].
      destruct (halve_F 8 x 0 Hx ltac:(lia)) as (y & c & Eh & Fy & By).
      { split; [auto|]. change (bpow radix2 (Z.of_nat 8 - 1)) with 128. lra. }
      rewrite Eh. cbn [bind]. destruct (scaled_index y Fy By) as (i & Ei & Bi). rewrite Ei.
      unfold lut. replace ((0 <=? i)%Z && (i <? 1024)%Z)%bool with true; [eauto|].
      symmetry. apply andb_true_iff. split; [apply Z.leb_le|apply Z.ltb_lt]; lia.
    - rewrite (Hinf eq_refl). cbn [ltb FO Fops].
      destruct (ofZ 100 : F) as [s|s| |s m e He]; try discriminate F1; cbn; eauto.
  Qed.

  Lemma ltb_zero_finite (x : F) : is_finite x = true -> ltb x zero = true <-> B2R x < 0.
  Proof.
    intros H. cbn [ltb zero FO Fops]. rewrite Bltb_correct by (assumption || reflexivity). cbn [B2R].
    destruct (Rlt_bool_spec (B2R x) 0); split; intros; try lra; try reflexivity; discriminate.
  Qed.

  Lemma fast_exp_F (x : F) : is_nan x = false -> exists v, fast_exp x = Ok v.
  Proof.
    intros Hn. unfold fast_exp. destruct (ltb x zero) eqn:L.
    - destruct (fast_exp_pos_F (- x)%S) as (v & E).
      + cbn. now rewrite is_nan_Bopp.
      + cbn. rewrite is_finite_Bopp, B2R_Bopp. intros Hx. apply ltb_zero_finite in L; [lra|assumption].
      + cbn. rewrite is_finite_Bopp. intros Hx. destruct x as [s|s| |s m e He]; try discriminate.
        destruct s; [reflexivity|]. cbn in L. discriminate L.
      + rewrite E. cbn. eauto.
    - apply fast_exp_pos_F; [assumption| |].
      + intros Hx. destruct (Rlt_dec (B2R x) 0) as [Q|Q]; [|lra]. apply ltb_zero_finite in Q; [congruence|assumption].
      + intros Hx. destruct x as [s|s| |s m e He]; try discriminate. destruct s; [|reflexivity]. cbn in L. discriminate L.
  Qed.

  Lemma fast_exp_nan_F : fast_exp (B754_nan : F) = UB.
  Proof.
    unfold fast_exp, fast_exp_pos. cbn [ltb zero FO Fops].
    assert (N : forall y : F, Bltb y (B754_nan : F) = false) by (intros [s|[]| |[] m e He]; reflexivity).
    change (Bltb (B754_nan : F) (B754_zero false)) with false. cbv iota. rewrite N.
    assert (G : geb (B754_nan : F) one = false). { unfold geb. cbn [ltb eqb FO Fops]. rewrite N. reflexivity. }
    cbn [halve]. rewrite G. cbn [bind]. reflexivity.
  Qed.
End Format.

(** The two scalar types the library is instantiated with. *)
Global Instance prec32 : Prec_gt_0 24 := eq_refl.
Global Instance emax32 : Prec_lt_emax 24 128 := eq_refl.
Global Instance prec64 : Prec_gt_0 53 := eq_refl.
Global Instance emax64 : Prec_lt_emax 53 1024 := eq_refl.
