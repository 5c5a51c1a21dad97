(** Double precision: the rounded operations, their bounds and errors, and sums in any order. *)
Require Import Reals ZArith List Bool Arith Lia Lra Psatz Permutation.
From Flocq Require Import Core.Core IEEE754.BinarySingleNaN Relative Plus_error.
Require Import Verif.Base Verif.Scalar Verif.Mat Verif.HostModel Verif.UtilsModel Verif.DoubleSpec.
Import ListNotations.
Open Scope R_scope.

Notation fexp := (SpecFloat.fexp 53 1024).
Notation rnd := (round radix2 fexp (round_mode mode_NE)).
Notation pow := (bpow radix2).

Notation dadd := (@Bplus 53 1024 eq_refl eq_refl mode_NE).
Notation dsub := (@Bminus 53 1024 eq_refl eq_refl mode_NE).
Notation dmul := (@Bmult 53 1024 eq_refl eq_refl mode_NE).
Notation ddiv := (@Bdiv 53 1024 eq_refl eq_refl mode_NE).
Notation dint := (fun z => binary_normalize 53 1024 eq_refl eq_refl mode_NE z 0 false).

Global Instance fexp_valid : Valid_exp fexp := @FLT_exp_valid (-1074) 53 eq_refl.

(** Representable, and not too large *)
Definition rep (r : R) : Prop := generic_format radix2 fexp r /\ Rabs r < pow 1024.

Lemma rep_scale m k : (Z.abs m <= 2 ^ 53)%Z -> (-1074 <= k <= 970)%Z -> rep (IZR m * pow k).
Proof.
  intros Hm Hk. split.
  - destruct (Z.eq_dec (Z.abs m) (2 ^ 53)) as [E|N].
    + assert (IZR m = pow 53 \/ IZR m = - pow 53) as [-> | ->].
      { destruct (Z.abs_spec m) as [[? A]|[? A]].
        - left. rewrite <- IZR_Zpower by lia. f_equal. change (radix2 ^ 53)%Z with (2 ^ 53)%Z. lia.
        - right. rewrite <- IZR_Zpower by lia. rewrite <- opp_IZR. f_equal. change (radix2 ^ 53)%Z with (2 ^ 53)%Z. lia. }
      * rewrite <- bpow_plus. apply generic_format_bpow. unfold SpecFloat.fexp, SpecFloat.emin. lia.
      * rewrite Ropp_mult_distr_l_reverse. apply generic_format_opp. rewrite <- bpow_plus. apply generic_format_bpow.
        unfold SpecFloat.fexp, SpecFloat.emin. lia.
    + apply (generic_format_FLT radix2 (-1074) 53). exists (Float radix2 m k); cbn; [reflexivity| |lia]. change (2 ^ 53)%Z with 9007199254740992%Z in *. lia.
  - rewrite Rabs_mult, <- abs_IZR, (Rabs_pos_eq (pow k)) by apply bpow_ge_0.
    apply Rle_lt_trans with (pow 53 * pow 970).
    + apply Rmult_le_compat; [apply IZR_le; lia|apply bpow_ge_0| |apply bpow_le; lia].
      rewrite <- IZR_Zpower by lia. apply IZR_le. exact Hm.
    + rewrite <- bpow_plus. apply bpow_lt. lia.
Qed.
Lemma rep_Z z : (Z.abs z <= 2 ^ 53)%Z -> rep (IZR z).
Proof. intros H. replace (IZR z) with (IZR z * pow 0) by (cbn; lra). apply rep_scale; lia. Qed.
Lemma rep_pow k : (-1074 <= k <= 970)%Z -> rep (pow k).
Proof. intros H. replace (pow k) with (IZR 1 * pow k) by lra. apply rep_scale; lia. Qed.
Lemma rep_val (x : double) : is_finite x = true -> rep (B2R x).
Proof. intros _. split; [apply generic_format_B2R|apply abs_B2R_lt_emax]. Qed.

Lemma rnd_between lo v hi : rep lo -> rep hi -> lo <= v <= hi -> lo <= rnd v <= hi /\ Rabs (rnd v) < pow 1024.
Proof.
  intros [Gl Al] [Gh Ah] H.
  assert (B : lo <= rnd v <= hi).
  { split; [apply round_ge_generic|apply round_le_generic]; try assumption; try apply fexp_valid; try apply valid_rnd_N; apply H. }
  split; [assumption|]. apply Rabs_lt. apply Rabs_lt_inv in Al. apply Rabs_lt_inv in Ah. lra.
Qed.
Lemma rnd_exact v : rep v -> rnd v = v.
Proof. intros [G _]. apply round_generic; [apply valid_rnd_N|exact G]. Qed.

(** Rounding errors *)
Lemma rnd_error v : Rabs (rnd v - v) <= pow (-53) * Rabs v + pow (-1075).
Proof.
  destruct (error_N_FLT radix2 (-1074) 53 eq_refl (fun z => negb (Z.even z)) v) as (e & t & He & Ht & _ & E).
  change (round radix2 (FLT_exp (-1074) 53) _ v) with (rnd v) in E. rewrite E.
  replace (v * (1 + e) + t - v) with (e * v + t) by ring.
  eapply Rle_trans; [apply Rabs_triang|]. rewrite Rabs_mult. apply Rplus_le_compat.
  - apply Rmult_le_compat_r; [apply Rabs_pos|]. eapply Rle_trans; [exact He|].
    replace (/ 2 * pow (- (53) + 1)) with (pow (-53)); [lra|]. cbn. lra.
  - eapply Rle_trans; [exact Ht|]. replace (/ 2 * pow (-1074)) with (pow (-1075)); [lra|].
    change (-1075)%Z with (-1 + -1074)%Z. rewrite bpow_plus. cbn [bpow]. change (Z.pow_pos radix2 1) with 2%Z. lra.
Qed.
Lemma rnd_add_error (x y : double) : Rabs (rnd (B2R x + B2R y) - (B2R x + B2R y)) <= pow (-53) * Rabs (B2R x + B2R y).
Proof.
  destruct (@FLT_plus_error_N_ex radix2 (-1074) 53 eq_refl (fun z => negb (Z.even z)) (B2R x) (B2R y)) as (e & He & E).
  - apply generic_format_B2R.
  - apply generic_format_B2R.
  - change (round radix2 (FLT_exp (-1074) 53) _ ?v) with (rnd v) in E. rewrite E.
    replace ((B2R x + B2R y) * (1 + e) - (B2R x + B2R y)) with (e * (B2R x + B2R y)) by ring.
    rewrite Rabs_mult. apply Rmult_le_compat_r; [apply Rabs_pos|]. eapply Rle_trans; [exact He|].
    apply Rle_trans with (u_ro radix2 53); [apply u_rod1pu_ro_le_u_ro|]. unfold u_ro. cbn. lra.
Qed.

(** The operations, when the exact result lies between two representable numbers *)
Section Ops.
  Variables x y : double.
  Hypotheses (Fx : is_finite x = true) (Fy : is_finite y = true).
  Variables lo hi : R.
  Hypotheses (Rlo : rep lo) (Rhi : rep hi).

  Lemma add_in : lo <= B2R x + B2R y <= hi ->
    is_finite (dadd x y) = true /\ B2R (dadd x y) = rnd (B2R x + B2R y) /\ lo <= B2R (dadd x y) <= hi.
  Proof.
    intros H. destruct (rnd_between _ _ _ Rlo Rhi H) as [B L].
    pose proof (Bplus_correct 53 1024 eq_refl eq_refl mode_NE x y Fx Fy) as C. rewrite Rlt_bool_true in C by exact L.
    destruct C as (C1 & C2 & _). rewrite C1. auto.
  Qed.
  Lemma sub_in : lo <= B2R x - B2R y <= hi ->
    is_finite (dsub x y) = true /\ B2R (dsub x y) = rnd (B2R x - B2R y) /\ lo <= B2R (dsub x y) <= hi.
  Proof.
    intros H. destruct (rnd_between _ _ _ Rlo Rhi H) as [B L].
    pose proof (Bminus_correct 53 1024 eq_refl eq_refl mode_NE x y Fx Fy) as C. rewrite Rlt_bool_true in C by exact L.
    destruct C as (C1 & C2 & _). rewrite C1. auto.
  Qed.
  Lemma mul_in : lo <= B2R x * B2R y <= hi ->
    is_finite (dmul x y) = true /\ B2R (dmul x y) = rnd (B2R x * B2R y) /\ lo <= B2R (dmul x y) <= hi.
  Proof.
    intros H. destruct (rnd_between _ _ _ Rlo Rhi H) as [B L].
    pose proof (Bmult_correct 53 1024 eq_refl eq_refl mode_NE x y) as C. rewrite Rlt_bool_true in C by exact L.
    destruct C as (C1 & C2 & _). rewrite C1, C2, Fx, Fy. auto.
  Qed.
  Lemma div_in : B2R y <> 0 -> lo <= B2R x / B2R y <= hi ->
    is_finite (ddiv x y) = true /\ B2R (ddiv x y) = rnd (B2R x / B2R y) /\ lo <= B2R (ddiv x y) <= hi.
  Proof.
    intros Ny H. destruct (rnd_between _ _ _ Rlo Rhi H) as [B L].
    pose proof (Bdiv_correct 53 1024 eq_refl eq_refl mode_NE x y Ny) as C. rewrite Rlt_bool_true in C by exact L.
    destruct C as (C1 & C2 & _). rewrite C1, C2. auto.
  Qed.
End Ops.

Lemma ofZ_in z : (Z.abs z <= 2 ^ 53)%Z ->
  let x := binary_normalize 53 1024 eq_refl eq_refl mode_NE z 0 false in is_finite x = true /\ B2R x = IZR z.
Proof.
  intros H x. subst x. pose proof (binary_normalize_correct 53 1024 eq_refl eq_refl mode_NE z 0 false) as C. cbv zeta in C.
  assert (E : F2R (Float radix2 z 0) = IZR z) by (unfold F2R; cbn; ring). rewrite E in C.
  rewrite (rnd_exact _ (rep_Z z H)) in C. rewrite Rlt_bool_true in C; [tauto|]. apply rep_Z. exact H.
Qed.

(** Sums in any order of non-negative numbers *)
Lemma summed_none l s : summed l s -> l = [] -> is_finite s = true /\ B2R s = 0.
Proof.
  induction 1 as [|x|l1 s1 l2 s2 l _ IH1 _ IH2 P]; intros E.
  - split; reflexivity.
  - discriminate.
  - subst l. apply Permutation_nil in P. apply app_eq_nil in P. destruct P as [E1 E2].
    destruct (IH1 E1) as [F1 V1], (IH2 E2) as [F2 V2].
    destruct (add_in s1 s2 F1 F2 0 0 (rep_Z 0 ltac:(lia)) (rep_Z 0 ltac:(lia))) as (F3 & _ & B); [lra|]. split; [assumption|lra].
Qed.

Definition lval (l : list double) : R := lsum (map B2R l).
Lemma lval_nonneg l : Forall (fun x => 0 <= B2R x) l -> 0 <= lval l.
Proof. unfold lval, lsum. induction 1; cbn in *; lra. Qed.
Lemma lval_le l b : Forall (fun x => B2R x <= b) l -> lval l <= INR (length l) * b.
Proof. unfold lval, lsum. induction 1; cbn [map fold_right length] in *; [cbn; lra|]. rewrite S_INR. lra. Qed.

Lemma summed_in k l s : summed l s -> (-1074 <= k <= 970)%Z -> (Z.of_nat (length l) <= 2 ^ 52)%Z ->
  Forall (fun x => is_finite x = true /\ 0 <= B2R x <= pow k) l ->
  is_finite s = true /\ 0 <= B2R s <= INR (length l) * pow k /\ (forall x, In x l -> B2R x <= B2R s) /\
  Rabs (B2R s - lval l) <= INR (length l) * pow (-52) * lval l.
Proof.
  intros H Hk. induction H as [|x|l1 s1 l2 s2 l S1 IH1 S2 IH2 P]; intros Hl A.
  - unfold lval, lsum. cbn. split; [reflexivity|]. split; [lra|]. split; [contradiction|]. rewrite Rminus_0_r, Rabs_R0. lra.
  - apply Forall_inv in A. destruct A as [Fx Bx]. unfold lval, lsum. cbn [map fold_right length INR].
    split; [assumption|]. split; [lra|]. split; [intros z [<-|[]]; lra|].
    replace (B2R x - (B2R x + 0)) with 0 by ring. rewrite Rabs_R0.
    apply Rmult_le_pos; [|lra]. apply Rmult_le_pos; [lra|apply bpow_ge_0].
  - assert (L : length l = (length l1 + length l2)%nat) by (rewrite (Permutation_length P), app_length; reflexivity).
    assert (A' := A). rewrite P in A'. apply Forall_app in A'. destruct A' as [A1 A2].
    destruct (IH1 ltac:(lia) A1) as (F1 & B1 & M1 & E1). destruct (IH2 ltac:(lia) A2) as (F2 & B2 & M2 & E2).
    assert (LV : lval l = lval l1 + lval l2).
    { unfold lval. rewrite (lsum_perm _ _ (Permutation_map B2R P)), map_app, lsum_app. reflexivity. }
    assert (Rhi : rep (INR (length l) * pow k)). { rewrite INR_IZR_INZ. apply rep_scale; [lia|exact Hk]. }
    assert (N : INR (length l) = INR (length l1) + INR (length l2)) by (rewrite L; apply plus_INR).
    destruct (add_in s1 s2 F1 F2 0 (INR (length l) * pow k) (rep_Z 0 ltac:(lia)) Rhi) as (F3 & V3 & B3).
    { rewrite N. lra. }
    split; [assumption|]. split; [assumption|]. split.
    + intros z Hz. apply (Permutation_in _ P) in Hz.
      assert (Zb : B2R z <= B2R s1 + B2R s2). { apply in_app_or in Hz. destruct Hz as [Hz|Hz]; [apply M1 in Hz|apply M2 in Hz]; lra. }
      rewrite V3. apply round_ge_generic; [apply fexp_valid|apply valid_rnd_N|apply generic_format_B2R|exact Zb].
    + rewrite V3.
      assert (G1 : 0 <= lval l1) by (apply lval_nonneg; eapply Forall_impl; [|exact A1]; cbn; tauto).
      assert (G2 : 0 <= lval l2) by (apply lval_nonneg; eapply Forall_impl; [|exact A2]; cbn; tauto).
      destruct l1 as [|a l1].
      { destruct (summed_none _ _ S1 eq_refl) as [_ Z1]. rewrite Z1, Rplus_0_l, (rnd_exact _ (rep_val s2 F2)).
        rewrite LV, L. unfold lval in *. cbn [map lsum fold_right length plus] in *. rewrite Rplus_0_l. exact E2. }
      destruct l2 as [|b l2].
      { destruct (summed_none _ _ S2 eq_refl) as [_ Z2]. rewrite Z2, Rplus_0_r, (rnd_exact _ (rep_val s1 F1)).
        rewrite LV, L, Nat.add_0_r. change (lval []) with 0. rewrite Rplus_0_r. exact E1. }
      pose proof (rnd_add_error s1 s2) as E3.
      set (n1 := INR (length (a :: l1))) in *. set (n2 := INR (length (b :: l2))) in *.
      assert (H1 : 1 <= n1) by (subst n1; cbn [length]; rewrite S_INR; pose proof (pos_INR (length l1)); lra).
      assert (H2 : 1 <= n2) by (subst n2; cbn [length]; rewrite S_INR; pose proof (pos_INR (length l2)); lra).
      assert (H3 : n1 + n2 <= pow 52).
      { rewrite <- N, INR_IZR_INZ. rewrite <- IZR_Zpower by lia. apply IZR_le. exact Hl. }
      rewrite N, LV. rewrite (Rabs_pos_eq (B2R s1 + B2R s2)) in E3 by lra.
      set (u := pow (-53)) in *. assert (U : pow (-52) = 2 * u). { subst u. change (-52)%Z with (1 + -53)%Z. rewrite bpow_plus. cbn [bpow]. change (Z.pow_pos radix2 1) with 2%Z. lra. }
      rewrite U in E1, E2 |- *. assert (U1 : pow 52 * (2 * u) = 1). { rewrite <- U, <- bpow_plus. reflexivity. }
      assert (U0 : 0 < u) by apply bpow_gt_0.
      set (v1 := lval (a :: l1)) in *. set (v2 := lval (b :: l2)) in *.
      assert (Q : (n1 + n2) * (2 * u) <= 1) by (rewrite <- U1; apply Rmult_le_compat_r; lra).
      assert (E4 : Rabs (B2R s1 + B2R s2 - (v1 + v2)) <= (n1 + n2 - 1) * (2 * u) * (v1 + v2)).
      { replace (B2R s1 + B2R s2 - (v1 + v2)) with ((B2R s1 - v1) + (B2R s2 - v2)) by ring.
        eapply Rle_trans; [apply Rabs_triang|].
        assert (n1 * (2 * u) * v1 <= (n1 + n2 - 1) * (2 * u) * v1) by (apply Rmult_le_compat_r; [lra|]; apply Rmult_le_compat_r; lra).
        assert (n2 * (2 * u) * v2 <= (n1 + n2 - 1) * (2 * u) * v2) by (apply Rmult_le_compat_r; [lra|]; apply Rmult_le_compat_r; lra).
        lra. }
      set (w := rnd (B2R s1 + B2R s2)) in *. set (t := B2R s1 + B2R s2) in *. set (v := v1 + v2) in *.
      assert (Tb : t <= v + (n1 + n2 - 1) * (2 * u) * v). { apply Rabs_le_inv in E4. lra. }
      assert (V0 : 0 <= v) by (subst v; lra).
      replace (w - v) with ((w - t) + (t - v)) by ring. eapply Rle_trans; [apply Rabs_triang|].
      assert (Q2 : (n1 + n2 - 1) * (2 * u) * v <= 1 * v) by (apply Rmult_le_compat_r; lra).
      assert (u * t <= u * (v + 1 * v)) by (apply Rmult_le_compat_l; lra).
      eapply Rle_trans; [apply Rplus_le_compat; [exact E3|exact E4]|].
      replace ((n1 + n2) * (2 * u) * v) with ((n1 + n2 - 1) * (2 * u) * v + 2 * u * v) by ring. lra.
Qed.
